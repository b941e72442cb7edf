#!/usr/bin/env python3
"""Regenerates rocq/theories/Upstream/Pr2Urdf.v from /repo/pr2_mechanism_model/pr2.urdf: the <transmission> elements as Model/Xml.v
trees and the <joint> elements as urdf joints (what urdf::Model::initXml makes of them).  Links, gazebo elements and materials,
which the modelled code never looks at, are left out."""
import xml.etree.ElementTree as ET
from decimal import Decimal
r = ET.parse('/repo/pr2_mechanism_model/pr2.urdf').getroot()
def s(x): return '"' + x.replace('"', '""') + '"'
def num(x):
    sign, digits, exp = Decimal(x).as_tuple()
    m = int(''.join(map(str, digits)))
    if exp > 0: m, exp = m * 10**exp, 0
    while exp < 0 and m % 10 == 0: m, exp = m // 10, exp + 1
    assert m < 2**53 and -exp <= 22, x
    m = -m if sign else m
    return f"(dec {'(%d)' % m if m < 0 else m} {-exp})"
def elem(e, top):
    at = [f"({s(k)}, {'(prefix ++ %s)%%string' % s(v) if top and k == 'type' else s(v)})" for k, v in e.attrib.items()]
    t = e.text if e.text and e.text.strip() else None
    return f"Elem {s(e.tag)} [{'; '.join(at)}] {'(Some %s)' % s(t.strip()) if t else 'None'} [{'; '.join(elem(c, False) for c in e)}]"
TY = {'revolute': 'JREVOLUTE', 'prismatic': 'JPRISMATIC', 'continuous': 'JCONTINUOUS', 'fixed': 'JFIXED'}
def joint(j):
    saf = j.find('safety_controller'); lim = j.find('limit'); cal = j.find('calibration')
    g = lambda e, k: num(e.get(k, '0'))
    S = 'None' if saf is None else f"(Some (mkSafety {g(saf,'k_position')} {g(saf,'k_velocity')} {g(saf,'soft_lower_limit')} {g(saf,'soft_upper_limit')}))"
    L = 'None' if lim is None else f"(Some (mkLimits {g(lim,'lower')} {g(lim,'upper')} {g(lim,'effort')} {g(lim,'velocity')}))"
    o = lambda k: 'None' if cal.get(k) is None else f"(Some {num(cal.get(k))})"
    C = 'None' if cal is None else f"(Some (mkCalib {o('rising')} {o('falling')}))"
    return f"mkUjoint {s(j.get('name'))} {TY[j.get('type')]} {S} {L} {C}"
ts = [c for c in r if c.tag == 'transmission']
js = [c for c in r if c.tag == 'joint']
out = ['(** Generated by tools/mkpr2.py from /repo/pr2_mechanism_model/pr2.urdf: its transmission and joint elements. *)',
 'From Coq Require Import ZArith String List.', 'From Verif.Model Require Import Num Joint Xml.', 'From Verif.Upstream Require Import TestBase.',
 'Import ListNotations.', 'Open Scope string_scope.', 'Open Scope list_scope.', '',
 '(** The transmissions; the file itself has no prefix before the type names. *)',
 'Definition pr2_transmissions (prefix : string) : list xml := [', ';\n'.join('  ' + elem(t, True) for t in ts) + '].', '',
 'Local Open Scope Z_scope.',
 'Definition pr2_joints : list (ujoint B64) := [', ';\n'.join('  ' + joint(j) for j in js) + '].', '']
open('/verif/rocq/theories/Upstream/Pr2Urdf.v', 'w').write('\n'.join(out))
