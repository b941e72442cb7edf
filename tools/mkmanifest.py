#!/usr/bin/env python3
"""Generates MANIFEST.json: collects theorems named Cnn_* from rocq/theories/Props and the notes below."""
import json, re, glob, os
root = os.path.dirname(os.path.dirname(os.path.abspath(__file__)))
props = [json.loads(l) for l in open(root + '/properties.jsonl')]
th = {}
for f in sorted(glob.glob(root + '/rocq/theories/Props/*.v')):
    s = open(f).read()
    for m in re.finditer(r'^\s*(?:Theorem|Lemma|Corollary)\s+(C\d\d+_\w+)', s, re.M):
        th.setdefault(m.group(1).split('_')[0], []).append(m.group(1))
notes = json.load(open(root + '/tools/notes.json')) if os.path.exists(root + '/tools/notes.json') else {}
# default note: where the theorems are, and the row of DESIGN.md
where = {}
for f in sorted(glob.glob(root + '/rocq/theories/Props/*.v')):
    for m in re.finditer(r'^\s*(?:Theorem|Lemma|Corollary)\s+(C\d\d+)_\w+', open(f).read(), re.M):
        where.setdefault(m.group(1), [])
        if os.path.basename(f) not in where[m.group(1)]: where[m.group(1)].append(os.path.basename(f))
rows = {}
for l in open(root + '/DESIGN.md'):
    m = re.match(r'\| (C[\dC, –-]+) \| (.*) \|\s*$', l)
    if not m: continue
    cols = [c.strip() for c in m.group(2).split(' | ')]
    for part in m.group(1).split(','):
        ns = [int(x) for x in re.findall(r'C(\d+)', part)]
        if not ns: continue
        for n in range(ns[0], ns[-1] + 1):
            rows.setdefault('C%02d' % n, []).append('modelled: ' + cols[0] + ('; proved by: ' + cols[1] if len(cols) > 1 else ''))
def default(i):
    return 'Props/' + ', '.join(where.get(i, [])) + '. ' + ' / '.join(rows.get(i, []))
claims = []
for p in props:
    i = p['id']; n = notes.get(i, {}); t = th.get(i, [])
    if n.get('status'): st = n['status']
    elif not t: st = 'partial'
    elif any(x.endswith('_partial') for x in t): st = 'partial'
    else: st = 'proved'
    claims.append({'property': i, 'status': st, 'theorems': t, 'note': n.get('note', default(i) if t else 'not proved yet')})
json.dump({'claims': claims}, open(root + '/MANIFEST.json', 'w'), indent=1)
print({s: sum(c['status'] == s for c in claims) for s in ('proved', 'partial', 'not_applicable')})
