"""Rewrite the axiom table of DESIGN.md from Print Assumptions (needs a finished build)."""
import json, re, glob, subprocess, os, tempfile
ROOT = os.path.dirname(os.path.dirname(os.path.abspath(__file__)))
man = json.load(open(ROOT + "/MANIFEST.json"))
loc = {}
for f in glob.glob(ROOT + "/rocq/theories/Prop*.v"):
    for x in re.findall(r"^(?:Theorem|Lemma)\s+([\w']+)", open(f).read(), re.M):
        loc[x] = os.path.basename(f)[:-2]
names = [t for c in man["claims"] for t in c["theorems"]]
d = tempfile.mkdtemp()
v = d + "/pa.v"
body = "".join(f"From Verif Require {m}.\n" for m in sorted(set(loc.values())))
body += "".join(f"Print Assumptions {loc[n]}.{n}.\n" for n in names)
open(v, "w").write(body)
r = subprocess.run(["coqc", "-Q", ROOT + "/rocq/theories", "Verif", v],
                   capture_output=True, text=True, check=True)
blocks, cur = [], None
for l in r.stdout.splitlines():
    if l.startswith("Closed under"):
        blocks.append([]); cur = None
    elif l.startswith("Axioms:"):
        cur = []; blocks.append(cur)
    elif cur is not None and l and not l.startswith(" "):
        cur.append(l.split(" :")[0].strip())
assert len(blocks) == len(names)
short = {"ClassicalDedekindReals.sig_forall_dec": "F", "ClassicalDedekindReals.sig_not_dec": "N",
         "FunctionalExtensionality.functional_extensionality_dep": "E", "Classical_Prop.classic": "C"}
groups = {}
for n, b in zip(names, blocks):
    key = "".join(sorted(short[a] for a in b)) or "none"
    groups.setdefault(key, []).append(n)
out = ["| axioms listed | theorems |", "|---|---|"]
for k in sorted(groups, key=lambda k: (k != "none", k)):
    out.append(f"| {k} | {', '.join(groups[k])} |")
p = ROOT + "/DESIGN.md"
s = open(p).read()
a, z = "<!-- axioms begin -->", "<!-- axioms end -->"
i, j = s.index(a) + len(a), s.index(z)
open(p, "w").write(s[:i] + "\n" + "\n".join(out) + "\n" + s[j:])
print({k: len(v) for k, v in groups.items()})
