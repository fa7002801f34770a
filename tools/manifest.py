"""Write MANIFEST.json; check that every theorem named exists in a Prop file."""
import json, re, glob
P, Q = "proved", "partial"
claims = []
def c(pid, status, theorems, note=""):
    claims.append({"property": pid, "status": status, "theorems": theorems.split(), "note": note})

exec(open("/verif/tools/claims.py").read())

ids = [json.loads(l)["id"] for l in open("/verif/properties.jsonl")]
names = {}
for f in sorted(glob.glob("/verif/rocq/theories/Prop*.v")):
    for m in re.finditer(r"^(?:Theorem|Lemma)\s+(\w+)", open(f).read(), re.M):
        names[m.group(1)] = f
used = [t for x in claims for t in x["theorems"]]
for t in used:
    assert t in names, t
assert len(set(used)) == len(used)
assert [x["property"] for x in claims] == sorted((x["property"] for x in claims), key=lambda c: int(c[1:]))
print("not in MANIFEST:", sorted(set(names) - set(used)))
print("no claim:", [i for i in ids if i not in {x["property"] for x in claims}])
json.dump({"claims": claims}, open("/verif/MANIFEST.json", "w"), indent=1)
