#!/usr/bin/env python3
"""Write MANIFEST.json from the theorem names in rocq/theories/Properties_*.v and tools/notes.json."""
import json, re, glob, os
root = os.path.dirname(os.path.dirname(os.path.abspath(__file__)))
notes = json.load(open(root + "/tools/notes.json"))
ids = [json.loads(l)["id"] for l in open(root + "/properties.jsonl") if l.strip()]
thms = {i: [] for i in ids}
for f in sorted(glob.glob(root + "/rocq/theories/Properties_*.v")):
    for n in re.findall(r"^Theorem (\w+)", open(f).read(), re.M):
        thms[re.match(r"C\d+", n).group()].append(n)
claims = []
for i in ids:
    st, note = notes.get(i, ["partial", "not yet modelled"])
    if not thms[i]:
        st, note = "partial", "no theorem yet"
    part = any(("_partial" in t) or ("_refuted" in t) for t in thms[i])
    if part and st == "proved":
        raise SystemExit("status of %s?" % i)
    if not thms[i]:
        continue
    claims.append({"property": i, "status": st, "theorems": thms[i], "note": note})
json.dump({"claims": claims}, open(root + "/MANIFEST.json", "w"), indent=1)
print(len(claims), "claims", sum(c["status"] == "proved" for c in claims), "proved")
