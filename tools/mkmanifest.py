#!/usr/bin/env python3
# Regenerates /verif/MANIFEST.json from the theorem names in rocq/theories/P_*.v.
import glob, json, os, re
root = os.path.join(os.path.dirname(os.path.abspath(__file__)), "..")
ids = [json.loads(l)["id"] for l in open(os.path.join(root, "properties.jsonl"))]
notes = json.load(open(os.path.join(root, "tools", "notes.json")))
thms = {i: [] for i in ids}
for f in sorted(glob.glob(os.path.join(root, "rocq/theories/P_*.v"))):
    for m in re.finditer(r"^Theorem ((C\d+)_\w+)", open(f).read(), re.M):
        thms[m.group(2)].append(m.group(1))
claims = []
for i in ids:
    t = thms[i]
    if not t:
        if i in notes:
            claims.append(dict(property=i, status="not_applicable", theorems=[], note=notes[i]))
        continue
    weak = any(x.endswith("_partial") or x.endswith("_refuted") for x in t)
    claims.append(dict(property=i, status="partial" if weak else "proved", theorems=t, note=notes.get(i, "")))
json.dump({"claims": claims}, open(os.path.join(root, "MANIFEST.json"), "w"), indent=1)
print(len(claims), "claims,", sum(len(c["theorems"]) for c in claims), "theorems; missing:",
      [i for i in ids if i not in [c["property"] for c in claims]])
