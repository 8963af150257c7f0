#!/usr/bin/env python3
"""Write MANIFEST.json: the theorems named Cnn_... in rocq/theories/Props*.v, with a note per claim."""
import glob, json, os, re
root = os.path.join(os.path.dirname(os.path.abspath(__file__)), "..")
props = [json.loads(l) for l in open(os.path.join(root, "properties.jsonl"))]
thms = {}
for f in sorted(glob.glob(os.path.join(root, "rocq/theories/Props*.v"))):
    for m in re.finditer(r"^Theorem (C\d\d)_(\w+)", open(f).read(), re.M):
        thms.setdefault(m.group(1), []).append((m.group(1) + "_" + m.group(2), os.path.basename(f)))
notes = json.load(open(os.path.join(root, "tools", "notes.json")))
claims = []
for p in props:
    i = p["id"]
    n = notes.get(i, {})
    files = sorted({f for _, f in thms.get(i, [])})
    note = n.get("note", "Stated and proved at full strength.")
    if files:
        note += " (" + ", ".join("rocq/theories/" + f for f in files) + ")"
    claims.append({"property": i, "status": n.get("status", "proved") if i in thms else "partial",
                   "theorems": [t for t, _ in thms.get(i, [])], "note": note})
known = {p["id"] for p in props}
assert set(thms) <= known, set(thms) - known
with open(os.path.join(root, "MANIFEST.json"), "w") as f:
    json.dump({"claims": claims}, f, indent=1)
    f.write("\n")
print(len(claims), sum(len(c["theorems"]) for c in claims), [c["property"] for c in claims if c["status"] != "proved"])
