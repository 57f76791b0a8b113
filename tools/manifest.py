"""Write MANIFEST.json from the theorem names in rocq/theories/Properties and the notes below."""
import json, os, re, glob
here = os.path.dirname(os.path.abspath(__file__))
root = os.path.join(here, "..")
notes = json.load(open(os.path.join(here, "notes.json")))
thms = {}
for f in sorted(glob.glob(os.path.join(root, "rocq/theories/Properties/*.v"))):
    for m in re.finditer(r"^Theorem (C\d\d\d?)_(\w+)", open(f).read(), re.M):
        thms.setdefault(m.group(1), []).append(m.group(1) + "_" + m.group(2))
claims = []
for line in open(os.path.join(root, "properties.jsonl")):
    pid = json.loads(line)["id"]
    t = thms.get(pid, [])
    if not t:
        continue
    partial = any(x.endswith("_refuted") or x.endswith("_partial") for x in t)
    claims.append({"property": pid, "status": "partial" if partial else "proved",
                   "theorems": t, "note": notes.get(pid, "")})
    if partial and pid not in notes:
        print("missing note", pid)
for pid in thms:
    assert any(c["property"] == pid for c in claims), pid
json.dump({"claims": claims}, open(os.path.join(root, "MANIFEST.json"), "w"), indent=1)
print(len(claims), "claims,", sum(len(c["theorems"]) for c in claims), "theorems")
