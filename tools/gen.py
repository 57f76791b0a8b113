import json, sys, os
here = os.path.dirname(os.path.abspath(__file__))
P = []
for f in sorted(os.listdir(here)):
    if f.startswith("props_") and f.endswith(".py"):
        ns = {}
        exec(open(os.path.join(here, f)).read(), ns)
        P += ns["P"]
assert len({x["id"] for x in P}) == len(P)
with open(os.path.join(here, "..", "properties.jsonl"), "w") as o:
    for x in P:
        o.write(json.dumps(x, ensure_ascii=False) + "\n")
print(len(P), "properties")
