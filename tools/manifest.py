"""Regenerate MANIFEST.json from the theorem names in rocq/theories/*_Props.v and tools/notes.json."""
import json, re, glob, os
root = os.path.dirname(os.path.dirname(os.path.abspath(__file__)))
notes = json.load(open(root + "/tools/notes.json"))
props = [json.loads(l) for l in open(root + "/properties.jsonl") if l.strip()]
thms = {}
for f in sorted(glob.glob(root + "/rocq/theories/*_Props*.v")):
    for m in re.finditer(r"^\s*(?:Theorem|Corollary)\s+((C\d+)_\w+)", open(f).read(), re.M):
        thms.setdefault(m.group(2), []).append(m.group(1))
claims = []
for p in props:
    i = p["id"]
    n = notes.get(i, {})
    t = thms.get(i, [])
    st = n.get("status") or ("proved" if t and not any(x.endswith("_partial") for x in t) else "partial" if t else None)
    if st is None:
        continue
    claims.append({"property": i, "status": st, "theorems": t, "note": n.get("note", "")})
json.dump({"claims": claims}, open(root + "/MANIFEST.json", "w"), indent=1)
print(len(claims), "claims", sum(len(c["theorems"]) for c in claims), "theorems; missing:",
      [p["id"] for p in props if p["id"] not in {c["property"] for c in claims}])
