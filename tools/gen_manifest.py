"""Regenerate MANIFEST.json.

Theorem names start with the id of the property they prove.  A property is
"partial" if any of its theorems has the suffix _partial (or it is listed in
PARTIAL below), otherwise "proved".  NOTES holds the per-property remarks."""
import json, re, glob, os
root = os.path.join(os.path.dirname(__file__), "..")
NOTES = json.load(open(os.path.join(root, "tools", "notes.json")))
props = [json.loads(l) for l in open(os.path.join(root, "properties.jsonl"))]
thms = {}
listed = open(os.path.join(root, "rocq", "_CoqProject")).read()
for f in sorted(glob.glob(os.path.join(root, "rocq", "theories", "P_*.v"))):
    if os.path.basename(f) not in listed:
        continue
    for m in re.finditer(r"^ *(?:Theorem|Corollary)\s+((C\d\d+)_\w+)", open(f).read(), re.M):
        thms.setdefault(m.group(2), []).append(m.group(1))
claims = []
for p in props:
    i = p["id"]
    t = thms.get(i, [])
    n = NOTES.get(i, {})
    if not t:
        if n.get("status"):
            claims.append({"property": i, "status": n["status"], "theorems": [], "note": n.get("note", "")})
        continue
    st = n.get("status") or ("partial" if any(x.endswith("_partial") for x in t) else "proved")
    claims.append({"property": i, "status": st, "theorems": t, "note": n.get("note", "")})
json.dump({"claims": claims}, open(os.path.join(root, "MANIFEST.json"), "w"), indent=1)
print(len(claims), "claims;", sum(len(c["theorems"]) for c in claims), "theorems;",
      [p["id"] for p in props if p["id"] not in {c["property"] for c in claims}])
