#!/usr/bin/env python3
"""Regenerate MANIFEST.json from the theorem names in rocq/theories/Properties and tools/notes.json."""
import json, os, re, glob
root = os.path.dirname(os.path.dirname(os.path.abspath(__file__)))
props = [json.loads(l)["id"] for l in open(root + "/properties.jsonl")]
notes = json.load(open(root + "/tools/notes.json"))
thms = {}
for f in sorted(glob.glob(root + "/rocq/theories/Properties/*.v")):
    for m in re.finditer(r"^Theorem\s+(C\d\d+)_(\w+)", open(f).read(), re.M):
        thms.setdefault(m[1], []).append(m[1] + "_" + m[2])
claims = []
for p in props:
    t = thms.get(p, [])
    n = notes.get(p, {})
    status = n.get("status") or ("proved" if t else "not_applicable")
    claims.append(dict(property=p, status=status, theorems=t, note=n.get("note", "")))
unknown = set(thms) - set(props)
assert not unknown, unknown
json.dump(dict(claims=claims), open(root + "/MANIFEST.json", "w"), indent=1, ensure_ascii=False)
print({s: sum(c["status"] == s for c in claims) for s in ("proved", "partial", "not_applicable")})
