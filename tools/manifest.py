#!/usr/bin/env python3
"""Regenerate MANIFEST.json from the theorem names in rocq/theories/*Properties*.v."""
import glob, json, os, re
root = os.path.dirname(os.path.dirname(os.path.abspath(__file__)))
from manifest_notes import NOTES, PARTIAL
thms = {}
for f in sorted(glob.glob(root + "/rocq/theories/*Properties*.v")):
    for n in re.findall(r"^Theorem (C\d\d+\w*)", open(f).read(), re.M):
        thms.setdefault(re.match(r"C\d+", n).group(), []).append(n)
claims = []
for line in open(root + "/properties.jsonl"):
    pid = json.loads(line)["id"]
    if pid not in thms:
        continue
    st = "partial" if pid in PARTIAL else "proved"
    claims.append({"property": pid, "status": st, "theorems": thms[pid],
                   "note": PARTIAL.get(pid) or NOTES.get(pid, "")})
json.dump({"claims": claims}, open(root + "/MANIFEST.json", "w"), indent=1)
print(len(claims), "claims", sum(len(c["theorems"]) for c in claims), "theorems")
