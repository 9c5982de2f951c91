#!/usr/bin/env python3
"""Write MANIFEST.json from the table below; check that every theorem exists in a Prop file."""
import json, re, glob, os
here = os.path.dirname(os.path.dirname(os.path.abspath(__file__)))
claims = []
def claim(prop, status, theorems, note):
    claims.append({"property": prop, "status": status, "theorems": theorems.split(), "note": note})
exec(open(os.path.join(here, "tools", "claims.py")).read())
text = "".join(open(f).read() for f in glob.glob(os.path.join(here, "rocq/theories/Prop*.v")))
have = re.findall(r"^Theorem (\w+)", text, re.M)
for c in claims:
    for t in c["theorems"]:
        assert t in have, t
used = {t for c in claims for t in c["theorems"]}
missing = [t for t in have if t not in used]
assert not missing, missing
json.dump({"claims": claims}, open(os.path.join(here, "MANIFEST.json"), "w"), indent=1)
print(len(claims), "claims,", len(have), "theorems")
