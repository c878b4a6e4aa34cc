"""Writes MANIFEST.json from the table below; checks that the theorems exist."""
import json, os, re
here = os.path.dirname(os.path.abspath(__file__))
th = os.path.join(here, "..", "rocq", "theories")
names = set()
for f in os.listdir(th):
    if f.startswith("Prop") and f.endswith(".v"):
        names |= set(re.findall(r"^Theorem (\w+)", open(os.path.join(th, f)).read(), re.M))
rows = []
used = set()
for line in open(os.path.join(here, "claims.txt")):
    line = line.rstrip("\n")
    if not line or line.startswith("#"):
        continue
    prop, status, note = line.split("|")
    prop, status = prop.strip(), status.strip()
    thms = sorted(n for n in names if n.startswith(prop + "_"))
    assert thms or status == "not_applicable", prop
    used |= set(thms)
    rows.append({"property": prop, "status": status, "theorems": thms, "note": note.strip()})
assert names == used, names - used
json.dump({"claims": rows}, open(os.path.join(here, "..", "MANIFEST.json"), "w"), indent=1)
print(len(rows), "claims", len(names), "theorems")
