"""Write MANIFEST.json from the theorem names in rocq/theories/Props*.v."""
import glob, json, os, re

here = os.path.dirname(os.path.dirname(os.path.abspath(__file__)))
NOTES = {
    "C08": "the property as users expect it is refuted; the escape-free part is proved",
    "C09": "refuted for cells starting and ending with an escaped quote; exact value proved for all others",
    "C10": "strict mode rejects every closed quote; agreement proved without quote and escape characters",
}
PARTIAL = {}
found = {}
for f in sorted(glob.glob(os.path.join(here, "rocq/theories/Props*.v"))):
    for m in re.finditer(r"^Theorem (C(\d\d\d?)_\w+)", open(f).read(), re.M):
        found.setdefault("C" + m.group(2), []).append(m.group(1))
claims = []
for line in open(os.path.join(here, "properties.jsonl")):
    pid = json.loads(line)["id"]
    if pid not in found:
        continue
    partial = pid in PARTIAL or any(t.endswith("_partial") for t in found[pid])
    claims.append({
        "property": pid,
        "status": "partial" if partial else "proved",
        "theorems": found[pid],
        "note": PARTIAL.get(pid, NOTES.get(pid, "")),
    })
json.dump({"claims": claims}, open(os.path.join(here, "MANIFEST.json"), "w"), indent=1)
print(len(claims), "claims,", sum(len(c["theorems"]) for c in claims), "theorems")
