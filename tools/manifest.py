"""Regenerates MANIFEST.json: theorem names are collected from the Props files by their
property prefix, status and notes come from the table below."""
import glob, json, os, re

here = os.path.dirname(os.path.abspath(__file__))
theories = os.path.join(here, "..", "rocq", "theories")
found = {}
for path in sorted(glob.glob(os.path.join(theories, "*Props*.v"))):
    for m in re.finditer(r"^(?:Theorem|Lemma|Corollary)\s+(C\d\d+)(_\w+)", open(path).read(), re.M):
        found.setdefault(m.group(1), []).append(m.group(1) + m.group(2))

STATUS = {}  # id -> (status, note)
exec(open(os.path.join(here, "status.py")).read())

claims = []
for pid in sorted(found, key=lambda p: int(p[1:])):
    names = found[pid]
    if pid in STATUS:
        status, note = STATUS[pid]
    else:
        bad = [n for n in names if n.endswith("_partial") or n.endswith("_refuted")]
        status, note = ("partial" if bad else "proved"), ""
        if bad:
            print("no note for", pid, bad)
    claims.append({"property": pid, "status": status, "theorems": names, "note": note})
with open(os.path.join(here, "..", "MANIFEST.json"), "w") as f:
    f.write('{"claims": [\n' + ",\n".join(json.dumps(c) for c in claims) + "\n]}\n")
print(len(claims), "claims")
