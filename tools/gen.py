#!/usr/bin/env python3
"""Regenerates rocq/_CoqProject and MANIFEST.json from the theory files, tools/notes.json and properties.jsonl.
A property with a theorem named *_refuted or *_partial is reported as partial unless notes.json says otherwise."""
import glob, json, os, re
root = os.path.dirname(os.path.dirname(os.path.abspath(__file__)))
th = os.path.join(root, "rocq", "theories")
files = sorted(os.path.basename(f) for f in glob.glob(th + "/*.v"))
open(os.path.join(root, "rocq", "_CoqProject"), "w").write(
    "-Q theories Verif\n" + "".join("theories/%s\n" % f for f in files))
thms = {}
for f in files:
    if f.endswith("_props.v"):
        for name in re.findall(r"^Theorem\s+(\w+)", open(os.path.join(th, f)).read(), re.M):
            m = re.match(r"(C\d+)_", name)
            assert m, name
            thms.setdefault(m.group(1), []).append(name)
notes = json.load(open(os.path.join(root, "tools", "notes.json")))
claims = []
missing = []
for line in open(os.path.join(root, "properties.jsonl")):
    pid = json.loads(line)["id"]
    ts = thms.pop(pid, [])
    n = notes.get(pid, {})
    if not ts:
        missing.append(pid)
        continue
    st = n.get("status") or ("partial" if any(re.search(r"_(refuted|partial)$", t) for t in ts) else "proved")
    claims.append({"property": pid, "status": st, "theorems": ts, "note": n.get("note", "")})
json.dump({"claims": claims}, open(os.path.join(root, "MANIFEST.json"), "w"), indent=1)
print("claims", len(claims), "theorems", sum(len(c["theorems"]) for c in claims), "missing", missing, "unknown", list(thms))
print("no note:", [c["property"] for c in claims if not c["note"]])
