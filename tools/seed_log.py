#!/usr/bin/env python3
"""Append the results of tools/seed.py to seeded/LOG.jsonl.

One line per seeded bug: the definition edited, the edit, the claim it breaks,
the lemmas and theorems whose proofs failed, and what was tightened because of
it (seeded/tightened.json, by name of the bug)."""
import json, os, sys

ROOT = os.path.join(os.path.dirname(os.path.abspath(__file__)), "..")
RESULTS = sys.argv[1] if len(sys.argv) > 1 else "/tmp/mut/results"
sys.path.insert(0, os.path.join(ROOT, "seeded"))
from mutants import MUTANTS

tight = {}
tp = os.path.join(ROOT, "seeded", "tightened.json")
if os.path.exists(tp):
    tight = json.load(open(tp))
log = os.path.join(ROOT, "seeded", "LOG.jsonl")
lines = {}
if os.path.exists(log):
    for l in open(log):
        if l.strip():
            d = json.loads(l)
            lines[d["name"]] = d
for m in MUTANTS:
    f = os.path.join(RESULTS, m["name"] + ".json")
    if os.path.exists(f):
        r = json.load(open(f))
        if r["problems"]:
            print("problems:", m["name"], r["problems"])
            continue
        lines[m["name"]] = dict(
            name=m["name"], file="rocq/theories/%s.v" % m["file"], definition=m["definition"],
            edit=[dict(old=a, new=b) for a, b in m["edit"]], description=m["desc"], claim_broken=m["claim"],
            lemmas_failed=r["lemmas"], theorems_failed=r["theorems"], examples_failed=r["examples"])
        if r.get("first"): lines[m["name"]]["stopped_at_first_failure"] = True
for n, d in lines.items():
    d["theorems_tightened"] = tight.get(n, {}).get("theorems", [])
    if "note" in tight.get(n, {}):
        d["note"] = tight[n]["note"]
with open(log, "w") as f:
    for m in MUTANTS:
        if m["name"] in lines:
            f.write(json.dumps(lines[m["name"]]) + "\n")
print(len(lines), "of", len(MUTANTS))
print("unnoticed:", [n for n, d in lines.items() if not d["theorems_failed"]])
