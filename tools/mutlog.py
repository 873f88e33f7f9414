#!/usr/bin/env python3
"""Convert the output of mutate.py into lines of seeded/LOG.jsonl."""
import json, sys
out = open('/verif/seeded/LOG.jsonl', 'a')
for f in sys.argv[1:]:
    for line in open(f):
        m = json.loads(line)
        rec = {"definition": m["file"] + ":" + m["definition"],
               "edit": {"old": m["old"], "new": m["new"]},
               "claim": m["claim"],
               "theorems_failed": m.get("theorems", []),
               "first_failures": m.get("failed", []) + m.get("broken", []) + m.get("first", []),
               "tightened": m.get("tightened", [])}
        if m.get("broken"):
            rec["note"] = "statements no longer type-check: " + m.get("msg", "")[:200]
        if m.get("note"): rec["note"] = m["note"]
        out.write(json.dumps(rec) + "\n")
