#!/usr/bin/env python3
"""props.py set ID FIELD TEXT | add JSON  -- edit properties.jsonl"""
import json, sys, os
f = os.path.join(os.path.dirname(os.path.dirname(os.path.abspath(__file__))), "properties.jsonl")
ps = [json.loads(l) for l in open(f) if l.strip()]
if sys.argv[1] == "set":
    for p in ps:
        if p["id"] == sys.argv[2]: p[sys.argv[3]] = sys.argv[4]
elif sys.argv[1] == "add":
    d = json.loads(sys.argv[2])
    assert d["id"] not in [p["id"] for p in ps]
    assert set(d) == {"id", "title", "statement", "quantifier", "why_tests_cant", "anchors"}
    ps.append(d)
open(f, "w").write("".join(json.dumps(p) + "\n" for p in ps))
