#!/usr/bin/env python3
"""Edits properties.jsonl: props.py ID field=value ... or props.py --add JSON."""
import json, sys, os
P = os.path.join(os.path.dirname(os.path.dirname(os.path.abspath(__file__))), "properties.jsonl")
def load(): return [json.loads(l) for l in open(P)]
def save(ps):
    with open(P, "w") as o:
        for p in ps: o.write(json.dumps(p, ensure_ascii=False) + "\n")
def update(edits, additions):
    ps = load(); ids = {p["id"]: p for p in ps}
    for i, e in edits.items(): ids[i].update(e)
    for a in additions:
        if a["id"] in ids: ids[a["id"]].update(a)
        else: ps.append(a)
    save(ps)
