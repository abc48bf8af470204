#!/usr/bin/env python3
"""Turns the results of mutate.py into seeded/LOG.jsonl.

Usage: gen_log.py SRC OUT.jsonl...     (SRC: the copy the mutants were made from)
"""
import json, re, sys

HEAD = re.compile(r"^\s*(?:Definition|Fixpoint|Inductive|Record|with)\s+([\w']+)", re.M)
SRC = sys.argv[1]
try:
    notes = json.load(open("/verif/seeded/notes.json"))
except FileNotFoundError:
    notes = {}

def definition(e):
    s = open("%s/theories/%s" % (SRC, e["file"])).read()
    at = s.find(e["old"])
    name = "?"
    for m in HEAD.finditer(s):
        if m.start() > at + len(e["old"]) or (m.start() > at and name != "?"): break
        name = m.group(1)
    return "%s:%s" % (e["file"], name)

old = {}
try:
    for l in open("/verif/seeded/LOG.jsonl"):
        d = json.loads(l); old[d["name"]] = d
except FileNotFoundError:
    pass
for f in sys.argv[2:]:
    for l in open(f):
        d = json.loads(l)
        n = notes.get(d["name"], {})
        old[d["name"]] = {
            "name": d["name"],
            "definition": ", ".join(dict.fromkeys(definition(e) for e in d["edits"])),
            "edit": [{"old": e["old"], "new": e["new"]} for e in d["edits"]],
            "claim": d["claim"],
            "failed": sorted(d["theorems"]),
            "not_compiling": d["broken"],
            "tightened": n.get("tightened", []),
            "note": n.get("note", "")}
        if "scope" in d:   # only these files, and what they need, were built
            old[d["name"]]["built"] = d["scope"]
with open("/verif/seeded/LOG.jsonl", "w") as o:
    for d in old.values():
        o.write(json.dumps(d) + "\n")
bad = [d["name"] for d in old.values()
       if not any(t.startswith(d["claim"]) for t in d["failed"])]
print(len(old), "attempts; not caught by a theorem of their claim:", bad)
