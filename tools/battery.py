#!/usr/bin/env python3
"""Runs theories/Battery.v against the wrong models of seeded/LOG.jsonl.

Usage: battery.py [MUTANTS.json | --new]     (--new: attempts without result; scratch directory /tmp/bat)

For every attempt, only the executable model and the battery are compiled;
the properties whose instances become false are added to the log line as
"violated" ("does not compile" if the changed model does not).
"""
import json, os, re, shutil, subprocess, sys

ROOT = os.path.dirname(os.path.dirname(os.path.abspath(__file__)))
FILES = "Str Num Xml XmlText Reader Schema De Ser Checked SpecCut Bytes Macro Options Conform Battery".split()
W = "/tmp/bat/work"

def setup():
    shutil.rmtree(W, ignore_errors=True); os.makedirs(W)
    for f in FILES:
        s = open("%s/rocq/theories/%s.v" % (ROOT, f)).read()
        if f == "Conform": s = re.sub(r"^Example .*?^Proof\..*?Qed\.\n", "", s, flags=re.M | re.S)
        if f == "Battery": s = s[:s.index("Example battery_holds")] + "Compute violated.\n"
        open("%s/%s.v" % (W, f), "w").write(s)

def build():
    out = ""
    for f in FILES:
        r = subprocess.run(["timeout", "300", "coqc", "-Q", W, "Verif", "%s/%s.v" % (W, f)], stdout=subprocess.PIPE, stderr=subprocess.STDOUT)
        out = r.stdout.decode(errors="replace")
        if r.returncode: return ["does not compile: " + f]
    return sorted(set(re.findall(r'"(C\d\d)"', out)))

def attempt(edits):
    setup()
    for file, old, new in edits:
        p = "%s/%s" % (W, file)
        s = open(p).read()
        if old not in s: return None
        open(p, "w").write(s.replace(old, new, 1))
    return build()

if __name__ == "__main__":
    setup(); assert build() == [], build()
    if len(sys.argv) > 1 and sys.argv[1] != "--new":
        for m in json.load(open(sys.argv[1])):
            print(m["name"], m["claim"], attempt([(e["file"], e["old"], e["new"]) for e in m["edits"]]), flush=True)
        sys.exit()
    log = [json.loads(l) for l in open(ROOT + "/seeded/LOG.jsonl")]
    for d in reversed(log):
        if "--new" in sys.argv and d.get("violated") is not None: continue
        files = [x.split(":")[0] for x in d["definition"].split(", ")]
        r = None
        for combo in ([files[0]] * len(d["edit"]), (files * len(d["edit"]))[:len(d["edit"])]):
            r = attempt([(f, e["old"], e["new"]) for f, e in zip(combo, d["edit"])])
            if r is not None: break
        if r is None: r = d.get("violated")  # the edited line has changed since
        d["violated"] = r
        print(d["name"], d["claim"], r, flush=True)
        with open(ROOT + "/seeded/LOG.jsonl", "w") as o:
            for d in log: o.write(json.dumps(d) + "\n")
