#!/usr/bin/env python3
"""Tests the theorems against wrong models.

Usage: mutate.py MUTANTS.json OUT.jsonl [NAME...]

Every mutant edits one definition of the model (file, old, new) in a scratch
copy of the development.  The copy is then built; every proof that fails is
replaced by an axiom (in the copy only) until the rest builds.  A property
theorem has failed if its proof failed or if it now rests on such an axiom.
"""
import json, os, re, subprocess, sys, shutil

SRC = "/verif/rocq"
BASE = "/tmp/mut/base"
WORK = os.environ.get("WORK", "/tmp/mut/work")
HEAD = re.compile(r"^\s*(?:Local |Global |#\[[^\]]*\] )?(Lemma|Theorem|Example|Corollary|Remark|Fact|Definition|Fixpoint|Inductive|Ltac|Instance|Record|Notation|Section|Module|Variable|Hypothesis|Let)\s+([\w']+)?")
PROOFS = ("Lemma", "Theorem", "Example", "Corollary", "Remark", "Fact", "Instance")

def sh(cmd, cwd=None, timeout=3000):
    try:
        r = subprocess.run(cmd, shell=True, cwd=cwd, stdout=subprocess.PIPE, stderr=subprocess.STDOUT, timeout=timeout)
        return r.returncode, r.stdout.decode(errors="replace")
    except subprocess.TimeoutExpired as e:
        return 124, (e.stdout or b"").decode(errors="replace")

def base():
    """A built copy, and the section variables every proof uses."""
    if os.path.exists(BASE + "/using.json"):
        return json.load(open(BASE + "/using.json"))
    shutil.rmtree(BASE, ignore_errors=True)
    sh("mkdir -p /tmp/mut && cp -a %s %s" % (SRC, BASE))
    # the tests of the repository are no theorems
    p = BASE + "/theories/Conform.v"
    s = open(p).read()
    open(p, "w").write(re.sub(r"^Example .*?^Proof\..*?Qed\.\n", "", s, flags=re.M | re.S))
    sh("coq_makefile -f _CoqProject -o Makefile && make -j4", BASE)
    using = {}
    tmp = "/tmp/mut/sug"
    shutil.rmtree(tmp, ignore_errors=True)
    sh("cp -a %s %s" % (BASE, tmp))
    for f in sorted(os.listdir(tmp + "/theories")):
        if not f.endswith(".v"): continue
        p = tmp + "/theories/" + f
        s = open(p).read()
        if not re.search(r"^\s*Section ", s, re.M): continue
        open(p, "w").write("Set Suggest Proof Using.\n" + s)
        rc, out = sh("timeout 900 coqc -Q theories Verif theories/" + f, tmp)
        for m in re.finditer(r"The proof of ([\w']+)\s+should start with one of the following commands:\s+Proof using ([^.]*)\.", out):
            using[f + ":" + m.group(1)] = m.group(2).strip()
        open(p, "w").write(s)
    json.dump(using, open(BASE + "/using.json", "w"))
    return using

def enclosing(lines, n):
    """(kind, name, first line, last line) of the proof at line n."""
    i = n
    while i >= 0:
        m = HEAD.match(lines[i])
        if m and m.group(1) not in ("Let",): break
        i -= 1
    if i < 0: return None
    j = i
    while j < len(lines) and not re.search(r"\b(Qed|Defined|Admitted)\.\s*$", lines[j]): j += 1
    return m.group(1), m.group(2), i, j

def patch(f, n, using):
    p = WORK + "/theories/" + f
    lines = open(p).read().split("\n")
    e = enclosing(lines, n)
    if not e or e[0] not in PROOFS: return None
    kind, name, i, j = e
    k = i
    while k <= j and not re.match(r"^\s*Proof\b", lines[k]): k += 1
    if k > j or n < k: return None
    u = using.get(f + ":" + name)
    new = "Proof%s. Admitted." % (" using " + u if u else "")
    lines[k:j + 1] = [new] + [""] * (j - k)
    open(p, "w").write("\n".join(lines))
    return name

def assumptions(f):
    """Property theorems of a file that rest on axioms."""
    p = WORK + "/theories/" + f
    if not os.path.exists(p): return []
    names = re.findall(r"^Print Assumptions ([\w']+)\.", open(p).read(), re.M)
    if not os.path.exists(p + "o"): return names
    rc, out = sh("timeout 900 coqc -Q theories Verif theories/" + f, WORK)
    blocks = re.findall(r"(Closed under the global context|Axioms:)", out)
    return [n for n, b in zip(names, blocks) if b == "Axioms:"]

def run(mut, using):
    shutil.rmtree(WORK, ignore_errors=True); sh("cp -a %s %s" % (BASE, WORK))
    for ed in mut["edits"]:
        p = WORK + "/theories/" + ed["file"]
        s = open(p).read()
        assert s.count(ed["old"]) >= 1, "text not found: " + ed["old"]
        s = s.replace(ed["old"], ed["new"]) if ed.get("all") else s.replace(ed["old"], ed["new"], 1)
        open(p, "w").write(s)
    failed, broken, seen = [], [], set()
    for rnd in range(120):
        rc, out = sh("make -k -j%s COQC='timeout 400 coqc'" % os.environ.get("J", "3"), WORK, 6000)
        errs = re.findall(r'File "\./theories/([\w.]+)", line (\d+), characters [\d-]+:\s*\n(?:Error|\S*.*\nError)', out)
        tmo = [t for t in re.findall(r"theories/(\w+)\.vo\] Error 124", out)]
        progress = False
        for f, n in errs:
            x = patch(f, int(n) - 1, using)
            if x is None:
                if f not in seen: seen.add(f); broken.append("%s:%s" % (f, n))
            else:
                failed.append(x); progress = True
        for f in tmo:
            f += ".v"
            _, o = sh("timeout 400 coqc -time -Q theories Verif theories/" + f, WORK)
            pos = [int(q) for q in re.findall(r"^Chars (\d+) - \d+ ", o, re.M)]
            src = open(WORK + "/theories/" + f, "rb").read()
            n = src[:pos[-1]].count(b"\n") + 1 if pos else 0
            x = patch(f, n, using)
            if x is None:
                if f not in seen: seen.add(f); broken.append("%s: timeout" % f)
            else:
                failed.append(x); progress = True
        if rc == 0 or not progress: break
    props = sorted(f for f in os.listdir(WORK + "/theories") if re.match(r"Properties\w*\.v$", f))
    th = []
    for f in props: th += assumptions(f)
    ex = [x for x in failed if any(re.search(r"^Example %s\b" % re.escape(x), open(WORK + "/theories/" + f).read(), re.M) for f in props)]
    return dict(lemmas=failed, broken=broken, theorems=th, examples=ex)

if __name__ == "__main__":
    using = base()
    muts = json.load(open(sys.argv[1]))
    only = sys.argv[3:]
    done = set()
    if os.path.exists(sys.argv[2]):
        done = {json.loads(l)["name"] for l in open(sys.argv[2])}
    for m in muts:
        if m["name"] in done or (only and m["name"] not in only): continue
        try:
            r = run(m, using)
        except AssertionError as e:
            r = dict(error=str(e))
        with open(sys.argv[2], "a") as g:
            g.write(json.dumps(dict(name=m["name"], claim=m["claim"], edits=m["edits"], **r)) + "\n")
        print(m["name"], m["claim"], r.get("error") or (len(r["theorems"]), r["broken"], r["theorems"]), flush=True)
