#!/usr/bin/env python3
"""Seed wrong programs into a scratch copy of the model and see which proofs break.

usage: [TIGHTENED=names] mutate.py FILE.py [N...]   (a file of seeded/muts; N selects entries;
TIGHTENED: theorems added or tightened because of an earlier run, for the log)

The file defines FILE (model file), TARGETS (property files to rebuild) and MUTS, a list of
(definition, old, new, claim), or with FILE and TARGETS of their own
(definition, old, new, claim, file, targets, tightened).  One JSON line per entry is appended to seeded/LOG.jsonl.
"""
import json, os, re, shutil, signal, subprocess, sys
SRC = "/verif/rocq"
DST = "/tmp/mut/rocq"
LOG = "/verif/seeded/LOG.jsonl"

def sh(cmd, timeout=300):
    p = subprocess.Popen("ulimit -v 9000000; " + cmd, shell=True, stdout=subprocess.PIPE, stderr=subprocess.STDOUT, text=True,
                         start_new_session=True)
    try:
        out, _ = p.communicate(timeout=timeout)
    except subprocess.TimeoutExpired:
        os.killpg(p.pid, signal.SIGKILL)
        out, _ = p.communicate()
        out += "\nTIMEOUT"
    return out

def sync():
    os.makedirs(DST, exist_ok=True)
    sh("rsync -a --delete %s/ %s/" % (SRC, DST)) if shutil.which("rsync") else \
        sh("rm -rf %s && cp -a %s %s" % (DST, SRC, DST))

def enclosing(path, line):
    name = None
    with open(path) as f:
        for i, l in enumerate(f, 1):
            if i > line:
                break
            m = re.match(r"\s*(?:Local )?(Theorem|Lemma|Example|Definition|Fixpoint|Corollary) ([A-Za-z0-9_']+)", l)
            if m:
                name = m.group(2)
    return name

def main():
    ns = {}
    exec(open(sys.argv[1]).read(), ns)
    sel = [int(a) for a in sys.argv[2:]]
    for k, entry in enumerate(ns["MUTS"]):
        d, old, new, claim = entry[:4]
        if len(entry) > 4:
            ns["FILE"], ns["TARGETS"] = entry[4], entry[5]
        tightened = entry[6] if len(entry) > 6 else os.environ.get("TIGHTENED", "").split()
        if sel and k not in sel:
            continue
        sync()
        path = "%s/theories/%s.v" % (DST, ns["FILE"])
        s = open(path).read()
        if s.count(old) != 1:
            print(k, "NOT UNIQUE", s.count(old), old); continue
        open(path, "w").write(s.replace(old, new))
        r = sh("cd %s && coq_makefile -f _CoqProject -o Makefile && make -k -j3 %s" %
               (DST, " ".join("theories/%s.vo" % t for t in ns["TARGETS"])))
        failed = []
        for m in re.finditer(r'File "\./theories/(\w+)\.v", line (\d+), [^\n]*:\n(Error|Warning)?', r):
            if m.group(3) == "Warning":
                continue
            n = "%s.%s" % (m.group(1), enclosing("%s/theories/%s.v" % (DST, m.group(1)), int(m.group(2))))
            if n not in failed:
                failed.append(n)
        if r.endswith("TIMEOUT"):
            failed.append("(no proof found in time)")
        lost = [t for t in ns["TARGETS"] if not os.path.exists("%s/theories/%s.vo" % (DST, t)) or
                os.path.getmtime("%s/theories/%s.vo" % (DST, t)) < os.path.getmtime(path)]
        print(k, d, "->", failed, "not built:", lost, flush=True)
        with open(LOG, "a") as f:
            f.write(json.dumps({"file": ns["FILE"] + ".v", "definition": d, "edit": old.strip() + "  =>  " + new.strip(),
                "breaks": claim, "failed": failed, "property_files_not_built": lost, "tightened": tightened}) + "\n")

main()
