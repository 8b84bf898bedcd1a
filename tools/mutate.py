"""Apply wrong edits to a scratch copy of the model and see which proofs fail.

usage: mutate.py mutants.json log.jsonl
Each mutant: {"file", "definition", "old", "new", "edit", "claim"}.
The scratch copy is /tmp/mut/work; it starts from the compiled files of /verif/rocq.
"""
import json, re, shutil, subprocess, sys, os

SRC = os.environ.get("SRC", "/verif/rocq")
WORK = "/tmp/mut/work"

def enclosing(path, line):
    name = "?"
    for n, t in enumerate(open(path), 1):
        m = re.match(r"\s*(?:Local |Global )?(Lemma|Theorem|Example|Definition|Fixpoint|Corollary|Fact)\s+([\w']+)", t)
        if m:
            name = m.group(2)
        if n >= line:
            return name
    return name

def main(spec, log):
    for mu in json.load(open(spec)):
        subprocess.run(["rsync", "-a", "--delete", SRC + "/", WORK + "/"], check=True) if shutil.which("rsync") else (
            shutil.rmtree(WORK, ignore_errors=True), subprocess.run(["cp", "-a", SRC, WORK], check=True))
        p = os.path.join(WORK, "theories", mu["file"])
        t = open(p).read()
        if t.count(mu["old"]) < 1:
            print("NOT FOUND", mu["definition"], mu["old"]); continue
        # the occurrence inside the definition
        i = t.index(mu.get("after", mu["definition"]))
        j = t.index(mu["old"], i)
        t = t[:j] + mu["new"] + t[j + len(mu["old"]):]
        open(p, "w").write(t)
        subprocess.run("coq_makefile -f _CoqProject -o Makefile >/dev/null", shell=True, cwd=WORK)
        r = subprocess.run("timeout 1500 make -k -j%s 2>&1" % os.environ.get("J", "2"), shell=True, cwd=WORK, capture_output=True, text=True)
        failed = []
        for m in re.finditer(r'File "\./(theories/[\w/]+\.v)", line (\d+)[^\n]*\n(Error)?', r.stdout):
            if m.group(3) is None:
                continue
            f = enclosing(os.path.join(WORK, m.group(1)), int(m.group(2)))
            failed.append(m.group(1)[9:] + ":" + f)
        out = {"definition": mu["file"] + ":" + mu["definition"], "edit": mu["edit"], "claim": mu["claim"],
               "failed": failed, "tightened": []}
        print(json.dumps(out), flush=True)
        open(log, "a").write(json.dumps(out) + "\n")

main(*sys.argv[1:3])
