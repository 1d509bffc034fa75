"""Try wrong versions of the model against the theorems.

usage: mutate.py FILE.json   where FILE.json is a list of objects
  {"file": "Parser.v", "definition": "...", "old": "...", "new": "...", "breaks": "..."}

Each edit is applied to a scratch copy of rocq/ outside this repository, the
copy is rebuilt with make -k, the lemmas whose proof fails are collected and one
line is appended to seeded/LOG.jsonl.  With MUTATE_FIRST=1 the build stops at the
first failure.
"""
import bisect, json, os, re, shutil, subprocess, sys

here = os.path.dirname(os.path.dirname(os.path.abspath(__file__)))
scratch = os.environ.get("MUTATE_DIR", "/tmp/mut")
src = os.path.join(here, "rocq")
base = os.path.join(scratch, "base")
work = os.path.join(scratch, "work")
keep = "" if os.environ.get("MUTATE_FIRST") else "-k"
NAME = re.compile(r"^\s*(?:Theorem|Lemma|Example|Corollary|Fact|Definition|Fixpoint|Inductive|Record)\s+([\w']+)", re.M)


def run(cmd, cwd, t=1500):
    return subprocess.run(cmd, cwd=cwd, shell=True, capture_output=True, text=True, timeout=t)


def refresh():
    os.makedirs(base, exist_ok=True)
    os.makedirs(os.path.join(base, "theories"), exist_ok=True)
    files = ["_CoqProject"] + ["theories/" + f for f in os.listdir(src + "/theories") if f.endswith(".v")]
    for f in files:
        new = open(os.path.join(src, f)).read()
        p = os.path.join(base, f)
        if not os.path.exists(p) or open(p).read() != new:
            open(p, "w").write(new)
    r = run("coq_makefile -f _CoqProject -o Makefile && make -j4", base, 3000)
    assert r.returncode == 0, r.stdout[-2000:] + r.stderr[-2000:]


def failures(out):
    names = []
    for m in re.finditer(r'File "\./theories/(\w+\.v)", line (\d+).*?\n(\w+)?', out):
        if m.group(3) == "Warning":
            continue
        f, line = m.group(1), int(m.group(2))
        text = open(os.path.join(work, "theories", f)).read()
        starts, labels = [], []
        for k in NAME.finditer(text):
            starts.append(text.count("\n", 0, k.start(1)) + 1)
            labels.append(k.group(1))
        i = bisect.bisect_right(starts, line) - 1
        n = "%s:%s" % (f, labels[i] if i >= 0 else "?")
        if n not in names:
            names.append(n)
    return names


def main():
    refresh()
    for mu in json.load(open(sys.argv[1])):
        run("rm -rf %s && cp -a %s %s" % (work, base, work), "/")
        p = os.path.join(work, "theories", mu["file"])
        s = open(p).read()
        n = s.count(mu["old"])
        if n != 1:
            print("SKIP (%d matches): %s" % (n, mu["old"])); continue
        open(p, "w").write(s.replace(mu["old"], mu["new"]))
        try:
            r = run("make " + keep + " -j4 COQC='timeout 600 coqc' 2>&1", work, 3600)
            out = r.stdout
        except subprocess.TimeoutExpired:
            out = ""; r = None
        bad = failures(out)
        killed = False
        for m in re.finditer(r"theories/(\w+)\.vo\] Error (\d+)", out):
            if m.group(2) == "124":
                bad.append("%s.v (no answer within 600 s)" % m.group(1))
            elif m.group(2) != "1":
                killed = True
        if killed or (bad and all(b == mu["file"] + ":" + mu["definition"].split()[0] for b in bad)):
            # a process was killed from outside, or the edit itself is ill-typed: no theorem was tested
            print("NOT TESTED " + mu["definition"] + ": " + mu["new"][:60].replace("\n", " "), flush=True)
            continue
        entry = {"definition": mu["file"] + ":" + mu["definition"],
                 "edit": mu["old"] + "  =>  " + mu["new"],
                 "breaks": mu["breaks"],
                 "failed": bad, "tightened": mu.get("tightened", [])}
        print(("CAUGHT " if bad else "SURVIVED ") + mu["definition"] + ": " + mu["new"][:60].replace("\n", " ")
              + " -> " + ", ".join(bad[:4]), flush=True)
        if "error" in out.lower() and not bad:
            print(out[-500:])
        open(os.path.join(here, "seeded", "LOG.jsonl"), "a").write(json.dumps(entry) + "\n")


main()
