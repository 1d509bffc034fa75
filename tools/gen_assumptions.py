"""Recompile the Props files and rewrite the assumptions section of DESIGN.md.

Run after a build: python3 tools/gen_assumptions.py
"""
import collections, glob, os, re, subprocess, tempfile

here = os.path.dirname(os.path.dirname(os.path.abspath(__file__)))
theories = os.path.join(here, "rocq", "theories")
result = collections.OrderedDict()
for f in sorted(glob.glob(os.path.join(theories, "Props*.v"))):
    names = re.findall(r"^Print Assumptions (\w+)\.", open(f).read(), re.M)
    theorems = re.findall(r"^Theorem (\w+)", open(f).read(), re.M)
    missing = set(theorems) - set(names)
    assert not missing, (f, missing)
    with tempfile.TemporaryDirectory() as tmp:
        out = subprocess.run(
            ["coqc", "-Q", theories, "Verif", "-o", os.path.join(tmp, os.path.basename(f) + "o"), f],
            capture_output=True, text=True, check=True).stdout
    parts = re.split(r"^(Closed under the global context|Axioms:)$", out, flags=re.M)[1:]
    blocks = list(zip(parts[::2], parts[1::2]))
    assert len(blocks) == len(names), (f, len(blocks), len(names))
    for n, (head, body) in zip(names, blocks):
        result[n] = () if head.startswith("Closed") else tuple(re.findall(r"^([\w.]+)\s*:|^([\w.]+)$", body, re.M))
closed = [n for n, a in result.items() if not a]
groups = collections.OrderedDict()
for n, a in result.items():
    if a:
        groups.setdefault(tuple(sorted(x or y for x, y in a)), []).append(n)
lines = ["<!-- assumptions: begin (written by tools/gen_assumptions.py) -->",
         "%d theorems: \"Closed under the global context\"; %d with axioms of the standard library." % (len(closed), len(result) - len(closed)), ""]
for a, ns in groups.items():
    lines += ["With " + ", ".join("`%s`" % x for x in a) + ":", "", ", ".join("`%s`" % n for n in ns) + ".", ""]
lines += ["Closed:", "", ", ".join("`%s`" % n for n in closed) + ".", "<!-- assumptions: end -->"]
p = os.path.join(here, "DESIGN.md")
s = open(p).read()
s = re.sub(r"<!-- assumptions: begin.*?<!-- assumptions: end -->", lambda m: "\n".join(lines), s, flags=re.S)
open(p, "w").write(s)
print("\n".join(lines[:8]))
