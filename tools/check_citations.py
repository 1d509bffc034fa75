"""Compare the line numbers cited in the model with the source in /repo.

A citation  path/file.py:a-b [name]  of a Python function must give exactly the
lines of the function; one of a class must start where the class starts; one of
C code must contain the name.  "Lines a-b [name]" refers to the file cited last.
No range may exceed its file, and line numbers of C files that are not in /repo
are not accepted.  Ranges without a name are only checked to be in the file and
not to start or end with a blank line.
"""
import ast, glob, os, re
here = os.path.dirname(os.path.dirname(os.path.abspath(__file__)))
CITE = re.compile(r"(?:([\w./]*\w+\.(?:py|c)):|\bLines )(\d+)(?:-(\d+))?((?:\s*\[[\w.]+\](?=[\s,.:*]))?)")
TITLE = re.compile(r"clevercsv/[\w/]+\.py|src/\w+\.c")
bad = total = 0


def ranges(path, name):
    """(is a function, first, last) for the definitions called name"""
    out = []
    for x in ast.walk(ast.parse(open(path).read())):
        if isinstance(x, (ast.FunctionDef, ast.ClassDef)) and x.name == name:
            first = min([x.lineno] + [d.lineno for d in x.decorator_list])
            out.append((isinstance(x, ast.FunctionDef), first, x.end_lineno))
    return out


for v in sorted(glob.glob(here + "/rocq/theories/*.v")):
    text = open(v).read()
    for m in CITE.finditer(text):
        total += 1
        a, b = int(m.group(2)), int(m.group(3) or m.group(2))
        where = "%s:%d" % (os.path.basename(v), text.count("\n", 0, m.start()) + 1)

        def wrong(why):
            global bad
            bad += 1
            print(where, " ".join(m.group(0).split()), why)

        source = m.group(1)
        if source is None:
            before = TITLE.findall(text, 0, m.start())
            source = before[-1] if before else "?"
        p = "/repo/" + source
        if not os.path.exists(p):
            wrong("no such file in /repo"); continue
        lines = open(p).read().split("\n")
        if b > len(lines) or a > b:
            wrong("range outside the file"); continue
        if not lines[a - 1].strip() or not lines[b - 1].strip():
            wrong("starts or ends with a blank line"); continue
        name = m.group(4).strip(" \n[]").split(".")[-1]
        if not name:
            continue
        if p.endswith(".c"):
            if not re.search(r"\b%s\b" % re.escape(name), "\n".join(lines[a - 1:b])):
                wrong("does not contain the name")
            continue
        found = ranges(p, name)
        if found and not any(a == f and (b == l or not fun) for fun, f, l in found):
            wrong("should be one of %s" % [r[1:] for r in found])
        if not found and not re.search(r"\b%s\b" % re.escape(name), "\n".join(lines[a - 1:b])):
            wrong("does not contain the name")
print(total, "citations,", bad, "wrong")
