"""Compare the model of repr and the reader of string literals (Codegen.v,
SpecCodegen.v) with the running Python.

usage: check_codegen.py OUT.v   writes a Coq file; compile it next to the theories.
"""
import ast, io, random, sys, tokenize, warnings

warnings.simplefilter("ignore")
random.seed(7)


def l(s):
    return "[" + ";".join(str(ord(c)) for c in s) + "]%N"


out = ["From Verif Require Import Base Parser Dialect Codegen SpecCodegen.", "Open Scope N_scope."]
chars = [chr(c) for c in list(range(0, 300)) + [0x378, 0x2028, 0xFEFF, 0xD800, 0xE000, 0x1F600, 0xE0001, 0x10FFFF, 0xFFFF, 0x10000]]
texts = chars + ["".join(random.choices(chars + list("'\"\\\t"), k=random.randint(2, 6))) for _ in range(300)]
for t in texts:
    p = sorted({ord(c) for c in t if c.isprintable()})
    out.append(f"Goal repr (fun c => existsb (N.eqb c) {'[' + ';'.join(map(str, p)) + ']'}) {l(t)} = {l(repr(t))}. reflexivity. Qed.")
alpha = list("ab\\\\\\\\'\"nxuU0001127abfnrtv89gF\r\n q") + ["\0", "é"]
n = 0
for _ in range(3000):
    body = "".join(random.choices(alpha, k=random.randint(0, 9)))
    if random.random() < 0.3:
        body += random.choice(["\\x4", "\\u00e", "\\U0001f60", "\\U0011000", "\\12"]) + random.choice("0123456789abcdefg") + "z"
    q = random.choice("'\"")
    src = q + body + q
    try:
        v = ast.literal_eval(src)
        if not isinstance(v, str):
            continue
        if len([t for t in tokenize.generate_tokens(io.StringIO(src).readline) if t.type == tokenize.STRING]) != 1:
            continue
        exp = f"= Some ({l(v)}, [])"
        out.append(f"Goal string_literal {l(src)} {exp}. reflexivity. Qed.")
    except (SyntaxError, ValueError):
        out.append(f"Goal (match string_literal {l(src)} with Some (_, []) => false | _ => true end) = true. reflexivity. Qed.")
    n += 1
open(sys.argv[1], "w").write("\n".join(out) + "\n")
print(len(out), "lines")
