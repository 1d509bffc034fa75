"""Compare the expressions of Types.v with the patterns written in _regexes.py.

The pattern texts are read from the source (which is not run), the Unicode
classes are narrowed to ASCII, and the re module of the running Python matches
them against random strings.  Writes a Coq file; compile it with:
coqc -Q rocq/theories Verif FILE
Usage: check_types.py PATH_OF_REGEXES FILE
"""
import ast, random, re, sys

random.seed(11)
tree = ast.parse(open(sys.argv[1], encoding="utf-8").read())
env = {}


def value(e):
    if isinstance(e, ast.Constant):
        return e.value
    if isinstance(e, ast.Name):
        return env[e.id]
    if isinstance(e, ast.List):
        return [value(x) for x in e.elts]
    if isinstance(e, ast.BinOp):
        return value(e.left) + value(e.right)
    if isinstance(e, ast.Call):
        f = e.func.id if isinstance(e.func, ast.Name) else e.func.attr
        return {"chr": chr, "escape": re.escape, "compile": lambda s: s, "join": "".join}[f](*map(value, e.args))
    raise ValueError(ast.dump(e))


for st in tree.body:
    if isinstance(st, ast.AnnAssign) and not isinstance(st.value, ast.Dict):
        env[st.target.id] = value(st.value)


def ascii_classes(p):
    p = re.sub(r"\[([^\]]*?)\\p\{L\}\\p\{N\}", r"[\1a-zA-Z0-9", p)
    p = re.sub(r"\[([^\]]*?)\\p\{N\}\\p\{L\}", r"[\1a-zA-Z0-9", p)
    return re.compile(p.replace(r"\p{L}", "[a-zA-Z]").replace(r"\p{N}", "[0-9]").replace(r"\p{Sc}", r"\$"), re.A)


names = {
    "NUMBER_1": "number_1", "NUMBER_2": "number_2", "NUMBER_3": "number_3", "URL": "url", "EMAIL": "email", "IPV4": "ipv4",
    "TIME_HHMMSSZZ": "time_hhmmsszz", "TIME_HHMMSS": "time_hhmmss", "TIME_HHMM_1": "time_hhmm", "TIME_HHMM_2": "time_HHMM",
    "TIME_HH": "time_HH", "TIME_HMM": "time_hmm", "DATE": "date", "ALPHANUM": "alphanum", "ALPHANUM_QUOTED": "alphanum_quoted",
    "CURRENCY": "currency", "UNIX_PATH": "unix_path"}
assert {"PATTERN_" + n for n in names} == {n for n in env if n.startswith("PATTERN_")}
pats = {n: ascii_classes(env["PATTERN_" + n]) for n in names}
seeds = {
    "NUMBER_1": ["1", "-12.5", "1.5e+3", "1,55e3", ",5", "+", "0.5", "12e-10", "5.", "1,5E3", "007", ".e1"],
    "NUMBER_2": ["1,234.5", "-12,345,678.", "123,456.78"], "NUMBER_3": ["1.234,5", "+12.345.678,", "123.456,78"],
    "URL": ["http://a.nl/b_c", "data.csv", "localhost:80/x", "https://-a.nl", "a-b.local.nl", "ftp://1.2.3.4:80/a(b).c", "a.b.co/x.y"],
    "EMAIL": ["a@b.c", "a.b+c@d-e.f.g"], "IPV4": ["1.2.3.4", "999.10.1.255"],
    "TIME_HHMMSSZZ": ["12:30:59+01:00", "23:00:00-19:59"], "TIME_HHMMSS": ["12:30:59", "23:59:00"],
    "TIME_HHMM_1": ["12:30", "09:59"], "TIME_HHMM_2": ["1230", "2359"], "TIME_HH": ["1230", "12"], "TIME_HMM": ["9:30", "23:59"],
    "DATE": ["2020-01-31", "31/12/99", "12.31.1999", "20200131", "1-1-99", "310299", "99年1月31日", "2020년12월1일", "9 31 2000", "31 9 2000"],
    "ALPHANUM": ["a b-c", "1a.b", "x?(y)!", "5", "؟x", "-"], "ALPHANUM_QUOTED": ["a, b", "1a,b", "،x"],
    "CURRENCY": ["$5", "$ 1.5", "$", "$\tx\n"], "UNIX_PATH": ["/a/b", "~/x.y/", "./_a-b", "/"]}
plain = {"email", "unix_path"} | {m for m in names.values() if m.startswith("time_")}
everything = "0123456789+-.,eE:/ @aZz~?=&%#()_$TZ年\n;"


def cs(s):
    return "[" + ";".join("%d%%N" % ord(c) for c in s) + "]"


out = ["From Verif Require Import Base Regex Types MaskedFacts TypesCases.",
       "Definition check (r : re) (l : list (str * bool)) := filter (fun x => negb (Bool.eqb (fullmatches r (fst x)) (snd x))) l."]
total = 0
for n, model in names.items():
    tests = set()
    for s in seeds[n]:
        tests.add(s)
        local = s + "".join(random.sample(everything, 4))
        for _ in range(60):
            t = list(s)
            for _ in range(random.randint(1, 3)):
                k = random.randint(0, len(t))
                r = random.random()
                c = random.choice(local if random.random() < .7 else everything)
                if r < .4:
                    t.insert(k, c)
                elif r < .7 and k < len(t):
                    del t[k]
                elif k < len(t):
                    t[k] = c
            tests.add("".join(t))
    for _ in range(100):
        tests.add("".join(random.choice(everything) for _ in range(random.randint(0, 5))))
    tests = sorted(t for t in tests if not t.endswith("\n"))
    yes = sum(1 for t in tests if pats[n].fullmatch(t))
    total += len(tests)
    print(n, len(tests), "strings,", yes, "match")
    out.append("Goal check %s [%s] = []. vm_compute. reflexivity. Qed." % (
        "re_" + model if model in plain else "(re_%s ascii_data)" % model, ";".join("(%s,%s)" % (cs(t), "true" if pats[n].fullmatch(t) else "false") for t in tests)))
# URL substitution
subs = []
for _ in range(300):
    s = "".join(random.choice(seeds["URL"] + list(",;:/. a|")) for _ in range(random.randint(1, 6)))
    subs.append("(%s,%s)" % (cs(s), cs(pats["URL"].sub("U", s))))
out[0] = out[0].replace("Types ", "Types Potential ")
out.append("Goal filter (fun x => negb (str_eqb (filter_urls (shipped_url ascii_data) (fst x)) (snd x))) [%s] = []. vm_compute. reflexivity. Qed." % ";".join(subs))
out.insert(1, "From Verif Require Import TypesUrl.")
open(sys.argv[2], "w").write("\n".join(out) + "\n")
print(total, "strings and", len(subs), "substitutions")
