"""Compare Json.v with the json module of the running Python on random inputs.
Writes t.v; compile it with: coqc -Q rocq/theories Verif t.v"""
import json, random
random.seed(5)


class Num(str):
    pass


def cs(s):
    return "[" + ";".join("%d%%N" % ord(c) for c in s) + "]"


def jv(v):
    if v is None:
        return "JNull"
    if v is True or v is False:
        return "(JBool %s)" % str(v).lower()
    if isinstance(v, Num):
        return "(JNum %s)" % cs(v)
    if isinstance(v, str):
        return "(JStr %s)" % cs(v)
    if isinstance(v, list):
        return "(JArr [%s])" % ";".join(map(jv, v))
    return "(JObj [%s])" % ";".join("(%s,%s)" % (cs(k), jv(x)) for k, x in v.items())


def loads(s):
    try:
        return "Ok " + jv(json.loads(s, parse_int=Num, parse_float=Num, parse_constant=Num))
    except json.JSONDecodeError:
        return "Err JSONDecodeError"


out = ["From Verif Require Import Base Parser Dialect Json."]
chars = 'ab"\\/\n\r\t\b\f\x00\x1f~\x7fé \ud800􏰀\udfff😀\U0001f600\U0010ffff,'


def word():
    return "".join(random.choice(chars) for _ in range(random.randint(0, 6)))


def value(n):
    r = random.random()
    if n == 0 or r < .5:
        return random.choice([None, True, False, word(), word(), 0, -17, 2.5, 1e30, float("inf")])
    if r < .75:
        return [value(n - 1) for _ in range(random.randint(0, 3))]
    return {word(): value(n - 1) for _ in range(random.randint(0, 3))}


tests = []
for i in range(400):
    v = value(3)
    s = json.dumps(v)
    tests.append(s)
    if random.random() < .5:
        tests.append(json.dumps(v, ensure_ascii=False, indent=random.choice([None, 1])))
    for _ in range(3):
        t = list(s)
        for _ in range(random.randint(1, 2)):
            k = random.randint(0, len(t))
            m = random.random()
            if m < .4 and k < len(t):
                del t[k]
            elif m < .7:
                t.insert(k, random.choice('{}[]",:\\u0aAdD8 \n\t-+.eE17nNtI﻿'))
            elif k < len(t):
                t[k] = random.choice('{}[]",:\\u0aAdD8 \n\t-+.eE17nNtI')
        tests.append("".join(t))
for i in range(300):
    tests.append("".join(random.choice("-+.eE0019") for _ in range(random.randint(1, 7))))
for i in range(300):
    tests.append('"' + "".join(random.choice(["\\u", "d8", "dc", "00", "\\", '"', "a", "D83d", "DE00", "\\ud83d", "\\ude00"])
                               for _ in range(random.randint(1, 6))) + random.choice(['"', '"', ""]))
tests += ["NaN", "-Infinity", "Infinity ", "nul", " null", '{"a":1,"b":2,"a":3}', "[1,]", '{"a":1,}', "[", "{", '{"a"', '{"a":', "[1", "[1,", "", "﻿1"]
for i, s in enumerate(tests):
    out.append("Example l%d : loads 4300 900 %s = %s. Proof. vm_compute. reflexivity. Qed." % (i, cs(s), loads(s)))
for i in range(300):
    v = value(3)
    def num(v):
        if isinstance(v, bool) or v is None or isinstance(v, str):
            return v
        if isinstance(v, (int, float)):
            return Num(json.dumps(v))
        if isinstance(v, list):
            return [num(x) for x in v]
        return {k: num(x) for k, x in v.items()}
    out.append("Example d%d : dumps %s = %s. Proof. vm_compute. reflexivity. Qed." % (i, jv(num(v)), cs(json.dumps(v))))
open("t.v", "w").write("\n".join(out))
