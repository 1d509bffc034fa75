"""Compare CsvReader.v with the csv module of the running Python on random inputs.
Writes t.v; compile it with: coqc -Q rocq/theories Verif t.v"""
import csv,io,random
random.seed(4)
Q=["QUOTE_MINIMAL","QUOTE_ALL","QUOTE_NONNUMERIC","QUOTE_NONE"]
def cs(s): return "["+";".join("%d%%N"%ord(c) for c in s)+"]"
def opt(s): return "None" if s is None else "(Some %s)"%cs(s)
out=["From Verif Require Import Base Parser Dialect CsvLib CsvReader.","Definition T (d:csvdialect) strict limit t : option (list (list str)*option pyexc) := match dialect_new d with Ok w => Some (csv_reader w strict limit t) | Err _ => None end."]
alpha="a1 ,;\"'\\\n\r\t\0"
for i in range(900):
    ch=lambda: random.choice([",",",",";",'"',"\\"," "])
    d=dict(delimiter=ch(),quotechar=random.choice(['"','"','"',"'",None]),escapechar=random.choice([None,None,"\\",";"]),doublequote=random.random()<.7,quoting=random.choice([0,0,0,1,3]),skipinitialspace=random.random()<.2,lineterminator="\n",strict=random.random()<.3)
    limit=random.choice([131072]*5+[2,3])
    text="".join(random.choice(alpha[:-1]*3+alpha+',,,""\\\n') for _ in range(random.randint(0,14)))
    csv.field_size_limit(limit)
    rows=[]; e="None"
    try:
        r=csv.reader(io.StringIO(text,newline=""),**d)
        try:
            for x in r: rows.append(x)
        except csv.Error: e="(Some CsvError)"
        res="Some ([%s],%s)"%(";".join("["+";".join(cs(c) for c in x)+"]" for x in rows),e)
    except TypeError: res="None"
    out.append("Example e%d : T (mk_csvdialect %s %s %s %s %s %s %s None) %s %d%%Z %s = %s. Proof. vm_compute. reflexivity. Qed."%(i,opt(d['delimiter']),opt(d['quotechar']),opt(d['escapechar']),str(d['doublequote']).lower(),str(d['skipinitialspace']).lower(),opt(d['lineterminator']),Q[d['quoting']],str(d['strict']).lower(),limit,cs(text),res))
open("t.v","w").write("\n".join(out))
