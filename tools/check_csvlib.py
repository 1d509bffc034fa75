"""Compare CsvLib.v with the csv module of the running Python on random inputs.\nWrites t.v; compile it with: coqc -Q rocq/theories Verif t.v"""
import csv,io,random
random.seed(9)
Q=["QUOTE_MINIMAL","QUOTE_ALL","QUOTE_NONNUMERIC","QUOTE_NONE"]
def cs(s): return "["+";".join("%d%%N"%ord(c) for c in s)+"]"
def opt(s): return "None" if s is None else "(Some %s)"%cs(s)
out=["From Verif Require Import Base Parser Dialect CsvLib.","Definition T (d:csvdialect) rows : option (str*option pyexc) := match dialect_new d with Ok w => Some (csv_writerows w rows) | Err _ => None end."]
alpha="a1 ,;\"'\\\n\r\t|"
for i in range(600):
    ch=lambda p: random.choice([random.choice(alpha)]*9+p)
    d=dict(delimiter=ch(["","ab"]),quotechar=ch([None]*4+[""]),escapechar=random.choice([None]*5+[random.choice(alpha)]*6+["","xy"]),doublequote=random.random()<.7,quoting=random.choice([0,0,0,1,2,3,3]),skipinitialspace=random.random()<.2,lineterminator=random.choice(["\n","\r\n","\r","|","",";\n"]))
    def val():
        r=random.random()
        if r<.1: return None
        if r<.2: return random.choice([1,-2,2.5])
        return "".join(random.choice(alpha) for _ in range(random.randint(0,4)))
    rows=[[val() for _ in range(random.choice([0,1,1,2,3]))] for _ in range(random.randint(1,4))]
    f=io.StringIO(newline="")
    try:
        w=csv.writer(f,**d)
        try: w.writerows(rows); e="None"
        except csv.Error: e="(Some CsvError)"
        res="Some (%s,%s)"%(cs(f.getvalue()),e)
    except TypeError: res="None"
    v=lambda x: "VNone" if x is None else ("VStr "+cs(x) if isinstance(x,str) else "VNum "+cs(str(x)))
    out.append("Example e%d : T (mk_csvdialect %s %s %s %s %s %s %s None) [%s] = %s. Proof. vm_compute. reflexivity. Qed."%(i,opt(d['delimiter']),opt(d['quotechar']),opt(d['escapechar']),str(d['doublequote']).lower(),str(d['skipinitialspace']).lower(),opt(d['lineterminator']),Q[d['quoting']],";".join("["+";".join(v(x) for x in r)+"]" for r in rows),res))
open("t.v","w").write("\n".join(out))
