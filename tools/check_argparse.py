"""Compare ArgParse.v with the argparse module of the running Python on random command lines.
Writes t.v; compile it with: coqc -Q rocq/theories Verif t.v"""
import argparse,contextlib,io,random,sys
random.seed(5)
def detect(p):
    p.add_argument("path"); p.add_argument("-c","--consistency",action="store_true"); p.add_argument("-e","--encoding")
    p.add_argument("-n","--num-chars",type=int); g=p.add_mutually_exclusive_group()
    g.add_argument("-p","--plain",action="store_true"); g.add_argument("-j","--json",action="store_true")
    p.add_argument("--no-skip",action="store_true"); p.add_argument("--add-runtime",action="store_true")
def view(p):
    p.add_argument("path"); p.add_argument("-e","--encoding"); p.add_argument("-n","--num-chars",type=int); p.add_argument("-t","--transpose",action="store_true")
def standardize(p):
    p.add_argument("path",nargs="+"); p.add_argument("-e","--encoding",action="append",default=[]); p.add_argument("-E","--target-encoding",type=str)
    p.add_argument("-i","--in-place",action="store_true"); p.add_argument("-n","--num-chars",type=int)
    p.add_argument("-o","--output",action="append",default=[]); p.add_argument("-t","--transpose",action="store_true")
def code(p):
    p.add_argument("path"); p.add_argument("-e","--encoding"); p.add_argument("-n","--num-chars",type=int); p.add_argument("-p","--pandas",action="store_true")
S={"detect_parser":detect,"view_parser":view,"standardize_parser":standardize,"code_parser":code,"explore_parser":code}
def cs(s): return "["+";".join("%d"%ord(c) for c in s)+"]"
def val(v):
    if v is None: return "ANone"
    if isinstance(v,bool): return "ABool %s"%str(v).lower()
    if isinstance(v,int): return "AInt (%d)%%Z"%v
    if isinstance(v,str): return "AStr %s"%cs(v)
    return "AList [%s]"%";".join(cs(x) for x in v)
words=["a","b","--","-","","-5","-.5","-5x","12","x y","-x y","-e","-n","-c","-p","-j","-t","-i","-o","-E","-h","--encoding","--encoding=u","--enc","--en=","-eu","-e=u","-e=","-n3","-n=4","-nx","--num","--num=7","-cp","-cj","-pj","-ce","-cex","-ce=x","-c-","-c=1","-cz","-ti","-tio","-tiox","--t","--tr","--ta=q","--tr=1","--p","--plain","--json","--no","--no-skip","--add","--out=x","--o","--in","--h","--he","-ch","-hc","-zz","--zz","--zz=1","-p5","-1.5","-tt","-tn","-tn5","--=x","---","-=","--encodingx"]
out=["From Coq Require Import String.","From Verif Require Import Base Json ArgParse.","Open Scope N_scope.",
"Definition dig c := (48 <=? c) && (c <=? 57).",
"Definition num s : option Z := match s with [] => None | c :: r => let b := if c =? 45 then r else s in match b with [] => None | _ => if forallb dig b then let v := fold_left (fun a d => (10 * a + Z.of_N (d - 48))%Z) b 0%Z in Some (if c =? 45 then (- v)%Z else v) else None end end."]
for i in range(3000):
    name=random.choice(list(S)); p=argparse.ArgumentParser(prog="x"); S[name](p)
    ws=[random.choice(words) if random.random()<.75 else random.choice("ab1")+random.choice(["","c",".csv"]) for _ in range(random.randint(0,6))]
    with contextlib.redirect_stdout(io.StringIO()),contextlib.redirect_stderr(io.StringIO()):
        try:
            ns=p.parse_args(list(ws))
            names=["path"]+[a.dest for a in p._actions if a.dest not in("help","path")]
            r="Parsed [%s]"%";".join("(%s,%s)"%(cs(k),val(getattr(ns,k))) for k in names)
        except SystemExit as e: r="Helped" if e.code==0 else "Usage"
    out.append("Example e%d : parse_args dig num %s [%s] = %s. Proof. vm_compute. reflexivity. Qed."%(i,name,";".join(cs(w) for w in ws),r))
print(sum("Parsed" in o for o in out),sum("Helped" in o for o in out))
open("t.v","w").write("\n".join(out))
