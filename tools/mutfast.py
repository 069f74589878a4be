#!/usr/bin/env python3
"""Apply one edit to a scratch copy of the model and rebuild until the first
proof fails on which a property theorem depends (dependencies from the .glob
files of the unedited build).

usage: mutfast.py MUTANTS.py NAME   (writes /tmp/mut/NAME.json)"""
import sys, os, re, json, shutil, subprocess
sys.path.insert(0,os.path.dirname(os.path.abspath(__file__)))
import depgraph
HEAD=re.compile(r"^\s*(?:Local |Global )?(?:Lemma|Theorem|Corollary|Example|Remark|Fact)\s+(\w+)",re.M)
def locate(src,off):
    hs=[m for m in HEAD.finditer(src) if m.start()<=off]
    if not hs: return None
    h=hs[-1]; p=src.find("Proof",h.end()); q=src.find("Qed.",p); d=src.find("Defined.",p)
    if d!=-1 and (q==-1 or d<q): q=d+4
    return h.group(1),p,q
def main():
    ns={}; exec(open(sys.argv[1]).read(),ns)
    mu=[m for m in ns["MUTANTS"] if m["name"]==sys.argv[2]][0]
    snap=os.environ.get("MUT_SRC","/tmp/mut/snap2/rocq")
    d="/tmp/mut/f_"+mu["name"]; th=d+"/theories"
    shutil.rmtree(d,ignore_errors=True); subprocess.run(["cp","-al",snap,d],check=True)
    def write(f,s):
        os.remove(f); open(f,"w").write(s)
    f=th+"/"+mu["file"]+".v"; s=open(f).read()
    if s.count(mu["old"])!=mu.get("count",1):
        print(mu["name"],"BAD EDIT: occurs",s.count(mu["old"])); shutil.rmtree(d); return
    write(f,s.replace(mu["old"],mu["new"]))
    uses,users=depgraph.build(snap+"/theories")
    files=[l.strip() for l in open(d+"/_CoqProject") if l.strip().endswith(".v")]
    order=subprocess.run(["coqdep","-Q","theories","Verif","-sort"]+files,cwd=d,stdout=subprocess.PIPE,stderr=subprocess.DEVNULL,text=True).stdout.split()
    deps={x:set(re.findall(r"\b\w+\b"," ".join(re.findall(r"From Verif Require (?:Import |Export )?([^.]*)\.",open(d+"/"+x).read())))) for x in order}
    dirty={mu["file"]}; todo=[]
    for x in order:
        b=os.path.basename(x)[:-2]
        if b==mu["file"] or deps[x]&dirty: dirty.add(b); todo.append((x,b))
    # files with the property theorems that use the edited definition first
    failed=[]; props=[]; status="survived"
    for x,b in todo:
        for ext in ("o","os","ok"):
            p=d+"/"+x+ext
            if os.path.exists(p): os.remove(p)
        stop=False
        while True:
            g=d+"/"+x[:-2]+".glob"
            if os.path.exists(g): os.remove(g)
            try:
                r=subprocess.run(["timeout",str(mu.get("limit",400)),"coqc","-time","-Q",th,"Verif",d+"/"+x],stdout=subprocess.PIPE,stderr=subprocess.STDOUT,text=True)
                rc,out=r.returncode,r.stdout
            except Exception as e: rc,out=1,str(e)
            if rc==0: break
            src=open(d+"/"+x).read(); bs=src.encode()
            m=re.findall(r'line (\d+), characters (\d+)-(\d+):\n(?:Error|[^W])',out)
            if rc!=124 and m:
                pos=sum(len(l)+1 for l in bs.split(b"\n")[:int(m[-1][0])-1])+int(m[-1][1])
            else:
                c=re.findall(r"Chars (\d+) - (\d+)",out); pos=int(c[-1][1])+1 if c else 0
            pos=len(bs[:pos].decode(errors="ignore"))
            if b==mu["file"]:
                status="INVALID "+out[-400:]; stop=True; break
            loc=locate(src,pos)
            if loc is None or pos<loc[1] or pos>loc[2]+4:
                status="INVALID? "+b+" "+out[-300:]; stop=True; break
            full=b+"."+loc[0]; failed.append(full)
            pr=sorted(y.split(".")[1] for y in depgraph.up(users,full) if y.startswith("Props_"))
            pr=[p for p in pr if not re.search("witness|_case|hypoth",p)]
            props+= [p for p in pr if p not in props]
            want=mu.get("want","")
            if any(p.startswith(want+"_") for p in props) or (want=="" and props): status="killed"; stop=True; break
            write(d+"/"+x,src[:loc[1]]+"Proof. Admitted."+src[loc[2]+4:])
        if stop: break
    if status=="survived" and props: status="OTHER"
    rec=dict(definition=mu["file"]+"."+mu["defn"],edit=mu["edit"],claim_broken=mu["claim"],failed_theorems=props,first_failing_lemmas=failed,tightened=mu.get("tightened",[]))
    json.dump(rec,open("/tmp/mut/"+mu["name"]+".json","w"),indent=1)
    print(mu["name"],status,props[:6],failed[:4],flush=True)
    shutil.rmtree(d,ignore_errors=True)
main()
