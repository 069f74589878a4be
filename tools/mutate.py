#!/usr/bin/env python3
"""Apply one edit to a scratch copy of the model, rebuild, and report which
property theorems no longer prove.  A failing proof is replaced by Admitted in
the scratch copy, so that Print Assumptions shows what depends on it.

usage: mutate.py MUTANTS.py NAME   (writes /tmp/mut/NAME.json)"""
import sys, os, re, json, shutil, subprocess, fcntl
SRC="/verif/rocq/theories"
def sh(cmd, timeout):
    try:
        r=subprocess.run(cmd,stdout=subprocess.PIPE,stderr=subprocess.STDOUT,text=True,timeout=timeout)
        return r.returncode, r.stdout
    except subprocess.TimeoutExpired as e:
        return 124, (e.stdout or b"").decode() if isinstance(e.stdout,bytes) else (e.stdout or "")
HEAD=re.compile(r"^\s*(?:Local |Global )?(?:Lemma|Theorem|Corollary|Example|Remark|Fact)\s+(\w+)",re.M)
def admit(path,off):
    s=open(path).read()
    hs=[m for m in HEAD.finditer(s) if m.start()<=off]
    if not hs: return None
    h=hs[-1]
    p=s.find("Proof",h.end()); q=s.find("Qed.",p)
    d=s.find("Defined.",p)
    if d!=-1 and (q==-1 or d<q): q=d-(-4)
    if p==-1 or q==-1: return None
    if off>q+4 or off<p: return "STATEMENT:"+h.group(1)
    s=s[:p]+"Proof. Admitted."+s[q+4:]
    open(path,"w").write(s)
    return h.group(1)
def main():
    ns={}; exec(open(sys.argv[1]).read(),ns)
    mu=[m for m in ns["MUTANTS"] if m["name"]==sys.argv[2]][0]
    d="/tmp/mut/"+mu["name"]; th=d+"/theories"
    shutil.rmtree(d,ignore_errors=True); shutil.copytree(os.environ.get("MUT_SRC","/verif/rocq"),d)
    f=th+"/"+mu["file"]+".v"; s=open(f).read()
    assert s.count(mu["old"])==mu.get("count",1),(mu["name"],s.count(mu["old"]))
    open(f,"w").write(s.replace(mu["old"],mu["new"]))
    files=[l.strip() for l in open(d+"/_CoqProject") if l.strip().endswith(".v")]
    order=subprocess.run(["coqdep","-Q","theories","Verif","-sort"]+files,cwd=d,stdout=subprocess.PIPE,stderr=subprocess.DEVNULL,text=True).stdout.split()
    deps={x:set(re.findall(r"\b\w+\b"," ".join(re.findall(r"From Verif Require (?:Import|Export) ([^.]*)\.",open(d+"/"+x).read())))) for x in order}
    dirty={mu["file"]}; failed=[]; broken=set(); todo=[]
    for x in order:
        b=os.path.basename(x)[:-2]
        if b==mu["file"] or deps[x]&dirty: dirty.add(b); todo.append((x,b))
    only=mu.get("only")
    for x,b in todo:
        if deps[x]&broken: broken.add(b); continue
        os.path.exists(d+"/"+x+"o") and os.remove(d+"/"+x+"o")
        while True:
            rc,out=sh(["timeout",str(mu.get("limit",240)),"coqc","-time","-Q",d+"/theories","Verif",d+"/"+x],4000)
            open(d+"/"+b+".out","w").write(out)
            if rc==0: break
            src=open(d+"/"+x).read().encode()
            m=re.findall(r'line (\d+), characters (\d+)-(\d+):\n(?:Error|[^W])',out)
            if rc!=124 and m:
                ln,ch,_=m[-1]; pos=sum(len(l)+1 for l in src.split(b"\n")[:int(ln)-1])+int(ch)
            else:
                c=re.findall(r"Chars (\d+) - (\d+)",out); pos=int(c[-1][1])+1 if c else 0
            pos=len(src[:pos].decode(errors="ignore"))
            name=admit(d+"/"+x,pos)
            if name is None or name.startswith("STATEMENT"):
                broken.add(b); failed.append(b+"."+str(name)); break
            failed.append(b+"."+name)
    props=[]
    for x,b in todo:
        if not b.startswith("Props_"): continue
        if b in broken: props.append(b+" (does not build)"); continue
        if not os.path.exists(d+"/"+b+".out"): continue
        out=open(d+"/"+b+".out").read(); src=open(d+"/"+x).read()
        names=re.findall(r"Print Assumptions (\w+)\.",src)
        blocks=re.split(r"Chars \d+ - \d+ \[Print~Assumptions~[^\]]*\][^\n]*\n",out)
        for n,bl in zip(names,blocks):
            tail=re.split(r"Chars \d+ - \d+ [^\n]*\n",bl)[-1]
            lem=[t.split(".")[-1] for t in failed]
            if any(re.search(r"^(?:\w+\.)*"+re.escape(l)+r"\b",tail,re.M) for l in lem) or n in lem: props.append(n)
        props+= [n for n in (t.split(".")[-1] for t in failed if t.startswith(b+".")) if n not in props]
    rec=dict(definition=mu["file"]+"."+mu["defn"],edit=mu["edit"],claim_broken=mu["claim"],failed_theorems=props,first_failing_lemmas=failed,tightened=mu.get("tightened",[]))
    json.dump(rec,open("/tmp/mut/"+mu["name"]+".json","w"),indent=1)
    print(mu["name"],"props:",props,"lemmas:",failed)
    shutil.rmtree(d,ignore_errors=True)
main()
