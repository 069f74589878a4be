import glob,re,os,collections,sys
def build(th):
    uses=collections.defaultdict(set)
    for g in glob.glob(th+"/*.glob"):
        lib=None; defs=[]; refs=[]
        for l in open(g):
            if l.startswith("F"): lib=l[1:].strip(); continue
            m=re.match(r"R(\d+):(\d+) (\S+) (\S+) (\S+) (\S+)",l)
            if m:
                if m.group(3).startswith("Verif."): refs.append((int(m.group(1)),m.group(3)[6:]+"."+m.group(5)))
                continue
            m=re.match(r"(prf|def|thm|ind|rec|inst|constr|proj|scheme) (\d+):(\d+) (\S+) (\S+)",l)
            if m and m.group(1) in("prf","def","ind","rec","inst"): defs.append((int(m.group(2)),m.group(5)))
        if lib is None: continue
        lib=lib[6:] if lib.startswith("Verif.") else lib
        defs.sort()
        import bisect
        starts=[d[0] for d in defs]
        for p,r in refs:
            i=bisect.bisect_right(starts,p)-1
            if i>=0 and lib+"."+defs[i][1]!=r: uses[lib+"."+defs[i][1]].add(r)
    users=collections.defaultdict(set)
    for a,s in uses.items():
        for b in s: users[b].add(a)
    return uses,users
def up(users,x):
    seen={x}; st=[x]
    while st:
        for y in users.get(st.pop(),()):
            if y not in seen: seen.add(y); st.append(y)
    return seen
if __name__=="__main__":
    uses,users=build(sys.argv[2] if len(sys.argv)>2 else "/verif/rocq/theories")
    print(sorted(y.split(".")[1] for y in up(users,sys.argv[1]) if y.startswith("Props_")))
