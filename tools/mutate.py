#!/usr/bin/env python3
"""Seed a realistic bug into a scratch copy of the model, rebuild, and report which theorems stop being proved.
A proof that no longer compiles is replaced by Admitted so that the build can go on; a theorem counts as failed
when its own proof broke or it now rests on a broken lemma.  Usage: mutate.py MUTANTS.py OUT.jsonl [ids...]"""
import json, os, re, subprocess, sys, shutil, time, glob
SRC=os.environ.get("MUT_SRC","/verif/rocq"); W="/tmp/mut/rocq"
def sh(c,t=None):
    try: p=subprocess.run(c,shell=True,stdout=subprocess.PIPE,stderr=subprocess.STDOUT,timeout=t,text=True,errors="replace"); return p.returncode,p.stdout
    except subprocess.TimeoutExpired as e: return 124,(e.stdout or b"").decode(errors="replace") if isinstance(e.stdout,bytes) else (e.stdout or "")
START=re.compile(r'^\s*(?:Local |Global |#\[[^]]*\] *)?(Lemma|Theorem|Example|Corollary|Fact|Remark)\s+([A-Za-z0-9_\']+)',re.M)
def patch(path,line):
    s=open(path).read(); off=sum(len(x)+1 for x in s.split("\n")[:line-1])
    eol=s.find("\n",off); eol=len(s) if eol<0 else eol
    cand=[m for m in START.finditer(s) if m.start()<eol]
    for m in reversed(cand):
        q=re.compile(r'\bQed\.|\bDefined\.|\bAdmitted\.').search(s,m.start())
        if q is None: continue
        pr=re.compile(r'\bProof\b').search(s,m.start())
        if pr is None or pr.start()>q.start(): return None
        ls=s.count("\n",0,m.start())+1; le=s.count("\n",0,q.end())+1; lp=s.count("\n",0,pr.start())+1
        if not (ls<=line<=le): return None
        if line<lp: return None
        if "Admitted" in q.group(0): return None
        open(path,"w").write(s[:pr.start()]+"Admitted."+s[q.end():])
        return m.group(2)
    return None
def run(m,theorems):
    t0=time.time()
    sh(f"mkdir -p /tmp/mut; rm -rf {W}; cp -a {SRC} {W}")
    p=f"{W}/theories/{m['file']}"; s=open(p).read()
    n=s.count(m['old'])
    if n==0: return dict(m,error="pattern not found")
    k=m.get('occ')
    if n!=1 and k is None: return dict(m,error=f"pattern occurs {n} times")
    if k is None: s=s.replace(m['old'],m['new'])
    else:
        parts=s.split(m['old']); s=m['old'].join(parts[:k+1])+m['new']+m['old'].join(parts[k+1:])
    open(p,"w").write(s)
    admitted=[]; broken=[]
    files=sorted({f for t,f in theorems.items() if any(t.startswith(c+"_") for c in m['claims'])}) if m['claims'] else sorted(set(theorems.values()))
    theorems={t:f for t,f in theorems.items() if f in files}; targets=" ".join(f"theories/{f}.vo" for f in files)
    for it in range(60):
        rc,out=sh(f"cd {W} && make -k -j4 TIMER='timeout 240' {targets}",2400)
        if rc==0: break
        errs=re.findall(r'File "\./theories/([A-Za-z0-9_]+\.v)", line (\d+), characters [^\n]*\n(?:Error|Warning[^\n]*\n)?',out)
        real=[]
        for mm in re.finditer(r'File "\./theories/([A-Za-z0-9_]+\.v)", line (\d+), characters [^\n]*:\n([^\n]*)',out):
            if "Error" in mm.group(3): real.append((mm.group(1),int(mm.group(2)),mm.group(3)))
        progress=False; seen=set()
        for f,l,e in real:
            if f in seen: continue
            seen.add(f)
            name=patch(f"{W}/theories/{f}",l)
            if name: admitted.append(f"{f[:-2]}.{name}"); progress=True
            elif (f,l) not in broken: broken.append((f,l))
        if not progress: break
    failed=[]
    if rc==0:
        props=files
        with open(f"{W}/theories/MutCheck.v","w") as h:
            h.write("From Verif Require Import "+" ".join(props)+".\n")
            for t in theorems: h.write(f'Goal True. idtac "@@ {t}". Abort.\nPrint Assumptions {t}.\n')
        rc2,out=sh(f"cd {W}/theories && coqc -Q . Verif MutCheck.v",900)
        names={a.split(".",1)[1] for a in admitted}
        for blk in out.split("@@ ")[1:]:
            t,_,rest=blk.partition("\n")
            ax=set(re.findall(r'^([A-Za-z0-9_\'.]+)\s*(?::|$)',rest,re.M))
            if any(a.split(".")[-1] in names for a in ax): failed.append(t.strip())
    else:
        # theorems in files that could not be built at all
        for t,f in theorems.items():
            if not os.path.exists(f"{W}/theories/{f}.vo") or os.path.getmtime(f"{W}/theories/{f}.vo")<t0: failed.append(t)
    claims=m['claims']; hit={c:[t for t in failed if t.startswith(c+"_")] for c in claims}
    return dict(m,broken_lemmas=admitted,unbuildable=[f"{f}:{l}" for f,l in broken],failed=failed,hit=hit,survived=[c for c in claims if not hit[c]],secs=round(time.time()-t0))
if __name__=="__main__":
    ns={}; exec(open(sys.argv[1]).read(),ns); M=ns['M']; out=sys.argv[2]; ids=set(sys.argv[3:])
    theorems={}
    for f in sorted(glob.glob(SRC+"/theories/Props*.v")):
        for t in re.findall(r'^Theorem (C\d\d\w*)',open(f).read(),re.M): theorems[t]=os.path.basename(f)[:-2]
    done=set()
    if os.path.exists(out):
        for l in open(out): done.add(json.loads(l)['id'])
    for m in M:
        if ids and m['id'] not in ids: continue
        if m['id'] in done and not ids: continue
        r=run(m,theorems)
        with open(out,"a") as h: h.write(json.dumps(r)+"\n")
        print(m['id'],r.get('error') or f"failed={len(r['failed'])} survived={r['survived']} unbuildable={r['unbuildable']} {r['secs']}s",flush=True)
