#!/usr/bin/env python3
"""Run seeded edits of the model in a scratch copy and report which property theorems stop proving.

usage: mutate.py edits.json   (works on a copy of the committed tree)
      edits.json = [{"file","old","new","definition","edit","claim"}...]

For each edit: copy rocq/ to a scratch directory, apply the edit, rebuild.  Every lemma whose proof
breaks is replaced by Admitted and the build goes on; a property theorem counts as failed when its
Print Assumptions then lists one of those lemmas.  One JSON line per edit is appended to seeded/LOG.jsonl.
"""
import json, os, re, shutil, subprocess, sys
SRC='/tmp/mutbase/rocq'; W='/tmp/mut/rocq'
HEAD=re.compile(r'^\s*(?:#\[[^\]]*\]\s*)?(?:Local |Global )?(Lemma|Theorem|Corollary|Example|Fact|Instance|Remark|Proposition|Definition|Fixpoint|Function)\s+([\w\']+)')
def sh(c,t=900):
    try: r=subprocess.run(c,shell=True,cwd=W,capture_output=True,text=True,timeout=t); return r.returncode,r.stdout+r.stderr
    except subprocess.TimeoutExpired: return 124,''
def admit(path,line):
    L=open(path).read().split('\n')
    i=line-1
    while i>=0 and not HEAD.match(L[i]): i-=1
    if i<0: return None
    kind,name=HEAD.match(L[i]).groups()
    j=i
    while j<len(L) and not re.search(r'\bProof\b',L[j]): j+=1
    e=j
    while e<len(L) and not re.search(r'\b(Qed|Defined)\.',L[e]): e+=1
    if e>=len(L) or line-1>e: return None
    if line-1<j and '--' : pass
    pre=L[j][:L[j].index('Proof')]
    L[j:e+1]=[pre+'Admitted.']+['']*(e-j)
    open(path,'w').write('\n'.join(L)); return name
def base():
    head=subprocess.run('git -C /verif rev-parse HEAD',shell=True,capture_output=True,text=True).stdout.strip()
    st='/tmp/mutbase/HEAD'
    if os.path.exists(st) and open(st).read()==head: return
    old=os.path.exists(st)
    os.makedirs('/tmp/mutbase/new',exist_ok=True)
    subprocess.run('git -C /verif archive HEAD rocq | tar x -C /tmp/mutbase/new',shell=True,check=True)
    subprocess.run('mkdir -p /tmp/mutbase/rocq && rsync -rc new/rocq/ rocq/ 2>/dev/null || cp -r new/rocq/. rocq/; rm -rf new; cd rocq && coq_makefile -f _CoqProject -o Makefile && make -j4 >/dev/null',shell=True,check=True,cwd='/tmp/mutbase')
    open(st,'w').write(head)
def run(m):
    shutil.rmtree('/tmp/mut',ignore_errors=True); os.makedirs('/tmp/mut'); subprocess.run(['cp','-a',SRC,W])
    p=f'{W}/theories/{m["file"]}'; s=open(p).read()
    n=s.count(m['old']); assert n>=1,(m['file'],m['old'],n)
    k=m.get('nth',0)
    if n>1 and 'nth' not in m: print('warning: several matches, using the first')
    idx=-1
    for _ in range(k+1): idx=s.index(m['old'],idx+1)
    open(p,'w').write(s[:idx]+m['new']+s[idx+len(m['old']):])
    admitted=[];hard=[];seen=set()
    for it in range(80):
        rc,out=sh('timeout 850 make -k -j4 TIMECMD="timeout 240"',900)
        if rc==0: break
        errs=re.findall(r'File "\./theories/([\w]+\.v)", line (\d+), characters[^\n]*\nError',out)
        # -k: one error per file
        tmo=re.findall(r'\*\*\* \[[^\]]*theories/([\w]+)\.vo\] Error (?:124|137)',out)
        prog=False
        for f,l in errs:
            nm=admit(f'{W}/theories/{f}',int(l))
            if nm: admitted.append(nm); prog=True
            else: hard.append(f'{f}:{l}')
        for f in tmo:
            rc2,o=sh(f'timeout 240 coqc -time -Q theories Verif theories/{f}.v',300)
            ms=re.findall(r'Chars (\d+) - (\d+)',o)
            if ms:
                src=open(f'{W}/theories/{f}.v').read(); l=src.encode()[:int(ms[-1][1])].decode().count('\n')+2
                nm=admit(f'{W}/theories/{f}.v',l)
                if nm: admitted.append(nm+' (timeout)'); prog=True
                else: hard.append(f+' (timeout)')
        if not prog: break
    failed=[];timed=[]
    names=set(a.split()[0] for a in admitted); slow=set(a.split()[0] for a in admitted if a.endswith('(timeout)'))
    if names or hard:
        for f in sorted(os.listdir(W+'/theories')):
            if not f.endswith('Props.v'): continue
            src=open(f'{W}/theories/{f}').read()
            if not os.path.exists(f'{W}/theories/{f}o') or (hard and sh(f'make -q theories/{f}o')[0]!=0):
                failed+=re.findall(r'Theorem (C\w+)',src); continue
            if open(f'{W}/theories/{f}').read()==open(f'{SRC}/theories/{f}').read() and os.path.getmtime(f'{W}/theories/{f}o')==os.path.getmtime(f'{SRC}/theories/{f}o'): continue
            pa=re.findall(r'Print Assumptions ([\w\']+)\.',src)
            rc,o=sh(f'coqc -Q theories Verif theories/{f}',600)
            parts=re.split(r'(?=Closed under the global context|^Axioms:)',o,flags=re.M)
            parts=[x for x in parts if x.startswith('Closed') or x.startswith('Axioms:')]
            for nme,pt in zip(pa,parts):
                ax=set(re.findall(r'^([\w\.\']+)\s*:',pt,flags=re.M))|set(re.findall(r'^([\w\.\']+)$',pt,flags=re.M))
                hit={a.split('.')[-1] for a in ax}&(names|{'?'})
                if hit: (timed if hit<=slow else failed).append(nme)   # a proof that only ran out of time is no kill
    exs=[a for a in admitted if 'xample' in a]
    rec={'definition':m['definition'],'edit':m['edit'],'claim':m['claim'],'failed':failed,'examples_failed':exs,
         'lemmas_broken':admitted,'build_errors':hard,'timed_out':timed,'tightened':m.get('tightened',[])}
    return rec
if __name__=='__main__':
    base()
    for m in json.load(open(sys.argv[1])):
        r=run(m); print(json.dumps(r)); sys.stdout.flush()
        open('/verif/seeded/LOG.jsonl','a').write(json.dumps(r)+'\n')
