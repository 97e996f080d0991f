#!/usr/bin/env python3
"""Mutation testing of the theorems.  usage: mutate.py MUTANTS.py [only-index ...]
MUTANTS.py defines M = [(file, definition, old, new, claim broken)].  Each edit is applied to a scratch copy of
/verif/rocq, which is rebuilt; the first failing lemma of each file and the property theorems that depend on one of
them (by the .glob files of the unmodified build) are appended as one JSON line to the OUT file."""
import sys, os, re, json, subprocess, shutil, time, glob
SRC='/verif/rocq'; DST=os.environ.get('MUT','/tmp/mut'); OUT=os.environ.get('OUT','/tmp/mut.jsonl')
J=os.environ.get('J','3'); TO=int(os.environ.get('TO','1500'))
def graph():
    uses={}
    for g in glob.glob(SRC+'/theories/*.glob'):
        mod=os.path.basename(g)[:-5]; defs=[]; refs=[]
        for l in open(g):
            p=l.split()
            if not p: continue
            if p[0][0]=='R':
                m=re.match(r'R(\d+):',p[0])
                if m and len(p)>=4 and p[1].startswith('Verif.'): refs.append((int(m.group(1)),p[1].split('.')[1]+'.'+p[3]))
            elif p[0] in('def','prf','thm','ind','rec','inst','ex') and len(p)>=4:
                defs.append((int(p[1].split(':')[0]),mod+'.'+p[3]))
        defs.sort(); refs.sort(); i=-1
        for pos,r in refs:
            while i+1<len(defs) and defs[i+1][0]<=pos: i+=1
            if i>=0: uses.setdefault(defs[i][1],set()).add(r)
    rev={}
    for a,s in uses.items():
        for b in s: rev.setdefault(b,set()).add(a)
    return rev
def closure(rev,seeds):
    seen=set(seeds); st=list(seeds)
    while st:
        x=st.pop()
        for y in rev.get(x,()):
            if y not in seen: seen.add(y); st.append(y)
    return seen
def lemma_at(path,line):
    name=None
    for i,l in enumerate(open(path),1):
        if i>line: break
        m=re.match(r'\s*(?:Local |Global |#\[.*\] )?(?:Lemma|Theorem|Corollary|Example|Remark|Fact|Definition|Fixpoint|Inductive|Record)\s+([\w\']+)',l)
        if m: name=m.group(1)
    return name
def main():
    ns={}; exec(open(sys.argv[1]).read(),ns); M=ns['M']; only=set(map(int,sys.argv[2:]))
    rev=graph()
    if not os.path.exists(DST): shutil.copytree(SRC,DST,symlinks=True)
    for i,(f,d,old,new,claim) in enumerate(M):
        if only and i not in only: continue
        shutil.rmtree(DST); subprocess.run(['cp','-a',SRC,DST])
        p=f'{DST}/theories/{f}.v'; s=open(p).read()
        if s.count(old)!=1: print(i,'BAD PATTERN',s.count(old),old); continue
        open(p,'w').write(s.replace(old,new))
        t=time.time()
        try: r=subprocess.run(['make','-k','-j'+J],cwd=DST,capture_output=True,text=True,timeout=TO); err=r.stderr
        except subprocess.TimeoutExpired as e: err=(e.stderr or b'').decode(); err+='\nTIMEOUT'; subprocess.run(['pkill','-f',DST])
        fails=[]
        for m in re.finditer(r'File "\./theories/(\w+)\.v", line (\d+)[^\n]*\n(Error[^\n]*\n?[^\n]*)?',err):
            if m.group(3) is None: continue
            fails.append(m.group(1)+'.'+str(lemma_at(f'{DST}/theories/{m.group(1)}.v',int(m.group(2)))))
        thms=sorted({x.split('.')[1] for x in closure(rev,fails) if re.match(r'Props\w*\.C\d\d_',x)})
        rec=dict(definition=f+'.'+d,edit=dict(old=old,new=new),claim=claim,lemmas=fails,theorems=thms,secs=round(time.time()-t))
        if 'TIMEOUT' in err: rec['timeout']=True
        open(OUT,'a').write(json.dumps(rec)+'\n'); print(i,rec['definition'],fails,len(thms),rec['secs'],flush=True)
main()
