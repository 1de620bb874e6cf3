#!/usr/bin/env python3
"""Mechanical single-token edits of the model, looking for edits nothing notices.

usage: automut.py seed per_def out.jsonl [regex of file names]

For each definition of the model files a few random token edits are tried in a
scratch copy; the files that depend on it are recompiled in order and the first
proof that breaks is reported.  Edits under which everything still compiles are
reported with "killed": null and have to be judged by hand.
"""
import json, os, random, re, shutil, subprocess, sys, concurrent.futures as cf
ROOT = os.environ.get('MUT_ROOT', '/verif/rocq')
SRC = ROOT + '/theories'
SUBS = [(r'<=\?', '<?'), (r'<\?', '<=?'), (r'(?<![<>]) =\? ', ' <=? '), (r' \+ ', ' - '), (r' - ', ' + '), (r' \* ', ' + '),
  (r' / ', ' * '), (r'\btrue\b', 'false'), (r'\bfalse\b', 'true'), (r'\bcos\b', 'sin'), (r'\bsin\b', 'cos'), (r'(?<![\w.])0(?![\w.])', '1'),
  (r'(?<![\w.])1(?![\w.])', '2'), (r'(?<![\w.])2(?![\w.])', '3'), (r'\bfirstn\b', 'skipn'), (r'\bskipn\b', 'firstn'), (r'&&', '||'), (r'\|\|', '&&'),
  (r'\bS (\w)', r'\1'), (r'\bfst\b', 'snd'), (r'\bsnd\b', 'fst'), (r'\bnegb\b', ''), (r'\+\+', '@@'), (r'\bRlt_dec\b', 'Rle_dec'), (r'\bRle_dec\b', 'Rlt_dec'),
  (r'\bNone\b', 'Some'), (r'\bremovelast\b', ''), (r'\brev\b', ''), (r' :: ', ' ++ '), (r'\bCconj\b', ''), (r'Err (\w+)', 'Err OverflowError'),
  (r'\bif\b', 'if negb'), (r'\b(\w+) (\w+) (\w+)\b', r'\1 \3 \2'), (r'\b-\s*(\w)', r'\1'), (r'\bCadd\b', 'Csub'), (r'\bCsub\b', 'Cadd'), (r'\bCopp\b', '')]
def strip(t):
    out=[];i=0;dep=0
    while i<len(t):
        if t.startswith('(*',i): dep+=1; out.append('  '); i+=2; continue
        if dep and t.startswith('*)',i): dep-=1; out.append('  '); i+=2; continue
        out.append(t[i] if not dep or t[i]=='\n' else ' '); i+=1
    return ''.join(out)
def candidates(f):
    t=open(f'{SRC}/{f}.v').read(); s=strip(t)
    hs=list(re.finditer(r'^ *(Definition|Fixpoint)\s+(\w+)',s,re.M))
    for h in hs:
        e=s.find('.\n',h.end()); body=s.find(':=',h.end())
        if body<0 or body>e: continue
        c=[]
        for pat,rep in SUBS:
            for m in re.finditer(pat,s[body+2:e]):
                a=body+2+m.start(); b=body+2+m.end()
                new=m.expand(rep)
                if new==s[a:b]: continue
                if rep=='@@': 
                    continue
                c.append((a,b,new))
        yield f,h.group(2),t,c
def run(job,idx):
    f,name,t,(a,b,new)=job
    order=[os.path.basename(l.strip())[:-2] for l in open(ROOT+'/_CoqProject') if l.strip().endswith('.v')]
    work=f'/tmp/amut/{os.getpid()}_{idx}'
    shutil.rmtree(work,ignore_errors=True); os.makedirs(work)
    for x in os.listdir(SRC):
        if x.endswith(('.v','.vo')): os.symlink(f'{SRC}/{x}',f'{work}/{x}')
    os.remove(f'{work}/{f}.v'); open(f'{work}/{f}.v','w').write(t[:a]+new+t[b:])
    line=t.count('\n',0,a)+1
    rec={'file':f,'definition':name,'line':line,'old':t.splitlines()[line-1].strip(),'new':(t[:a]+new+t[b:]).splitlines()[line-1].strip()}
    dirty={f}; 
    deps={}
    for g in order:
        deps[g]=set(x for m in re.findall(r'From Verif Require (?:Import |Export )?([^.]*)\.',open(f'{SRC}/{g}.v').read()) for x in m.split())
        if deps[g]&dirty: dirty.add(g)
    res=None
    for g in order:
        if g not in dirty: continue
        if os.path.islink(f'{work}/{g}.vo'): os.remove(f'{work}/{g}.vo')
        try: p=subprocess.run(['coqc','-Q','.','Verif',f'{g}.v'],cwd=work,capture_output=True,text=True,timeout=400)
        except subprocess.TimeoutExpired: res='timeout '+g; break
        if p.returncode:
            m=re.search(r'line (\d+)',p.stdout+p.stderr); 
            if g==f:
                L=open(f'{work}/{g}.v').read().splitlines()
                res='invalid'
            else:
                L=open(f'{work}/{g}.v').read().splitlines(); k=int(m.group(1))-1 if m else 0
                while k>0 and not re.match(r'\s*(Lemma|Theorem|Example|Corollary|Definition|Fixpoint)',L[k]): k-=1
                res=g+':'+' '.join(L[k].split()[:2])
            break
    rec['killed']=res
    shutil.rmtree(work,ignore_errors=True)
    return rec
if __name__=='__main__':
    random.seed(int(sys.argv[1])); per=int(sys.argv[2]); out=sys.argv[3]
    pat=re.compile(sys.argv[4] if len(sys.argv)>4 else '.')
    log=open('/verif/seeded/LOG.jsonl').read()
    jobs=[]
    for f in sorted(x[:-2] for x in os.listdir(SRC) if x.startswith('M_') and x.endswith('.v')):
        if not pat.search(f): continue
        for f,name,t,c in candidates(f):
            random.shuffle(c); jobs+=[(f,name,t,x) for x in c[:per]]
    random.shuffle(jobs)
    print(len(jobs))
    with cf.ThreadPoolExecutor(int(os.environ.get('JOBS','2'))) as ex:
        for r in ex.map(lambda a: run(a[1],a[0]),list(enumerate(jobs))):
            with open(out,'a') as fh: fh.write(json.dumps(r)+'\n')
