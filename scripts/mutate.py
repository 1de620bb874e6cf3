#!/usr/bin/env python3
"""Seed one bug in a scratch copy of the model and report which theorems fail.

usage: mutate.py spec.json      (spec: list of {file, definition, old, new, claim})

Every proof that no longer goes through is replaced by Admitted in the scratch
copy, so that the remaining theorems are still checked; a property theorem has
failed when its own proof breaks or when it depends on such a proof.
Appends one line per edit to /verif/seeded/LOG.jsonl unless -n is given.
"""
import json, os, re, shutil, subprocess, sys, concurrent.futures as cf
# (a snapshot of /verif/rocq can be given, to work on while edits are tried)
ROOT = os.environ.get('MUT_ROOT', '/verif/rocq')
SRC = ROOT + '/theories'
HEAD = re.compile(r'^\s*(Lemma|Theorem|Example|Corollary|Fact|Remark|Definition|Fixpoint|Record|Inductive|Ltac|Global Instance|Instance|Program Definition)\s+(\w+)', re.M)

def deps(order):
    d = {}
    for f in order:
        t = open(f'{SRC}/{f}.v').read()
        d[f] = set(x for m in re.findall(r'From Verif Require (?:Import |Export |)([^.]*)\.', t) for x in m.split())
    return d

def run(spec, idx):
    order = [os.path.basename(l.strip())[:-2] for l in open(ROOT + '/_CoqProject') if l.strip().endswith('.v')]
    d = deps(order)
    done = []                       # dependency order
    while len(done) < len(order):
        done += [f for f in order if f not in done and not (d[f] & set(order)) - set(done)][:1]
    order = done
    work = f'/tmp/mut/w{idx}'
    shutil.rmtree(work, ignore_errors=True); shutil.copytree(SRC, work)
    base = spec['file'][:-2]
    t = open(f'{work}/{base}.v').read()
    if t.count(spec['old']) < 1: return spec, None, 'OLD TEXT NOT FOUND'
    n = spec.get('nth', 0)
    parts = t.split(spec['old'])
    t = spec['old'].join(parts[:n+1]) + spec['new'] + spec['old'].join(parts[n+1:])
    open(f'{work}/{base}.v','w').write(t)
    dirty = {base}
    for f in order:
        if d[f] & dirty: dirty.add(f)
    admitted, failed, survived = set(), [], []
    for f in order:
        if f not in dirty: continue
        path = f'{work}/{f}.v'
        isp = f.startswith('P_')
        if isp:
            s = open(path).read()
            s = re.sub(r'^Print Assumptions (\w+)\.', r'Redirect "\1" Print Assumptions \1.', s, flags=re.M)
            open(path,'w').write(s)
        for _ in range(200):
            try:
                p = subprocess.run(['coqc','-Q','.','Verif',f'{f}.v'], cwd=work, capture_output=True, text=True, timeout=600)
            except subprocess.TimeoutExpired:
                return spec, None, f'timeout in {f}'
            if p.returncode == 0: break
            m = re.search(r'File "\./(\w+)\.v", line (\d+), characters (\d+)-(\d+):\nError', p.stdout + p.stderr)
            if not m: return spec, None, p.stderr[-600:]
            line = int(m.group(2))
            s = open(path).read()
            pos = sum(len(l) for l in s.splitlines(True)[:line-1]) + int(m.group(3))
            # (column is in bytes; close enough to find the enclosing command)
            hs = [h for h in HEAD.finditer(s) if h.start() <= pos]
            if not hs: return spec, None, 'cannot locate ' + m.group(0)
            h = hs[-1]; name = h.group(2); kind = h.group(1)
            if kind in ('Definition','Fixpoint','Record','Inductive','Ltac') and f.startswith(('M_','S_')):
                return spec, None, f'definition {name} in {f} no longer typechecks: ' + (p.stderr[-300:])
            q = re.compile(r'\b(Qed|Defined)\.').search(s, h.start())
            pr = re.compile(r'\bProof\.').search(s, h.start())
            nxt = HEAD.search(s, h.end())
            if pr and q and pos >= pr.start() and (not nxt or pr.start() < nxt.start()):
                s = s[:pr.start()] + 'Admitted.' + s[q.end():]
            else:
                end = q.end() if (q and pr and (not nxt or pr.start() < nxt.start())) else s.index('.\n', pos)+1
                s = s[:h.start()] + f'(* broken {name} *)' + s[end:]
                s = re.sub(rf'^.*Print Assumptions {name}\.', '', s, flags=re.M)
            admitted.add(name)
            open(path,'w').write(s)
        else:
            return spec, None, f'too many failures in {f}'
        if isp:
            for th in re.findall(r'^Theorem (\w+)', open(f'{SRC}/{f}.v').read(), re.M):
                out = f'{work}/{th}.out'
                if th in admitted or not os.path.exists(out) or \
                   any(re.search(rf'\b{a}\b', open(out).read()) for a in admitted):
                    failed.append(th)
                else: survived.append(th)
    shutil.rmtree(work, ignore_errors=True)
    return spec, failed, {'admitted': sorted(admitted), 'survived': survived}

if __name__ == '__main__':
    dry = '-n' in sys.argv
    specs = json.load(open([a for a in sys.argv[1:] if a != '-n'][0]))
    with cf.ThreadPoolExecutor(3) as ex:
        for spec, failed, info in ex.map(lambda a: run(a[1], f'{os.getpid()}_{a[0]}'), list(enumerate(specs))):
            print('==', spec['file'], spec['definition'], '|', spec['edit'])
            if failed is None: print('   ERROR', info); continue
            print('   failed:', failed); print('   admitted:', info['admitted'])
            if spec.get('expect') and not any(x.startswith(spec['expect']) for x in failed):
                print('   !!! SURVIVOR for', spec['expect'], 'survived:', [s for s in info['survived'] if s.startswith(spec['expect'])])
            if not dry:
                with open('/verif/seeded/LOG.jsonl','a') as fh:
                    fh.write(json.dumps({'definition': spec['file']+':'+spec['definition'], 'edit': spec['edit'],
                      'claim': spec['claim'], 'failed': failed, 'tightened': spec.get('tightened', [])})+'\n')
            sys.stdout.flush()
