#!/usr/bin/env python3
"""Compile every P_*.v, read what Print Assumptions says about each theorem and
rewrite the generated section of DESIGN.md (between the two markers)."""
import glob, os, re, subprocess, tempfile, concurrent.futures as cf

TH = '/verif/rocq/theories'
SHORT = {'ClassicalDedekindReals.sig_not_dec': 'sig_not_dec',
         'ClassicalDedekindReals.sig_forall_dec': 'sig_forall_dec',
         'FunctionalExtensionality.functional_extensionality_dep': 'functional_extensionality_dep',
         'Classical_Prop.classic': 'classic'}


def run(path):
    name = os.path.basename(path)[:-2]
    src = open(path).read()
    asked = re.findall(r'^Print Assumptions (\w+)\.', src, re.M)
    with tempfile.TemporaryDirectory() as d:
        out = subprocess.run(['coqc', '-Q', '.', 'Verif', '-o', f'{d}/{name}.vo', path],
                             cwd=TH, capture_output=True, text=True)
    if out.returncode:
        raise SystemExit(name + '\n' + out.stderr)
    blocks = re.split(r'^(?=Axioms:|Closed under the global context)', out.stdout, flags=re.M)
    blocks = [b for b in blocks if b.startswith(('Axioms:', 'Closed'))]
    assert len(blocks) == len(asked), (name, len(blocks), len(asked))
    res = {}
    for t, b in zip(asked, blocks):
        ax = [] if b.startswith('Closed') else re.findall(r'^([A-Za-z_][\w.]*)(?= ?:|\n  :|$)', b.split('\n', 1)[1], re.M)
        res[t] = tuple(sorted(SHORT.get(a, a) for a in ax))
    return name, res


with cf.ThreadPoolExecutor(3) as ex:
    results = sorted(ex.map(run, sorted(glob.glob(TH + '/P_*.v'))))
groups = {}
for name, res in results:
    for t, ax in res.items():
        groups.setdefault(ax, {}).setdefault(name, []).append(t)
lines = []
for ax in sorted(groups, key=lambda a: (len(a), a)):
    n = sum(map(len, groups[ax].values()))
    lines.append(f"**{'No axioms (closed under the global context)' if not ax else ', '.join('`%s`' % a for a in ax)}**: {n} theorems")
    lines.append('')
    for f in sorted(groups[ax]):
        lines.append(f"* `{f}.v`: " + ', '.join(groups[ax][f]))
    lines.append('')
p = '/verif/DESIGN.md'
s = open(p).read()
a, b = '<!-- assumptions: begin -->', '<!-- assumptions: end -->'
i, j = s.index(a) + len(a), s.index(b)
open(p, 'w').write(s[:i] + '\n' + '\n'.join(lines) + s[j:])
print({k: sum(map(len, v.values())) for k, v in groups.items()})
