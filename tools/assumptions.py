#!/usr/bin/env python3
"""Regenerates section 6 of DESIGN.md: the output of Print Assumptions for every property theorem.
Needs a built rocq/ tree; recompiles the Prop*.v files in a scratch directory."""
import re, os, glob, subprocess, tempfile, shutil
from concurrent.futures import ThreadPoolExecutor
root = os.path.dirname(os.path.dirname(os.path.abspath(__file__)))
src = root + '/rocq/theories'
d = tempfile.mkdtemp(prefix='asm')
for f in os.listdir(src):
    if f.endswith(('.v', '.vo')): shutil.copy2(src + '/' + f, d)
os.mkdir(d + '/out')
def run(f):
    o = d + '/out/' + os.path.basename(f) + 'o'
    r = subprocess.run(['coqc', '-w', 'none', '-noglob', '-Q', d, 'Verif', '-o', o, f], capture_output=True, text=True)
    names = re.findall(r'^Print Assumptions (\w+)\.', open(f).read(), re.M)
    chunks = [c for c in re.split(r'(?=^Closed under|^Axioms:)', r.stdout, flags=re.M) if c.startswith(('Closed', 'Axioms'))]
    assert r.returncode == 0 and len(names) == len(chunks), (f, len(names), len(chunks), r.stderr[-300:])
    return [(n, tuple(sorted(re.findall(r'^([A-Z][\w.]*\.[\w.]+)(?=\s*$|\s+:)', c, re.M)))) for n, c in zip(names, chunks)]
with ThreadPoolExecutor(4) as ex:
    res = [x for l in ex.map(run, sorted(glob.glob(d + '/Prop*.v'))) for x in l]
shutil.rmtree(d)
groups = {}
for n, a in res: groups.setdefault(a, []).append(n)
out = ['## 6. Print Assumptions', '', 'Generated by `tools/assumptions.py` from the `Print Assumptions` commands in `Prop*.v`.', '']
key = lambda n: (int(re.match(r'C(\d+)', n).group(1)), n)
for a in sorted(groups, key=lambda a: (len(a), a)):
    out.append('**' + ('Closed under the global context' if not a else ', '.join('`%s`' % x for x in a)) + '** (%d theorems)' % len(groups[a]))
    out.append('')
    out.append(', '.join(sorted(groups[a], key=key)) + '.')
    out.append('')
p = root + '/DESIGN.md'
s = open(p).read()
s = s[:s.index('## 6. Print Assumptions')] + '\n'.join(out).rstrip() + '\n'
open(p, 'w').write(s)
for a in groups: print(len(groups[a]), a)
