#!/usr/bin/env python3
"""Mutation runner. usage: mutate.py mutations.json [logfile]
Each mutation: {"file","def","old","new","breaks","files":[compile order],"nth":k}; the text is searched from the definition on.
Copies rocq/theories to a scratch directory, applies the edit, recompiles the listed files; a
lemma whose proof fails is replaced by an admitted statement (scratch only) and the compilation
goes on, so that Print Assumptions shows which property theorems depended on a failed proof."""
import json, sys, os, re, shutil, subprocess, tempfile
from concurrent.futures import ThreadPoolExecutor
root = os.path.dirname(os.path.dirname(os.path.abspath(__file__)))
src = root + '/rocq/theories'
START = re.compile(r'^\s*(?:Local\s+|Global\s+|#\[[^\]]*\]\s*)*(Lemma|Theorem|Example|Corollary|Fact|Remark|Instance|Program|Definition|Fixpoint)\s+(\w+)', re.M)
def admit(text, off):
    """replace the proof enclosing character offset off by Admitted"""
    best = None
    for m in re.finditer(r'^\s*(?:Local\s+|Global\s+)*(Lemma|Theorem|Example|Corollary|Fact|Remark|Instance)\s+(\w+)', text, re.M):
        if m.start() <= off: best = m
    if not best: return None
    p = re.compile(r'Proof(?: using[^.]*)?\.').search(text, best.start())
    if not p: return None
    q = re.compile(r'\b(Qed|Defined)\.').search(text, p.end())
    if not q or off > q.end() + 1: return None
    return text[:p.end()] + ' Admitted.' + text[q.end():], best.group(2)
LIMIT = ['bash', '-c', 'ulimit -v 5000000; exec "$@"', 'x']
def compile(d, f, log):
    failed = []
    path = d + '/' + f
    for _ in range(60):
        r = subprocess.run(LIMIT + ['timeout', '450', 'coqc', '-w', 'none', '-Q', d, 'Verif', path], capture_output=True, text=True)
        if r.returncode == 0: return failed, r.stdout
        m = re.search(r'line (\d+), characters (\d+)-(\d+)', r.stderr)
        text = open(path).read()
        if m:
            lines = text.split('\n')
            off = sum(len(l) + 1 for l in lines[:int(m.group(1)) - 1])
        elif r.returncode != 1 or 'emory' in r.stderr:
            # a proof script that no longer ends: find the last sentence that did
            r = subprocess.run(LIMIT + ['timeout', '300', 'coqc', '-time', '-w', 'none', '-Q', d, 'Verif', path], capture_output=True, text=True)
            c = re.findall(r'^Chars (\d+) - (\d+) ', r.stdout, re.M)
            if not c: log.append('timeout'); return failed, None
            off = len(text.encode()[:int(c[-1][1])].decode()) + 1
        else: log.append(r.stderr[-300:]); return failed, None
        a = admit(text, off)
        if a is None:
            log.append('%s: %s' % (f, r.stderr[-400:])); return failed, None
        open(path, 'w').write(a[0]); failed.append(a[1])
    log.append('too many failures'); return failed, None
def run(m):
    d = tempfile.mkdtemp(prefix='mut')
    for f in os.listdir(src):
        if f.endswith(('.v', '.vo')): shutil.copy2(src + '/' + f, d)
    p = d + '/' + m['file']
    t = open(p).read()
    n = t.count(m['old'])
    if n == 0: shutil.rmtree(d); return m, None, ['old text not found']
    k = m.get('nth', 0)
    h = re.search(r'^\s*(?:Definition|Fixpoint|Record|Inductive|with)\s+%s\b' % m['def'], t, re.M)
    pos = (h.start() if h else 0) - 1
    for _ in range(k + 1): pos = t.find(m['old'], pos + 1)
    if pos < 0: shutil.rmtree(d); return m, None, ['old text not found in definition']
    t = t[:pos] + m['new'] + t[pos + len(m['old']):]
    open(p, 'w').write(t)
    log, bad = [], []
    admitted = []
    for f in m['files']:
        fl, out = compile(d, f, log)
        admitted += fl
        if out is None: break
        if f.startswith('Prop'):
            txt = open(d + '/' + f).read()
            names = re.findall(r'Print Assumptions (\w+)\.', txt)
            # split output per Print Assumptions
            chunks = re.split(r'(?=^Closed under|^Axioms:)', out, flags=re.M)
            chunks = [c for c in chunks if c.startswith(('Closed', 'Axioms'))]
            for nme, c in zip(names, chunks):
                if any(re.search(r'\b%s\b' % a, c) for a in admitted): bad.append(nme)
            for x in fl:
                if x not in bad: bad.append(x)
    shutil.rmtree(d)
    return m, (bad, admitted), log
def main():
    ms = json.load(open(sys.argv[1]))
    out = []
    with ThreadPoolExecutor(int(os.environ.get('JOBS', '4'))) as ex:
        for m, r, log in ex.map(run, ms):
            print(m['def'], '|', m['old'][:50].replace('\n', ' '), '->', m['new'][:50].replace('\n', ' '))
            if r is None: print('   ERROR', log); continue
            print('   failed:', r[0], '' if r[0] else '*** SURVIVED ***', '' if not log else log)
            out.append({"definition": m['def'], "edit": "%s: `%s` -> `%s`" % (m['file'], m['old'], m['new']),
                        "breaks": m['breaks'], "failed": r[0], "tightened": m.get('tightened', [])})
    if len(sys.argv) > 2:
        with open(sys.argv[2], 'a') as g:
            for o in out: g.write(json.dumps(o) + '\n')
if __name__ == "__main__": main()
