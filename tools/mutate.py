#!/usr/bin/env python3
"""Tests the theorems against wrong programs.

usage: mutate.py MUTATIONS.json [LOG.jsonl]

Each mutation is {"file", "old", "new", "definition", "edit", "claim"}.  The
development is copied to a scratch directory, the text is replaced once in the
model, and everything is rebuilt.  A proof that fails is replaced by Admitted
in the scratch copy and the build goes on, so that at the end Print Assumptions
tells exactly which property theorems still hold.  PROPS is a pattern for the
files to ask, if not all.
"""
import json, os, re, shutil, subprocess, sys
ROOT = os.environ.get('BASE', os.path.dirname(os.path.dirname(os.path.abspath(__file__))))
SCRATCH = os.environ.get('SCRATCH', '/tmp/mut/work')
J = os.environ.get('J', '2')
HEAD = re.compile(r'^\s*(?:Lemma|Theorem|Example|Corollary|Remark|Fact|Instance|Definition|Fixpoint)\s+(\w+)')

def sh(cmd, timeout=3000):
    try:
        p = subprocess.run(cmd, shell=True, cwd=SCRATCH, capture_output=True, text=True, timeout=timeout)
        return p.returncode, p.stdout + p.stderr
    except subprocess.TimeoutExpired:
        return 124, 'TIMEOUT'

def admit(path, line):
    """Replaces the proof around a line by Admitted; returns the lemma or None."""
    ls = open(path).read().split('\n')
    i = line - 1
    a = i
    while a >= 0 and not re.match(r'^\s*Proof\b', ls[a]):
        if re.search(r'(Qed|Defined|Admitted)\.\s*$', ls[a]) and a < i: return None
        a -= 1
    if a < 0: return None
    b = a
    while b < len(ls) and not re.search(r'(Qed|Defined)\.\s*$', ls[b]): b += 1
    if b < i: return None
    h = a
    while h >= 0 and not HEAD.match(ls[h]): h -= 1
    name = HEAD.match(ls[h]).group(1)
    ls[a:b + 1] = ['Proof. Admitted.'] + ['' for _ in range(b - a)]
    open(path, 'w').write('\n'.join(ls))
    return name

def run(m):
    if os.path.exists(SCRATCH): shutil.rmtree(SCRATCH)
    shutil.copytree(ROOT + '/rocq', SCRATCH, copy_function=shutil.copy2)
    f = SCRATCH + '/theories/' + m['file']
    s = open(f).read()
    if s.count(m['old']) < 1: return {'error': 'text not found'}
    open(f, 'w').write(s.replace(m['old'], m['new'], 1))
    sh('coq_makefile -f _CoqProject -o Makefile')
    failed = []
    for _ in range(400):
        rc, out = sh('make -k -j%s TIMED= COQC="timeout 900 coqc" COQEXTRAFLAGS="-set \\"Default Timeout=200\\"" 2>&1' % J)
        if rc == 0: break
        es = re.findall(r'File "\./(theories/\w+\.v)", line (\d+), characters [\d-]+:\nError', out)
        if not es: return {'error': out[-600:], 'failed': failed}
        done = set()
        for path, line in es:
            if path in done: continue
            done.add(path)
            n = admit(SCRATCH + '/' + path, int(line))
            if n is None: return {'error': 'outside a proof: %s:%s' % (path, line) + out[-300:], 'failed': failed}
            failed.append(n)
    props, held = [], []
    for p in sorted(os.listdir(SCRATCH + '/theories')):
        if not re.match(os.environ.get('PROPS', r'Prop\w+') + r'\.v$', p): continue
        rc, out = sh('timeout 900 coqc -Q theories Verif theories/' + p)
        names = re.findall(r'^Print Assumptions (\w+)\.', open(SCRATCH + '/theories/' + p).read(), re.M)
        parts = re.split(r'(?m)^(?=Closed under the global context|Axioms:)', out)
        parts = [x for x in parts if x.startswith(('Closed', 'Axioms:'))]
        if rc != 0: props += names[len(parts):]
        for n, x in zip(names, parts):
            (held if x.startswith('Closed') else props).append(n)
    return {'failed': props + [x for x in failed if re.match(r'C\d\d_', x) and x not in props], 'lemmas': failed, 'held': len(held)}

def main():
    ms = json.load(open(sys.argv[1]))
    log = sys.argv[2] if len(sys.argv) > 2 else '/tmp/mut/results.jsonl'
    for m in ms:
        r = run(m)
        print(json.dumps({**m, **r}), flush=True)
        with open(log, 'a') as g: g.write(json.dumps({**m, **r}) + '\n')

main()
