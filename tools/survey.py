#!/usr/bin/env python3
"""Tests the theorems against many wrong programs, quickly.

usage: survey.py MUTATIONS.json RESULTS.jsonl

Like mutate.py, but a run ends with the first lemma whose proof fails; the
property theorems listed are those that use this lemma (from the .glob files of
the base).  Failures of concrete cases only (Example, Check*.v, LemmasDemo*.v)
are kept apart in "examples".  BASE is a built copy of rocq/, W the number of
workers, DIR where they work.
"""
import json, os, re, shutil, subprocess, sys, threading, queue, time
BASE = os.environ.get('BASE', '/tmp/sv/base'); DIR = os.environ.get('DIR', '/tmp/sv'); W = int(os.environ.get('W', '3'))
HEAD = re.compile(r'^\s*(?:#\[\w+\]\s*)?(Lemma|Theorem|Example|Corollary|Remark|Fact|Instance|Definition|Fixpoint|Inductive|Ltac|Notation)\s+(\w+)')
FILES = [l.strip()[9:-2] for l in open(BASE + '/_CoqProject') if l.strip().endswith('.v')]

def deps():
    out = {}
    for f in FILES:
        s = open('%s/theories/%s.v' % (BASE, f)).read()
        out[f] = set()
        for m in re.finditer(r'^From Verif Require (?:Import|Export) ([^.]*)\.', s, re.M): out[f].update(m.group(1).split())
    return out
DEPS = deps()
def ordered():
    out = []
    def visit(f):
        if f in out or f not in DEPS: return
        for g in sorted(DEPS[f], key=lambda g: FILES.index(g) if g in DEPS else -1): visit(g)
        out.append(f)
    for f in FILES: visit(f)
    return out
FILES = ordered()
def dependents(f):
    """The files to be built again, each behind those it needs."""
    hit = {f}
    for g in FILES:
        if DEPS[g] & hit: hit.add(g)
    return [g for g in FILES if g in hit]

def uses():
    """(module, name) -> the (module, name)s that mention it."""
    rev = {}
    for f in FILES:
        p = '%s/theories/%s.glob' % (BASE, f)
        if not os.path.exists(p): continue
        ls = [l.rstrip('\n') for l in open(p)]
        starts = []
        for l in ls:
            m = re.match(r'(prf|def|thm|inst|ind|rec|class|lem|ax|ex|coe) (\d+):(\d+) (\S+) (\S+)$', l)
            if m: starts.append((int(m.group(2)), m.group(5)))
        starts.sort()
        import bisect
        keys = [a for a, _ in starts]
        for l in ls:
            m = re.match(r'R(\d+):(\d+) Verif\.(\w+) \S+ (\S+) (\w+)$', l)
            if not m: continue
            i = bisect.bisect_right(keys, int(m.group(1))) - 1
            if i >= 0: rev.setdefault((m.group(3), m.group(4)), set()).add((f, starts[i][1]))
    return rev
REV = uses()
def theorems(f, name):
    seen = {(f, name)}; todo = [(f, name)]
    while todo:
        for y in REV.get(todo.pop(), ()):
            if y not in seen: seen.add(y); todo.append(y)
    return sorted(n for g, n in seen if g.startswith('Prop') and re.match(r'C\d\d_', n) and n not in CASES)
CASES = set()
for g in FILES:
    if g.startswith('Prop'): CASES.update(re.findall(r'^Example (\w+)', open('%s/theories/%s.v' % (BASE, g)).read(), re.M))

def head(path, line):
    ls = open(path).read().split('\n'); h = min(line - 1, len(ls) - 1)
    while h >= 0 and not HEAD.match(ls[h]): h -= 1
    return HEAD.match(ls[h]).groups() if h >= 0 else ('', '')

def restore(d):
    """The scratch directory as the base is."""
    if not os.path.exists(d): shutil.copytree(BASE, d, copy_function=shutil.copy2); return
    for n in os.listdir(BASE + '/theories'):
        a = BASE + '/theories/' + n; b = d + '/theories/' + n
        if not n.endswith(('.v', '.vo')): continue
        sa = os.stat(a)
        try: sb = os.stat(b)
        except FileNotFoundError: sb = None
        if sb is None or sa.st_size != sb.st_size or int(sa.st_mtime) != int(sb.st_mtime): shutil.copy2(a, b)

def run(d, m):
    restore(d)
    f = m['file'][:-2]; path = '%s/theories/%s.v' % (d, f); s = open(path).read()
    if 'at' in m:
        if s[m['at']:m['at'] + len(m['old'])] != m['old']: return {'error': 'text not found'}
        s = s[:m['at']] + m['new'] + s[m['at'] + len(m['old']):]
    else:
        if m['old'] not in s: return {'error': 'text not found'}
        s = s.replace(m['old'], m['new'], 1)
    open(path, 'w').write(s)
    bad = set(); examples = []; t0 = time.time()
    todo = dependents(f)
    # the cases and what only shows something last
    late = lambda g: g.startswith('Check') or g.startswith('Prop')
    for g in [g for g in todo if not late(g)] + [g for g in todo if late(g)]:
        if DEPS[g] & bad: bad.add(g); continue
        try:
            p = subprocess.run('ulimit -v 8000000; timeout 900 coqc -q -w none -set "Default Timeout=150" -Q theories Verif theories/%s.v' % g, shell=True, cwd=d, capture_output=True, text=True, timeout=1000)
            rc, out = p.returncode, p.stdout + p.stderr
        except subprocess.TimeoutExpired: rc, out = 124, ''
        if rc == 0: continue
        if g.startswith('Model'): return {'error': 'model: ' + out[-200:]}
        e = re.search(r'line (\d+), characters [\d-]+:\n(?:Error|.*\n)', out)
        e = re.search(r'File "\./theories/%s\.v", line (\d+), characters [\d-]+:\nError:?\s*((?:.*\n?){1,3})' % g, out) or e
        line = int(e.group(1)) if e else 1
        kind, name = head('%s/theories/%s.v' % (d, g), line)
        slow = 'imeout' in out or rc == 124
        if 'Demo' in g or g.startswith('Check') or kind == 'Example':
            examples.append(g + '.' + name); bad.add(g); continue
        return {'lemmas': [name], 'where': g, 'failed': theorems(g, name), 'examples': examples, 'slow': slow, 'time': int(time.time() - t0)}
    return {'lemmas': [], 'failed': [], 'examples': examples, 'time': int(time.time() - t0)}

def main():
    ms = json.load(open(sys.argv[1])); log = sys.argv[2]
    done = set()
    if os.path.exists(log):
        for l in open(log):
            x = json.loads(l); done.add((x['file'], x.get('at'), x['old'], x['new']))
    q = queue.Queue(); lock = threading.Lock()
    for m in ms:
        if (m['file'], m.get('at'), m['old'], m['new']) not in done: q.put(m)
    def work(k):
        while True:
            try: m = q.get_nowait()
            except queue.Empty: return
            try: r = run('%s/w%d' % (DIR, k), m)
            except Exception as e: r = {'error': 'tool: ' + str(e)}
            with lock:
                with open(log, 'a') as g: g.write(json.dumps({**m, **r}) + '\n')
    ts = [threading.Thread(target=work, args=(k,)) for k in range(W)]
    for t in ts: t.start()
    for t in ts: t.join()

if __name__ == '__main__': main()
