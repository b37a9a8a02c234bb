#!/usr/bin/env python3
"""Writes wrong programs: small edits of the definitions of the model.

usage: wrong.py THEORIES OUT.json [SEED [PER_DEFINITION]]
"""
import json, os, random, re, sys
src, out = sys.argv[1], sys.argv[2]
random.seed(int(sys.argv[3]) if len(sys.argv) > 3 else 1)
PER = int(sys.argv[4]) if len(sys.argv) > 4 else 3
START = re.compile(r'^[ ]*(?:#\[\w+\]\s*)?(?:Definition|Fixpoint|with|Function)\s+(\w+)', re.M)

def blank(s):
    """Comments and strings as spaces, so that places stay the same."""
    o = list(s); i = 0; depth = 0; q = False
    while i < len(s):
        if not q and s.startswith('(*', i): depth += 1; o[i] = o[i + 1] = ' '; i += 2; continue
        if not q and depth and s.startswith('*)', i): depth -= 1; o[i] = o[i + 1] = ' '; i += 2; continue
        if not depth and s[i] == '"': q = not q
        if depth or (q and s[i] != '"'): o[i] = ' ' if s[i] != '\n' else '\n'
        i += 1
    return ''.join(o)

RULES = [
  (r'<=\?', '<?', 'at most becomes less'), (r'(?<![<=])<\?', '<=?', 'less becomes at most'),
  (r'(?<![<>])=\?', '<=?', 'equal becomes at most'),
  (r'&&', '||', 'and becomes or'), (r'\|\|', '&&', 'or becomes and'),
  (r'\bnegb \(', '(', 'a negation is dropped'), (r'\bnegb (?=\w)', '', 'a negation is dropped'),
  (r'\btrue\b', 'false', 'true becomes false'), (r'\bfalse\b', 'true', 'false becomes true'),
  (r' \+ 1\b', ' + 2', 'one more'), (r' - 1\b', ' - 2', 'one less'), (r'\+ 1\b', '- 1', 'plus becomes minus'),
  (r'(?<=[\w\])]) \+\+ \[[^\[\]\n]*\]', '', 'nothing is appended'),
  (r'\bexpect\w+ [^;\n]*?;\+ ', '', 'a token is not expected'),
  (r'\bSome \w+(?=[ ,)\]]* *(?:else|$|end))', 'None', 'there is none'),
]
def numbers(b, lo, hi):
    for m in re.finditer(r'(?<![\w.\-%])(\d{1,4})(?![\w.])', b[lo:hi]): yield lo + m.start(), m.group(1), str(int(m.group(1)) + 1), 'a number is one more'
def conditions(b, s, lo, hi):
    for m in re.finditer(r'\bif ([^\n]+?) then\b', b[lo:hi]):
        c = m.group(1)
        if c.count('(') == c.count(')') and ' if ' not in c and ':=' not in c:
            yield lo + m.start(1), s[lo + m.start(1):lo + m.end(1)], 'negb (%s)' % s[lo + m.start(1):lo + m.end(1)], 'the condition is negated'
def swaps(b, s, lo, hi):
    for m in re.finditer(r'\bthen (\S[^\n]{0,60}?) else (\S[^\n]{0,60}?)(?=\)|\.\n|$|;| in\b)', b[lo:hi], re.M):
        x, y = s[lo + m.start(1):lo + m.end(1)], s[lo + m.start(2):lo + m.end(2)]
        if x.count('(') == x.count(')') and y.count('(') == y.count(')') and x != y:
            yield lo + m.start(1), s[lo + m.start(1):lo + m.end(2)], '%s else %s' % (x, x), 'the other case is as the first'
def arms(b, s, lo, hi):
    ls = [m for m in re.finditer(r'\| ([^\n|]*?) => ([^\n|]+?)(?=\n|\| )', b[lo:hi])]
    for a, c in zip(ls, ls[1:]):
        x, y = s[lo + a.start(2):lo + a.end(2)], s[lo + c.start(2):lo + c.end(2)]
        if x.count('(') == x.count(')') and y.count('(') == y.count(')') and x.strip() != y.strip() and 'end' not in y and 'end' not in x and 'match' not in x + y:
            yield lo + c.start(2), y, x.strip() + (' ' if y.endswith(' ') else ''), 'a case is as the one before'

res = []
for f in sorted(os.listdir(src)):
    if not re.match(r'Model\w+\.v$', f): continue
    s = open(src + '/' + f).read(); b = blank(s)
    st = [(m.start(), m.group(1), m.end()) for m in START.finditer(b)]
    for i, (a, name, body) in enumerate(st):
        end = st[i + 1][0] if i + 1 < len(st) else len(s)
        stop = re.search(r'\.\s*\n', b[body:end]); hi = body + stop.start() if stop else end
        lo = b.find(':=', body, hi)
        if lo < 0: continue
        lo += 2; c = []
        for r, new, what in RULES:
            for m in re.finditer(r, b[lo:hi], re.M): c.append((lo + m.start(), s[lo + m.start():lo + m.end()], new, what))
        c += list(numbers(b, lo, hi)) + list(conditions(b, s, lo, hi)) + list(swaps(b, s, lo, hi)) + list(arms(b, s, lo, hi))
        # not more of a kind than others
        random.shuffle(c); c.sort(key=lambda x: x[3] == 'a number is one more' and random.random() < 0.8)
        for at, old, new, what in c[:PER + len(c) // 25]:
            l0 = s.rfind('\n', 0, at) + 1; l1 = s.find('\n', at)
            res.append({'file': f, 'at': at, 'old': old, 'new': new, 'definition': name, 'edit': what + ': ' + ' '.join((s[max(l0, at - 60):at] + '[' + old + ' -> ' + new + ']' + s[at + len(old):min(l1, at + len(old) + 40)]).split()), 'claim': ''})
random.shuffle(res)
json.dump(res, open(out, 'w'), indent=0)
print(len(res), 'wrong programs')
