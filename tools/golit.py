"""Reads the tables of test cases in Go source: composite literals, calls, and constants."""
import re

TOK = re.compile(r'''
 (?P<ws>[ \t\r\n]+|//[^\n]*|/\*.*?\*/)
|(?P<raw>`[^`]*`)
|(?P<str>"(?:\\.|[^"\\])*")
|(?P<rune>'(?:\\.[^']*|[^'\\])')
|(?P<float>\d+\.\d*(?:[eE][+-]?\d+)?|\.\d+)
|(?P<hex>0[xX][0-9a-fA-F]+)
|(?P<int>\d+)
|(?P<id>[A-Za-z_]\w*)
|(?P<op>:=|==|!=|<=|>=|&&|\|\||[-+*/%&|<>=!(){}\[\],.:;])
''', re.X | re.S)

def unescape(s):
    out, i = b'', 0
    simple = {'n': 10, 't': 9, 'r': 13, '\\': 92, '"': 34, "'": 39, 'a': 7, 'b': 8, 'f': 12, 'v': 11}
    while i < len(s):
        c = s[i]
        if c != '\\':
            out += c.encode(); i += 1; continue
        c = s[i + 1]
        if c in simple: out += bytes([simple[c]]); i += 2
        elif c == 'x': out += bytes([int(s[i + 2:i + 4], 16)]); i += 4
        elif c == 'u': out += chr(int(s[i + 2:i + 6], 16)).encode(); i += 6
        elif c == 'U': out += chr(int(s[i + 2:i + 10], 16)).encode(); i += 10
        elif c in '01234567': out += bytes([int(s[i + 1:i + 4], 8)]); i += 4
        else: raise ValueError(s)
    return out

def lex(src):
    toks, i = [], 0
    while i < len(src):
        m = TOK.match(src, i)
        if not m: raise ValueError('lex %r' % src[i:i + 40])
        k = m.lastgroup
        if k != 'ws': toks.append((k, m.group(), i))
        i = m.end()
    return toks

class Parser:
    """AST: ('int',n) ('float',text) ('str',bytes) ('rune',n) ('id',name) ('call',f,args)
    ('comp',type,[(key or None,value)]) ('neg',e) ('addr',e) ('bin',op,a,b) ('func',text)."""
    def __init__(self, src, i=0):
        self.src = src; self.toks = lex(src[i:]); self.p = 0; self.off = i
    def peek(self, n=0): return self.toks[self.p + n][1] if self.p + n < len(self.toks) else ''
    def kind(self): return self.toks[self.p][0]
    def eat(self, s):
        if self.peek() != s: raise ValueError('want %r got %r at %r' % (s, self.peek(), self.src[self.off + self.toks[self.p][2]:][:60]))
        self.p += 1
    def skip(self, a, b):
        d = 0
        while True:
            t = self.peek(); self.p += 1
            if t == a: d += 1
            elif t == b:
                d -= 1
                if d == 0: return
    def typ(self):
        """A type, as text."""
        t = self.peek()
        if t == '[':
            self.eat('['); self.eat(']'); return '[]' + self.typ()
        if t == '*':
            self.eat('*'); return '*' + self.typ()
        if t == 'map':
            self.eat('map'); self.eat('['); k = self.typ(); self.eat(']'); return 'map[%s]%s' % (k, self.typ())
        if t == 'interface':
            self.eat('interface'); self.eat('{'); self.eat('}'); return 'interface{}'
        if t == 'struct':
            self.eat('struct'); self.eat('{'); fields = []
            line = lambda: self.src.count('\n', 0, self.off + self.toks[self.p][2])
            while self.peek() != '}':
                names = [self.peek()]; self.p += 1
                while self.peek() == ',':
                    self.p += 1; names.append(self.peek()); self.p += 1
                ty = self.typ(); fields += [(n, ty) for n in names]
                if self.peek() == ';': self.p += 1
            self.eat('}')
            return ('struct', fields)
        if t == 'func':
            self.eat('func'); self.skip('(', ')'); return 'func'
        self.p += 1
        while self.peek() == '.':
            self.p += 1; t += '.' + self.peek(); self.p += 1
        return t
    def comp(self, ty):
        self.eat('{'); items = []
        elem = ty[2:] if isinstance(ty, str) and ty.startswith('[]') else None
        if isinstance(ty, tuple): elem = ty
        if isinstance(ty, tuple) and ty[0] == 'slice': elem = ty[1]
        while self.peek() != '}':
            v = self.comp(elem) if self.peek() == '{' else self.expr()
            k = None
            if self.peek() == ':':
                self.p += 1; k = v
                sub = ty[ty.index(']') + 1:] if isinstance(ty, str) and ty.startswith('map') else None
                v = self.comp(sub) if self.peek() == '{' else self.expr()
            items.append((k, v))
            if self.peek() == ',': self.p += 1
        self.eat('}')
        return ('comp', ty, items)
    def primary(self):
        k, t = self.kind(), self.peek()
        if k == 'int' or k == 'hex':
            self.p += 1; return ('int', int(t, 8) if k == 'int' and len(t) > 1 and t[0] == '0' else int(t, 0))
        if k == 'float': self.p += 1; return ('float', t)
        if k == 'str': self.p += 1; return ('str', unescape(t[1:-1]))
        if k == 'raw': self.p += 1; return ('str', t[1:-1].replace('\r', '').encode())
        if k == 'rune': self.p += 1; return ('rune', ord(unescape(t[1:-1]).decode()))
        if t == '(':
            self.eat('('); e = self.expr(); self.eat(')'); return e
        if t == '-': self.p += 1; return ('neg', self.primary())
        if t == '&': self.p += 1; return ('addr', self.primary())
        if t == 'func':
            a = self.toks[self.p][2]; self.p += 1; self.skip('(', ')')
            while self.peek() != '{': self.p += 1
            self.skip('{', '}')
            return ('func', self.src[self.off + a:self.off + self.toks[self.p][2]])
        if t == '[' and self.peek(1) == ']':
            ty = self.typ()
            if isinstance(ty, str) and self.peek() == '(':   # a conversion
                self.eat('('); e = self.expr(); self.eat(')'); return ('call', ty, [e])
            if ty == '[]' : raise ValueError
            return self.comp(ty)
        if t == 'map': return self.comp(self.typ())
        if k == 'id':
            self.p += 1
            while self.peek() == '.':
                self.p += 1; t += '.' + self.peek(); self.p += 1
            if self.peek() == '(':
                self.eat('('); args = []
                while self.peek() != ')':
                    args.append(self.expr() if not (self.peek() == '[' and self.peek(1) == ']') else self.typ_or_comp())
                    if self.peek() == ',': self.p += 1
                self.eat(')')
                return ('call', t, args)
            if self.peek() == '{' and t[0].isalpha(): return self.comp(t)
            return ('id', t)
        raise ValueError('primary %r' % self.src[self.off + self.toks[self.p][2]:][:60])
    def typ_or_comp(self):
        ty = self.typ()
        if self.peek() == '{': return self.comp(ty)
        if self.peek() == '(':
            self.eat('('); e = self.expr(); self.eat(')'); return ('call', ty, [e])
        return ('id', ty)
    def expr(self):
        e = self.primary()
        while self.peek() in ('+', '-', '*'):
            op = self.peek(); self.p += 1; e = ('bin', op, e, self.primary())
        return e

def func_body(src, name):
    i = src.index('func %s(' % name)
    j = src.find('\nfunc ', i)
    k = src.find('\n}\n', i)
    return src[i:k + 2]

def table(src, func, var='cases'):
    """The cases of a table test: a list of dicts, of values for a table of strings."""
    body = func_body(src, func) if func else src
    i = body.index(var + ' := ') + len(var + ' := ')
    p = Parser(body, i)
    p.eat('['); p.eat(']')
    ty = p.typ()
    if isinstance(ty, str):
        return [v for _, v in p.comp('[]' + ty)[2]]
    names = [n for n, _ in ty[1]]
    tys = dict(ty[1])
    c = p.comp(('slice', ty))
    out = []
    for _, item in c[2]:
        d = {}
        for n, (k, v) in enumerate(item[2]):
            d[k[1] if k else names[n]] = v
        out.append(d)
    return out

def variables(src, func):
    """name := expression, in a function body."""
    body = func_body(src, func); out = {}
    for m in re.finditer(r'^\t(\w+) := (?=[\[\w&])', body, re.M):
        try:
            out[m.group(1)] = Parser(body, m.end()).expr()
        except (ValueError, IndexError, TypeError): pass
    return out
