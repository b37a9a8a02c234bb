#!/usr/bin/env python3
"""Writes rocq/theories/Check*.v: the test cases of /repo, run on the model.

usage: gotests.py [REPO] [OUT]
"""
import os, re, struct, sys
sys.path.insert(0, os.path.dirname(os.path.abspath(__file__)))
from golit import table, variables, func_body, Parser

REPO = sys.argv[1] if len(sys.argv) > 1 else '/repo'
OUT = sys.argv[2] if len(sys.argv) > 2 else os.path.join(os.path.dirname(os.path.dirname(os.path.abspath(__file__))), 'rocq', 'theories')
def read(f): return open(os.path.join(REPO, f)).read()

floats = {}                       # bit pattern -> text, as Go prints it
texts = {}                        # text -> bit pattern, as Go reads it
def bits(x): return struct.unpack('<Q', struct.pack('<d', x))[0]
def float_text(x):
    s = repr(float(x))
    return s[:-2] if s.endswith('.0') else s
def note_float(t):
    x = float(t); floats[bits(x)] = float_text(x); texts[t] = bits(x); return bits(x)
def note_texts(b):
    for m in re.finditer(rb'\d+\.\d*|\.\d+', b): note_float(m.group().decode())
names = []
def note_name(s):
    if s not in names: names.append(s)

# --- Coq syntax ---------------------------------------------------------------------------

def ok_string(b): return all(32 <= c < 127 or c == 10 for c in b)
def cstr(b):
    """A list of bytes."""
    if isinstance(b, str): b = b.encode()
    if b == b'': return '[]'
    if ok_string(b): return '(str "%s")' % b.decode().replace('"', '""')
    return '(map zb [%s])' % '; '.join(map(str, b))
def crunes(b):
    if ok_string(b): return '(runes "%s")' % b.decode().replace('"', '""')
    return '[%s]' % '; '.join(str(ord(c)) for c in b.decode())
def cz(n): return str(n) if n >= 0 else '(%d)' % n
def cbool(b): return 'true' if b else 'false'
def clist(l, nl=False): return '[' + (';\n   ' if nl else '; ').join(l) + ']'
def copt(x): return 'None' if x is None else '(Some %s)' % x

# --- Go values ----------------------------------------------------------------------------

CONSTS = {'math.MaxInt64': 2**63 - 1, 'math.MinInt64': -2**63, 'math.MaxInt32': 2**31 - 1, 'math.MinInt32': -2**31,
          'math.MaxInt16': 2**15 - 1, 'math.MinInt16': -2**15, 'math.MaxUint32': 2**32 - 1, 'math.MaxUint64': 2**64 - 1,
          'types.MaxColumnSize': 2**32 - 2, 'MaxIdentifier': 128}
env = {}
def num(e):
    k = e[0]
    if k == 'int' or k == 'rune': return e[1]
    if k == 'neg': return -num(e[1])
    if k == 'id' and e[1] in env: return num(env[e[1]])
    if k == 'id': return CONSTS[e[1]]
    if k == 'bin': return {'+': lambda a, b: a + b, '-': lambda a, b: a - b, '*': lambda a, b: a * b}[e[1]](num(e[2]), num(e[3]))
    raise ValueError(e)
def string(e):
    if e[0] == 'str': return e[1]
    if e[0] == 'call' and e[1] in ('strings.Repeat', 'bytes.Repeat'): return string(e[2][0]) * num(e[2][1])
    if e[0] == 'comp' and e[1] == '[]byte': return bytes(num(v) for _, v in e[2])
    if e[0] == 'call' and e[1] == '[]byte': return string(e[2][0])
    if e[0] == 'bin' and e[1] == '+': return string(e[2]) + string(e[3])
    if e == ('id', 'nil'): return b''
    raise ValueError(e)
def truth(e): return e == ('id', 'true')
def floatbits(e):
    if e[0] == 'neg': return floatbits(e[1]) ^ (1 << 63)
    if e[0] == 'float': return note_float(e[1])
    if e == ('call', 'math.NaN', []): return 0x7FF8000000000001
    return bits(float(num(e)))
def strip(e):
    while e[0] == 'addr': e = e[1]
    return env[e[1]] if e[0] == 'id' and e[1] in env else e
def fields(e, order=None):
    """The fields of a composite literal."""
    e = strip(e); d = {}
    for n, (k, v) in enumerate(e[2]): d[k[1] if k else order[n]] = v
    return d

def value(e):
    if e == ('id', 'nil') or e is None: return 'VNull'
    f, a = e[1].split('.')[-1], e[2][0] if e[2] else None
    if f in ('BoolValue', 'B'): return 'VBool ' + cbool(truth(a))
    if f in ('Int64Value', 'I'): return 'VInt ' + cz(num(a))
    if f in ('Float64Value', 'F'): return 'VFloat ' + str(note_bits(floatbits(a)))
    if f in ('StringValue', 'S'): return 'VString ' + cstr(string(a))
    if f == 'BytesValue': return 'VBytes ' + cstr(string(a))
    if f == 'Bytes': return 'VBytes ' + cstr(bytes(num(x) for x in e[2]))
    raise ValueError(e)
def note_bits(p):
    x = struct.unpack('<d', struct.pack('<Q', p))[0]
    if x == x: floats[p] = float_text(x)
    return p
def row(e):
    if e == ('id', 'nil'): return '[]'
    return clist([value(v) for _, v in strip(e)[2]])

def ident(e):
    if e is None: return '0'
    e = strip(e)
    if e[0] == 'int': return str(e[1])
    if e[0] == 'call' and e[1] in ('types.ID', 'ID'):
        s, q = string(e[2][0]), truth(e[2][1]); note_name((s, q)); return '(%s %s)' % ('quoted' if q else 'name', cstr(s))
    if e[0] == 'id' and e[1].startswith('types.'):
        s = e[1][6:].lower().encode(); note_name((s, False)); return '(name %s)' % cstr(s)
    raise ValueError(e)
def idents(e): return '[]' if e is None or e == ('id', 'nil') else clist([ident(v) for _, v in strip(e)[2]])
TYPES = {'types.' + t: t for t in ('UnknownType', 'BoolType', 'StringType', 'BytesType', 'Float64Type', 'Int64Type')}
KNOWN = ('IdColType', 'Int32ColType', 'Int64ColType', 'NullInt64ColType', 'BoolColType', 'StringColType', 'NullStringColType')
def coltype(e):
    e = strip(e)
    if e[0] == 'id' and e[1].split('.')[-1] in KNOWN: return 'ModelColumn.' + e[1].split('.')[-1]
    d = fields(e)
    return '{| ct_type := %s; ct_size := %d; ct_fixed := %s; ct_notnull := %s |}' % (
        TYPES[d['Type'][1]] if 'Type' in d else 'UnknownType', num(d['Size']) if 'Size' in d else 0,
        cbool(truth(d.get('Fixed'))), cbool(truth(d.get('NotNull'))))
def coltypes(e): return '[]' if e is None or e == ('id', 'nil') else clist([coltype(v) for _, v in strip(e)[2]])
def colkey(e): return '(MakeColumnKey %s %s)' % (cz(num(e[2][0])), cbool(truth(e[2][1])))
def colkeys(e): return '[]' if e is None or e == ('id', 'nil') else clist([colkey(v) for _, v in strip(e)[2]])
def tablename(e):
    d = fields(e) if e else {}
    return '{| tn_database := %s; tn_schema := %s; tn_table := %s |}' % tuple(ident(d.get(k)) for k in ('Database', 'Schema', 'Table'))
def schemaname(e):
    d = fields(e) if e else {}
    return '{| sn_database := %s; sn_schema := %s |}' % tuple(ident(d.get(k)) for k in ('Database', 'Schema'))

# --- statements ---------------------------------------------------------------------------

OPS = {'sql.' + o: o for o in 'AddOp AndOp BinaryAndOp BinaryOrOp ConcatOp DivideOp EqualOp GreaterEqualOp GreaterThanOp LessEqualOp LessThanOp LShiftOp ModuloOp MultiplyOp NegateOp NoOp NotEqualOp NotOp OrOp RShiftOp SubtractOp'.split()}
def expr(e):
    if e is None or e == ('id', 'nil'): return None
    e = strip(e)
    if e[0] == 'id' and e[1] in ('trueLiteral', 'falseLiteral', 'nilLiteral'):
        return '(Literal %s)' % {'t': '(VBool true)', 'f': '(VBool false)', 'n': 'VNull'}[e[1][0]]
    if e[0] == 'call' and e[1] == 'int64Literal': return '(Literal (VInt %s))' % cz(num(e[2][0]))
    if e[0] == 'call' and e[1] == 'stringLiteral': return '(Literal (VString %s))' % cstr(string(e[2][0]))
    t = e[1]
    if t == 'sql.Literal': return '(Literal (%s))' % value(e[2][0][1])
    if t == 'sql.Ref': return '(Ref %s)' % clist([ident(v) for _, v in e[2]])
    d = fields(e)
    if t == 'sql.SExpr': return '(SExpr %s %s)' % (ident(d['Name']), exprs(d.get('Args')))
    if t == 'sql.UnaryExpr': return '(UnaryExpr %s %s)' % (OPS[d['Op'][1]], expr(d['Expr']))
    if t == 'sql.BinaryExpr': return '(BinaryExpr %s %s %s)' % (OPS[d['Op'][1]], expr(d['Left']), expr(d['Right']))
    if t == 'sql.Subquery':
        return '(Subquery %s %s %s %s)' % (('ModelSql.' + d['Op'][1].split('.')[1]) if 'Op' in d else 'Scalar', OPS[d['ExprOp'][1]] if 'ExprOp' in d else 'AddOp',
                                           copt(expr(d.get('Expr'))), stmt(d['Stmt']))
    raise ValueError(e)
def exprs(e): return '[]' if e is None else clist([expr(v) for _, v in strip(e)[2]])
def optexprs(e):
    if e is None or e == ('id', 'nil'): return '[]'
    e = strip(e)
    if e[0] == 'call' and e[1] == 'make': return '(repeat None %d)' % num(e[2][1])
    return clist([copt(expr(v)) for _, v in e[2]])
def items(f, e): return '[]' if e is None or e == ('id', 'nil') else clist([f(v) for _, v in strip(e)[2]])
def indexkey(e):
    d = fields(e) if e else {}
    rev = clist([cbool(truth(v)) for _, v in strip(d['Reverse'])[2]]) if 'Reverse' in d else '[]'
    return '{| ik_unique := %s; ik_columns := %s; ik_reverse := %s |}' % (cbool(truth(d.get('Unique'))), idents(d.get('Columns')), rev)
def constraint(e):
    d = fields(e)
    return '{| con_type := %s; con_name := %s; con_colnum := %s; con_key := %s; con_check := %s |}' % (
        d['Type'][1].split('.')[1], ident(d.get('Name')), cz(num(d['ColNum'])) if 'ColNum' in d else '0', indexkey(d.get('Key')), copt(expr(d.get('Check'))))
def foreignkey(e):
    d = fields(e, ['ForeignKey'])
    act = lambda k: d[k][1].split('.')[1] if k in d else 'NoAction'
    return '{| fk_name := %s; fk_cols := %s; fk_ref := %s; fk_refcols := %s; fk_ondelete := %s; fk_onupdate := %s |}' % (
        ident(d.get('Name')), idents(d.get('FKCols')), tablename(d.get('RefTable')), idents(d.get('RefCols')), act('OnDelete'), act('OnUpdate'))
def action(e):
    e = strip(e)
    if e[1] == 'sql.AddForeignKey': return 'AddForeignKey %s' % foreignkey(e[2][0][1])
    d = fields(e)
    if 'Name' in d: return 'DropConstraint %s %s' % (ident(d['Name']), cbool(truth(d.get('IfExists'))))
    return 'DropColumnConstraint %s %s' % (ident(d['Column']), d['Type'][1].split('.')[1])
def update(e):
    d = fields(e, ['Column', 'Expr']); return '(%s, %s)' % (ident(d['Column']), copt(expr(d.get('Expr'))))
def options(e):
    return '[]' if e is None else clist(['(%s, %s)' % (ident(k), cstr(string(v))) for k, v in strip(e)[2]])
def result(e):
    d = fields(e)
    if strip(e)[1] == 'sql.TableResult': return 'TableResult %s' % ident(d['Table'])
    return 'ExprResult %s %s' % (expr(d['Expr']), ident(d.get('Alias')))
def orderby(e):
    d = fields(e); return '(%s, %s)' % (expr(d['Expr']), cbool(truth(d.get('Reverse'))))
JOINS = {'sql.Join': 'InnerJoin', 'sql.LeftJoin': 'LeftJoin', 'sql.RightJoin': 'RightJoin', 'sql.FullJoin': 'FullJoin', 'sql.CrossJoin': 'CrossJoin'}
def fromitem(e):
    if e is None or e == ('id', 'nil'): return None
    t = strip(e)[1]; d = fields(e)
    if t == 'sql.FromTableAlias': return '(FromTableAlias %s %s)' % (tablename(d['TableName']), ident(d.get('Alias')))
    if t == 'sql.FromIndexAlias': return '(FromIndexAlias %s %s %s)' % (tablename(d['TableName']), ident(d['Index']), ident(d.get('Alias')))
    if t == 'sql.FromStmt': return '(FromStmt %s %s %s)' % (stmt(d['Stmt']), ident(d.get('Alias')), idents(d.get('ColumnAliases')))
    if t == 'sql.FromJoin': return '(FromJoin %s %s %s %s %s)' % (fromitem(d['Left']), fromitem(d['Right']), JOINS[d['Type'][1]], copt(expr(d.get('On'))), idents(d.get('Using')))
    raise ValueError(e)
def stmt(e):
    t = strip(e)[1].split('.')[1]; d = fields(e); b = lambda k: cbool(truth(d.get(k)))
    if t in ('Begin', 'Commit', 'Rollback'): return 'S' + t
    if t == 'Set': return '(SSet %s %s)' % (ident(d['Variable']), cstr(string(d['Value'])))
    if t == 'Show': return '(SShow %s)' % ident(d['Variable'])
    if t == 'CreateTable':
        return '(SCreateTable %s %s %s %s %s %s %s)' % (tablename(d['Table']), idents(d.get('Columns')), coltypes(d.get('ColumnTypes')), optexprs(d.get('ColumnDefaults')),
            b('IfNotExists'), items(constraint, d.get('Constraints')), items(foreignkey, d.get('ForeignKeys')))
    if t == 'CreateIndex': return '(SCreateIndex %s %s %s %s)' % (ident(d['Index']), tablename(d['Table']), indexkey(d.get('Key')), b('IfNotExists'))
    if t == 'CreateDatabase': return '(SCreateDatabase %s %s)' % (ident(d['Database']), options(d.get('Options')))
    if t == 'DropDatabase': return '(SDropDatabase %s %s %s)' % (b('IfExists'), ident(d['Database']), options(d.get('Options')))
    if t == 'CreateSchema': return '(SCreateSchema %s)' % schemaname(d['Schema'])
    if t == 'DropSchema': return '(SDropSchema %s %s)' % (b('IfExists'), schemaname(d['Schema']))
    if t == 'AlterTable': return '(SAlterTable %s %s)' % (tablename(d['Table']), items(action, d.get('Actions')))
    if t == 'DropTable': return '(SDropTable %s %s %s)' % (b('IfExists'), b('Cascade'), items(tablename, d.get('Tables')))
    if t == 'DropIndex': return '(SDropIndex %s %s %s)' % (tablename(d['Table']), ident(d['Index']), b('IfExists'))
    if t == 'Delete': return '(SDelete %s %s)' % (tablename(d['Table']), copt(expr(d.get('Where'))))
    if t == 'InsertValues': return '(SInsertValues %s %s %s)' % (tablename(d['Table']), idents(d.get('Columns')), items(optexprs, d.get('Rows')))
    if t == 'Update': return '(SUpdate %s %s %s)' % (tablename(d['Table']), items(update, d.get('ColumnUpdates')), copt(expr(d.get('Where'))))
    if t == 'Values': return '(SValues %s)' % items(exprs, d.get('Expressions'))
    if t == 'Select':
        return '(SSelect %s %s %s %s %s %s)' % (copt(items(result, d['Results'])) if 'Results' in d else 'None', copt(fromitem(d.get('From'))), copt(expr(d.get('Where'))),
            exprs(d.get('GroupBy')), copt(expr(d.get('Having'))), items(orderby, d.get('OrderBy')))
    raise ValueError(t)

# --- files --------------------------------------------------------------------------------

class File:
    def __init__(self, name, imports, about):
        self.name = name
        self.out = ['(** %s\n\n    Written by tools/gotests.py from the test files of /repo. *)\n' % about, 'From Verif Require Import %s.' % imports,
                    'Import ListNotations.\nOpen Scope Z_scope.\n']
    def say(self, s): self.out.append(s)
    def check(self, where, name, lhs, rhs):
        self.say('(** [%s], %s. *)' % (name.split('_')[0], where))
        self.say('Example %s :\n  %s =\n  %s.\nProof. vm_compute. reflexivity. Qed.\n' % (name, lhs, rhs))
    def write(self):
        open(os.path.join(OUT, self.name + '.v'), 'w').write('\n'.join(self.out))

def where(f, func):
    src = read(f); i = src.index('func %s(' % func); a = src.count('\n', 0, i) + 1
    return '%s:%d-%d' % (f, a, a + func_body(src, func).count('\n') - 0)

def varint(n):
    out = []
    while n >= 128: out.append(n % 128 + 128); n //= 128
    return bytes(out + [n])

def types_file():
    f = File('CheckTypes', 'ModelBase ModelEncode ModelKey ModelValue ModelColumn ModelIdent ModelPrint ModelTestutil ModelColumnText LemmasDemo CheckBase',
             'The tests of encode and types, run on the model.')
    src = read('encode/encode_test.go')
    ns = [num(e) for e in table(src, 'TestEncodeVarint', 'numbers')]
    f.check(where('encode/encode_test.go', 'TestEncodeVarint'), 'TestEncodeVarint',
            'map (fun n => (EncodeVarint [] n, DecodeVarint (EncodeVarint [] n)))\n    %s' % clist(map(cz, ns)),
            clist(['(map zb %s, Some ([], %s))' % (clist(map(str, varint(n))), cz(n)) for n in ns], True))
    ns = [num(e) for e in table(src, 'TestEncodeZigzag64', 'numbers')]
    zig = lambda n: varint(2 * n if n >= 0 else -2 * n - 1)
    f.check(where('encode/encode_test.go', 'TestEncodeZigzag64'), 'TestEncodeZigzag64',
            'map (fun n => (EncodeZigzag64 [] n, DecodeZigzag64 (EncodeZigzag64 [] n)))\n    %s' % clist(map(cz, ns)),
            clist(['(map zb %s, Some ([], %s))' % (clist(map(str, zig(n))), cz(n)) for n in ns], True))
    v = variables(read('encode/key_test.go'), 'TestMakeKey')
    f.say('(** The values of [TestMakeKey], encode/key_test.go:30-100. *)')
    f.say('Definition key_values : row :=\n  %s.' % clist([value(x) for _, x in v['values'][2]], True))
    f.say('Definition key_reverse : row :=\n  %s.\n' % clist([value(x) for _, x in v['reverseValues'][2]], True))
    f.say('''(** [testMakeKey], encode/key_test.go:12-24. *)
Definition test_key (key : list Z) (values : row) (makeRow : value -> row) : bool :=
  (fix go (prev : bytes) (l : row) : bool :=
     match l with
     | [] => true
     | v :: l' => match MakeKey key (makeRow v) with
                  | Some buf => match bytes_compare prev buf with Lt => go buf l' | _ => false end
                  | None => false
                  end
     end) [] values.
''')
    f.check('encode/key_test.go:102-136', 'TestMakeKey', '''[test_key [MakeColumnKey 0 false] key_values (fun v => [v]);
   forallb (fun v0 => test_key [MakeColumnKey 1 false; MakeColumnKey 0 false] key_values (fun v1 => [v0; v1])) key_values;
   test_key [MakeColumnKey 0 true] key_reverse (fun v => [v]);
   forallb (fun v0 => test_key [MakeColumnKey 1 false; MakeColumnKey 0 true] key_values (fun v1 => [v0; v1])) key_reverse;
   forallb (fun v0 => test_key [MakeColumnKey 0 false; MakeColumnKey 1 true] key_reverse (fun v1 => [v0; v1])) key_values]''', '[true; true; true; true; true]')
    src = read('types/value_test.go')
    cs = table(src, 'TestValue')
    f.check(where('types/value_test.go', 'TestValue'), 'TestValue', 'map FormatValue\n  %s' % clist([value(c['val']) for c in cs] + ['VNull'], True),
            clist([cstr(string(c['s'])) for c in cs] + [cstr('NULL')], True))
    cs = table(src, 'TestCompare')
    f.check(where('types/value_test.go', 'TestCompare'), 'TestCompare', 'map (fun p => Compare (fst p) (snd p))\n  %s' % clist(['(%s, %s)' % (value(c['v1']), value(c['v2'])) for c in cs], True),
            clist(['Some ' + {-1: 'Lt', 0: 'Eq', 1: 'Gt'}[num(c['cmp'])] for c in cs]))
    cs = table(src, 'TestRow')
    f.check(where('types/value_test.go', 'TestRow'), 'TestRow', 'map rowString\n  %s' % clist([row(c['r']) for c in cs], True), clist([cstr(string(c['s'])) for c in cs], True))
    env.clear(); env.update(variables(src, 'TestConvertValue'))
    cs = table(src, 'TestConvertValue')
    f.say('''(** What a conversion gave, printed; an error is [None]. *)
Definition converted (r : res value) : option bytes := match r with Ok v => Some (FormatValue v) | _ => None end.
''')
    f.check(where('types/value_test.go', 'TestConvertValue'), 'TestConvertValue', 'map (fun p => converted (ConvertValue (fst p) (snd p)))\n  %s' % clist(['(%s, %s)' % (coltype(c['ct']), value(c['val'])) for c in cs], True),
            clist([copt(None if truth(c.get('fail')) else cstr(string(c['s']))) for c in cs], True))
    env.clear()
    cts = variables(src, 'TestConvertRow')['colTypes']
    cs = table(src, 'TestConvertRow')
    f.check(where('types/value_test.go', 'TestConvertRow'), 'TestConvertRow', 'map (fun r => match ConvertRow %s r with Ok r => Some (rowString r) | _ => None end)\n  %s' % (coltypes(cts), clist([row(c['r']) for c in cs], True)),
            clist([copt(None if truth(c.get('fail')) else cstr(string(c['s']))) for c in cs], True))
    src = read('types/value_test.go')
    f.check(where('types/value_test.go', 'TestValueType'), 'TestValueType', 'map valtypeString [BoolType; StringType; BytesType; Float64Type; Int64Type; UnknownType]',
            '[str "BOOL"; str "STRING"; str "BYTES"; str "DOUBLE"; str "INT"; str "UNKNOWN"]')
    src = read('types/column_test.go')
    cs = [c for c in table(src, 'TestColumnType') if not (dict((k[1], v) for k, v in c['ct'][2]).get('Type', ('', ''))[0] == 'int')]
    f.check(where('types/column_test.go', 'TestColumnType'), 'TestColumnType', 'map columnTypeString\n  %s' % clist([coltype(c['ct']) for c in cs], True),
            clist([copt(None if truth(c['p']) else cstr(string(c['s']))) for c in cs], True))
    src = read('types/identifier_test.go')
    cs = table(src, 'TestID')
    f.say('''(** Two names after another, from the first table. *)
Definition two_ids (c : bytes * bool * (bytes * bool)) : bool :=
  let '((s1, q1), (s2, q2)) := c in
  let '(t, id1) := ID idt_init s1 q1 in snd (ID t s2 q2) =? id1.
''')
    lit = lambda s, q: '(%s, %s)' % (cstr(string(s)), cbool(truth(q)))
    f.check(where('types/identifier_test.go', 'TestID'), 'TestID', 'map two_ids\n  %s' % clist(['(%s, %s)' % (lit(c['s1'], c['q1']), lit(c['s2'], c['q2'])) for c in cs], True),
            clist([cbool(truth(c['equal'])) for c in cs]))
    cs = table(src, 'TestString')
    f.check(where('types/identifier_test.go', 'TestString'), 'TestString', "map (fun c => let '(t, id) := ID idt_init (fst c) (snd c) in idString t id)\n  %s" % clist([lit(c['s'], c['q']) for c in cs], True),
            clist([cstr(string(c['r'])) for c in cs], True))
    cs = table(src, 'TestIsReserved')
    f.check(where('types/identifier_test.go', 'TestIsReserved'), 'TestIsReserved', 'map (fun c => IsReserved (snd (ID idt_init (fst c) (snd c))))\n  %s' % clist([lit(c['s'], c['q']) for c in cs], True),
            clist([cbool(truth(c['r'])) for c in cs]))
    cs = table(src, 'TestKnown')
    KN = {'CREATE': '(-17)', 'SYSTEM': '41', 'BIGINT': '1'}
    f.check(where('types/identifier_test.go', 'TestKnown'), 'TestKnown', "map (fun c => snd (ID idt_init (fst (fst c)) (snd (fst c))) =? constant (snd c))\n  %s" % clist(['(%s, %s)' % (lit(c['s'], c['q']), cstr(c['id'][1])) for c in cs], True),
            clist([cbool(truth(c['equal'])) for c in cs]))
    f.check(where('types/identifier_test.go', 'TestKeywords'), 'TestKeywords', 'forallb (fun k => bytes_eqb (fst k) (x_to_upper (fst k))) keywords', 'true')
    f.say('''(** [TestName], types/name_test.go:9-53. *)
Example TestName :
  let '(t, db) := ID idt_init (str "db") false in
  let '(t, scm) := ID t (str "scm") false in
  let '(t, tbl) := ID t (str "tbl") false in
  [tableString t {| tn_database := db; tn_schema := scm; tn_table := tbl |};
   schemaString t {| sn_database := db; sn_schema := scm |};
   tableString t {| tn_database := 0; tn_schema := scm; tn_table := tbl |};
   schemaString t {| sn_database := 0; sn_schema := scm |};
   tableString t {| tn_database := 0; tn_schema := 0; tn_table := tbl |}] =
  [str "db.scm.tbl"; str "db.scm"; str "scm.tbl"; str "scm"; str "tbl"].
Proof. vm_compute. reflexivity. Qed.
''')
    f.write()

def testutil_file():
    f = File('CheckTestutil', 'ModelBase ModelValue ModelColumn ModelIdent ModelPrint ModelTestutil LemmasDemo LemmasDemoTyped LemmasDemoScan CheckBase',
             'The tests of testutil, run on the model.')
    w = 'testutil/rows_test.go'; src = read(w)
    rows = variables(src, 'TestFormatRows')['rows']
    cs = table(src, 'TestFormatRows')
    f.check(where(w, 'TestFormatRows'), 'TestFormatRows', 'map (FormatRows %s) %s' % (items(row, rows), clist([cstr(string(c['sep'])) for c in cs])), clist([cstr(string(c['s'])) for c in cs], True))
    for c in table(src, 'TestRowsEqual'): note_texts(string(c['s1'])); note_texts(string(c['s2']))
    cs = table(src, 'TestRowsEqual')
    f.say('''(** [MustParseRows] of both, [RowsEqual]. *)
Definition rows_equal (c : list Z * list Z * bool) : option bool :=
  match ParseRows (fst (fst c)), ParseRows (snd (fst c)) with
  | Some r1, Some r2 => RowsEqual r1 r2 (snd c)
  | _, _ => None
  end.
''')
    f.check(where(w, 'TestRowsEqual'), 'TestRowsEqual', 'map rows_equal\n  %s' % clist(['(%s, %s, %s)' % (crunes(string(c['s1'])), crunes(string(c['s2'])), cbool(truth(c['unordered']))) for c in cs], True),
            clist(['Some ' + cbool(truth(c['eq'])) for c in cs]))
    w = 'testutil/parse_test.go'; src = read(w)
    cs = table(src, 'TestParseValue')
    for c in cs: note_texts(string(c['s']))
    texts['.'] = None
    f.check(where(w, 'TestParseValue'), 'TestParseValue', 'map (fun s => option_map fst (ParseValue s))\n  %s' % clist([crunes(string(c['s'])) for c in cs], True),
            clist([copt(None if truth(c.get('fail')) else '(%s)' % value(c.get('val'))) for c in cs], True))
    for t, fn, conv in (('TestParseRow', 'ParseRow', 'option_map (fun x => rowString (fst x))'), ('TestParseRows', 'ParseRows', 'option_map (fun x => FormatRows x (str ", "))')):
        cs = table(src, t)
        for c in cs: note_texts(string(c['s']))
        f.check(where(w, t), t, 'map (fun s => %s (%s s))\n  %s' % (conv, fn, clist([crunes(string(c['s'])) for c in cs], True)),
                clist([copt(None if truth(c.get('fail')) else cstr(string(c.get('r', c['s'])))) for c in cs], True))
    f.say('(** The names of the tests, registered. *)\nDefinition T : idtable := table_of util_names.\nDefinition name (s : bytes) : Z := snd (ID T s false).\n')
    at = len(f.out)
    del names[:]
    cs = table(src, 'TestParseIdentifier')
    f.check(where(w, 'TestParseIdentifier'), 'TestParseIdentifier', "map (fun s => option_map (fun x => fst (fst x)) (ParseIdentifier T s))\n  %s" % clist([crunes(string(c['s'])) for c in cs], True),
            clist([copt(None if truth(c.get('fail')) else ident(c['id'])) for c in cs], True))
    cs = table(src, 'TestParseIdentifiers')
    f.check(where(w, 'TestParseIdentifiers'), 'TestParseIdentifiers', "map (fun s => option_map fst (ParseIdentifiers T s))\n  %s" % clist([crunes(string(c['s'])) for c in cs], True),
            clist([copt(None if truth(c.get('fail')) else idents(c['ids'])) for c in cs], True))
    cs = table(src, 'TestParseColumns')
    f.check(where(w, 'TestParseColumns'), 'TestParseColumns', "map (fun s => option_map fst (ParseColumns T s))\n  %s" % clist([crunes(string(c['s'])) for c in cs], True),
            clist([copt(None if truth(c.get('fail')) else '(%s, %s, %s)' % (idents(c['cols']), coltypes(c['colTypes']), colkeys(c.get('key')))) for c in cs], True))
    f.out.insert(at - 1, '(** The names that occur. *)\nDefinition util_names : list (bytes * bool) :=\n  %s.\n' % clist(['(%s, %s)' % (cstr(s), cbool(q)) for s, q in names]))
    f.write()

TOKENS = ['EOF', 'EndOfStatement', 'Error', 'Identifier', 'Reserved', 'String', 'Bytes', 'Integer', 'Float', 'Parameter',
          'BarBar', 'LessLess', 'LessEqual', 'LessGreater', 'GreaterGreater', 'GreaterEqual', 'EqualEqual', 'BangEqual']
CHARS = dict(Comma=',', Dot='.', LParen='(', RParen=')', Minus='-', Plus='+', Star='*', Slash='/', Percent='%', Equal='=', Less='<', Greater='>', Ampersand='&', Bar='|', Bang='!')
def token(e):
    t = e[1].split('.')[-1]
    return -(TOKENS.index(t) + 1) if t in TOKENS else ord(CHARS[t])

def parser_names(f, at):
    f.out.insert(at, '(** The names that occur. *)\nDefinition all_names : list (bytes * bool) :=\n  %s.' % clist(['(%s, %s)' % (cstr(s), cbool(q)) for s, q in names]) +
                 '\n(** Registered before a test. *)\nDefinition T : idtable := table_of all_names.\nDefinition name (s : bytes) : Z := snd (ID T s false).\nDefinition quoted (s : bytes) : Z := snd (ID T s true).\n')

def scanner_file():
    f = File('CheckScanner', 'ModelBase ModelIdent ModelScanner ModelParser LemmasDemo LemmasDemoTyped LemmasDemoScan LemmasDemoParser CheckBase',
             'The tests of the scanner and of the tokens, run on the model.')
    w = 'parser/scanner/scanner_test.go'; src = read(w); wh = where(w, 'TestScan')
    f.say('''(** The first token of a text. *)
Definition first_token {A} (get : scanner -> sctx -> A) (text : list Z) : option A :=
  match Scan (scannerInit idt_init text) c_zero with Some (s, c) => Some (get s c) | None => None end.
''')
    cs = table(src, 'TestScan')
    for c in cs: note_texts(string(c['s']))
    f.check(wh, 'TestScan', 'map (first_token (fun _ => c_token))\n  %s' % clist([crunes(string(c['s'])) for c in cs], True), clist(['Some ' + cz(token(c['r'])) for c in cs]))
    cs = table(src, 'TestScan', 'string_cases')
    f.check(wh, 'TestScan_strings', 'map (first_token (fun _ c => (c_token c, c_string c)))\n  %s' % clist([crunes(string(c['s'])) for c in cs], True), clist(['Some (-6, %s)' % cstr(string(c['ret'])) for c in cs], True))
    cs = table(src, 'TestScan', 'bytes_cases')
    f.check(wh, 'TestScan_bytes', 'map (first_token (fun s c => (c_token c, b_look (s_buffer s) (c_bytes c))))\n  %s' % clist([crunes(string(c['s'])) for c in cs], True), clist(['Some (-7, %s)' % cstr(string(c['b'])) for c in cs], True))
    cs = table(src, 'TestScan', 'integers')
    f.check(wh, 'TestScan_integers', 'map (first_token (fun _ c => (c_token c, c_integer c)))\n  %s' % clist([crunes(string(c['s'])) for c in cs], True), clist(['Some (-8, %s)' % cz(num(c['n'])) for c in cs]))
    cs = table(src, 'TestScan', 'doubles')
    for c in cs: note_texts(string(c['s']))
    f.check(wh, 'TestScan_doubles', 'map (first_token (fun _ c => (c_token c, c_float c)))\n  %s' % clist([crunes(string(c['s'])) for c in cs], True), clist(['Some (-9, %s)' % cz(floatbits(c['n'])) for c in cs]))
    cs = table(src, 'TestScan', 'parameters')
    f.check(wh, 'TestScan_parameters', 'map (first_token (fun _ c => (c_token c, c_integer c)))\n  %s' % clist([crunes(string(c['s'])) for c in cs], True), clist(['Some (-10, %s)' % cz(num(c['n'])) for c in cs]))
    body = func_body(src, 'TestScan'); i = body.index('src := `') + 7
    text = Parser(body, i).expr()[1]
    f.check(wh, 'TestScan_source', 'demo_scans 5 (scannerInit idt_init %s)' % crunes(text), '[ShownName (-5) (str "CREATE"); ShownName (-4) (str "create"); ShownText (str "create"); ShownName (-4) (str "abcd"); Shown (-1)]')
    f.say('''(** [TestIsOpRune], parser/token/token_test.go:7-29. *)
Example TestIsOpRune :
  filter (fun r => IsOpRune r) (map Z.of_nat (seq 0 2000)) = [33; 37; 38; 42; 43; 45; 47; 60; 61; 62; 124] /\\
  forallb (fun o => let '(a, b, _) := o in IsOpRune a && IsOpRune b) operators = true.
Proof. vm_compute. repeat split. Qed.
''')
    w = 'parser/parser_test.go'; src = read(w); v = func_body(src, 'TestScan')
    text = Parser(v, v.index('s := `') + 5).expr()[1]; note_texts(text)
    toks = [token(x) for _, x in Parser(v, v.index('tokens := ') + 10).expr()[2]]
    f.say('''(** [scan] and [unscan] of the parser, one token after another; then with three
    tokens un-read before each. *)
Fixpoint scan_all (n : nat) (p : parser) : list Z :=
  match n with
  | O => []
  | S n' => match scanRune p with Some (p, _) => rune_of (p_tok p) :: scan_all n' p | None => [] end
  end.
Fixpoint scan_more (n : nat) (p : parser) : option (parser * list Z) :=
  match n with
  | O => Some (p, [])
  | S n' =>
      match scanRune p with
      | Some (p, _) => match scan_more n' p with Some (q, l) => Some (q, rune_of (p_tok p) :: l) | None => None end
      | None => None
      end
  end.
Fixpoint unscan_many (n : nat) (p : parser) : option parser :=
  match n with O => Some p | S n' => match unscan p with Some p => unscan_many n' p | None => None end end.
Fixpoint scan_back (n i : nat) (p : parser) : list (list Z) :=
  match n with
  | O => []
  | S n' =>
      match (if (lookBackAmount <=? i)%nat
             then match unscan_many lookBackAmount p with
                  | Some p => scan_more lookBackAmount p
                  | None => None
                  end
             else Some (p, [])) with
      | Some (p, l) => match scanRune p with Some (p, _) => (l ++ [rune_of (p_tok p)]) :: scan_back n' (S i) p | None => [] end
      | None => []
      end
  end.
''')
    f.check(where(w, 'TestScan'), 'TestParserScan', 'scan_all %d (newParser idt_init %s)' % (len(toks), crunes(text)), clist(map(cz, toks)))
    f.check(where(w, 'TestScan'), 'TestParserScan_back', 'scan_back %d 0 (newParser idt_init %s)' % (len(toks), crunes(text)),
            clist([clist(map(cz, (toks[i - 3:i] if i >= 3 else []) + [toks[i]])) for i in range(len(toks))], True))
    f.write()

def parser_file():
    f = File('CheckParser', 'ModelBase ModelIdent ModelSql ModelColumn ModelScanner ModelParser ModelPrint LemmasDemo LemmasDemoTyped LemmasDemoScan LemmasDemoParser CheckBase',
             'The tests of the parser, run on the model.')
    w = 'parser/parser_test.go'; src = read(w); del names[:]
    at = len(f.out)
    f.say('''(** What [Parse] returned for a text. *)
Definition first_stmt (text : list Z) : shown_ := hd GotStuck (demo_parses 1 (newParser T text)).
''')
    fs = table(src, 'TestParse', 'failed')
    f.check(where(w, 'TestParse'), 'TestParse', 'map first_stmt\n  %s' % clist([crunes(string(c)) for c in fs], True), clist(['GotError'] * len(fs)))
    for t in ['TestCreateTable', 'TestCreateIndex', 'TestInsertValues', 'TestSelect', 'TestValues', 'TestDelete', 'TestUpdate', 'TestCreateDatabase', 'TestAlterTable']:
        cs = table(src, t)
        f.check(where(w, t), t, 'map first_stmt\n  %s' % clist([crunes(string(c['s'])) for c in cs], True),
                clist(['GotError' if truth(c.get('fail')) else 'Got (Some %s)' % stmt(c['stmt']) for c in cs], True))
    cs = table(src, 'TestParseExpr'); fs = table(src, 'TestParseExpr', 'fails')
    f.say('''(** [ParseExpr], and the text of what it returned. *)
Definition expr_text (text : list Z) : option printed :=
  match ParseExpr (newParser T text) with Done e p => Some (exprString (s_ids (p_scanner p)) e) | _ => None end.
''')
    f.check(where(w, 'TestParseExpr'), 'TestParseExpr', 'map expr_text\n  %s' % clist([crunes(string(c['s'])) for c in cs] + [crunes(string(c)) for c in fs], True),
            clist(['Some (PText %s)' % cstr(string(c['expr'])) for c in cs] + ['None'] * len(fs), True))
    parser_names(f, at)
    f.write()

def sql_file():
    f = File('CheckSql', 'ModelBase ModelIdent ModelSql ModelColumn ModelParser ModelPrint LemmasDemo LemmasDemoTyped LemmasDemoScan CheckBase', 'The tests of the text of statements, run on the model.')
    del names[:]; at = len(f.out)
    for w, ts in (('parser/sql/query_test.go', ['TestInsert', 'TestValues', 'TestSelect', 'TestDelete', 'TestUpdate']),
                  ('parser/sql/datadef_test.go', ['TestCreateTable', 'TestDropTable', 'TestForeignKey', 'TestCreateIndex', 'TestCreateDatabase', 'TestCreateSchema', 'TestAlterTable', 'TestDropIndex', 'TestDropDatabase', 'TestDropSchema'])):
        src = read(w)
        for t in ts:
            env.clear(); env.update({k: v for k, v in variables(src, t).items() if k not in ('cases',)})
            cs = table(src, t)
            if t == 'TestForeignKey':
                f.check(where(w, t), t, 'map (fkString T)\n  %s' % clist([foreignkey(c['fk']) for c in cs], True), clist(['PText %s' % cstr(string(c['s'])) for c in cs], True))
            else:
                f.check(where(w, t), t, 'map (stmtString T)\n  %s' % clist([stmt(c['stmt']) for c in cs], True), clist(['PText %s' % cstr(string(c['s'])) for c in cs], True))
    env.clear()
    parser_names(f, at)
    f.write()

def predicate(e):
    if e is None: return 'None'
    d = fields(e); out = {}
    for k, f in (('boolPred', 'p_bool'), ('stringPred', 'p_string'), ('bytesPred', 'p_bytes'), ('float64Pred', 'p_float'), ('int64Pred', 'p_int')):
        if k not in d: out[f] = '(Some (fun _ => false))'; continue      # a nil function: never called
        t = ' '.join(d[k][1].split())
        m = re.search(r'return (.*) }$', t).group(1)
        if m.startswith('bytes.Compare'): out[f] = '(Some (fun x => bytes_eqb x %s))' % cstr(bytes(int(x, 8) for x in re.search(r'\{(.*?)\}', m).group(1).split(',')))
        else:
            a, b = m.split(' == ')
            if k == 'boolPred': out[f] = '(Some (fun x => Bool.eqb x %s))' % b
            if k == 'stringPred': out[f] = '(Some (fun x => bytes_eqb x %s))' % cstr(b.strip('"'))
            if k == 'float64Pred': out[f] = '(Some (fun x => x =? %d))' % note_float(b)
            if k == 'int64Pred': out[f] = '(Some (fun x => x =? %s))' % b
    return '(Some {| p_column := %d; %s |})' % (num(d['col']), '; '.join('%s := %s' % x for x in out.items()))
def must(e, one):
    if e[0] == 'call' and e[1].startswith('testutil.MustParseRow'):
        t = string(e[2][0]); note_texts(t); return '(%s %s)' % ('must_row' if one else 'must_rows', crunes(t))
    if e[0] == 'id': return e[1]
    raise ValueError(e)
def nums(e): return '[]' if e is None else clist([cz(num(v)) for _, v in strip(e)[2]])
def scase(e):
    t = e[1]; d = fields(e); b = lambda k: cbool(truth(d.get(k)))
    key = lambda k: 'None' if k not in d else '(Some %s)' % colkeys(d[k])
    lim = '%s %s %s' % tuple(['None' if k not in d else '(Some %s)' % must(d[k], True) for k in ('minRow', 'maxRow')] + [predicate(d.get('pred'))])
    cols = 'None' if 'cols' not in d else '(Some %s)' % nums(d['cols'])
    if t in ('OpenTable', 'CreateTable'): return 'T%s %d %s %s %s %s' % (t, num(d['tid']), idents(d.get('colNames')), coltypes(d.get('colTypes')), key('primary'), b('panicked'))
    if t == 'DropTable': return 'TDropTable %d %s' % (num(d['tid']), b('panicked'))
    if t == 'TableType': return 'TTableType %d %d %s %s %s' % (num(d['tid']), num(d['ver']), idents(d['colNames']), coltypes(d['colTypes']), key('key'))
    if t in ('Commit', 'Rollback'): return 'T%s %s' % (t, b('panicked'))
    if t == 'Rows': return 'TRows %s %s %s' % (cols, lim, b('fail'))
    if t == 'Update': return 'TUpdate %s %s %s %s' % (nums(d['cols']), row(d['vals']), b('fail'), b('panicked'))
    if t in ('Delete', 'Current', 'Close'): return 'T%s %s %s' % (t, b('fail'), b('panicked'))
    if t == 'Insert': return 'TInsert %s %s' % (must(d['rows'], False), b('fail'))
    if t == 'Next': return 'TNext %s %s %s %s' % (must(d['row'], True) if 'row' in d else '[]', b('fail'), b('eof'), b('panicked'))
    if t == 'Select': return 'TSelect %s %s %s %s' % (cols, lim, must(d['rows'], False), b('unordered'))
    if t == 'DeleteFrom': return 'TDeleteFrom %s' % lim
    if t == 'UpdateSet': return 'TUpdateSet %s %s' % (lim, 'negate')
    raise ValueError(t)

def storage_file():
    f = File('CheckStorage', 'ModelBase ModelIdent ModelColumn ModelStore ModelTestutil ModelStorageTest LemmasDemo LemmasDemoTyped LemmasDemoScan CheckBase',
             'The tests of the store, run on the model.')
    w = 'storage/test/table.go'; src = read(w); del names[:]
    at = len(f.out)
    f.say("""Definition must_row (text : list Z) : row := match ParseRow text with Some (r, _) => r | None => [] end.
Definition must_rows (text : list Z) : list row := match ParseRows text with Some l => l | None => [] end.

(** [st.Begin()] and [testStorage], one after another; that nothing is reported. *)
Fixpoint tests_pass (sh : shared) (l : list (list tcase)) : bool :=
  match l with
  | [] => negb (sh_locked sh)
  | cases :: l' =>
      if sh_locked sh then false
      else
        match testStorage ({| sh_heap := sh_heap sh; sh_tree := sh_tree sh; sh_locked := true; sh_idt := sh_idt sh |}, newTx sh) cases with
        | None => false
        | Some s => negb (ts_failed s) && tests_pass (fst (ts_state s)) l'
        end
  end.

(** The rows and the function of [TestTable], storage/test/table.go:1235-1243, 1281-1283,
    1288-1292, 1320-1325. *)
Definition table_rows : list row :=
  map (fun n => let n := Z.of_nat n in [VInt n; VBool (n mod 2 =? 0); VString []; VInt n]) (seq 1 19).
Definition negate (r : row) : list Z * list value := ([3], [match nth 3 r VNull with VInt i => VInt (- i) | v => v end]).
Definition table_rows_updated : list row :=
  map (fun r => match r with [a; VBool true; c; VInt i] => [a; VBool true; c; VInt (- i)] | r => r end) table_rows.
Definition table_rows_left : list row :=
  filter (fun r => match r with [_; VBool b; _; _] => b | _ => false end) table_rows_updated.
""")
    glob = {}
    for m in re.finditer(r'^\t(col\d) = ', src, re.M): glob[m.group(1)] = Parser(src, m.end()).expr()
    CONSTS['storage.EngineTableId'] = 16
    for t in ('TestCreateTable', 'TestDropTable', 'TestInsert', 'TestRows', 'TestDelete', 'TestUpdate', 'TestTable'):
        body = func_body(src, t)
        env.clear(); env.update(glob); env.update(variables(src, t))
        runs = []; seen = 0
        for m in re.finditer(r'testStorage\(t, st\.Begin\(\), ', body):
            e = Parser(body, m.end()).expr()
            cs = [scase(v) for _, v in e[2]]
            if t == 'TestTable':          # rows is assigned to in between
                if 'UpdateSet' in str(e): seen = 1
                cs = [re.sub(r'\brows\b', ['table_rows', 'table_rows_updated', 'table_rows_left'][seen], c) for c in cs]
                if 'DeleteFrom' in str(e): seen = 2
            runs.append(clist(cs, True))
        f.check(where(w, t), t, 'tests_pass (w_sh (newStore T))\n  %s' % clist(['\n   ' + r for r in runs], True), 'true')
    env.clear()
    parser_names(f, at)
    f.write()

def mustidents(e):
    out = []
    for n in string(e[2][0]).decode().split(','):
        n = n.strip().encode(); note_name((n, False)); out.append('name %s' % cstr(n))
    return clist(out)
def columns(e):
    """MustParseColumns"""
    t = string(e[2][0])
    for c in t.decode().split(','): note_name((c.split()[0].encode(), False))
    return '(columns %s)' % crunes(t)
def engine_file():
    f = File('CheckEngine', 'ModelBase ModelIdent ModelColumn ModelStore ModelTestutil ModelTyped ModelEngine LemmasDemo LemmasDemoTyped LemmasDemoScan LemmasDemoEngine CheckBase',
             'The tests of the engine, run on the model.')
    w = 'engine/engine_test.go'; src = read(w); del names[:]; at = len(f.out)
    f.say("""(** The store after [Init]: [newEngine], engine/engine_test.go:59-73. *)
Definition made_infos := exec (newStore T) 0 makeInfos.
Definition no_info : typedinfo :=
  {| ti_typ := sequencesType; ti_tid := 0; ti_tn := systemTable 0; ti_cols := []; ti_types := []; ti_primary := []; ti_flds := [] |}.
Definition infos : einfos :=
  match fst (fst made_infos) with
  | Ok i => i
  | _ => {| i_sequences := no_info; i_databases := no_info; i_schemas := no_info; i_tables := no_info |}
  end.
Definition new_engine : eout * eworld := Init infos {| e_w := snd (fst made_infos); e_next := 0; e_txs := [] |}.

(** [TestInit], engine/init_test.go:9-20. *)
Example TestInit : fst new_engine = EDone.
Proof. vm_compute. reflexivity. Qed.

(** What a test wants of a call. *)
Inductive wanted := Fine | Fails | Names (l : list Z) | Table (tid : Z) (cols : list Z) (types : list coltype) (key : list Z).
Definition columns (text : list Z) : list Z * list coltype * list Z :=
  match ParseColumns T text with Some (c, _) => c | None => ([], [], []) end.
Fixpoint insert_Z (x : Z) (l : list Z) : list Z := match l with [] => [x] | y :: l' => if x <=? y then x :: l else y :: insert_Z x l' end.
Definition sort_Z (l : list Z) : list Z := fold_right insert_Z [] l.
Definition as_wanted (o : eout) (w : wanted) : bool :=
  match o, w with
  | EDone, Fine => true
  | EErr _, Fails => true
  | ENames l, Names l' => list_eqb Z.eqb (sort_Z l) (sort_Z l')
  | ETable tid ty, Table tid' cols types key =>
      (tid =? tid') && list_eqb Z.eqb (ett_cols ty) cols && list_eqb coltype_eqb (ett_types ty) types && list_eqb Z.eqb (ett_key ty) key
  | _, _ => false
  end.
Fixpoint engine_test (s : eworld) (l : list (ecall * wanted)) : list bool :=
  match l with
  | [] => []
  | (c, w) :: l' => let '(o, s) := estep infos s c in as_wanted o w :: engine_test s l'
  end.
Definition table_wanted (tid : Z) (c : list Z * list coltype * list Z) : wanted := let '(cols, types, key) := c in Table tid cols types key.
Definition create (k : nat) (tn : tablename) (c : list Z * list coltype * list Z) : ecall := let '(cols, types, key) := c in ECreateTable k tn cols types key.
""")
    cs = []
    for _, e in variables(src, 'TestDatabase')['cases'][2]:
        d = fields(e); res = 'Fails' if truth(d.get('fail')) else 'Fine'
        if e[1] == 'createDatabase': cs.append('(ECreateDatabase %s [], %s)' % (ident(d['dn']), res))
        if e[1] == 'dropDatabase': cs.append('(EDropDatabase %s %s, %s)' % (ident(d['dn']), cbool(truth(d.get('ifExists'))), res))
        if e[1] == 'listDatabases': cs.append('(EListDatabases, Names %s)' % mustidents(d['databases']))
    f.check(where(w, 'TestDatabase'), 'TestDatabase', 'forallb (fun b => b) (engine_test (snd new_engine)\n  %s)' % clist(cs, True), 'true')
    for t in ('TestSchema', 'TestTable'):
        body = func_body(src, t); cs = []; k = -1; cols = {}
        for m in re.finditer(r'colNames(\d), colTypes\d, primary\d := ', body): cols['colNames' + m.group(1)] = columns(Parser(body, m.end()).expr())
        for m in re.finditer(r'testEngine\(t, eng\.Begin\(\), ', body):
            k += 1; cs.append('(EBegin, Fine)')
            for _, e in Parser(body, m.end()).expr()[2]:
                d = fields(e); res = 'Fails' if truth(d.get('fail')) else 'Fine'
                if e[1] in ('createSchema', 'dropSchema'): sn = fields(d['sn']); sn = ident(sn['Database']) + ' ' + ident(sn['Schema'])
                if e[1] == 'createSchema': cs.append('(ECreateSchema %d %s, %s)' % (k, sn, res))
                elif e[1] == 'dropSchema': cs.append('(EDropSchema %d %s %s, %s)' % (k, sn, cbool(truth(d.get('ifExists'))), res))
                elif e[1] == 'listSchemas': cs.append('(EListSchemas %d %s, %s)' % (k, ident(d['dn']), res if res == 'Fails' else 'Names ' + mustidents(d['schemas'])))
                elif e[1] == 'createTable': cs.append('(create %d %s %s, %s)' % (k, tablename(d['tn']), cols[d['colNames'][1]], res))
                elif e[1] == 'openTable': cs.append('(EOpenTable %d %s, %s)' % (k, tablename(d['tn']), res if res == 'Fails' else 'table_wanted %d %s' % (num(d['tid']), cols[d['colNames'][1]])))
                else: cs.append('(%s %d, Fine)' % ({'commit': 'ECommit', 'rollback': 'ERollback'}[e[1]], k))
        f.check(where(w, t), t, 'forallb (fun b => b) (engine_test (snd new_engine)\n  %s)' % clist(cs, True), 'true')
    env.clear(); CONSTS['maxReservedTableId'] = 511
    w = 'engine/tableid_test.go'; src = read(w); cs = []; k = -1; tids = []
    for _, e in variables(src, 'TestNextTableId')['cases'][2]:
        if e[1] == 'begin': k += 1; cs.append('inl EBegin')
        elif e[1] == 'nextTableId': cs.append('inr %d%%nat' % k); tids.append(num(fields(e)['tid'][2][0]))
        else: cs.append('inl (%s %d)' % ({'commit': 'ECommit', 'rollback': 'ERollback'}[e[1]], k))
    f.say("""Fixpoint next_ids (s : eworld) (l : list (ecall + nat)) : list eout :=
  match l with
  | [] => []
  | inl c :: l' => let '(o, s) := estep infos s c in (match o with EDone => [] | o => [o] end) ++ next_ids s l'
  | inr k :: l' => let '(o, s) := inTx s k (nextTableId infos) (fun i => ENames [i]) in o :: next_ids s l'
  end.
""")
    f.check(where(w, 'TestNextTableId'), 'TestNextTableId', 'next_ids (snd new_engine)\n  %s' % clist(cs, True), clist(['ENames [%d]' % i for i in tids]))
    parser_names(f, at)
    f.write()

KINDS = {'int': 'KInt', 'int8': 'KInt8', 'int16': 'KInt16', 'int32': 'KInt32', 'int64': 'KInt64', 'bool': 'KBool', 'string': 'KString', 'float64': 'KFloat64', '[]byte': 'KBytes'}
def structtype(text):
    """The fields of a struct type as it is written."""
    out = []
    for l in re.split(r'[;\n]', text):
        m = re.match(r'\s*(\w+)\s+([^\s`]+)\s*(`.*`)?\s*$', l)
        if not m: continue
        tag = re.search(r'maho:"([^"]*)"', m.group(3) or '')
        t = m.group(2); p = t.startswith('*'); k = KINDS.get(t.lstrip('*'), 'KOther')
        if p and k == 'KBytes': k = 'KOther'
        out.append('{| fd_name := runes "%s"; fd_tag := %s; fd_type := %s %s |}' % (m.group(1), cstr(tag.group(1) if tag else ''), 'FTPtr' if p else 'FTBase', k))
    return clist(out)
def typed_file():
    f = File('CheckTyped', 'ModelBase ModelIdent ModelColumn ModelStore ModelTestutil ModelTyped ModelEngine LemmasDemo LemmasDemoTyped LemmasDemoScan LemmasDemoEngine CheckBase',
             'The tests of typed tables, run on the model.')
    w = 'engine/typedinfo_test.go'; src = read(w); del names[:]; at = len(f.out)
    body = func_body(src, 'TestMakeTypedTableInfo')
    types_ = []; want = []
    pos = body.index('cases := []struct'); pos = body.index('}{', pos)
    for m in re.finditer(r'row: (&?)(struct ?\{(.*?)\}\{\}|(\w+Row)\{\})(,?.*?)\n\t\t\}?(?=[,{}\n\t])', body[pos:], re.S):
        text = m.group(3) if m.group(3) is not None else {'sequencesRow': 'sequencesType', 'tablesRow': 'tablesType'}[m.group(4)]
        types_.append(structtype(text) if m.group(3) is not None else 'st_fields ' + text)
        rest = body[pos + m.end(2):]
        nxt = rest.find('row: '); rest = rest[:nxt] if nxt >= 0 else rest
        if 'panicked: true' in rest.split('ti:')[0]: want.append('None'); continue
        if '&TypedInfo{}' in rest: want.append('Some ([], [], [], [])'); continue
        e = Parser(rest, rest.index('&TypedInfo')).expr(); d = fields(e)
        want.append('Some (%s, %s, %s, %s)' % (idents(d['colNames']), coltypes(d['colTypes']), colkeys(d.get('primary')), clist(['runes "%s"' % string(x).decode() for _, x in d['fldNames'][2]])))
    f.say("""(** What [MakeTypedInfo] makes of a struct; [None] is a panic. *)
Definition made_info (l : list field) : option (list Z * list coltype * list Z * list (list Z)) :=
  match fst (fst (exec (newStore T) 0 (MakeTypedInfo 2048 (systemTable 0) {| st_name := []; st_fields := l |}))) with
  | Ok ti => Some (ti_cols ti, ti_types ti, ti_primary ti, ti_flds ti)
  | _ => None
  end.
""")
    f.check(where(w, 'TestMakeTypedTableInfo'), 'TestMakeTypedTableInfo', 'map made_info\n  %s' % clist(types_, True), clist(want, True))
    w = 'engine/typedtable_test.go'; src = read(w)
    m = re.search(r'type typedRow struct \{(.*?)\n\}', src, re.S)
    f.say('(** [typedRow], engine/typedtable_test.go:276-283. *)\nDefinition typedRow : stype :=\n  {| st_name := str "typedRow"; st_fields :=\n  %s |}.\n' % structtype(m.group(1)))
    f.say("""Definition typed_row (c0 : Z) (c1 : bool) (c2 : bytes) (c3 : option bytes) (c4 : Z) (c5 : option Z) : gostruct :=
  {| gs_type := str "typedRow"; gs_fields := [FInt KInt c0; FBool c1; FString c2; FBytes c3; FFloat KFloat64 c4; FPtr KInt64 (option_map (FInt KInt64) c5)] |}.

(** [makeTypedInfo], engine/typedtable_test.go:20-24. *)
Definition typed_made := exec (newStore T) 0 (MakeTypedInfo 2048 {| tn_database := name (str "d"); tn_schema := name (str "s"); tn_table := name (str "t") |} typedRow).
Definition info : typedinfo :=
  match fst (fst typed_made) with
  | Ok ti => ti
  | _ => {| ti_typ := typedRow; ti_tid := 0; ti_tn := systemTable 0; ti_cols := []; ti_types := []; ti_primary := []; ti_flds := [] |}
  end.

(** The cases, engine/typedtable_test.go:271-319. *)
Inductive ycase :=
  | YCreate | YInsert (rows : list gostruct) (fails : bool) | YLookup (st want : gostruct) (fails : bool)
  | YSelect (minSt maxSt : option gostruct) (rows : list gostruct) | YUpdate (update : gostruct -> upstruct) | YDelete (minSt maxSt : option gostruct)
  | YCommit | YRollback.
Definition is_ok {A} (r : res A) : bool := match r with Ok _ => true | _ => false end.
Definition is_err {A} (r : res A) : bool := match r with Err _ => true | _ => false end.
Definition zero_row : gostruct := typed_row 0 false [] None 0 None.
Definition o_eqb {A} (e : A -> A -> bool) (a b : option A) : bool := match a, b with Some a, Some b => e a b | None, None => true | _, _ => false end.
Definition kind_eqb (a b : kind) : bool := bytes_eqb (kindName a) (kindName b).
Fixpoint fval_eqb (a b : fval) : bool :=
  match a, b with
  | FBool a, FBool b => Bool.eqb a b
  | FInt j a, FInt k b | FFloat j a, FFloat k b => kind_eqb j k && (a =? b)
  | FString a, FString b => bytes_eqb a b
  | FBytes a, FBytes b => o_eqb bytes_eqb a b
  | FPtr j a, FPtr k b => kind_eqb j k && match a, b with Some a, Some b => fval_eqb a b | None, None => true | _, _ => false end
  | _, _ => false
  end.
Definition struct_eqb (a b : gostruct) : bool := list_eqb fval_eqb (gs_fields a) (gs_fields b).
Definition to_struct (r : row) : gostruct := match RowToStruct info r zero_row with Ok g => g | _ => zero_row end.

(** [testTypedTables], engine/typedtable_test.go:321-411, with one transaction. *)
Fixpoint insert_all (w : world) (x : nat) (l : list gostruct) (fails : bool) : bool * world :=
  match l with
  | [] => (true, w)
  | g :: l' =>
      let '(r, w, _) := exec w x (TypedTableInsert info [Some g]) in
      let '(b, w) := insert_all w x l' fails in
      ((if fails then is_err r else is_ok r) && b, w)
  end.
Definition typed_case (w : world) (x : nat) (c : ycase) : bool * world :=
  match c with
  | YCreate => let '(r, w, _) := exec w x (CreateTypedTable info) in (is_ok r, w)
  | YInsert l fails => insert_all w x l fails
  | YLookup st want fails =>
      let '(r, w, _) := exec w x (TypedTableLookup info st) in
      (match r with Ok (g, None) => negb fails && struct_eqb g want | Ok (_, Some _) => fails | _ => false end, w)
  | YSelect mn mx rows =>
      let '(r, w, _) := exec w x (TypedTableSelect info mn mx (fun l r => pret (l ++ [to_struct r], None)) []) in
      (match r with Ok (l, None) => list_eqb struct_eqb l rows | _ => false end, w)
  | YUpdate f =>
      let '(r, w, _) := exec w x (TypedTableUpdate info None None (fun (_ : unit) r => pret (tt, inl (Some (f (to_struct r))))) tt) in
      (match r with Ok (_, None) => true | _ => false end, w)
  | YDelete mn mx =>
      let '(r, w, _) := exec w x (TypedTableDelete info mn mx (fun (_ : unit) r => pret (tt, inl true)) tt) in
      (match r with Ok (_, None) => true | _ => false end, w)
  | YCommit => let '(o, w) := step w (Call x CCommit) in (match o with ODone => true | _ => false end, w)
  | YRollback => let '(o, w) := step w (Call x CRollback) in (match o with ODone => true | _ => false end, w)
  end.
Fixpoint typed_cases (w : world) (x : nat) (l : list ycase) : bool * world :=
  match l with
  | [] => (true, w)
  | c :: l' => let '(b, w) := typed_case w x c in let '(b', w) := typed_cases w x l' in (b && b', w)
  end.
Fixpoint typed_tests (w : world) (x : nat) (l : list (list ycase)) : bool :=
  match l with
  | [] => true
  | cs :: l' =>
      match step w (Begin x) with
      | (ODone, w) => let '(b, w) := typed_cases w x cs in b && typed_tests w (S x) l'
      | _ => false
      end
  end.

(** The function of [TestTypedUpdate], engine/typedtable_test.go:154-175. *)
Definition ten_times (i : Z) : Z := nth (Z.to_nat i) [0; %s] 0.
Definition typed_update (g : gostruct) : upstruct :=
  let i := intField g 0 in
  if i mod 2 =? 0
  then [(runes "C1", FBool true); (runes "C2", FString (format_int i)); (runes "C4", FFloat KFloat64 (ten_times i))]
  else [(runes "C3", FBytes (Some (repeat (zb i) 3))); (runes "C5", FPtr KInt64 (Some (FInt KInt64 (i * 10))))].
""" % '; '.join(str(bits(float(10 * i))) for i in range(1, 6)))
    for n in (b'd', b's', b't'): note_name((n, False))
    def ptr(e): return e[2][0] if e else None
    def trow(e):
        d = fields(e)
        return 'typed_row %s %s %s %s %s %s' % (cz(num(d['C0'])) if 'C0' in d else '0', cbool(truth(d.get('C1'))), cstr(string(d['C2'])) if 'C2' in d else '[]',
            '(Some %s)' % cstr(string(d['C3'])) if 'C3' in d else 'None', str(floatbits(d['C4'])) if 'C4' in d else '0', '(Some %s)' % cz(num(ptr(d['C5']))) if 'C5' in d else 'None')
    for t in ('TestTypedTable', 'TestTypedUpdate', 'TestTypedDelete'):
        body = func_body(src, t); v = variables(src, t); runs = []
        rows = [trow(x) for _, x in v['rows'][2]] if 'rows' in v else []
        def trows(text):
            text = text.strip()
            m = re.match(r'rows\[(\d?):(\d?)\]|rows$', text)
            if m: return clist(rows[int(m.group(1) or 0):int(m.group(2) or len(rows))])
            return clist([trow(x) for _, x in Parser(text, 0).expr()[2]])
        for m in re.finditer(r'testTypedTables\(t, store\.Begin\(\),\s*\[\]interface\{\}\{(.*?)\n\t\t\}\)', body, re.S):
            cs = []
            for c in re.split(r'\n\t\t\t(?=\w)', '\n' + m.group(1).replace('\n\t\t\t', '\n\t\t\t', 1)):
                c = c.strip()
                if not c: continue
                k = re.match(r'\w+', c).group()
                g = lambda key: re.search(r'\b%s:\s+' % key, c)
                lim = ' '.join('(Some (%s))' % trow(Parser(c, g(key).end()).expr()) if g(key) else 'None' for key in ('minSt', 'maxSt'))
                rowtext = lambda: trows(c[g('rows').end():] if 'rows[' not in c and not re.search(r'rows:\s+rows,', c) else re.search(r'rows:\s+(rows[^,]*),', c).group(1))
                fail = cbool('fail: true' in c)
                if k == 'createTypedTable': cs.append('YCreate')
                elif k == 'typedTableInsert': cs.append('YInsert %s %s' % (rowtext(), fail))
                elif k == 'typedTableSelect': cs.append('YSelect %s %s' % (lim, rowtext() if g('rows') else '[]'))
                elif k == 'typedTableDelete': cs.append('YDelete %s' % lim)
                elif k == 'typedTableUpdate': cs.append('YUpdate typed_update')
                elif k == 'typedTableLookup':
                    wnt = re.search(r'want: rows\[(\d)\]', c)
                    cs.append('YLookup (%s) (%s) %s' % (trow(Parser(c, g('st').end()).expr()), rows[int(wnt.group(1))] if wnt else 'zero_row', fail))
                elif k == 'commit': cs.append('YCommit')
                elif k == 'rollback': cs.append('YRollback')
                else: raise ValueError(c)
            runs.append(clist(cs, True))
        f.check(where(w, t), t, 'typed_tests (snd (fst typed_made)) 0\n  %s' % clist(['\n   ' + r for r in runs], True), 'true')
    parser_names(f, at)
    f.write()

def base_file():
    f = File('CheckBase', 'ModelBase ModelValue ModelIdent ModelStore ModelParser ModelPrint ModelTestutil LemmasDemo LemmasDemoTyped LemmasDemoScan', 'What the tests of /repo use: floats as they are read and printed, and tables of names.')
    f.say('''(** The floats of the tests, as Go reads and prints them. *)
Definition float_texts : list (bytes * Z) :=
  %s.
Definition float_prints : list (Z * bytes) :=
  %s.
''' % (clist(['(%s, %d)' % (cstr(t), p) for t, p in sorted(texts.items()) if p is not None], True), clist(['(%d, %s)' % (p, cstr(t)) for p, t in sorted(floats.items())], True)))
    f.say('''Definition print_of (p : Z) : bytes := match lookup_Z float_prints p with Some s => s | None => str "?" end.

#[global] Instance go_X : FloatLib := {|
  x_format_float := print_of;
  x_parse_float := lookup_bytes float_texts;
  x_float_to_int := fun _ => 0
|}.
#[global] Instance go_P : PrintLib := {| x_print_float := print_of |}.
#[global] Existing Instances demo_L demo_U demo_G.

(** Insertion sort with [CompareRows]. *)
Fixpoint insert_row (r : row) (l : list row) : list row :=
  match l with
  | [] => [r]
  | r' :: l' => match CompareRows r r' with Some Gt => r' :: insert_row r l' | _ => r :: l end
  end.
#[global] Instance go_S : SortLib := {| x_sort := fold_right insert_row [] |}.

(** A table with some names registered. *)
Definition table_of (l : list (bytes * bool)) : idtable := fold_left (fun t n => fst (ID t (fst n) (snd n))) l idt_init.

(** The identifiers that are constants of package types, by their names. *)
Definition constant (s : bytes) : Z :=
  match lookup_bytes keywords s with
  | Some id => id
  | None => match lookup_bytes identifiers0 (x_to_lower s) with Some id => id | None => 0 end
  end.
''')
    f.write()

if __name__ == '__main__':
    types_file(); testutil_file(); scanner_file(); parser_file(); sql_file(); storage_file(); engine_file(); typed_file(); base_file()
