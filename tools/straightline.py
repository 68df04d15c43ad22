#!/usr/bin/env python3
"""Copies the straight-line functions of kyber's edwards25519 into
rocq/theories/LimbCode.v, statement by statement (syntax only, see
GoIntModel.v).  Usage: straightline.py /repo > LimbCode.v"""
import re, sys

DIR = '/vendor/go.dedis.ch/kyber/v3/group/edwards25519/'
FUNCS = [  # file, Go name, Coq name, types of the parameters
    ('fe.go', 'feFromBytes', 'feFromBytes', {'dst': 'I32', 'src': 'U8'}),
    ('fe.go', 'feToBytes', 'feToBytes', {'s': 'U8', 'h': 'I32'}),
    ('fe.go', 'feMul', 'feMul', {'h': 'I32', 'f': 'I32', 'g': 'I32'}),
    ('fe.go', 'feSquare', 'feSquare', {'h': 'I32', 'f': 'I32'}),
    ('fe.go', 'feSquare2', 'feSquare2', {'h': 'I32', 'f': 'I32'}),
    ('scalar.go', 'scAdd', 'scAdd', {'s': 'U8', 'a': 'U8', 'c': 'U8'}),
    ('scalar.go', 'scSub', 'scSub', {'s': 'U8', 'a': 'U8', 'c': 'U8'}),
    ('scalar.go', 'scMul', 'scMul', {'s': 'U8', 'a': 'U8', 'b': 'U8'}),
]
W = {'I32': '_32', 'I64': '_64'}
TOK = re.compile(r'\s*(<<|>>|\d+|[A-Za-z_]\w*|[-+*&|()\[\]:,])')


class Parser:
    def __init__(self, text, types):
        self.t = TOK.findall(text)
        assert ''.join(self.t) == re.sub(r'\s', '', text), text
        self.i, self.types = 0, types

    def peek(self):
        return self.t[self.i] if self.i < len(self.t) else None

    def eat(self, x=None):
        y = self.t[self.i]
        assert x is None or x == y, (x, y, self.t)
        self.i += 1
        return y

    def sum(self):
        a = self.product()
        while self.peek() in ('+', '-', '|'):
            op = self.eat()
            a = (op, a, self.product())
        return a

    def product(self):
        a = self.atom()
        while self.peek() in ('*', '<<', '>>', '&'):
            op = self.eat()
            a = (op, a, self.atom())
        return a

    def atom(self):
        x = self.eat()
        if x == '(':
            e = self.sum()
            self.eat(')')
            return e
        if x.isdigit():
            return ('lit', int(x))
        if self.peek() == '(':  # int32(..), int64(..), byte(..), load3(..), load4(..)
            self.eat()
            if x in ('load3', 'load4'):
                arr = self.eat()
                self.eat('[')
                off = int(self.eat()) if self.peek() != ':' else 0
                self.eat(':')
                self.eat(']')
                self.eat(')')
                assert self.types[arr] == 'U8'
                return (x, arr, off)
            e = self.sum()
            self.eat(')')
            return ('conv', {'int32': 'I32', 'int64': 'I64', 'byte': 'U8'}[x], e)
        if self.peek() == '[':
            self.eat()
            n = self.eat()
            self.eat(']')
            assert n.isdigit()
            return ('var', x + '[' + n + ']', self.types[x])
        return ('var', x, self.types[x])


def typ(e):
    k = e[0]
    if k == 'var':
        return e[2]
    if k == 'lit':
        return None
    if k == 'conv':
        return e[1]
    if k in ('load3', 'load4'):
        return 'I64'
    if k in ('<<', '>>'):
        return typ(e[1])
    a, b = typ(e[1]), typ(e[2])
    assert a is None or b is None or a == b, e
    return a or b


def emit(e, t, top=False):
    """t is the type of the context, taken by untyped constants"""
    k = e[0]
    t = typ(e) or t
    if k == 'var':
        return '"%s"' % e[1]
    if k == 'lit':
        return str(e[1])
    if k == 'conv':
        return '%s %s' % (e[1].lower(), paren(e[2], typ(e[2]) or e[1]))
    if k in ('load3', 'load4'):
        s = k + ' ' + ' '.join('"%s[%d]"' % (e[1], e[2] + i) for i in range(int(k[4])))
        return s if top else '(' + s + ')'
    if k in ('<<', '>>'):
        assert e[2][0] == 'lit'
        s = '%s %s %d' % (paren(e[1], t), '>>' if k == '>>' else '<<' + W[t], e[2][1])
    elif k in ('&', '|'):
        s = '%s %s %s' % (paren(e[1], t), {'&': '&', '|': '||'}[k], paren(e[2], t))
    else:
        left = emit(e[1], t, True) if k in '+-' and e[1][0] in '+-*' else paren(e[1], t)
        right = emit(e[2], t, True) if k in '+-' and e[2][0] == '*' else paren(e[2], t)
        s = '%s %s%s %s' % (left, k, W[t], right)
    return s if top else '(' + s + ')'


def paren(e, t):
    s = emit(e, t)
    return '(' + s + ')' if e[0] == 'conv' else s


def function(repo, file, name, types):
    lines = open(repo + DIR + file).read().split('\n')
    start = next(i for i, l in enumerate(lines) if l.startswith('func %s(' % name))
    out, i, types = [], start + 1, dict(types)
    comment = False
    while lines[i] != '}':
        l = re.sub(r'/\*.*?\*/|//.*', '', lines[i]).strip()
        i += 1
        if comment or l.startswith('/*'):
            comment = '*/' not in l
            continue
        if not l:
            continue
        m = re.fullmatch(r'var (\w+) \[\d+\](int32|int64)', l)
        if m:
            types[m.group(1)] = 'I' + m.group(2)[3:]
            continue
        m = re.fullmatch(r'(\w+)(\[\d+\])? (:=|=|\+=|-=) (.*)', l)
        assert m, l
        x, idx, op, rhs = m.groups()
        p = Parser(rhs, types)
        e = p.sum()
        assert p.peek() is None, l
        if op == ':=':
            assert idx is None and typ(e), l
            types[x] = typ(e)
        v = x + (idx or '')
        if op in ('+=', '-='):
            e = (op[0], ('var', v, types[x]), e)
        assert typ(e) in (None, types[x]), l
        out.append('"%s" <- %s' % (v, emit(e, types[x], True)))
    return start + 1, i + 1, out


def main():
    repo = sys.argv[1]
    print('''(** The straight-line functions of vendor/go.dedis.ch/kyber/v3/group/edwards25519,
    statement by statement.  The text is made by tools/straightline.py; [x += e] and
    [x -= e] are written out, slices as in [load3(a[5:])] become the bytes read,
    declarations of arrays (all zero, written before they are read) are left out. *)
From Coq Require Import ZArith String List.
From Verif Require Import GoIntModel.
Import ListNotations.
Local Open Scope Z_scope.
Local Open Scope string_scope.
Local Open Scope go_scope.''')
    for file, name, coq, types in FUNCS:
        a, b, out = function(repo, file, name, types)
        print('\n(** %s:%d-%d *)\nDefinition %s : list stmt := [\n  %s].' % (file, a, b, coq, ';\n  '.join(out)))


main()
