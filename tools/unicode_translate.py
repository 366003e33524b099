#!/usr/bin/env python3
"""Translates the bodies of the character predicates in /repo/include/muu/impl/unicode_char{8,16,32}_t.h into terms of the
statement language of rocq/theories/UniModel.v. Stops on anything it does not know. Writes rocq/theories/UniTables.v.
Also checks that unicode_unsigned_char.h has the same bodies as unicode_char8_t.h, and that every function of unicode_char.h and
unicode_wchar_t.h just calls the function of the same name for another type (or returns false, where that one does).

usage: unicode_translate.py /repo /verif/rocq/theories/UniTables.v"""
import re, sys

TOK = re.compile(r"""\s*(?:
 (?P<chr>(?:u8|[uUL])'(?:\\x[0-9A-Fa-f]+|\\u[0-9A-Fa-f]{4}|\\U[0-9A-Fa-f]{8}|\\[trn\\']|[^\\'])')
|(?P<num>0b[01]+u|0[xX][0-9A-Fa-f]+(?:ull|u)?|[0-9]+(?:ull|u)?)
|(?P<id>[A-Za-z_][A-Za-z_0-9]*)
|(?P<op>\|\||&&|==|!=|<=|>=|<<|[-+*/%&|!<>()\[\]{};:,=])
)""", re.X)

def tokens(src):
    src = re.sub(r'//[^\n]*', '', src)
    out, i = [], 0
    src = src.strip()
    while i < len(src):
        m = TOK.match(src, i)
        assert m, src[i:i+60]
        i = m.end()
        k = m.lastgroup; v = m.group(k)
        if k == 'chr':
            b = v[v.index("'") + 1:-1]
            if b.startswith('\\x') or b.startswith('\\u') or b.startswith('\\U'): n = int(b[2:], 16)
            elif b.startswith('\\'): n = {'t': 9, 'r': 13, 'n': 10, '\\': 92, "'": 39}[b[1]]
            else: n = ord(b)
            out.append(('chr', n))
        elif k == 'num': out.append(('num', int(re.sub('(ull|u)$', '', v), 0)))
        else: out.append((k, v))
    return out

class P:
    def __init__(self, toks): self.t = toks; self.i = 0; self.env = {}; self.tables = {}
    def peek(self, k=0): return self.t[self.i + k] if self.i + k < len(self.t) else ('eof', None)
    def next(self): x = self.peek(); self.i += 1; return x
    def eat(self, v):
        x = self.next(); assert x[1] == v, (x, v, self.t[max(0, self.i-8):self.i+8])
    def at(self, v): return self.peek()[1] == v and self.peek()[0] in ('op', 'id')
    # ---- expressions, C++ precedence
    LEVELS = [['||'], ['&&'], ['&'], ['==', '!='], ['<', '<=', '>', '>='], ['<<'], ['+', '-'], ['*', '/', '%']]
    def expr(self, l=0):
        if l == len(self.LEVELS): return self.unary()
        a = self.expr(l + 1)
        while self.peek()[0] == 'op' and self.peek()[1] in self.LEVELS[l]:
            op = self.next()[1]; b = self.expr(l + 1); a = (op, a, b)
        return a
    def unary(self):
        k, v = self.next()
        if (k, v) == ('op', '!'): return ('!', self.unary())
        if (k, v) == ('op', '('):
            e = self.expr(); self.eat(')'); return e
        if k in ('chr', 'num'): return ('num', v)
        assert k == 'id', (k, v)
        if v == 'c': return ('c',)
        if v in ('true', 'false'): return (v,)
        if v == 'static_cast':
            self.eat('<'); w = {'uint_least64_t': 64, 'uint_least32_t': 32}[self.next()[1]]; self.eat('>'); self.eat('('); self.eat('c'); self.eat(')'); return ('cast', w)
        if v in self.env: return self.env[v]
        if v in self.tables:
            self.eat('['); e = self.expr(); self.eat(']'); return ('[]', v, e)
        if v.startswith('is_'):
            self.eat('('); self.eat('c'); self.eat(')'); return ('call', v)
        raise Exception(v)
    # ---- statements: a list of them up to '}' becomes one term
    def body(self):
        if self.at('}') or self.peek()[0] == 'eof': return None
        k, v = self.peek()
        if v == 'if':
            self.next(); self.eat('('); e = self.expr(); self.eat(')')
            s = self.one(); rest = self.body(); return ('if', cond(self, e), s, rest)
        if v == 'const':
            self.next(); self.eat('auto'); name = self.next()[1]; self.eat('='); e = self.expr(); self.eat(';'); self.env[name] = e; return self.body()
        if v == 'constexpr':
            self.next(); self.eat('uint_least64_t'); name = self.next()[1]; self.eat('['); self.eat(']'); self.eat('='); self.eat('{')
            l = []
            while not self.at('}'):
                l.append(self.next()[1])
                if self.at(','): self.next()
            self.eat('}'); self.eat(';'); self.tables[name] = l; return self.body()
        if v == 'MUU_UNUSED':
            self.next(); self.eat('('); self.eat('c'); self.eat(')'); self.eat(';'); return self.body()
        if v == 'MUU_ASSUME':
            self.next(); self.eat('('); e = self.expr(); self.eat(')'); self.eat(';'); return ('assume', cond(self, e), self.body())
        if v == 'switch':
            self.next(); self.eat('('); sel = self.expr(); self.eat(')'); self.eat('{'); cases = []; default = None
            while not self.at('}'):
                if self.at('case'):
                    self.next(); n = self.next()[1]; self.eat(':'); cases.append((n, self.one()))
                else:
                    self.eat('default'); self.eat(':'); default = self.one()
            self.eat('}'); rest = self.body(); assert rest == ('unreachable',)
            s = default
            for n, b in reversed(cases): s = ('if', cond(self, ('==', sel, ('num', n))), b, s)
            return s
        s = self.one(); rest = self.body()
        assert rest is None or rest == ('unreachable',), rest
        return s
    def one(self):
        k, v = self.peek()
        if v == '{':
            self.next(); saved = dict(self.env), dict(self.tables); s = self.body(); self.eat('}'); self.env, self.tables = saved; return s
        if v == 'return':
            self.next(); e = self.expr(); self.eat(';'); return ret(self, e)
        if v == 'MUU_UNREACHABLE':
            self.next(); self.eat(';'); return ('unreachable',)
        raise Exception((k, v))

def ret(p, e):
    # calls of other predicates: A(c) || B(c) and !A(c) && !B(c)
    if e[0] == '||' and e[1][0] == 'call' and e[2][0] == 'call':
        return ('call', e[1][1], ('return', 'Yes'), ('call', e[2][1], ('return', 'Yes'), ('return', 'No')))
    if e[0] == '&&' and e[1][0] == '!' and e[1][1][0] == 'call' and e[2][0] == '!' and e[2][1][0] == 'call':
        return ('call', e[1][1][1], ('return', 'No'), ('call', e[2][1][1], ('return', 'No'), ('return', 'Yes')))
    return ('return', cond(p, e))

def block(e):
    """c, c - k, c / d or (c - k) / d, with c cast to an unsigned type; the width, k and d"""
    d = 1
    if e[0] == '/': d = e[2][1]; e = e[1]
    k = 0
    if e[0] == '-': assert e[2][0] == 'num'; k = e[2][1]; e = e[1]
    assert e[0] == 'cast', e
    return e[1], k, d

def hx(n): return '0x%X' % n
def cond(p, e):
    o = e[0]
    if o == 'true': return 'Yes'
    if o == 'false': return 'No'
    if o in ('||', '&&'): return '(%s %s %s)' % ({'||': 'Or', '&&': 'And'}[o], cond(p, e[1]), cond(p, e[2]))
    if o == '!': return '(Not %s)' % cond(p, e[1])
    if o in ('<', '<=', '>', '>='):
        a, b = e[1], e[2]
        if a[0] == 'num': a, b = b, a; o = {'<': '>', '<=': '>=', '>': '<', '>=': '<='}[o]
        assert a == ('c',) and b[0] == 'num', e
        n = hx(b[1])
        return {'<': '(Lt %s)', '<=': '(Le %s)', '>': '(Gt %s)', '>=': '(Ge %s)'}[o] % n
    if o in ('==', '!='):
        a, b = e[1], e[2]; assert b[0] == 'num'
        if a == ('c',): s = '(Eq %s)' % hx(b[1])
        elif a[0] == '&' and a[1] == ('c',) and a[2][0] == 'num': s = '(MaskIs %s %s)' % (hx(a[2][1]), hx(b[1]))
        elif a[0] == '%':
            assert a[1][0] == '+' and a[1][1][0] == 'cast' and a[1][2][0] == 'num' and a[2][0] == 'num', a
            s = '(RemIs %d %s %s %s)' % (a[1][1][1], hx(a[1][2][1]), hx(a[2][1]), hx(b[1]))
        else: s = '(BlockIs %d %s %s %s)' % (block(a)[0], *map(hx, block(a)[1:]), hx(b[1]))
        return s if o == '==' else '(Not %s)' % s
    if o == '&':
        a, b = e[1], e[2]
        if a[0] == '[]':
            w, k, d = block(a[2]); assert w == 64 and d == 64
            assert b[0] == '<<' and b[1] == ('num', 1) and b[2][0] == '%' and b[2][2] == ('num', 64)
            w2, k2, d2 = block(b[2][1]); assert w2 == 64 and d2 == 1
            return '(TableBit %s %s [%s])' % (hx(k), hx(k2), ';'.join(hx(x) for x in p.tables[a[1]]))
        assert a[0] == '<<' and a[1] == ('num', 1) and b[0] == 'num', e
        w, k, d = block(a[2])
        return '(BlockIn %d %s %s %s)' % (w, hx(k), hx(d), hx(b[1]))
    raise Exception(e)

def emit(s, ind, sfx):
    t = '  ' * ind
    if s[0] == 'return': return t + '(Return %s)' % s[1]
    if s[0] == 'unreachable': return t + 'Unreachable'
    if s[0] == 'assume': return t + '(Assume %s\n%s)' % (s[1], emit(s[2], ind, sfx))
    if s[0] == 'if': return t + '(If %s\n%s\n%s)' % (s[1], emit(s[2], ind + 1, sfx), emit(s[3], ind, sfx))
    if s[0] == 'call': return t + '(Call %s\n%s\n%s)' % (s[1] + sfx, emit(s[2], ind + 1, sfx), emit(s[3], ind, sfx))
    raise Exception(s)

def functions(src, ctype):
    funs = []
    for m in re.finditer(r'constexpr bool (\w+)\(%s c\) noexcept\s*\{' % ctype, src):
        i, d = m.end(), 1
        while d:
            if src[i] == '{': d += 1
            elif src[i] == '}': d -= 1
            elif src[i] == "'" : i = src.index("'", i + 2)
            i += 1
        yield m.group(1), src.count('\n', 0, m.start()) + 1, src.count('\n', 0, i) + 1, src[m.end():i-1]

def parse(body):
    p = P(tokens(body)); s = p.body(); assert p.peek()[0] == 'eof'; return s

def calls(s): return ([s[1]] if s[0] == 'call' else []) + [c for x in s if isinstance(x, tuple) for c in calls(x)]

def main():
    repo, out = sys.argv[1:3]
    def read(name): return open('%s/include/muu/impl/unicode_%s.h' % (repo, name)).read()
    o = ['(** Generated by tools/unicode_translate.py from the three headers named below; one definition per C++ function. The functions for',
         '    unsigned char were found to have the same bodies as those for char8_t; those for char and wchar_t call these. *)',
         'From Verif Require Import Words UniModel.', 'Import ListNotations.', 'Local Open Scope N_scope.', '']
    asts = {}
    for width in (32, 16, 8):
        name = 'char%d_t' % width
        rel = 'include/muu/impl/unicode_%s.h' % name
        todo = [(n, a, b, parse(body)) for n, a, b, body in functions(read(name), name)]
        asts[width] = {f[0]: f[3] for f in todo}
        done = []
        while todo: # callees first
            n = len(todo)
            for f in list(todo):
                if all(c in done for c in calls(f[3])):
                    o.append('(** %s:%d-%d *)' % (rel, f[1], f[2]))
                    o.append('Definition %s_%d : stmt :=\n%s.' % (f[0], width, emit(f[3], 1, '_%d' % width)))
                    done.append(f[0]); todo.remove(f)
            assert len(todo) < n
        o.append('')
    assert {n: parse(b) for n, _, _, b in functions(read('unsigned_char'), 'unsigned char')} == asts[8]
    for name, ctype, target in (('char', 'char', 'unsigned char'), ('wchar_t', 'wchar_t', 'impl::wchar_code_unit')):
        fs = list(functions(read(name), ctype)); assert {f[0] for f in fs} == set(asts[8])
        for n, _, _, b in fs:
            b = ' '.join(b.split())
            if b == 'MUU_UNUSED(c); return false;': assert name == 'char' and asts[8][n] == ('return', 'No'), n
            elif b == 'return %s(static_cast<%s>(c));' % (n, target): pass
            else: # a composition of other functions of the same type, as for the type it stands for
                assert parse(b) == asts[8][n], (name, n, b)
    assert set(asts[8]) == set(asts[16]) == set(asts[32])
    open(out, 'w').write('\n'.join(o))
main()
