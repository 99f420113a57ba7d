#!/usr/bin/env python3
"""Reads /repo/include/tiny/optional.h and writes the syntax trees of its run-time
functions to rocq/theories/Source.v.

Nothing is interpreted here: the output is the text of the functions as trees
(the types are defined in rocq/theories/Syntax.v).  Comments, attributes,
template parameter lists and requires clauses are dropped; template arguments and
types are kept as text without blanks; `a->b` becomes `(*a).b`; the macro
TINY_OPTIONAL_IMPL_COMPARE_BETWEEN_OPTIONALS is expanded; functions inside #if
are all included, with the condition.

With --constants: the same for the functions that are executed by the compiler, and the
sentinel constants, to rocq/theories/Constants.v.

With --templates: the definitions of the templates that choose the storage strategy,
to rocq/theories/Templates.v (types in rocq/theories/TemplateSyntax.v).

With --specials: the member functions of the partial specialisations of the classes, which
delete special member functions, to rocq/theories/Specials.v.

With --heads: the template heads, constraints and #if conditions of the functions of Source.v,
and the conditions of the converting constructors and assignments, to rocq/theories/Heads.v.

With --library: the deduction guide, make_optional, the specialisations of std::hash and
is_tiny_optional_v with what they use, to rocq/theories/Library.v.

With --members: what the classes declare, with the access, to rocq/theories/Members.v.

With --data: the data members, constants and types of the classes, to rocq/theories/DataText.v.

With --constexpr: the names of the functions that are declared constexpr, to
rocq/theories/Constexpr.v.

usage: cpp2coq.py [--constants | --templates | --specials | --heads | --library | --members | --data |
                   --constexpr]
                  [optional.h] > Source.v
"""
import re
import sys
import textwrap

ARGS = [a for a in sys.argv[1:] if not a.startswith('--')]
CONSTANTS = '--constants' in sys.argv
TEMPLATES = '--templates' in sys.argv
SPECIALS = '--specials' in sys.argv
HEADS = '--heads' in sys.argv
LIBRARY = '--library' in sys.argv
MEMBERS = '--members' in sys.argv
DATA = '--data' in sys.argv
CONSTEXPR = '--constexpr' in sys.argv
PATH = ARGS[0] if ARGS else '/repo/include/tiny/optional.h'

# The classes whose members are translated.
CLASSES = {
    'sentinel_flag_manipulator',
    'DecompositionForSeparateFlag', 'InplaceStoredTypeDecomposition',
    'InplaceDecompositionViaMemPtr',
    'SeparateFlagManipulator', 'MemcpyAndCmpFlagManipulator', 'AssignmentFlagManipulator',
    'StorageBase', 'InitializeIsEmptyFlagScope',
    'MoveConstructionBase', 'CopyConstructionBase', 'MoveAssignmentBase',
    'CopyAssignmentBase', 'TinyOptionalImpl', 'optional', 'hash',
}
# Free functions that are translated.
FREE = re.compile(r'^(swap|make_optional|operator.*)$')
# Functions that are executed by the compiler.
COMPILE_TIME = {'ConvertSentinelToFlagType', 'IsIntegralInRange'}
# Class templates with a constant.
SENTINELS = 'SentinelForExploitingUnusedBits'
# Templates (and one class) of the selection; in classes only types, constants and asserts.
SELECTION = {
    'always_false', 'value_conditional', 'NoCustomInplaceFlagManipulator',
    'optional_flag_manipulator', 'SentinelForExploitingUnusedBitsIsKnown',
    'HasCustomInplaceFlagManipulator', 'DecompositionForSeparateFlag',
    'InplaceStoredTypeDecomposition', 'InplaceDecompositionViaMemPtr',
    'StorageBase', 'MoveConstructionBase', 'CopyConstructionBase', 'MoveAssignmentBase',
    'CopyAssignmentBase', 'TinyOptionalImpl', 'SelectDecomposition',
    'SelectSentinelValueAndMemPtrFromConstants', 'TinyOptionalImplCombined',
    'optional_sentinel_via_type', 'TinyOptionalFromSelection', 'optional', 'optional_inplace',
    'MissingSentinel', 'SwallowingDefaultSentinel', 'SelectSentinelValueWithSwallowing',
    'optional_aip',
}
# The same for --library.
LIBRARY_TEMPLATES = {
    'my_remove_cvref_t', 'ConditionalIdentity', 'EnableHashHelper', 'IsStdOptional',
    'IsSomeOptional', 'is_tiny_optional_v', 'hash',
}
LIBRARY_FUNCTIONS = {'IsTinyOptionalHelper', 'make_optional', 'optional'}
MARKER = 'is_tiny_optional'
# Identifiers after which '<' opens template arguments.
TEMPLATE = re.compile(r'^(::)?(std|tiny)::|^(hash|TinyOptionalImpl|optional|IsIntegralInRange'
                      r'|my_remove_cvref_t|IsSomeOptional|is_tiny_optional_v'
                      r'|StorageBase|MoveConstructionBase|CopyConstructionBase'
                      r'|MoveAssignmentBase|CopyAssignmentBase)$'
                      r'|.*EnableConverting(Constructor|Assignment)$')

TOKEN = re.compile(r'''
    (?P<str>"(?:[^"\\]|\\.)*")
  | (?P<num>\d[\w']*)
  | (?P<id>[A-Za-z_]\w*)
  | (?P<op><=>|\.\.\.|->\*|\.\*|::|->|\+\+|--|&&|\|\||==|!=|<=|>=|[-+*/%&|^!~<>=?:;,.(){}\[\]])
''', re.X)


class Tok(str):
    """A token with its line and the enclosing #if conditions."""
    def __new__(cls, s, line, cond, kind):
        t = str.__new__(cls, s)
        t.line, t.cond, t.kind = line, cond, kind
        return t


def strip_comments(text):
    def blank(m):
        s = m.group(0)
        return s if s.startswith('"') else re.sub(r'[^\n]', ' ', s)
    return re.sub(r'"(?:[^"\\\n]|\\.)*"|//[^\n]*|/\*.*?\*/', blank, text, flags=re.S)


def lex_line(line, no, cond, out):
    pos = 0
    while pos < len(line):
        if line[pos].isspace() or line[pos] == '\\':
            pos += 1
            continue
        m = TOKEN.match(line, pos)
        if not m:
            raise SystemExit('cannot read line %d: %r' % (no, line[pos:]))
        out.append(Tok(m.group(0), no, cond, m.lastgroup))
        pos = m.end()


def lex(text, comparisons=True):
    lines = strip_comments(text).split('\n')
    out, conds, macro, i = [], [], None, 0
    while i < len(lines):
        line, no = lines[i], i + 1
        s = line.strip()
        if s.startswith('#'):
            first = i
            while lines[i].rstrip().endswith('\\'):
                i += 1
            d = re.match(r'#\s*(\w+)\s*(.*)', s)
            name, rest = d.group(1), d.group(2).strip()
            if name in ('if', 'ifdef', 'ifndef'):
                conds.append({'if': '', 'ifdef': 'defined ', 'ifndef': '!defined '}[name] + rest)
            elif name in ('else', 'elif'):
                conds[-1] = name + ' of ' + conds[-1]
            elif name == 'endif':
                conds.pop()
            elif name == 'define' and 'COMPARE_BETWEEN_OPTIONALS(' in rest:
                macro = (first, i)
            i += 1
            continue
        cond = tuple(conds[1:] if conds and 'TINY_OPTIONAL_H' in conds[0] else conds)
        lex_line(line, no, cond, out)
        i += 1
    if not comparisons:
        return out
    # Expansion of the comparison macro.
    body = []
    for j in range(macro[0] + 1, macro[1] + 1):
        lex_line(lines[j], j + 1, (), body)
    res, k = [], 0
    while k < len(out):
        t = out[k]
        if t == 'TINY_OPTIONAL_IMPL_COMPARE_BETWEEN_OPTIONALS':
            close = match(out, k + 1)
            op, code = out[k + 2], out[k + 4:close]
            for b in body:
                if b == 'Op':
                    res.append(Tok(op, t.line, t.cond, 'op'))
                elif b == 'code':
                    res.extend(code)
                else:
                    res.append(Tok(b, t.line, t.cond, b.kind))
            k = close + 1
            continue
        res.append(t)
        k += 1
    return res


OPEN, CLOSE = '([{', ')]}'


def match(toks, i):
    """Index of the bracket closing the one at i."""
    depth = 0
    for k in range(i, len(toks)):
        if toks[k] in OPEN:
            depth += 1
        elif toks[k] in CLOSE:
            depth -= 1
            if depth == 0:
                return k
    raise SystemExit('unbalanced at line %d' % toks[i].line)


def match_angle(toks, i):
    depth, k = 0, i
    while True:
        t = toks[k]
        if t in OPEN:
            k = match(toks, k)
        elif t == '<':
            depth += 1
        elif t == '>':
            depth -= 1
            if depth == 0:
                return k
        k += 1


def text(toks):
    """Text without blanks, except between two words."""
    s = ''
    for t in toks:
        if s and re.match(r'\w', t) and re.search(r'\w$', s):
            s += ' '
        s += t
    return s


# ---------------------------------------------------------------- expressions

def q(s):
    return '"' + s.replace('"', '""') + '"'


def lst(xs):
    return '[' + '; '.join(xs) + ']'


class Parser:
    def __init__(self, toks):
        self.t, self.i, self.depth = toks, 0, 0

    def peek(self, k=0):
        return self.t[self.i + k] if self.i + k < len(self.t) else Tok('', 0, (), 'end')

    def eat(self, s=None):
        t = self.peek()
        if s is not None and t != s:
            raise SystemExit('line %s: expected %r, found %r' % (t.line, s, t))
        self.i += 1
        return t

    def accept(self, s):
        if self.peek() == s:
            self.i += 1
            return True
        return False

    def done(self):
        return self.i >= len(self.t)

    def name(self):
        """A possibly qualified name with template arguments, as text."""
        start = self.i
        self.accept('::')
        while True:
            if self.accept('template'):
                continue
            if self.peek() == 'operator':
                self.eat()
                if self.peek() == '(':
                    self.eat(), self.eat(')')
                else:
                    self.eat()
            else:
                assert self.peek().kind == 'id', (self.peek(), self.peek().line)
                self.eat()
            if self.peek() == '<' and TEMPLATE.match(text(self.t[start:self.i])):
                self.i = match_angle(self.t, self.i) + 1
            if self.peek() == '::':
                self.eat()
                continue
            break
        return text(self.t[start:self.i])

    def args(self, close):
        res = []
        while not self.accept(close):
            e = self.expr()
            if self.accept('...'):
                e = 'EPack (%s)' % e
            res.append(e)
            if self.peek() != close:
                self.eat(',')
        return res

    def primary(self):
        t = self.peek()
        if t == '(':
            self.eat()
            e = self.expr()
            self.eat(')')
            return e
        if t == 'this':
            self.eat()
            return 'EThis'
        if t in ('true', 'false'):
            self.eat()
            return 'EBool ' + t
        if t.kind == 'num':
            self.eat()
            return 'ENum ' + t
        if t.kind == 'str':
            while self.peek().kind == 'str':
                self.eat()
            return 'EStr'
        if t in ('const_cast', 'static_cast'):
            self.eat()
            j = match_angle(self.t, self.i)
            ty = text(self.t[self.i + 1:j])
            self.i = j + 1
            self.eat('(')
            e = self.expr()
            self.eat(')')
            return 'ECast %s %s (%s)' % (q(t), q(ty), e)
        if t == 'noexcept':
            self.eat(), self.eat('(')
            e = self.expr()
            self.eat(')')
            return 'ENoexcept (%s)' % e
        if t == 'sizeof':
            self.eat(), self.eat('(')
            e = self.expr()
            self.eat(')')
            return 'ESizeof (%s)' % e
        if t == '::' and self.peek(1) == 'new':
            self.eat(), self.eat(), self.eat('(')
            a = self.expr()
            self.eat(')')
            ty = self.name()
            self.eat('(')
            return 'ENew (%s) %s %s' % (a, q(ty), lst(self.args(')')))
        n = self.name()
        if self.peek() == '{':
            self.eat()
            return 'EBrace %s %s' % (q(n), lst(self.args('}')))
        return 'EName %s' % q(n)

    def postfix(self):
        e = self.primary()
        while True:
            t = self.peek()
            if t == '(':
                self.eat()
                e = 'ECall (%s) %s' % (e, lst(self.args(')')))
            elif t in ('.', '->'):
                self.eat()
                if t == '->':
                    e = 'EUn "*" (%s)' % e
                if self.accept('~'):
                    ty = self.name()
                    self.eat('('), self.eat(')')
                    e = 'EDtor (%s) %s' % (e, q(ty))
                else:
                    e = 'EMember (%s) %s' % (e, q(self.name()))
            elif t == '.*':
                self.eat()
                e = 'EMember (%s) %s' % (e, q('*' + self.name()))
            else:
                return e

    def unary(self):
        t = self.peek()
        if t in ('!', '*', '&'):
            self.eat()
            return 'EUn %s (%s)' % (q(t), self.unary())
        return self.postfix()

    LEVELS = [['||'], ['&&'], ['==', '!='], ['<', '<=', '>', '>='], ['<=>']]

    def binary(self, k):
        if k == len(self.LEVELS):
            return self.unary()
        e = self.binary(k + 1)
        while self.peek() in self.LEVELS[k]:
            o = self.eat()
            e = 'EBin %s (%s) (%s)' % (q(o), e, self.binary(k + 1))
        return e

    def expr(self):
        if self.accept('throw'):
            return 'EThrow (%s)' % self.expr()
        c = self.binary(0)
        if self.accept('?'):
            a = self.expr()
            self.eat(':')
            return 'ECond (%s) (%s) (%s)' % (c, a, self.expr())
        if self.accept('='):
            return 'EBin "=" (%s) (%s)' % (c, self.expr())
        return c

    # ------------------------------------------------------------ statements

    def block(self):
        self.eat('{')
        res = []
        self.depth += 1
        while not self.accept('}'):
            res.append(self.stmt())
        self.depth -= 1
        sep = '\n' + ' ' * (8 + 2 * self.depth)
        return '[' + (sep if res else '') + (';' + sep).join(res) + ']'

    def upto(self, s):
        start = self.i
        while self.peek() != s:
            self.i = (match(self.t, self.i) if self.peek() in OPEN else self.i) + 1
        r = self.t[start:self.i]
        self.eat(s)
        return r

    def stmt(self):
        t = self.peek()
        if t == 'if':
            self.eat()
            c = self.accept('constexpr')
            self.eat('(')
            e = self.expr()
            self.eat(')')
            a, b = self.block(), '[]'
            if self.accept('else'):
                b = lst([self.stmt()]) if self.peek() == 'if' else self.block()
            return 'SIf %s (%s) %s %s' % (str(bool(c)).lower(), e, a, b)
        if t == 'return':
            self.eat()
            if self.accept(';'):
                return 'SReturn None'
            e = self.expr()
            self.eat(';')
            return 'SReturn (Some (%s))' % e
        if t == 'static_assert':
            self.eat(), self.eat('(')
            e = self.args(')')[0]
            self.eat(';')
            return 'SStaticAssert (%s)' % e
        if t == 'using':
            self.eat()
            r = self.upto(';')
            if '=' in r:
                return 'SUsing %s %s' % (q(r[0]), q(text(r[2:])))
            return 'SUsing %s %s' % (q(r[-1]), q(text(r)))
        # A declaration: a type followed by a name and an initialiser.
        if t == 'constexpr':
            self.eat()
            t = self.peek()
        save = self.i
        try:
            if t.kind == 'id' and t not in ('const_cast', 'static_cast', 'this', 'throw'):
                ty = self.name()
                if self.accept('const'):
                    ty += ' const'
                if self.peek().kind == 'id' and self.peek(1) in ('=', '{'):
                    x = self.eat()
                    if self.accept('='):
                        e = lst([self.expr()])
                    else:
                        self.eat('{')
                        e = lst(self.args('}'))
                    self.eat(';')
                    return 'SDecl %s %s %s' % (q(ty), q(x), e)
        except AssertionError:
            pass
        self.i = save
        e = self.expr()
        self.eat(';')
        return 'SExpr (%s)' % e


# --------------------------------------------------------------- declarations

def retty(toks):
    """Classification of a return type."""
    s = text(toks)
    if s == '':
        return 'RNone'
    if s.endswith('&&'):
        return 'RRef %s true %s' % (str(bool(re.search(r'\bconst&&$', s))).lower(), q(s))
    if s.endswith('&'):
        return 'RRef %s false %s' % (str(bool(re.search(r'\bconst&$', s))).lower(), q(s))
    return 'RValue %s' % q(s)


def split(toks, sep=','):
    parts, cur, k = [], [], 0
    while k < len(toks):
        t = toks[k]
        if t in OPEN:
            j = match(toks, k)
            cur += toks[k:j + 1]
            k = j + 1
            continue
        if t == '<' and cur and cur[-1].kind == 'id':
            j = match_angle(toks, k)
            cur += toks[k:j + 1]
            k = j + 1
            continue
        if t == sep:
            parts.append(cur)
            cur = []
        else:
            cur.append(t)
        k += 1
    if cur:
        parts.append(cur)
    return parts


def param(toks):
    pack = '...' in toks
    toks = [t for t in toks if t != '...']
    if len(toks) > 1 and toks[-1].kind == 'id' and toks[-2] != '::' and toks[-1] not in ('const',):
        ty, x = toks[:-1], toks[-1]
    else:
        ty, x = toks, ''
    return 'Param %s %s %s' % (q(text(ty)), q(x), str(pack).lower())


out_funs, out_classes, out_aliases, out_constants, counts = [], [], [], [], {}
out_heads, out_conditions = [], []
out_constexpr, library_constexpr = [], []


def ident(cls, name, line):
    ops = {'==': 'eq', '!=': 'ne', '<': 'lt', '<=': 'le', '>': 'gt', '>=': 'ge', '<=>': 'three',
           '()': 'call', '=': 'assign', '->': 'arrow', '*': 'deref', 'bool': 'bool', ' bool': 'bool'}
    if name.startswith('operator'):
        name = 'op_' + ops[name[8:]]
    name = name.replace('~', 'dtor_')
    base = 'f%d_%s' % (line, name)
    counts[base] = counts.get(base, 0) + 1
    return base if counts[base] == 1 else '%s_%d' % (base, counts[base])


def function(toks, cls, tmpl=()):
    """A function from its first token (after template<...>) to ';' or the body."""
    head = []
    k = 0
    spec_static = explicit = False
    while toks[k] in ('[', 'static', 'constexpr', 'explicit', 'requires'):
        if toks[k] == '[':
            k = match(toks, k)
        if toks[k] == 'requires':
            k = match(toks, k + 1)
        spec_static |= toks[k] == 'static'
        explicit |= toks[k] == 'explicit'
        k += 1
    start = k
    # The parameter list: the first '(' not inside template arguments.
    while toks[k] != '(' or toks[k - 1] == 'operator':
        if toks[k] == '<' and toks[k - 1] != 'operator' and toks[k - 1].kind == 'id':
            k = match_angle(toks, k)
        k += 1
    close = match(toks, k)
    decl = toks[start:k]
    # The name: 'operator X', '~X' or the last identifier.
    ops = [j for j, t in enumerate(decl) if t == 'operator']
    if ops:
        n, ret = text(decl[ops[0]:]), decl[:ops[0]]
        if n == 'operator bool':
            n, ret = 'operator bool', [Tok('bool', 0, (), 'id')]
    elif len(decl) > 1 and decl[-2] == '~':
        n, ret = '~' + decl[-1], []
    else:
        n, ret = str(decl[-1]), decl[:-1]
    params = [param(p) for p in split(toks[k + 1:close])]
    line = toks[start].line
    k = close + 1
    const, ref, noex, inits = False, '', None, []
    while True:
        t = toks[k]
        if t == 'const':
            const = True
        elif t in ('&', '&&'):
            ref = t
        elif t == 'noexcept':
            if toks[k + 1] == '(':
                j = match(toks, k + 1)
                noex = Parser(toks[k + 2:j]).expr()
                k = j
            else:
                noex = 'EBool true'
        elif t == ':':
            k += 1
            while True:
                j = k + 1
                while toks[j] not in ('(', '{'):
                    j = (match_angle(toks, j) if toks[j] == '<' else j) + 1
                e = match(toks, j)
                p = Parser(toks[j + 1:e + 1])
                inits.append('(%s, %s)' % (q(text(toks[k:j])), lst(p.args(toks[e]))))
                k = e + 1
                if toks[k] != ',':
                    break
                k += 1
            continue
        else:
            break
        k += 1
    if explicit and n == cls:
        ref = 'explicit'         # constructors have no ref-qualifier
    if n.startswith('~') and noex is None:
        noex = 'EBool true'      # destructors are noexcept unless said otherwise
    if toks[k] == '=':
        body = {'default': 'Defaulted', 'delete': 'Deleted'}[toks[k + 1]]
        end = toks[k + 2].line
    else:
        p = Parser(toks[k:])
        body = 'Body ' + p.block()
        assert p.done(), ('rest', p.peek(), p.peek().line)
        end = max(t.line for t in toks)
    if (n in COMPILE_TIME) != CONSTANTS and not CONSTEXPR:
        return
    first = min(t.line for t in toks)
    name = ident(cls, n, line)
    if 'constexpr' in toks[:start]:
        out_constexpr.append(name)
    out_funs.append((name, cls, first, end, '''Definition %s : fundef :=
  Fun %s %s %s
      %s
      %s %s %s
      (%s)
      %s
      (%s).''' % (name, q(cls), q(n), str(spec_static).lower(), lst(params), str(const).lower(), q(ref),
                  'None' if noex is None else '(Some (%s))' % noex,
                  retty([t for t in ret]), lst(inits), body), toks[start].cond))
    out_heads.append((name, first, end, toks[start].cond, tmpl))


def skip_template(toks, k):
    while toks[k] == 'template':
        k = match_angle(toks, k + 1) + 1
        while toks[k] == 'requires':
            k = match(toks, k + 1) + 1
    return k


def end_of(toks, k):
    """End (exclusive) of the declaration starting at k."""
    seen_params = False
    while True:
        t = toks[k]
        if t == ';':
            return k + 1
        if t == '{':
            j = match(toks, k)
            if toks[k - 1].kind == 'id' and seen_params is False and toks[k - 1] not in ('noexcept', 'const'):
                # brace initialiser or class body
                if j + 1 < len(toks) and toks[j + 1] == ';':
                    return j + 2
            # a function body, or a brace in a member initialiser
            return j + (2 if j + 1 < len(toks) and toks[j + 1] == ';' else 1)
        if t in OPEN:
            if t == '(':
                seen_params = True
            k = match(toks, k)
        k += 1


def members(toks, cls, base):
    fields, using = [], False
    k = 0
    while k < len(toks):
        t = toks[k]
        if t in ('public', 'private', 'protected') and toks[k + 1] == ':':
            k += 2
            continue
        if t == ';':
            k += 1
            continue
        start, k0 = k, skip_template(toks, k)
        t = toks[k0]
        e = end_of(toks, k0)
        d = toks[k0:e]
        k = e
        if t in ('struct', 'class') and '{' in d:
            klass(d)
            continue
        if t == 'using' and str(d[1]).startswith('EnableConverting'):
            out_conditions.append((cls, toks[start:k0], d))
        if t == 'using':
            using |= text(d) == 'using Base::Base;'
            continue
        if t in ('static_assert', 'union', 'friend'):
            continue
        sig = d[:d.index('{')] if '{' in d else d
        # A data member?
        paren = '(' in strip_angles([x for x in sig if x not in ('constexpr',)])
        if not paren:
            if t == 'static':
                continue
            dd = d[:-1]
            if '=' in dd:
                j = dd.index('=')
                fields.append('(%s, Some (%s))' % (q(dd[j - 1]), Parser(dd[j + 1:]).expr()))
            else:
                fields.append('(%s, None)' % q(dd[-1]))
            continue
        if t == 'static' and '=' in strip_angles(sig) and '(' not in strip_angles(sig[:strip_angles(sig).index('=')]):
            continue         # a static constant
        if d[-1] == ';' and '=' not in d:
            continue         # a declaration without definition
        function(d if d[-1] != ';' or '=' in d else d, cls, toks[start:k0])
    out_classes.append((cls, base, fields, using))


def strip_angles(toks):
    res, k = [], 0
    while k < len(toks):
        if toks[k] == '<' and res and res[-1].kind == 'id' and res[-1] != 'operator':
            k = match_angle(toks, k) + 1
            continue
        if toks[k] == '[':
            k = match(toks, k) + 1
            continue
        res.append(toks[k])
        k += 1
    return res


def number(toks):
    """A literal, or a difference of two."""
    if len(toks) == 1:
        return 'CNum %d' % int(re.sub(r"['ulUL]", '', toks[0]), 0)
    assert toks[-2] == '-', toks
    return 'CSub (%s) (%s)' % (number(toks[:-2]), number(toks[-1:]))


def constant(d):
    """The constant of a specialisation, with the type of the value."""
    j = d.index('{')
    body = d[j + 1:match(d, j)]
    for k, t in enumerate(body):
        if t == 'value' and body[k + 1] == '=':
            e = body.index(';', k)
            out_constants.append((body[k].line, text(d[1:j]), text(body[k - 1:k] if body[k - 2] != '::'
                                  else body[k - 3:k]), t.cond, number(body[k + 2:e])))


def klass(d):
    name = d[1]
    j = d.index('{')
    head = d[2:j]
    if name == SENTINELS and head:
        constant(d)
    if name not in CLASSES:
        return
    special = name != 'hash' and bool(head) and head[0] == '<'
    if special != SPECIALS:
        return               # a partial specialisation (deleted special members)
    base = None
    h = strip_angles(d[1:j]) if name != 'hash' else []
    if ':' in h:
        b = [t for t in h[h.index(':') + 1:] if t not in ('public', 'private')]
        base = text(b).replace('impl::', '')
    members(d[j + 1:match(d, j)], str(name), base)


def scope(toks):
    k = 0
    while k < len(toks):
        t = toks[k]
        if t in ('TINY_OPTIONAL_INLINE_NS_BEGIN', 'TINY_OPTIONAL_INLINE_NS_END', ';'):
            k += 1
            continue
        if t == 'namespace':
            j = k
            while toks[j] != '{':
                j += 1
            e = match(toks, j)
            scope(toks[j + 1:e])
            k = e + 1
            continue
        start, k0 = k, skip_template(toks, k)
        t = toks[k0]
        e = end_of(toks, k0)
        d = toks[k0:e]
        k = e
        if t in ('struct', 'class'):
            if '{' in d:
                klass(d)
            continue
        if t == 'using' and '=' in d:
            rhs = strip_angles(d[d.index('=') + 1:-1])
            if '(' not in rhs and 'decltype' not in rhs:
                out_aliases.append((str(d[1]), text([x for x in rhs if x != 'typename']).replace('impl::', '')))
            continue
        if t in ('using', 'static_assert', 'inline', 'enum', 'extern', 'friend') or d[-1] == ';':
            continue
        if '{' not in d:
            continue
        s = strip_angles(d[:d.index('{')])
        if '(' not in s:
            continue
        j = s.index('(')
        n = text(s[s.index('operator'):j]) if 'operator' in s[:j] else s[j - 1]
        if FREE.match(n) or n in COMPILE_TIME:
            function(d, '', toks[start:k0])


def whole(toks):
    p = Parser(toks)
    e = p.expr()
    assert p.done(), text(toks)
    return e


def head(toks):
    """Template parameters (name, pack, default, concept), enable_if conditions, requires."""
    params, enable, requires, k = [], [], [], 0
    while k < len(toks):
        if toks[k] == 'requires':
            j = match(toks, k + 1)
            requires.append(whole(toks[k + 2:j]))
            k = j + 1
            continue
        assert toks[k] == 'template', toks[k]
        j = match_angle(toks, k + 1)
        for p in split(toks[k + 2:j]):
            e = [i for i, t in enumerate(p) if t == 'enable_if_t']
            if e:
                c = split(p[e[0] + 2:match_angle(p, e[0] + 1)])[0]
                enable.append(whole(c))
                continue
            default = None
            if '=' in p:
                i = p.index('=')
                p, default = p[:i], text(p[i + 1:])
            kind = [t for t in p[:-1] if t != '...']
            concept = None if text(kind) in ('class', 'typename', 'auto') else text(kind)
            params.append('(%s, %s, %s, %s)' % (q(p[-1]), str('...' in p).lower(),
                          'None' if default is None else 'Some ' + q(default),
                          'None' if concept is None else 'Some ' + q(concept)))
        k = j + 1
    return lst(params), lst(enable), lst(requires)


def heads():
    print('(** * Heads: template heads and constraints of the functions of optional.h')
    print()
    print('    Written by tools/cpp2coq.py --heads from /repo/include/tiny/optional.h; not edited by')
    print('    hand.  What [Source.v] leaves out of the functions. *)')
    print()
    print('From Coq Require Import String List.')
    print('From Verif Require Import Syntax Source.')
    print('Import ListNotations.')
    print('Local Open Scope string_scope.')
    print()
    print('(** The function, the #if conditions around it, the template parameters (name, pack?,')
    print('    default argument, concept), the conditions of std::enable_if_t among them, the')
    print('    requires clauses. *)')
    print('Record head : Type := Head {')
    print('  h_fun : fundef;')
    print('  h_guard : list string;')
    print('  h_params : list (string * bool * option string * option string);')
    print('  h_enable : list expr;')
    print('  h_requires : list expr')
    print('}.')
    print()
    for name, a, b, cond, t in out_heads:
        print('(** optional.h:%d-%d *)' % (min([x.line for x in t] + [a]), b))
        print(wrap('Definition h%s : head :=\n  Head %s %s\n      %s\n      %s\n      %s.'
                   % ((name[1:], name, guard(cond)) + head(list(t)))))
        print()
    print('Definition heads : list head :=')
    print('  [' + ';\n   '.join('h' + h[0][1:] for h in out_heads) + '].')
    print()
    print('(** The conditions with names (optional.h:%s): name, template parameters, condition. *)'
          % ', '.join(str(d[0].line) for _, _, d in out_conditions))
    print('Definition conditions : list (string * (list string * expr)) :=')
    res = []
    for cls, t, d in out_conditions:
        assert text(d[2:7]) == '=std::bool_constant<', text(d[2:7])
        j = match_angle(d, 6)
        res.append(wrap('(%s, (%s, %s))' % (q(d[1]), lst([q(p[-1]) for p in split(t[2:-1])]),
                   Parser(d[7:j]).expr())))
    print('  [' + ';\n   '.join(res) + '].')


def specials():
    funs = [f for f in out_funs if f[1]]
    print('(** * Specials: the partial specialisations of the base classes of the optionals')
    print()
    print('    Written by tools/cpp2coq.py --specials from /repo/include/tiny/optional.h; not edited')
    print('    by hand.  The member functions as in [Source.v].  When a specialisation is used is')
    print('    part of [Templates.v]. *)')
    print()
    print('From Coq Require Import String List.')
    print('From Verif Require Import Syntax.')
    print('Import ListNotations.')
    print('Local Open Scope string_scope.')
    print()
    for name, cls, a, b, d, cond in funs:
        print('(** optional.h:%d-%d, %s *)' % (a, b, cls))
        print(wrap(d))
        print()
    print('(** All of them. *)')
    print('Definition specials : list fundef :=')
    print('  [' + ';\n   '.join(f[0] for f in funs) + '].')


def wrap(d):
    """Breaks long lines, not inside strings."""
    res = []
    for line in d.split('\n'):
        ind = len(line) - len(line.lstrip())
        line = re.sub(r'"[^"]*"', lambda m: m.group(0).replace(' ', '\0'), line)
        w = textwrap.wrap(line, 96, initial_indent='', subsequent_indent=' ' * (ind + 4),
                          break_long_words=False, break_on_hyphens=False)
        res += [x.replace('\0', ' ') for x in w]
    return '\n'.join(res)


def constants():
    print('(** * Constants: the text of what the compiler executes')
    print()
    print('    Written by tools/cpp2coq.py --constants from /repo/include/tiny/optional.h; not edited')
    print('    by hand.  The functions as in [Source.v]; the sentinel constants with their types. *)')
    print()
    print('From Coq Require Import String List NArith.')
    print('From Verif Require Import Syntax.')
    print('Import ListNotations.')
    print('Local Open Scope string_scope.')
    print()
    for name, cls, a, b, d, cond in out_funs:
        print('(** optional.h:%d-%d%s *)' % (a, b, ', ' + cls if cls else ''))
        print(wrap(d))
        print()
    print('(** Literals and differences of them. *)')
    print('Inductive cexpr : Type :=')
    print('| CNum (n : N)')
    print('| CSub (a b : cexpr).')
    print()
    print('(** Specialisation, condition, type and value of the constant [value] (optional.h:%s). *)'
          % ', '.join(str(c[0]) for c in out_constants))
    print('Definition sentinels : list (string * (string * (string * cexpr))) :=')
    print('  [' + ';\n   '.join('(%s, (%s, (%s, %s)))' % (q(c), q(' and '.join(cond[1:])), q(t), v)
          for _, c, t, cond, v in out_constants) + ']%N.')


# ------------------------------------------------------------------ templates

WORDS = {'unsigned', 'signed', 'long', 'short', 'int', 'char', 'double'}


class TypeParser(Parser):
    """Type and constant expressions."""
    def targs(self):
        self.eat('<')
        res = []
        while not self.accept('>'):
            res.append(self.texpr())
            if self.peek() != '>':
                self.eat(',')
        return res

    def texpr(self, k=0):
        ops = [('||', 'TxOr'), ('&&', 'TxAnd'), ('!=', 'TxNe')]
        if k == len(ops):
            return self.tunary()
        e = self.texpr(k + 1)
        while self.peek() == ops[k][0]:
            self.eat()
            e = '%s (%s) (%s)' % (ops[k][1], e, self.texpr(k + 1))
        return e

    def tunary(self):
        t = self.peek()
        if t == '!':
            self.eat()
            return 'TxNot (%s)' % self.tunary()
        if t == '(':
            self.eat()
            e = self.texpr()
            self.eat(')')
            return e
        if t == 'decltype':
            self.eat(), self.eat('(')
            e = self.texpr()
            self.eat(')')
            return 'TxDecltype (%s)' % e
        if t == 'noexcept':
            start, self.i = self.i, match(self.t, self.i + 1) + 1
            return 'TxText %s' % q(text(self.t[start:self.i]))
        if t in ('true', 'false'):
            self.eat()
            return 'TxBool ' + t
        self.accept('typename')
        while self.peek() in ('impl', 'tiny') and self.peek(1) == '::':
            self.eat(), self.eat()
        n = self.eat()
        assert n.kind == 'id', (n, n.line)
        if n in WORDS:
            ws = [n]
            while self.peek() in WORDS:
                ws.append(self.eat())
            if len(ws) > 1:
                ws = [w for w in ws if w != 'signed']
            n = ' '.join(ws)
        elif n == 'std':
            self.eat('::')
            n = 'std::' + self.eat()
        e = 'TxApp %s %s' % (q(n), lst(self.targs())) if self.peek() == '<' else 'TxName %s' % q(n)
        while self.peek() == '::':
            self.eat()
            e = 'TxMem (%s) %s' % (e, q(self.eat()))
        return e


def type_expr(toks):
    if ('declval' in toks and toks[0] != 'noexcept') or 'sizeof' in toks or text(toks[-3:]) == '(nullptr)':
        return 'TxText %s' % q(text(toks))
    p = TypeParser(toks)
    e = p.texpr()
    assert p.done(), (p.peek(), p.peek().line)
    return e


def guard(cond):
    return lst([q(c) for c in cond])


def tparams(toks):
    res = []
    for p in split(toks):
        default = None
        if '=' in p:
            j = p.index('=')
            p, default = p[:j], p[j + 1:]
        ids = [t for t in p if t.kind == 'id']
        res.append([str(ids[-1]) if len(ids) > 1 else '', '...' in p, default])
    return res


tdefs, tdefaults = [], {}


def titem(d):
    """using / static constexpr auto / static_assert inside a class, or None."""
    g = guard(d[0].cond)
    if d[0] == 'using' and '=' in d:
        return '(%s, IUsing %s (%s))' % (g, q(d[1]), type_expr(d[3:-1]))
    if d[0] == 'using' and d[1] == 'typename':
        return '(%s, IUsing %s (%s))' % (g, q(d[-2]), type_expr(d[2:-1]))
    if d[0] == 'static' and 'auto' in d[:3] and '=' in d:
        j = d.index('=')
        return '(%s, IConst %s (%s))' % (g, q(d[j - 1]), type_expr(d[j + 1:-1]))
    if d[0] == 'static_assert':
        return '(%s, IAssert (%s))' % (g, type_expr(split(d[2:-2])[0]))
    return None


def alternatives(toks):
    """One place of the text, under different #if conditions."""
    groups = []
    for t in toks:
        if not groups or groups[-1][0] != t.cond:
            groups.append((t.cond, []))
        groups[-1][1].append(t)
    return lst(['(%s, %s)' % (guard(c), type_expr([t for t in g if t != ';'])) for c, g in groups])


def class_items(m):
    items, c = [], 0
    while c < len(m):
        if m[c] in ('public', 'private', 'protected') and m[c + 1] == ':':
            c += 2
        elif m[c] == ';':
            c += 1
        elif m[c] == 'template':
            c = end_of(m, skip_template(m, c))
        else:
            e = end_of(m, c)
            it = titem(m[c:e])
            items += [it] if it else []
            c = e
    return items


def tdef(params, d, cond):
    """A template definition: parameters and the declaration after template<...>."""
    k = 0
    while d[k] == '[':
        k = match(d, k) + 1
    d = d[k:]
    if d[0] in ('struct', 'class'):
        kind, name, k = 'TClass', d[1], 2
    elif d[0] == 'using' and len(d) > 2 and d[2] == '=':
        kind, name, k = 'TAlias', d[1], 2
    elif d[0] == 'inline' and d[1] == 'constexpr':
        kind, name, k = 'TVariable', d[3], 4
    else:
        return
    if name not in (LIBRARY_TEMPLATES if LIBRARY else SELECTION):
        return
    pattern = None
    if d[k] == '<':
        j = match_angle(d, k)
        pattern = [type_expr(x) for x in split(d[k + 1:j])]
        k = j + 1
    items, body = [], '[]'
    if kind == 'TClass':
        if d[k] == ';':           # a declaration; it may have the default arguments
            tdefaults[str(name)] = [p[2] for p in params]
            return
        j = d.index('{', k)
        if d[k] == ':':
            body = alternatives([t for t in d[k + 1:j] if t not in ('public', 'private')])
        items = class_items(d[j + 1:match(d, j)])
    else:
        assert d[k] == '='
        body = alternatives(d[k + 1:])
    ps = []
    for i, (x, pack, default) in enumerate(params):
        if default is None and pattern is None and tdefaults.get(str(name)):
            default = tdefaults[str(name)][i]
        ps.append('(%s, %s, %s)' % (q(x), str(pack).lower(),
                  'None' if default is None else 'Some (%s)' % type_expr(default)))
    ident = 't%d_%s' % (d[0].line, name)
    tdefs.append((ident, d[0].line, d[-1].line, 'Definition %s : tdef :=\n  Template %s %s %s\n    %s\n    %s\n'
                  '    %s\n    %s.' % (ident, q(name), kind, guard(cond), lst(ps),
                  'None' if pattern is None else '(Some %s)' % lst(pattern), body,
                  '[' + ';\n     '.join(items) + ']')))


def find_templates(toks):
    k = 0
    while k < len(toks):
        t = toks[k]
        if t in ('TINY_OPTIONAL_INLINE_NS_BEGIN', 'TINY_OPTIONAL_INLINE_NS_END', ';'):
            k += 1
            continue
        if t == 'namespace':
            j = k
            while toks[j] != '{':
                j += 1
            e = match(toks, j)
            find_templates(toks[j + 1:e])
            k = e + 1
            continue
        params, k0 = [], k
        if t == 'template':
            j = match_angle(toks, k + 1)
            params, k0 = tparams(toks[k + 2:j]), skip_template(toks, k)
        e = end_of(toks, k0)
        # the other branch of an #if inside of the declaration
        while (e < len(toks) and toks[e].cond and toks[e - 1].cond != toks[k0].cond
               and toks[e].cond[-1] == 'else of ' + toks[e - 1].cond[-1]):
            e = next(i for i in range(e, len(toks)) if toks[i] == ';') + 1
        d = toks[k0:e]
        if t == 'template' or (t == 'struct' and '{' in d):
            tdef(params, d, t.cond)
        if LIBRARY and t == 'template':
            library_item(toks[k + 2:match_angle(toks, k + 1)], d, t.cond)
        k = e


def templates():
    fwd = '/repo/include/tiny/optional_flag_manipulator_fwd.h'
    find_templates(lex(open(fwd).read(), False))
    find_templates(lex(open(PATH).read()))
    print('(** * Templates: the templates that choose the storage strategy, as syntax trees')
    print()
    print('    Written by tools/cpp2coq.py --templates from /repo/include/tiny/optional.h and')
    print('    optional_flag_manipulator_fwd.h (default argument of optional_flag_manipulator); not')
    print('    edited by hand.  The types are those of [TemplateSyntax.v].  In classes only the')
    print('    types, the constants declared with auto and the static_asserts. *)')
    print()
    print('From Coq Require Import String List.')
    print('From Verif Require Import TemplateSyntax.')
    print('Import ListNotations.')
    print('Local Open Scope string_scope.')
    print()
    for name, a, b, d in tdefs:
        print('(** optional.h:%d-%d *)' % (a, b))
        print(wrap(d))
        print()
    print('(** All of them, in the order of the header. *)')
    print('Definition templates : list tdef :=')
    print('  [' + ';\n   '.join(t[0] for t in tdefs) + '].')


# -------------------------------------------------------------------- library

fdecls, markers, kinds = [], [], []


def kinded(toks):
    """Template parameters with class/auto."""
    res = []
    for p in split(toks):
        default = None
        if '=' in p:
            j = p.index('=')
            p, default = p[:j], p[j + 1:]
        pack = '...' in p
        ids = [t for t in p if t.kind == 'id']
        res.append('(%s, %s, %s, %s)' % (q(ids[0]), q(ids[1] if len(ids) > 1 else ''), str(pack).lower(),
                   'None' if default is None else 'Some (%s)' % type_expr(default)))
    return lst(res)


def parameter(toks):
    """Type, what follows it (const&, &&, const*), pack?, name."""
    if toks == ['...']:
        return '(None, "...", false, "")'
    p = TypeParser(toks)
    e = p.tunary()
    rest = toks[p.i:]
    name = rest[-1] if rest and rest[-1].kind == 'id' and rest[-1] != 'const' else ''
    rest = rest[:-1] if name else rest
    return '(Some (%s), %s, %s, %s)' % (e, q(text([t for t in rest if t != '...'])),
                                        str('...' in rest).lower(), q(name))


def library_item(params, d, cond):
    k = 0
    while d[k] == '[':
        k = match(d, k) + 1
    d = d[k:]
    if d[0] in ('struct', 'class'):
        name = d[1]
        if name in ('optional', 'TinyOptionalImpl') and '{' in d and d[2] != '<':
            j = d.index('{')
            kinds.append('(%s, %s, %s)' % (q(name), kinded(params), q(d[3] if d[2] == ':' else '')))
            m, access, c = d[j + 1:match(d, j)], 'private', 0
            while c < len(m):
                if m[c] in ('public', 'private', 'protected') and m[c + 1] == ':':
                    access, c = m[c], c + 2
                elif m[c] == ';':
                    c += 1
                elif m[c] == 'template':
                    c = end_of(m, skip_template(m, c))
                else:
                    e = end_of(m, c)
                    if MARKER in m[c:e] and '(' not in m[c:e]:
                        markers.append('(%s, %s, %s)' % (q(name), q(access), q(text(m[c:e]))))
                    c = e
        return
    if '(' not in d or d[0] in ('using', 'inline'):
        return
    j = d.index('(')
    name = d[j - 1]
    if name not in LIBRARY_FUNCTIONS:
        return
    e = match(d, j)
    ret = [t for t in d[:j - 1] if t != 'constexpr']
    if d[e + 1] == '->':                        # a deduction guide
        assert not ret and d[-1] == ';'
        ret, body = d[e + 2:-1], 'None'
    else:
        assert d[e + 1] == '{', d[e + 1]
        body = 'Some ' + Parser(d[e + 1:]).block()
    ident = 'l%d_%s' % (d[0].line, name)
    if 'constexpr' in d[:j]:
        library_constexpr.append(ident)
    fdecls.append((ident, d[0].line, d[-1].line,
                   'Definition %s : fdecl :=\n  FDecl %s %s\n    %s\n    %s\n    (%s)\n    (%s).' % (
                       ident, q(name), guard(cond), kinded(params),
                       lst([parameter(p) for p in split(d[j + 1:e])]), type_expr(ret), body)))


def library():
    find_templates(lex(open(PATH).read()))
    print('(** * Library: the deduction guide, make_optional, std::hash and is_tiny_optional_v, as')
    print('    syntax trees')
    print()
    print('    Written by tools/cpp2coq.py --library from /repo/include/tiny/optional.h; not edited by')
    print('    hand. *)')
    print()
    print('From Coq Require Import String List.')
    print('From Verif Require Import Syntax TemplateSyntax.')
    print('Import ListNotations.')
    print('Local Open Scope string_scope.')
    print()
    print('(** A function template or a deduction guide: name, #if conditions, template parameters')
    print('    (class or auto, name, pack?, default), parameters (type or None for the ellipsis, what')
    print('    follows the type, pack?, name), return type, statements (None: a guide). *)')
    print('Record fdecl : Type := FDecl {')
    print('  fd_name : string;')
    print('  fd_guard : list string;')
    print('  fd_params : list (string * string * bool * option texpr);')
    print('  fd_args : list (option texpr * string * bool * string);')
    print('  fd_ret : texpr;')
    print('  fd_body : option (list stmt)')
    print('}.')
    print()
    for name, a, b, d in fdecls + tdefs:
        print('(** optional.h:%d-%d *)' % (a, b))
        print(wrap(d))
        print()
    print('Definition declared : list fdecl :=')
    print('  [' + ';\n   '.join(t[0] for t in fdecls) + '].')
    print()
    print('Definition library : list tdef :=')
    print('  [' + ';\n   '.join(t[0] for t in tdefs) + '].')
    print()
    print('(** Classes: template parameters, how they derive from their base class. *)')
    print('Definition class_heads : list (string * list (string * string * bool * option texpr) * string) :=')
    print(wrap('  [' + ';\n   '.join(kinds) + '].'))
    print()
    print('(** Declarations of %s: class, access, text. *)' % MARKER)
    print('Definition markers : list (string * string * string) :=')
    print('  [' + ';\n   '.join(markers) + '].')


# -------------------------------------------------------------------- members

STORAGE = {'SeparateFlagStorage', 'InplaceStorage'}
ACCESS = ('public', 'private', 'protected')
out_members, out_others, out_namespace = [], [], []


def function_name(d):
    """The name of a function, as in [function]; None: not a function."""
    k = 0
    while k < len(d) and d[k] not in ('{', ';') and (d[k] != '(' or d[k - 1] == 'operator'):
        if d[k] == '=' and d[k - 1] != 'operator':
            return None                          # an initialiser
        if d[k] == '[':
            k = match(d, k)
        elif d[k] == 'requires':
            k = match(d, k + 1)
        elif d[k] == '<' and d[k - 1] != 'operator' and d[k - 1].kind == 'id':
            k = match_angle(d, k)
        k += 1
    if k >= len(d) or d[k] != '(':
        return None
    for j in range(k):
        if d[j] == 'operator':
            return text(d[j:k])
    return ('~' if d[k - 2] == '~' else '') + d[k - 1]


def member(access, d):
    """A declaration in a class: access, what it declares, #if conditions."""
    def item(what):
        return 'Member %s (%s) %s' % (q(access), what, guard(d[0].cond))
    t, n = d[0], function_name(d)
    if t in ACCESS or t == 'static_assert':
        return None
    if t == 'friend':
        return item('DFriend')
    if t == 'using' and '=' in d:
        rhs = [x for x in strip_angles(d[d.index('=') + 1:-1]) if x != 'typename']
        return item('DType %s %s' % (q(d[1]), q(text(rhs).replace('impl::', ''))))
    if t == 'using':
        c = [x for x in d[1:-1] if x != 'typename']
        assert c[0].startswith('Base'), text(d)
        n = text(c)[len('Base::'):]
        return item('DUsing %s' % q(n))
    if t == 'union' and d[1] == '{':             # the members of an anonymous union
        m, res, k = d[2:match(d, 1)], [], 0
        while k < len(m):
            e = end_of(m, k)
            res.append(member(access, m[k:e]))
            k = e
        return ';\n     '.join(res)
    if t in ('struct', 'class', 'union', 'enum'):
        return item('DType %s ""' % q(d[1])) if d[1].kind == 'id' else item('DOther')
    if n is not None:
        return item('DFun %s' % q(n))
    dd = strip_angles(d[:d.index('=')] if '=' in d else d[:-1])
    if '{' in dd:
        dd = dd[:dd.index('{')]
    return item('DData %s %s' % (q(dd[-1]), q(text([x for x in dd[:-1] if x not in ('static', 'constexpr')]))))


def members_of(d, special, params, out):
    j = d.index('{')
    h = strip_angles([t for t in d[1:j]])
    bases, full = [], [t for t in d[1:j] if t not in ACCESS]
    full = [q(text(b).replace('impl::', '')) for b in split(full[full.index(':') + 1:])] if ':' in full else []
    alias = None
    if ':' in h:
        for b in split(h[h.index(':') + 1:]):
            a = 'public' if d[0] == 'struct' else 'private'
            if b[0] in ACCESS:
                a, b = b[0], b[1:]
            bases.append('(%s, %s)' % (q(a), q(text(b).replace('impl::', ''))))
    m, access, c, ds, nested = d[j + 1:match(d, j)], 'public' if d[0] == 'struct' else 'private', 0, [], []
    while c < len(m):
        if m[c] in ACCESS and m[c + 1] == ':':
            access, c = m[c], c + 2
        elif m[c] == ';':
            c += 1
        else:
            k = skip_template(m, c)
            e = end_of(m, k)
            k = c if m[k] in ('[',) else k
            x = m[skip_attributes(m, k):e]
            if x[0] in ('struct', 'class') and '{' in x:
                nested.append(x)
            if text(x[:3]) == 'using Base=':
                alias = q(text(x[3:-1]).replace('impl::', ''))
            i = member(access, x)
            if i:
                ds.append(i)
            c = e
    out.append((str(d[1]), special, d[0].line, d[-1].line, lst(params), lst(bases),
                        lst(full), 'None' if alias is None else '(Some %s)' % alias, ds))
    for x in nested:
        members_of(x, False, [], out)


def skip_attributes(m, k):
    k = skip_template(m, k)
    while m[k] == '[':
        k = match(m, k) + 1
    return k


def declare(n):
    if n not in out_namespace:
        out_namespace.append(n)


def find_members(toks):
    k = 0
    while k < len(toks):
        t = toks[k]
        if t in ('TINY_OPTIONAL_INLINE_NS_BEGIN', 'TINY_OPTIONAL_INLINE_NS_END', ';'):
            k += 1
            continue
        if t == 'namespace':
            j = k
            while toks[j] != '{':
                j += 1
            e = match(toks, j)
            find_members(toks[j + 1:e])
            k = e + 1
            continue
        start, k0 = k, skip_template(toks, k)
        e = end_of(toks, k0)
        d = toks[skip_attributes(toks, k0):e]
        k = e
        if d[0] in ('struct', 'class'):
            declare(d[1])
            if '{' in d:
                ps = [[t for t in (p[:p.index('=')] if '=' in p else p) if t.kind == 'id']
                      for p in split(toks[start + 2:k0 - 1])]
                known = d[1] in (CLASSES | STORAGE) - {'hash'}
                members_of(d, d[2] == '<', [q(p[-1]) for p in ps if len(p) > 1],
                           out_members if known else out_others)
            continue
        n = function_name(d)
        if n is not None:
            declare(n)
        elif d[0] == 'using':
            declare(d[1])
        elif d[0] == 'enum':                     # not enum class
            declare(d[1])
            for x in split(d[d.index('{') + 1:match(d, d.index('{'))]):
                declare(x[0])
        elif '=' in d:
            declare(strip_angles(d[:d.index('=')])[-1])


def class_members():
    find_members(lex(open(PATH).read()))
    print("""(** * Members: what the classes of optional.h declare, with the access

    Written by tools/cpp2coq.py --members from /repo/include/tiny/optional.h; not edited by
    hand.  Types and base classes without their template arguments. *)

From Coq Require Import String List.
Import ListNotations.
Local Open Scope string_scope.

(** Declarations in a class: a function, a variable (and its type), a type (and what it is
    an alias of), a using-declaration for a member of the base class, a friend, anything
    else.  [DUsing "Base"]: the constructors of the base class are inherited. *)
Inductive declared : Type :=
| DFun (x : string)
| DData (x t : string)
| DType (x t : string)
| DUsing (x : string)
| DFriend
| DOther.

(** Access, declaration, #if conditions. *)
Record member : Type := Member {
  m_access : string;
  m_declared : declared;
  m_guard : list string
}.

(** A class: name, a partial specialisation?, template parameters, base classes with the
    access, the base classes with their template arguments, what the class calls [Base],
    members. *)
Record klass : Type := Klass {
  k_name : string;
  k_special : bool;
  k_params : list string;
  k_bases : list (string * string);
  k_base_texts : list string;
  k_base_alias : option string;
  k_members : list member
}.
""")
    for n, special, a, b, params, bases, full, alias, ds in out_members + out_others:
        x = 'k%d_%s' % (a, n)
        print('(** optional.h:%d-%d *)' % (a, b))
        print('Definition %s : klass :=' % x)
        print('  Klass %s %s %s %s' % (q(n), str(special).lower(), params, bases))
        print(wrap('    %s %s' % (full, alias)))
        print('    [' + ';\n     '.join(ds) + '].')
        print()
    print('(** Those that have functions or storage. *)')
    print('Definition klasses : list klass :=')
    print('  [' + ';\n   '.join('k%d_%s' % (k[2], k[0]) for k in out_members) + '].')
    print()
    print('(** The other classes: traits, default flag manipulators, std::hash. *)')
    print('Definition other_klasses : list klass :=')
    print('  [' + ';\n   '.join('k%d_%s' % (k[2], k[0]) for k in out_others) + '].')
    print()
    print('(** What is declared at namespace scope. *)')
    print('Definition namespace_names : list string :=')
    print(wrap('  ' + lst([q(n) for n in out_namespace]) + '.'))


# ----------------------------------------------------------------------- data

out_conversions = []


def datum(d):
    """A declaration in a class: an alias, a constant, data; None: nothing of these."""
    def item(what):
        return '(%s, %s)' % (guard(d[0].cond), what)
    t = d[0]
    if t == 'using' and '=' in d:
        return item('DAlias %s (%s)' % (q(d[1]), type_expr(d[d.index('=') + 1:-1])))
    if t == 'union' and d[1] == '{':
        m, res, k = d[2:match(d, 1)], [], 0
        while k < len(m):
            e = end_of(m, k)
            res.append('(%s, %s)' % (q(m[e - 2]), type_expr(m[k:e - 2])))
            k = e
        return item('DUnion %s' % lst(res))
    if t in ('using', 'friend', 'static_assert', 'struct', 'class', 'enum') or function_name(d) is not None:
        assert 'virtual' not in d, text(d)
        return None
    if t == 'static':
        k = d.index('=')
        p = Parser(d[k + 1:-1])
        e = p.expr()
        assert p.done(), text(d)
        return item('DStatic %s (%s)' % (q(d[k - 1]), e))
    k = d.index('=') if '=' in d else d.index('{') if '{' in d else len(d) - 1
    return item('DMember %s (%s)' % (q(d[k - 1]), type_expr(d[:k - 1])))


def conversion(cls, d):
    """A constructor or conversion function: class, name, parameters, explicit?; else None."""
    n = function_name(d)
    o = d.index('operator') if n and 'operator' in d else None
    if n is None or n != cls and (o is None or d[o + 1].kind != 'id'):
        return None
    k = 0
    while d[k] != n and d[k] != 'operator' or d[k - 1] == '~':
        k += 1
    while d[k] != '(':
        k += 1
    ps = [param(p) for p in split(d[k + 1:match(d, k)]) if p]
    return '(%s, %s, %s, %s)' % (q(cls), q(n), lst(ps), str('explicit' in d[:k]).lower())


def find_data(toks, out):
    k = 0
    while k < len(toks):
        t = toks[k]
        if t in ('TINY_OPTIONAL_INLINE_NS_BEGIN', 'TINY_OPTIONAL_INLINE_NS_END', ';'):
            k += 1
            continue
        if t == 'namespace':
            j = k
            while toks[j] != '{':
                j += 1
            e = match(toks, j)
            find_data(toks[j + 1:e], out)
            k = e + 1
            continue
        start, k0 = k, skip_template(toks, k)
        e = end_of(toks, k0)
        d = toks[skip_attributes(toks, k0):e]
        k = e
        if d[0] not in ('struct', 'class') or '{' not in d or d[1] not in (CLASSES | STORAGE) - {'hash'}:
            continue
        ps = [[t for t in (p[:p.index('=')] if '=' in p else p) if t.kind == 'id']
              for p in split(toks[start + 2:k0 - 1])]
        j = d.index('{')
        h = [x for x in d[1:j] if x not in ACCESS]
        bases = [type_expr(b) for b in split(h[h.index(':') + 1:])] if ':' in h else []
        m, c, ds = d[j + 1:match(d, j)], 0, []
        while c < len(m):
            if m[c] in ACCESS and m[c + 1] == ':':
                c += 2
            elif m[c] == ';':
                c += 1
            else:
                i = skip_template(m, c)
                e = end_of(m, i)
                x = m[skip_attributes(m, i):e]
                i = None if m[c] == 'template' and x[0] == 'using' else datum(x)
                if i:
                    ds.append(i)
                i = conversion(str(d[1]), x)
                if i:
                    out_conversions.append(i)
                c = e
        out.append((str(d[1]), d[2] == '<', d[0].line, d[-1].line,
                    lst([q(p[-1]) for p in ps if len(p) > 1]), lst(bases), ds))


def data():
    out = []
    find_data(lex(open(PATH).read()), out)
    print("""(** * DataText: the data, constants and types that the classes of optional.h declare

    Written by tools/cpp2coq.py --data from /repo/include/tiny/optional.h; not edited by
    hand.  Without nested classes and alias templates. *)

From Coq Require Import String List.
From Verif Require Import Syntax TemplateSyntax.
Import ListNotations.
Local Open Scope string_scope.

(** using x = t; t x; an anonymous union; static constexpr ... x = e. *)
Inductive datum : Type :=
| DAlias (x : string) (t : texpr)
| DMember (x : string) (t : texpr)
| DUnion (l : list (string * texpr))
| DStatic (x : string) (e : expr).

(** A class: name, a partial specialisation?, template parameters, base classes, what it
    declares with the #if conditions. *)
Record dclass : Type := DClass {
  d_name : string;
  d_special : bool;
  d_params : list string;
  d_bases : list texpr;
  d_items : list (list string * datum)
}.
""")
    for n, special, a, b, params, bases, ds in out:
        print('(** optional.h:%d-%d *)' % (a, b))
        print('Definition d%d_%s : dclass :=' % (a, n))
        print(wrap('  DClass %s %s %s %s' % (q(n), str(special).lower(), params, bases)))
        print(wrap('    [' + ';\n     '.join(ds) + '].'))
        print()
    print('(** All of them. *)')
    print('Definition classes_data : list dclass :=')
    print('  [' + ';\n   '.join('d%d_%s' % (k[2], k[0]) for k in out) + '].')
    print()
    print('(** The constructors and conversion functions: class, name, parameters, explicit. *)')
    print('Definition conversions : list (string * string * list param * bool) :=')
    print(wrap('  [' + ';\n   '.join(out_conversions) + '].'))


def constexpr():
    global LIBRARY
    toks = lex(open(PATH).read())
    scope(toks)
    LIBRARY = True
    find_templates(toks)
    print('(** * Constexpr: the functions that optional.h declares constexpr')
    print()
    print('    Written by tools/cpp2coq.py --constexpr from /repo/include/tiny/optional.h; not edited')
    print('    by hand.  The functions are those of [Source.v], [Constants.v] and [Library.v]. *)')
    print()
    print('From Coq Require Import List.')
    print('From Verif Require Import Syntax Source Constants.')
    print('From Verif Require Library.')
    print('Import ListNotations.')
    print()
    print('Definition constexpr_functions : list fundef :=')
    print('  [' + ';\n   '.join(out_constexpr) + '].')
    print()
    print('Definition constexpr_declared : list Library.fdecl :=')
    print('  [' + ';\n   '.join('Library.' + x for x in library_constexpr) + '].')


def main():
    if CONSTEXPR:
        return constexpr()
    if DATA:
        return data()
    if MEMBERS:
        return class_members()
    if TEMPLATES:
        return templates()
    if LIBRARY:
        return library()
    src = open(PATH).read()
    scope(lex(src))
    if CONSTANTS:
        return constants()
    if SPECIALS:
        return specials()
    if HEADS:
        return heads()
    print('(** * Source: the text of the functions of optional.h, as syntax trees')
    print()
    print('    Written by tools/cpp2coq.py from /repo/include/tiny/optional.h; not edited by hand.')
    print('    The types are those of [Syntax.v].  Every definition is one function, with its')
    print('    lines; nothing is interpreted here. *)')
    print()
    print('From Coq Require Import String List.')
    print('From Verif Require Import Syntax.')
    print('Import ListNotations.')
    print('Local Open Scope string_scope.')
    print()
    for name, cls, a, b, d, cond in out_funs:
        print('(** optional.h:%d-%d%s%s *)' % (a, b, ', ' + cls if cls else '',
              '; only if ' + ' and '.join(cond) if cond else ''))
        print(wrap(d))
        print()
    print('(** All functions, in the order of the header. *)')
    print('Definition source : list fundef :=')
    print('  [' + ';\n   '.join(f[0] for f in out_funs) + '].')
    print()
    print('(** The classes: base class, data members with their initialisers, and whether the')
    print('    constructors of the base are inherited ([using Base::Base]). *)')
    print('Definition classes : list classdef :=')
    print('  [' + ';\n   '.join('Class %s %s %s %s' % (q(c), 'None' if b is None else '(Some %s)' % q(b),
          lst(f), str(u).lower()) for c, b, f, u in out_classes) + '].')
    print()
    print('(** The alias templates at namespace scope, without template arguments. *)')
    print('Definition aliases : list (string * string) :=')
    print('  [' + ';\n   '.join('(%s, %s)' % (q(a), q(b)) for a, b in out_aliases) + '].')


main()
