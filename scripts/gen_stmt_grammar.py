#!/usr/bin/env python3
"""Transcribe the statement grammar of src/flpr/parse_stmt.cc into
theories/StmtRules.v (one constructor per parser function) and
theories/StmtGrammar.v (one body per function, the dispatch switch and
is_action_stmt).  Functions whose body is not of the form
"RULE(tag); constexpr auto p = <combinators>; EVAL(tag, p(ts));" are listed in
SPECIAL; only their combinator expression (if any) is transcribed here."""
import re
src = open('/repo/src/flpr/parse_stmt.cc').read()

def blank(m):
    return re.sub(r'[^\n]', ' ', m.group(0))
code = re.sub(r'/\*.*?\*/', blank, src, flags=re.S)
code = re.sub(r'//[^\n]*', blank, code)
line = lambda pos: code[:pos].count('\n') + 1

SPECIAL = {
    'consume_until_break': None,          # not a rule: has a second argument
    'consume_parens': 'RParens',
    'list_name': 'RListName',
    'action_stmt': 'RExt true',
    'other_specification_stmt': 'RExt false',
    'expr': 'RBreak',
    'procedure_designator': 'RDesignator',
}
funs = list(re.finditer(r'^Stmt_Tree (\w+)\(TT_Stream &ts(?:, [^)]*)?\) \{\n(.*?)^\}', code, re.M | re.S))

def tokens(s):
    return re.findall(r'"[^"]*"|[A-Za-z_][\w:]*|[(),]', s)

class P:
    def __init__(self, toks, rule_tag, macros):
        self.t, self.i, self.rt, self.mac = toks, 0, rule_tag, macros
    def peek(self): return self.t[self.i] if self.i < len(self.t) else None
    def take(self, x=None):
        y = self.t[self.i]
        assert x is None or x == y, (x, y, self.t)
        self.i += 1
        return y
    def args(self):
        self.take('(')
        r = []
        while self.peek() != ')':
            r.append(self.expr())
            if self.peek() == ',': self.take()
        self.take(')')
        return r
    def tag(self):
        x = self.take()
        if x == 'rule_tag': return self.rt
        if x == 'TAG':
            self.take('('); y = self.take(); self.take(')'); return y
        assert x.startswith('Syntax_Tags::'), x
        return x.split('::')[1]
    def tagged(self):
        self.take('(')
        t = self.tag(); r = []
        while self.peek() != ')':
            self.take(','); r.append(self.expr())
        self.take(')')
        return t, r
    def expr(self):
        x = self.take()
        if x in self.mac:
            return P(tokens(self.mac[x]), self.rt, self.mac).expr()
        l = lambda r: '[' + '; '.join(r) + ']'
        if x in ('seq', 'alts', 'parens', 'brackets'):
            t, r = self.tagged()
            return '%s %s %s' % ({'seq': 'PSeq', 'alts': 'PAlts', 'parens': 'p_parens', 'brackets': 'p_brackets'}[x], t, l(r))
        if x in ('list', 'tag_if'):
            t, r = self.tagged()
            assert len(r) == 1
            return '%s %s (%s)' % ({'list': 'p_list', 'tag_if': 'PTag'}[x], t, r[0])
        if x in ('h_seq', 'h_alts', 'h_parens', 'h_brackets'):
            r = self.args()
            return '%s %s' % (x, l(r))
        if x in ('opt', 'star', 'neg', 'h_list'):
            r = self.args(); assert len(r) == 1
            return '%s (%s)' % ({'opt': 'POpt', 'star': 'PStar', 'neg': 'PNeg', 'h_list': 'h_list'}[x], r[0])
        if x == 'rule':
            self.take('('); y = self.take(); self.take(')')
            calls.append(y)
            return 'PRule r_%s' % y
        if x == 'TOK':
            self.take('('); y = self.take(); self.take(')')
            return 'PTok %s' % y
        if x == 'tok':
            self.take('('); y = self.tag(); self.take(')')
            return 'PTok %s' % y
        if x == 'peek':
            self.take('('); y = self.tag(); self.take(')')
            return 'PPeek %s' % y
        if x == 'eol':
            self.take('('); self.take(')'); return 'p_eol'
        if x in ('name', 'letter'):
            self.take('('); self.take(')'); return {'name': 'PName', 'letter': 'PLetter'}[x]
        if x == 'literal':
            self.take('('); y = self.take(); self.take(')')
            return 'PLiteral (L %s)' % y
        raise Exception(x)

def wrap(s, w=96, ind='    '):
    out, cur = [], ''
    for word in re.findall(r'\S+', s):
        if len(cur) + len(word) + 1 > w:
            out.append(cur); cur = word
        else: cur = (cur + ' ' + word).strip()
    out.append(cur)
    return ('\n' + ind).join(out)

calls, rules, bodies = [], [], []
for m in funs:
    name, body = m.group(1), m.group(2)
    a, b = line(m.start()), line(m.end())
    sp = SPECIAL.get(name, 'RExp')
    if sp is None: continue
    rules.append((name, a, b))
    macros = {}
    for d in re.finditer(r'^#define (\w+) (.*)\n', body, re.M): macros[d.group(1)] = d.group(2)
    body = re.sub(r'^#.*\n', '\n', body, flags=re.M)
    rt = re.search(r'RULE\((\w+)\)', body)
    rt = rt.group(1) if rt else None
    e = re.search(r'(?:constexpr )?auto p =\s*(.*?);', body, re.S)
    if sp == 'RExp':
        rest = re.sub(r'RULE\(\w+\);', '', body.replace(e.group(0), ''))
        assert re.fullmatch(r'\s*(EVAL\(\w+, p\(ts\)\);|return p\(ts\);)\s*', rest), (name, rest)
    if e and name not in ('expr',):
        ps = P(tokens(e.group(1)), rt, macros)
        x = ps.expr()
        assert ps.i == len(ps.t), name
        if sp.startswith('RExt'): txt = '%s %s (%s)' % (sp, rt, x)
        else: txt = '%s (%s)' % (sp, x)
    elif name == 'expr':
        assert re.sub(r'\s', '', body) == ('RULE(SG_EXPR);if(TAG(TK_ASTERISK)==ts.peek()||TAG(TK_SLASHF)==ts.peek())'
            'returnStmt_Tree{};EVAL(SG_EXPR,consume_until_break(ts,rule_tag));')
        txt = '%s %s [TK_ASTERISK; TK_SLASHF]' % (sp, rt)
    else: txt = sp
    bodies.append((name, a, b, txt))
names = [r[0] for r in rules]
for c in calls: assert c in names, c

d = code[code.index('Stmt_Tree parse_stmt_dispatch'):code.index('bool is_action_stmt')]
d0 = line(code.index('Stmt_Tree parse_stmt_dispatch'))
disp = re.findall(r'case TAG\((\w+)\):\s*return (\w+)\(ts\);\s*break;', d)
assert d.count('case ') == len(disp)
d1 = line(code.index('bool is_action_stmt'))
act = re.findall(r'case TAG\((\w+)\):', code[code.index('bool is_action_stmt'):])

hdr = 'transcribed from src/flpr/parse_stmt.cc by\n    scripts/gen_stmt_grammar.py'
with open('/verif/rocq/theories/StmtRules.v', 'w') as f:
    f.write('(** The parser functions Stmt_Tree f(TT_Stream &%s,\n    in source order. *)\nFrom Verif Require Import Base.\n\n' % (') ' + hdr))
    f.write('Inductive rule : Set :=\n')
    for n, a, b in rules: f.write('| r_%s (* parse_stmt.cc:%d-%d *)\n' % (n, a, b))
    f.write('.\n\nDefinition all_rules : list rule := [\n  ')
    f.write(wrap('; '.join('r_' + n for n in names), ind='  '))
    f.write('].\n\nDefinition rule_idx (r : rule) : nat :=\n  match r with\n')
    for i, n in enumerate(names): f.write('  | r_%s => %d\n' % (n, i))
    f.write('  end.\n')
with open('/verif/rocq/theories/StmtGrammar.v', 'w') as f:
    f.write('(** The statement grammar, %s. *)\nFrom Verif Require Import Base Tags StmtRules Peg.\n\n' % hdr)
    for n, a, b, t in bodies:
        f.write('(** parse_stmt.cc:%d-%d *)\nDefinition b_%s : rbody :=\n    %s.\n' % (a, b, n, wrap(t)))
    f.write('\nDefinition grammar (r : rule) : rbody :=\n  match r with\n')
    for n in names: f.write('  | r_%s => b_%s\n' % (n, n))
    f.write('  end.\n\n(** parse_stmt.cc:%d-%d: the switch of parse_stmt_dispatch *)\nDefinition dispatch_table : list (Z * rule) := [\n' % (d0, d1 - 2))
    f.write(';\n'.join('  (%s, r_%s)' % x for x in disp))
    f.write('].\n\n(** parse_stmt.cc:%d: the cases of is_action_stmt *)\nDefinition action_tags : list Z := [\n  ' % d1)
    f.write(wrap('; '.join(act), ind='  ') + '].\n')
print(len(rules), 'rules', len(disp), 'dispatch', len(act), 'action')
for (t, r) in disp:
    b = [x for x in bodies if x[0] == r][0][3]
    if t not in b.split('[')[0]: print('root tag differs', t, r, b[:80])
    if 'eol' not in b: print('no eol', r, b[:300])
