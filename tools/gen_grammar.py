#!/usr/bin/env python3
"""Generates rocq/theories/GrammarTab.v from /repo/lib/rule_engine/parser/parsetab.py.

The ACTION and GOTO tables and the list of productions are copied verbatim.  The LR(0) items with LALR(1)
look-aheads of each state (lr_items) are recomputed here; they are *untrusted* annotations, every condition the
proofs need of them is re-checked inside Coq (GrammarCheck.v).
"""
import importlib.util, sys
src = sys.argv[1] if len(sys.argv) > 1 else '/repo/lib/rule_engine/parser/parsetab.py'
out = sys.argv[2] if len(sys.argv) > 2 else '/verif/rocq/theories/GrammarTab.v'
sp = importlib.util.spec_from_file_location('pt', src)
pt = importlib.util.module_from_spec(sp); sp.loader.exec_module(pt)
prods = []
for p in pt._lr_productions:
    lhs, rhs = p[0].split(' -> ')
    prods.append((lhs, rhs.split(), p[3], p[5]))
nts = ["S'", 'statement', 'expression', 'object', 'ary_members', 'map_member', 'map_members']
toks = sorted({t for a in pt._lr_action.values() for t in a} - {'$end'})
END = '$end'
tidx = {t: i for i, t in enumerate(toks)}; tidx[END] = len(toks)
nstates = len(pt._lr_action)
def trans(s, x):
    if x in nts:
        return pt._lr_goto.get(s, {}).get(x)
    a = pt._lr_action[s].get(x)
    return a if a is not None and a > 0 else None
first = {n: set() for n in nts}
def fst(x): return first[x] if x in nts else {x}
ch = True
while ch:
    ch = False
    for l, r, _, _ in prods:
        n = fst(r[0]) - first[l]
        if n: first[l] |= n; ch = True
items = [dict() for _ in range(nstates)]
items[0][(0, 0)] = {END}
ch = True
while ch:
    ch = False
    def add(s, k, la):
        global ch
        cur = items[s].setdefault(k, None)
        if cur is None: items[s][k] = set(la); ch = True
        elif not la <= cur: cur |= la; ch = True
    for s in range(nstates):
        work = True
        for (p, d), la in list(items[s].items()):
            l, r, _, _ = prods[p]
            if d == len(r): continue
            x = r[d]
            if x in nts:
                nla = set(la) if d + 1 == len(r) else set(fst(r[d+1]))
                for q, (l2, r2, _, _) in enumerate(prods):
                    if l2 == x: add(s, (q, 0), nla)
            t = trans(s, x)
            if t is not None: add(t, (p, d+1), set(la))
def nt(n): return {"S'": 'NStart'}.get(n, 'N_' + n)
def sym(x): return 'NT ' + nt(x) if x in nts else 'T T_' + x
def mask(la): return sum(1 << tidx[t] for t in la)
def act(n):
    if n is None: return 'AErr'
    return 'AAcc' if n == 0 else ('AShift %d' % n if n > 0 else 'AReduce %d' % -n)
o = []
w = o.append
w('''(* GENERATED by /verif/tools/gen_grammar.py from /repo/lib/rule_engine/parser/parsetab.py - do not edit.

   Models: parsetab.py lines 8-10 (_lr_signature: the token list), 12-20 (_lr_action_items, the ACTION table),
   24-32 (_lr_goto_items, the GOTO table) and 34-104 (_lr_productions), copied entry by entry.  The signature of
   that file is the grammar of parser/__init__.py lines 253-560, so ply uses these tables as they are. *)
From Coq Require Import List NArith.
Import ListNotations.
Open Scope N_scope.
''')
w('(* The token kinds: parser/__init__.py 109-113 (tokens), and the end marker of ply. *)')
w('Inductive tok : Type :=\n' + '\n'.join('| T_' + t for t in toks) + '\n| T_end.\n')
w('Definition tok_index (t : tok) : N :=\n  match t with\n' + '\n'.join('  | T_%s => %d' % (t, tidx[t]) for t in toks) + '\n  | T_end => %d\n  end.\n' % tidx[END])
w('Definition all_toks : list tok :=\n  [' + '; '.join('T_' + t for t in toks + ['end']) + '].\n')
w('(* The nonterminals of the grammar. *)')
w('Inductive nonterm : Type := ' + ' | '.join(nt(n) for n in nts) + '.\n')
w('Definition nonterm_index (n : nonterm) : N :=\n  match n with ' + ' | '.join('%s => %d' % (nt(n), i) for i, n in enumerate(nts)) + ' end.\n')
w('Definition all_nonterms : list nonterm := [' + '; '.join(nt(n) for n in nts) + '].\n')
w('Inductive symbol : Type := T (t : tok) | NT (n : nonterm).\n')
w('(* parsetab.py 34-104: production number i is the i-th entry (the line of parser/__init__.py is in the comment). *)')
w('Definition productions : list (nonterm * list symbol) :=\n  [ ' + '\n  ; '.join('(%s, [%s]) (* %d%s *)' % (nt(l), '; '.join(sym(x) for x in r), i, '' if f is None else ': %s, line %d' % (f, ln)) for i, (l, r, f, ln) in enumerate(prods)) + ' ].\n')
w('(* An entry of the ACTION table: positive = shift, negative = reduce, 0 = accept, None = nonassoc error. *)')
w('Inductive action : Type := AShift (s : N) | AReduce (p : N) | AAcc | AErr.\n')
w('Definition lr_action : list (list (tok * action)) :=\n  [ ' + '\n  ; '.join('[' + '; '.join('(T_%s, %s)' % ('end' if t == END else t, act(n)) for t, n in sorted(pt._lr_action[s].items(), key=lambda kv: tidx[kv[0]])) + ']' for s in range(nstates)) + ' ].\n')
w('Definition lr_goto : list (list (nonterm * N)) :=\n  [ ' + '\n  ; '.join('[' + '; '.join('(%s, %d)' % (nt(t), n) for t, n in sorted(pt._lr_goto.get(s, {}).items())) + ']' for s in range(nstates)) + ' ].\n')
w('(* Untrusted annotations: the items (production, position of the dot, look-ahead set as a bit mask). *)')
w('Definition lr_items : list (list (N * N * N)) :=\n  [ ' + '\n  ; '.join('[' + '; '.join('(%d,%d,%d)' % (p, d, mask(la)) for (p, d), la in sorted(items[s].items())) + ']' for s in range(nstates)) + ' ].')
open(out, 'w').write('\n'.join(o) + '\n')
print(nstates, sum(map(len, items)), 'items', len(toks))
