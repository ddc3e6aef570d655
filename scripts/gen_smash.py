#!/usr/bin/env python3
"""Generate rocq/theories/SmashTab.v from src/flpr/Smash_Hash.hh (asso_values, wordlist, switch)."""
import re
s=open('/repo/src/flpr/Smash_Hash.hh').read()
a=s[s.index('asso_values[] = {')+len('asso_values[] = {'):]
a=[int(x) for x in a[:a.index('}')].replace('\n',' ').split(',')]
assert len(a)==256
w=s[s.index('wordlist[] = {'):s.index('if (len <= MAX')]
w=re.findall(r'\{"(\w+)", Syntax_Tags::(\w+), Syntax_Tags::(\w+), (\d+)\}',w)
c=re.findall(r'case (\d+):\s*resword = &wordlist\[(\d+)\];',s)
o=['''(** Tables of src/flpr/Smash_Hash.hh, transcribed by scripts/gen_smash.py. *)
From Verif Require Import Base Tags.
Local Open Scope nat_scope.

Record smashed := mkSm { sm_name : str; tok1 : Z; tok2 : Z; splitpos : nat }.
(** :82-98 asso_values *)
Definition asso_values : list nat := [''']
for i in range(0,256,32): o.append('  '+'; '.join(map(str,a[i:i+32]))+(';' if i<224 else '].'))
o.append('(** :124-174 wordlist *)\nDefinition wordlist : list smashed := [')
o.append(';\n'.join(f'  mkSm (L "{n}") {x} {y} {p}' for n,x,y,p in w)+'].')
o.append('(** :182-257 the switch on key - 4: index into wordlist *)\nDefinition switch (k : nat) : option nat :=\n  match k with')
for k,i in c: o.append(f'  | {k} => Some {i}')
o.append('  | _ => None\n  end.')
open('/verif/rocq/theories/SmashTab.v','w').write('\n'.join(o)+'\n')
