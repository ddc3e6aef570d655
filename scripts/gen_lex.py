import re
src=open('/repo/src/flpr/scan_fort.l').read().split('\n')
kws=[];syms=[]
for i,l in enumerate(src,1):
    m=re.match(r'^([a-z_]+)\s*\{\s*return Syntax_Tags::(KW_\w+); \}',l)
    if m: kws.append((i,m.group(1),m.group(2)))
    m=re.match(r'^"([^"]+)"\s*\{\s*return Syntax_Tags::(TK_\w+); \}',l)
    if m: syms.append((i,m.group(1),m.group(2)))
o=[]
o.append('''(** The fixed texts of src/flpr/scan_fort.l in the order of their rules,
    transcribed by scripts/gen_lex.py. *)
From Verif Require Import Base Tags.
Local Open Scope string_scope.

(** :%d-%d *)
Definition keyword_rules : list (string * Z) := ['''%(kws[0][0],kws[-1][0]))
o.append(';\n'.join('  ("%s", %s)'%(a,b) for _,a,b in kws)+'].\n')
o.append('(** :%d-%d *)'%(syms[0][0],syms[-1][0]))
o.append('Definition symbol_rules : list (string * Z) := [')
o.append(';\n'.join('  ("%s", %s)'%(a,b) for _,a,b in syms)+'].')
open('/verif/rocq/theories/LexTab.v','w').write('\n'.join(o)+'\n')
print(len(kws),len(syms))
