#!/usr/bin/env python3
"""Transcribe the X-macro of src/flpr/Syntax_Tags_Defs.hh into theories/Tags.v."""
import re
src=open('/repo/src/flpr/Syntax_Tags_Defs.hh').read()
ents=re.findall(r'^\s*X\((\w+),\s*"([^"]*)",\s*(\d+)\)',src,re.M)
first=src[:src.index('X(EOL')].count('\n')+1
out=["(** Syntax tags, transcribed from src/flpr/Syntax_Tags_Defs.hh:%d-%d by"%(first,first+len(ents)-1),
"    scripts/gen_tags.py: one constant per enumerator, and the tables strings_",
"    and types_ of Syntax_Tags.hh:53-54. *)","From Verif Require Import Base.","Local Open Scope Z_scope.",""]
for i,(n,s,t) in enumerate(ents):
    out.append("Definition %s : Z := %d."%(n,i))
out.append("")
out.append("Definition tag_table : list (str * Z) := [")
out.append(";\n".join('  (L "%s", %s)'%(s,t) for n,s,t in ents))
out.append("].")
open('/verif/rocq/theories/Tags.v','w').write("\n".join(out)+"\n")
print(len(ents))
