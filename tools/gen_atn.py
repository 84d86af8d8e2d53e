"""Writes rocq/theories/AtnData.v: the list returned by serializedATN() in the generated lexer, verbatim."""
import ast
SRC='/repo/pyudunits2/_grammar/parser/udunits2Lexer.py'
t=ast.parse(open(SRC).read())
f=[n for n in t.body if isinstance(n,ast.FunctionDef) and n.name=='serializedATN'][0]
L=ast.literal_eval(f.body[0].value)
out=["(** * The serialised automaton of the generated lexer, verbatim.",
 "",
 "    pyudunits2/_grammar/parser/udunits2Lexer.py:%d-%d, serializedATN().  Written by"%(f.lineno,f.end_lineno),
 "    tools/gen_atn.py; the numbers are copied in order, nothing is interpreted. *)",
 "From Coq Require Import ZArith List.","Import ListNotations.","Local Open Scope Z_scope.","",
 "Definition lexer_atn : list Z :=","  ["]
row=[];rows=[]
for i in range(0,len(L),20):
    rows.append("   "+"; ".join(str(x) if x>=0 else "(%d)"%x for x in L[i:i+20]))
out.append(";\n".join(rows)); out.append("  ].")
open('/verif/rocq/theories/AtnData.v','w').write("\n".join(out)+"\n")
print(len(L))
