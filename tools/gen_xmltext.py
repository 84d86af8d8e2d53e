#!/usr/bin/env python3
"""Generate rocq/theories/XmlTextData.v: the bytes of the shipped XML file.

The file is cut into pieces; '~' (which does not occur in the file) stands for the double quote,
so that the pieces are plain Coq string literals.
Run:  tools/gen_xmltext.py /repo/pyudunits2/udunits2_combined.xml > rocq/theories/XmlTextData.v
"""
import sys
data = open(sys.argv[1], 'rb').read()
assert b'~' not in data
text = data.replace(b'"', b'~').decode()
words = ('From', 'Require', 'Load', 'Declare', '(*', '*)')
print("(** * The bytes of pyudunits2/udunits2_combined.xml.")
print("    Generated by tools/gen_xmltext.py; do not edit.  \"~\" stands for the double quote. *)")
print("From Verif Require Import PyBase.")
print("Open Scope string_scope.\n")
pieces = []
i = 0
while i < len(text):
    j = min(len(text), i + 3000)
    for w in words:
        k = text.find(w, i, j + len(w))
        while k >= 0:
            if k + 1 < j: j = k + 1
            k = text.find(w, k + 1, j + len(w))
    pieces.append(text[i:j]); i = j
assert "".join(pieces) == text
for n, p in enumerate(pieces):
    print(f'Definition piece{n} : string := "{p}".')
print("\nDefinition unquoted (s : string) : list N :=")
print("  List.map (fun c => if N.eqb c 126 then 34%N else c) (bytes_of s).")
print("Definition shipped_bytes : list N :=")
print("  (" + " ++ ".join(f"unquoted piece{n}" for n in range(len(pieces))) + ")%list.")
