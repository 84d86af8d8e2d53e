#!/usr/bin/env python3
"""Generate rocq/theories/XmlData.v from the shipped XML file (read as text/XML only).

Mirrors Tag.from_element (_udunits2_xml_parser.py:32-42): local name, stripped text,
children.  Run:  tools/gen_xml.py /repo/pyudunits2/udunits2_combined.xml > rocq/theories/XmlData.v
"""
import sys
import xml.etree.ElementTree as ET

root = ET.parse(sys.argv[1]).getroot()
[us] = [e for e in root.iter() if e.tag.partition("}")[2] == "unit-system"]

def q(s):
    if '"' in s or any(w in s for w in ('From', 'Require', 'Load', 'Declare')):
        # would confuse coqdep: emit code points
        return "[" + "; ".join(f"{ord(c)}%N" for c in s) + "]"
    return 'u "' + s + '"'

def tag(e, ind):
    name = e.tag.partition("}")[2]
    text = (e.text or "").strip()
    kids = [tag(c, ind + 2) for c in e]
    pad = " " * ind
    if not kids:
        return f"{pad}mkTag ({q(name)}) ({q(text)}) []"
    return f"{pad}mkTag ({q(name)}) ({q(text)}) [\n" + ";\n".join(kids) + "]"

print("(** * The shipped database pyudunits2/udunits2_combined.xml as data.")
print("    Generated by tools/gen_xml.py; do not edit. *)")
print("From Verif Require Import PyBase Xml.")
print("Open Scope string_scope.\n")
parts = []
for i in range(0, len(us), 40):
    n = f"db_part{i // 40}"
    parts.append(n)
    print(f"Definition {n} : list tag := [")
    print(";\n".join(tag(e, 2) for e in list(us)[i:i + 40]))
    print("]%list.\n")
print(f"Definition db : tag := mkTag ({q('unit-system')}) ({q((us.text or '').strip())})")
print("  (" + " ++ ".join(parts) + ")%list.")
