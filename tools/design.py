#!/usr/bin/env python3
"""Fills the Print Assumptions list of DESIGN.md (between the markers) from the built tree."""
import os, re, subprocess
ROOT = os.path.dirname(os.path.dirname(os.path.abspath(__file__)))
out = subprocess.run(["python3", ROOT + "/tools/assumptions.py"], capture_output=True, text=True).stdout.strip()
p = ROOT + "/DESIGN.md"; s = open(p).read()
blk = "<!-- assumptions -->\n" + out + "\n<!-- /assumptions -->"
s = s.replace("@@ASSUMPTIONS@@", blk) if "@@ASSUMPTIONS@@" in s else re.sub(r"<!-- assumptions -->.*<!-- /assumptions -->", lambda m: blk, s, flags=re.S)
open(p, "w").write(s)
