#!/usr/bin/env python3
"""Paste a fresh output of tools/assumptions.py (argument 1) into section 5 of DESIGN.md."""
import sys,re,os
D=os.path.join(os.path.dirname(os.path.abspath(__file__)),'..','DESIGN.md')
s=open(D).read(); a=open(sys.argv[1]).read()
i=s.index('(Generated by tools/assumptions.py'); i=s.index('\n',i)+1
j=s.index('## 6. Findings')
s=s[:i]+'\n'+a+'\n'+s[j:]
open(D,'w').write(s)
