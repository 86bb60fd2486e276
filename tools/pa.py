#!/usr/bin/env python3
"""Append missing Print Assumptions lines for every Theorem of a Props file."""
import re,sys
for f in sys.argv[1:]:
    s=open(f).read()
    names=re.findall(r'^\s*(?:Theorem|Corollary)\s+(C\d\w*)',s,re.M)
    miss=[n for n in names if 'Print Assumptions %s.'%n not in s]
    if miss:
        s=s.rstrip('\n')+'\n\n'*(0 if 'Print Assumptions' in s else 1)
        if not s.endswith('\n'): s+='\n'
        s+=''.join('Print Assumptions %s.\n'%n for n in miss)
        open(f,'w').write(s)
    print(f,len(names),'theorems,',len(miss),'added')
