#!/usr/bin/env python3
"""Insert a Print Assumptions after the Qed of every property theorem lacking one."""
import re,sys
for p in sys.argv[1:]:
    L=open(p).read().split('\n'); out=[]; cur=None; s='\n'.join(L)
    for l in L:
        out.append(l)
        m=re.match(r'Theorem (C\d\d_\w+)',l)
        if m: cur=m.group(1)
        if cur and re.search(r'\bQed\.\s*$',l):
            if f'Print Assumptions {cur}.' not in s: out.append(f'Print Assumptions {cur}.')
            cur=None
    open(p,'w').write('\n'.join(out))
