#!/usr/bin/env python3
"""Replace @[file|pattern] (and @[file|pattern|nth]) in Coq files by file:start-end, the line range of the
C++ definition whose first line contains the literal pattern."""
import re,sys
def rng(f,pat,nth=1):
    L=open("/repo/tcmalloc/"+f).read().split("\n")
    pats=pat.split("\n")
    idx=[i for i in range(len(L)) if all(i+k<len(L) and q.strip() in L[i+k] for k,q in enumerate(pats))]
    if len(idx)<nth: raise SystemExit(f"no match {f}|{pat}")
    i=idx[nth-1]
    depth=0;seen=False
    for j in range(i,len(L)):
        l=re.sub(r'//.*|"(\\.|[^"])*"',"",L[j])
        for ch in l:
            if ch=='{': depth+=1;seen=True
            elif ch=='}': depth-=1
            elif ch==';' and depth==0 and not seen:
                return (i+1,j+1)
        if seen and depth<=0: return (i+1,j+1)
    raise SystemExit("unbalanced "+pat)
def sub(m):
    parts=m.group(1).split("|")
    a,b=rng(parts[0],parts[1],int(parts[2]) if len(parts)>2 else 1)
    return f"{parts[0]}:{a}-{b}" if b!=a else f"{parts[0]}:{a}"
for p in sys.argv[1:]:
    s=open(p).read()
    s2=re.sub(r"@\[((?:[^\[\]]|\[[^\[\]]*\])*)\]",sub,s)
    if s2!=s: open(p,"w").write(s2); print("cited",p)
