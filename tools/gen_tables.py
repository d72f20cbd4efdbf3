#!/usr/bin/env python3
"""Transcribe the size-class tables of /repo into Coq lists (Tables.v)."""
import re
files=[("size_classes.cc","def"),("legacy_size_classes.cc","legacy"),
       ("experimental_pow2_size_class.cc","pow2"),
       ("reuse_relaxed_below_64_size_classes.cc","reuse")]
out=["(** The size-class tables compiled into the library, transcribed mechanically",
"    by tools/gen_tables.py from the four *size_class*.cc files.  Each entry is",
"    [Sci size span_bytes batch].  Suffix 8: the branch for",
"    __STDCPP_DEFAULT_NEW_ALIGNMENT__ <= 8; suffix 16: the other branch. *)",
"From Verif Require Import Base SizeMap.",""]
names=[]
for fn,short in files:
    lines=open("/repo/tcmalloc/"+fn).read().split("\n")
    shift=None;al=8;cur=None
    depth=0
    for i,l in enumerate(lines,1):
        m=re.match(r"#(?:el)?if TCMALLOC_PAGE_SHIFT == (\d+)",l)
        if m: shift=int(m.group(1)); depth=1
        elif l.startswith("#if defined(__cpp_aligned_new)"): al=8
        elif l.startswith("#else"):
            if depth==0: al=16
        elif l.startswith("#endif"): depth=0
        if "SizeClassInfo List[]" in l: cur=[];start=i
        elif cur is not None:
            m=re.match(r"\s*\{\s*(\d+),\s*(\d+),\s*(\d+)\}",l)
            if m: cur.append(tuple(map(int,m.groups())))
            elif l.startswith("};"):
                nm=f"t_{short}_{al}_{shift}"
                names.append((nm,al,shift,len(cur)))
                out.append(f"(** tcmalloc/{fn}:{start}-{i} *)")
                out.append(f"Definition {nm} : list sci := [")
                out.append(";\n".join("  Sci %d %d %d"%e for e in cur)+"].")
                out.append("")
                cur=None
for al in (8,16):
    for sh in (12,13,15,18):
        l=[n for n,a,s,_ in names if a==al and s==sh]
        out.append(f"Definition tables_{al}_{sh} : list (list sci) := [{'; '.join(l)}].")
open("/verif/rocq/theories/Tables.v","w").write("\n".join(out)+"\n")
for n in names: print(n)
