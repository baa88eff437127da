#!/usr/bin/env python3
"""Expand `(*@record name mk prefix f:ty f:ty ... *)` lines of a .v.in text on stdin into a Coq
record plus one setter `set_<field>` per field."""
import sys,re
src=sys.stdin.read()
def rep(m):
    body=m.group(1)
    parts=[p.strip() for p in body.split(';') if p.strip()]
    name,mk=parts[0].split()
    fs=[]
    for p in parts[1:]:
        f,t=p.split(':',1); fs.append((f.strip(),t.strip()))
    out=f"Record {name} : Type := {mk} {{\n"+";\n".join(f"  {f} : {t}" for f,t in fs)+"\n}.\n"
    for f,t in fs:
        args=" ".join("v" if g==f else f"({g} r)" for g,_ in fs)
        out+=f"(** field update of [{name}] above (C++ member assignment) *)\nDefinition set_{f} (v : {t}) (r : {name}) : {name} := {mk} {args}.\n"
    return out
sys.stdout.write(re.sub(r'\(\*@record(.*?)\*\)',rep,src,flags=re.S))
