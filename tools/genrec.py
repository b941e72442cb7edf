#!/usr/bin/env python3
"""genrec: print a Coq record with setters.  usage: from genrec import rec"""
def rec(name, ctor, fields, params="", args="", pre="", comment="", setp="set_"):
    """fields: list of (name,type,comment); params e.g. '(T : Type)', args e.g. 'T'"""
    out=[]
    if comment: out.append("(** %s *)"%comment)
    out.append("Record %s %s:= %s {"%(name, params+" " if params else "", ctor))
    for i,(f,t,c) in enumerate(fields):
        end = " }." if i==len(fields)-1 else ";"
        out.append("  %s : %s%s%s"%(f,t,end,("  (** %s *)"%c if c else "")))
    if args:
        for f,_,_ in fields: out.append("Arguments %s {%s} _."%(f,args))
        out.append("Arguments %s {%s}."%(ctor,args))
    ty = name+(" "+args if args else "")
    for i,(f,t,c) in enumerate(fields):
        body=" ".join("x" if j==i else "(%s r)"%g for j,(g,_,_) in enumerate(fields))
        out.append("Definition %s%s %s(x : %s) (r : %s) : %s := %s %s."%(setp,f,("{%s} "%args if args else ""),t,ty,ty,ctor,body))
    return "\n".join(out)+"\n"
