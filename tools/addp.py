#!/usr/bin/env python3
"""addp.py: append a property, its claim and its method, read from stdin as python calls prop(...)"""
import sys,os
d=os.path.dirname(os.path.abspath(__file__))
def prop(id,title,statement,quant,why,anchors,status,thms,note,how):
    p=d+'/props.py'; s=open(p).read()
    call='p(%r, %r,\n  %r,\n  %r,\n  %r,\n  %s)\n'%(id,title,statement,quant,why,', '.join(repr(a) for a in anchors))
    i=s.index('\nwith open('); s=s[:i]+call+s[i:]; open(p,'w').write(s)
    p=d+'/claims.py'; s=open(p).read().rstrip('\n'); s+='\nc(%r, %r, %r,\n  %r)\n'%(id,status,thms,note); open(p,'w').write(s)
    p=d+'/design_how.txt'; s=open(p).read().rstrip('\n'); s+='\n%s | %s\n'%(id,how); open(p,'w').write(s)
exec(sys.stdin.read())
