#!/usr/bin/env python3
"""Writes MANIFEST.json from tools/claims.txt and checks that every theorem exists.
claims.txt: blocks 'Cnn status' / theorem names (space separated, several lines) / 'note: ...'"""
import json,re,glob,sys,os
names=set()
for f in glob.glob('/verif/rocq/theories/*.v'):
    names|=set(re.findall(r'^\s*(?:Theorem|Lemma|Corollary|Example)\s+(\w+)',open(f).read(),re.M))
props=[json.loads(l) for l in open('/verif/properties.jsonl')]
claims={}; cur=None
for l in open('/verif/tools/claims.txt'):
    l=l.rstrip('\n')
    m=re.match(r'^(C\d+) (proved|partial|not_applicable)$',l)
    if m: cur={"property":m[1],"status":m[2],"theorems":[],"note":""}; claims[m[1]]=cur
    elif l.startswith('note:'): cur["note"]=l[5:].strip()
    elif l.strip():
        if l.startswith('#'): continue
        for t in l.split():
            if t not in names: print("MISSING theorem",t,"in",cur["property"])
            cur["theorems"].append(t)
out=[]
for p in props:
    if p['id'] in claims: out.append(claims[p['id']])
for k in claims:
    if k not in {p['id'] for p in props}: print("claim without property",k)
json.dump({"claims":out},open('/verif/MANIFEST.json','w'),indent=1)
print(len(out),"claims of",len(props),"properties")
