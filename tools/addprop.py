#!/usr/bin/env python3
"""addprop.py file.json: append/replace property + status + DESIGN row.
JSON: {id,title,statement,quantifier,why_tests_cant,anchors,status,note,design:[modelled,proof]}"""
import json,sys,os,re
root=os.path.dirname(os.path.dirname(os.path.abspath(__file__)))
for p in json.load(open(sys.argv[1])):
    st=p.pop('status'); note=p.pop('note'); d=p.pop('design')
    L=[json.loads(l) for l in open(root+'/properties.jsonl')]
    L=[x for x in L if x['id']!=p['id']]+[p]
    L.sort(key=lambda x:x['id'])
    open(root+'/properties.jsonl','w').write(''.join(json.dumps(x,ensure_ascii=False)+'\n' for x in L))
    S=json.load(open(root+'/tools/status.json')); S[p['id']]=[st,note]
    json.dump(S,open(root+'/tools/status.json','w'),indent=1)
    D=open(root+'/DESIGN.md').read(); row='| %s | %s | %s |\n'%(p['id'],d[0],d[1])
    D=re.sub(r'^\| %s \|.*\n'%p['id'],'',D,flags=re.M)
    i=D.index('\n## What is modelled'); 
    D=D[:i].rstrip('\n')+'\n'+row+D[i:]
    open(root+'/DESIGN.md','w').write(D)
