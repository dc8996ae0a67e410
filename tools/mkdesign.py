#!/usr/bin/env python3
"""DESIGN.md = tools/design_head.md + table per area + table per property (from properties.jsonl, MANIFEST.json) + tools/design_tail.md."""
import json,os,re,glob
root=os.path.dirname(os.path.dirname(os.path.abspath(__file__)))
th={}
for f in glob.glob(root+'/rocq/theories/*_Props.v'):
    for m in re.finditer(r'^\s*Theorem\s+(C\d+)_\w+',open(f).read(),re.M):
        th.setdefault(m.group(1),set()).add(os.path.basename(f)[:-8])
props=[json.loads(l) for l in open(root+'/properties.jsonl')]
man={c['property']:c for c in json.load(open(root+'/MANIFEST.json'))['claims']}
o=open(root+'/tools/design_head.md').read()
o+='\n## Plan and result per property\n\n| id | property | area (`<Area>_Model.v`) | code modelled | result |\n|---|---|---|---|---|\n'
for p in props:
    c=man.get(p['id'],{'status':'planned','note':''})
    files=sorted({a.split(':')[0].replace('include/rad_ml/','') for a in p['anchors']})
    ar=', '.join(sorted(th.get(p['id'],[])))
    esc=lambda t:t.replace('|','\\|')
    o+='| %s | %s | %s | %s | %s. %s |\n'%(p['id'],esc(p['title']),ar,'<br>'.join(files),c['status'],esc(c['note']))
o+='\n'+open(root+'/tools/design_tail.md').read()
open(root+'/DESIGN.md','w').write(o)
print(len(o))
