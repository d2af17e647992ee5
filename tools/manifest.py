import json,re,glob
exec(open('/verif/tools/status.py').read())
th={}
for f in sorted(glob.glob('/verif/rocq/theories/Prop_*.v')):
    for m in re.finditer(r'^Theorem (C\d\d)_(\w+)',open(f).read(),re.M):
        th.setdefault(m.group(1),[]).append(m.group(1)+'_'+m.group(2))
claims=[]
for k in sorted(STATUS):
    st,note=STATUS[k]
    if st!='not_applicable' and k not in th: print('no theorems for',k); continue
    claims.append(dict(property=k,status=st,theorems=th.get(k,[]),note=note))
for k in th:
    if k not in STATUS: print('no status for',k)
json.dump({"claims":claims},open('/verif/MANIFEST.json','w'),indent=1)
open('/verif/MANIFEST.json','a').write("\n")
print(len(claims))
# The table of results in DESIGN.md

titles={}
for l in open('/verif/properties.jsonl'):
    d=json.loads(l); titles[d['id']]=d['title']
rows=['| Id | Property | Status | Counterexamples | Remarks |','|---|---|---|---|---|']
for k in sorted(titles):
    c=[x for x in claims if x['property']==k]
    st=c[0]['status'] if c else 'open'
    ref=', '.join('`%s`'%t[4:] for t in (c[0]['theorems'] if c else []) if t.endswith('_refuted'))
    note=c[0]['note'] if c else ''
    rows.append('| %s | %s | %s | %s | %s |'%(k,titles[k],st,ref,note.replace('|','\\|')))
d=open('/verif/DESIGN.md').read()
a=d.index('<!-- results -->'); b=d.index('<!-- end results -->')
open('/verif/DESIGN.md','w').write(d[:a]+'<!-- results -->\n'+'\n'.join(rows)+'\n'+d[b:])
