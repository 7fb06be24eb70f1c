import json,sys,re,glob,os
base='/verif/rocq/theories'
deps={}
for f in glob.glob(base+'/*/*.v'):
    n=f[len(base)+1:-2].replace('/','.')
    s=open(f).read()
    d=set()
    for m in re.finditer(r'From Verif(\.\w+)? Require (?:Import|Export)(.*?)\.(?=\s)',s,re.S):
        for x in m[2].split(): d.add((m[1][1:]+'.' if m[1] else '')+x)
    deps[n]=d
def trans(n,seen=None):
    seen=set() if seen is None else seen
    for x in deps.get(n,()):
        if x not in seen: seen.add(x); trans(x,seen)
    return seen
thm={}
for f in glob.glob(base+'/Properties/*.v'):
    n=f[len(base)+1:-2].replace('/','.')
    for m in re.finditer(r'^Theorem (C\d\d_\w+)',open(f).read(),re.M): thm[m[1]]=n
out=open('/verif/seeded/LOG.jsonl','a')
for m in json.load(open(sys.argv[1])):
    ids=re.findall(r'C\d\d',m['claim'])
    failed=list(m['fails']); blocked=[]
    fm=[x.split(':')[0][:-2].replace('/','.') for x in m['fails']]
    for t,n in sorted(thm.items()):
        if t[:3] in ids and (n in fm or any(x in trans(n) for x in fm)): blocked.append(t)
    o=dict(definition=m['definition'] if ':' in m['definition'] else f"{m['file']}:{m['definition']}",edit=f"{m['old']}  -->  {m['new']}",claim=m['claim'],theorems_failed=list(dict.fromkeys(x.split(':')[-1] for x in failed)),theorems_blocked=[t for t in blocked if t not in [x.split(':')[-1] for x in failed]],theorems_tightened=m.get('tightened',[]))
    if m.get('note'): o['note']=m['note']
    out.write(json.dumps(o)+'\n')
