#!/usr/bin/env python3
"""mutate.py list.json : run mutations. Each: {file, definition, old, new, claim}"""
import json,sys,subprocess,shutil,os,re
src='/tmp/mutsrc/rocq'; dst='/tmp/mut/rocq'
def run(cmd,**k): return subprocess.run(cmd,shell=True,capture_output=True,text=True,**k)
def encl(f,line):
    name='?'
    for i,l in enumerate(open(f),1):
        if i>line: break
        m=re.match(r'\s*(?:Local )?(Lemma|Theorem|Example|Definition|Fixpoint|Corollary|Fact|Remark|Inductive)\s+(\w+)',l)
        if m: name=m[2]
    return name
muts=json.load(open(sys.argv[1]))
run('rm -rf /tmp/mutsrc; mkdir -p /tmp/mutsrc; cp -a /verif/rocq /tmp/mutsrc/rocq')
out=[]
for k,m in enumerate(muts):
    run(f'mkdir -p {dst}; rsync -a --delete {src}/ {dst}/' if shutil.which('rsync') else f'rm -rf {dst}; cp -a {src} {dst}')
    p=f"{dst}/theories/{m['file']}"
    s=open(p).read()
    c=s.count(m['old'])
    if c!=1 and not m.get('all'):
        print(k,'BAD count',c,m['old'][:50]); continue
    s=s.replace(m['old'],m['new'])
    open(p,'w').write(s)
    r=run('timeout 1500 make -k -j4 2>&1',cwd=dst)
    log=r.stdout+r.stderr
    fails=[]
    for mm in re.finditer(r'File "\./?(theories/[^"]+)", line (\d+)',log):
        fails.append((mm[1],encl(f'{dst}/{mm[1]}',int(mm[2]))))
    fails=sorted(set((a.replace('theories/',''),b) for a,b in fails))
    blocked=[]
    for root,_,fs in os.walk(f'{dst}/theories/Properties'):
        for f in fs:
            if f.endswith('.v'):
                vo=os.path.join(root,f)+'o'
                if not os.path.exists(vo) or os.path.getmtime(vo)<os.path.getmtime(p): blocked.append(f[:-2])
    # is blocked computed by mtime ok? only files depending on p are rebuilt
    notmade=sorted(set(re.findall(r"\[(?:Makefile:\d+: )?(theories/Properties/\w+)\.vo\]",log)))
    print(k,m['definition'],'|',m['new'][:60].replace('\n',' '),'=> fails:',[f"{a}:{b}" for a,b in fails],flush=True)
    m['fails']=[f"{a}:{b}" for a,b in fails]
    out.append(m)
json.dump(out,open(sys.argv[1]+'.out','w'),indent=1)
