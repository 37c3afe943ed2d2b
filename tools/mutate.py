#!/usr/bin/env python3
"""mutate.py LIST.json: for each {file, old, new, definition, edit, claim} edit a scratch copy of the model,
rebuild what depends on it, and report the first lemma/theorem that fails in each file.
Appends one line per mutant to seeded/LOG.jsonl (unless --dry)."""
import sys, json, os, re, shutil, subprocess
V='/verif/rocq'; M='/tmp/mut/rocq'
dry='--dry' in sys.argv
muts=json.load(open([a for a in sys.argv[1:] if not a.startswith('--')][0]))
def sync():
    os.makedirs(M,exist_ok=True)
    subprocess.run(['rsync','-a','--delete',V+'/',M+'/'],check=True) if shutil.which('rsync') else (shutil.rmtree(M,ignore_errors=True), subprocess.run(['cp','-a',V,M],check=True))
def encl(path,line):
    name=None
    for i,l in enumerate(open(path),1):
        if i>line: break
        m=re.match(r'\s*(?:Local )?(Theorem|Lemma|Corollary|Example|Definition|Fixpoint|Fact|Remark|Proposition)\s+(\w+)',l)
        if m: name=m.group(2)
    return name
for mu in muts:
    sync()
    p=f"{M}/theories/{mu['file']}"
    s=open(p).read()
    n=s.count(mu['old'])
    if n!=1:
        print('BAD',mu['edit'],'occurrences',n); continue
    open(p,'w').write(s.replace(mu['old'],mu['new']))
    subprocess.run('coq_makefile -f _CoqProject -o Makefile',shell=True,cwd=M,stdout=subprocess.DEVNULL,stderr=subprocess.DEVNULL)
    try:
        r=subprocess.run('timeout 1500 make -k -j4 2>&1',shell=True,cwd=M,capture_output=True,text=True)
        out=r.stdout
    except Exception as e: out=str(e)
    fails=[]
    for m in re.finditer(r'File "\./theories/(\w+\.v)", line (\d+)',out):
        f,l=m.group(1),int(m.group(2))
        blk=out[m.end():m.end()+200]
        if 'Warning' in blk.split('\n')[1] if '\n' in blk else False: continue
        fails.append(f"{f[:-2]}.{encl(M+'/theories/'+f,l)}")
    fails=list(dict.fromkeys(fails))
    # everything not built any more
    unbuilt=[f[:-2] for f in os.listdir(M+'/theories') if f.endswith('.v') and (not os.path.exists(M+'/theories/'+f+'o') or os.path.getmtime(M+'/theories/'+f+'o')<os.path.getmtime(p)-1e-3 and False)]
    print(('KILLED ' if fails else 'SURVIVED ')+mu['edit']+' -> '+', '.join(fails)); sys.stdout.flush()
    if not dry:
        with open('/verif/seeded/LOG.jsonl','a') as g:
            g.write(json.dumps(dict(definition=mu['definition'],edit=mu['edit'],claim=mu['claim'],theorems_failed=fails,theorems_tightened=mu.get('tightened',[])))+'\n')
