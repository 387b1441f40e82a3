#!/usr/bin/env python3
"""Mutation testing of the model in a scratch copy (never touches /verif/rocq).
usage: mutate.py FILE.json [name...]   (the base is a build of git HEAD in /tmp/mutbase)   FILE.json: list of
  {"name":..,"file":"X.v","old":..,"new":..,"claim":..,"why":..}
For each: copy, edit, compile in order; a lemma whose proof breaks is admitted in the copy and the
compilation continues, so that at the end Print Assumptions tells which Cnn theorems rest on a broken proof.
Prints one JSON line per mutation."""
import json,re,os,sys,subprocess,shutil,glob
root=os.path.dirname(os.path.dirname(os.path.abspath(__file__)))
base='/tmp/mutbase/rocq/theories'
def prepare():
    os.makedirs('/tmp/mutbase',exist_ok=True)
    head=subprocess.run(['git','-C',root,'rev-parse','HEAD'],capture_output=True,text=True).stdout.strip()
    mark='/tmp/mutbase/HEAD'
    if os.path.exists(mark) and open(mark).read()==head: return
    subprocess.check_call('git -C %s archive HEAD rocq | tar -x -C /tmp/mutbase'%root,shell=True)
    subprocess.check_call('cd /tmp/mutbase/rocq && coq_makefile -f _CoqProject -o Makefile >/dev/null && make -j4 >/dev/null 2>&1',shell=True)
    open(mark,'w').write(head)
files=[l.strip().split('/')[1] for l in open(root+'/rocq/_CoqProject') if l.strip().startswith('theories/')]
W=None
def coqc(f,t=600):
    p=subprocess.run(['timeout',str(t),'coqc','-Q','.','Verif',f],cwd=W,capture_output=True,text=True)
    return p.returncode,(p.stderr+p.stdout)[:4000]
def deps():
    out=subprocess.run(['coqdep','-Q','.','Verif']+files,cwd=W,capture_output=True,text=True).stdout.replace('\\\n',' ')
    d={}
    for l in out.splitlines():
        if ':' not in l: continue
        a,b=l.split(':',1)
        for t in a.split():
            if t.endswith('.vo'): d[os.path.basename(t)[:-1]]=set(os.path.basename(x)[:-1] for x in b.split() if x.endswith('.vo'))
    return d
HEAD=re.compile(r'^\s*(?:Local |Global |#\[[^\]]*\] )*(Lemma|Theorem|Example|Corollary|Fact|Remark|Proposition|Instance)\s+([\w\']+)',re.M)
def admit(f,line):
    p=W+'/'+f; s=open(p).read(); ls=s.split('\n')
    off=sum(len(x)+1 for x in ls[:line-1])
    hs=[m for m in HEAD.finditer(s) if m.start()<=off+len(ls[line-1])]
    if not hs: return None
    m=hs[-1]
    pm=re.compile(r'\bProof\b[^.]*\.').search(s,m.end())
    qm=re.compile(r'\b(Qed|Defined)\.').search(s,m.end())
    if not pm or not qm or pm.start()>qm.start(): return None
    if not (m.start()<=off+len(ls[line-1]) and off<=qm.end()): return None
    body=s[pm.end():qm.start()]
    s=s[:pm.end()]+' Admitted.'+'\n'*body.count('\n')+s[qm.end():]
    open(p,'w').write(s); return m.group(2)
def run(mu):
    global W
    W='/tmp/mut_%d/theories'%os.getpid()
    shutil.rmtree('/tmp/mut_%d'%os.getpid(),ignore_errors=True); shutil.copytree(base,W)
    eds=mu['edits'] if 'edits' in mu else [mu]
    changed=set()
    for e in eds:
        p=W+'/'+e['file']; s=open(p).read()
        assert s.count(e['old'])>=1,('not found',mu['name'],e['old'])
        assert s.count(e['old'])==1 or e.get('all'),('ambiguous',mu['name'],e['old'],s.count(e['old']))
        open(p,'w').write(s.replace(e['old'],e['new'])); changed.add(e['file'])
    d=deps(); dirty=set(); broken=[]
    for f in files:
        if f in changed or (d.get(f,set())&dirty): dirty.add(f)
        if f not in dirty: continue
        for _ in range(200):
            rc,o=coqc(f)
            if rc==0: break
            m=re.search(r'line (\d+)',o)
            if not m: return dict(mu,error='%s: rc %s %s'%(f,rc,o[:300]))
            n=admit(f,int(m.group(1)))
            if n is None: return dict(mu,error='%s line %s not in a proof: %s'%(f,m.group(1),o[:400]))
            broken.append(f[:-2]+'.'+n)
    th=[]
    for f in files:
        if f.startswith('Prop') and f in dirty:
            th+=[(f[:-2],m.group(1)) for m in re.finditer(r'^Theorem (C\d\d+_\w+)',open(W+'/'+f).read(),re.M)]
    if not th: return dict(mu,broken_proofs=broken,theorems_failed=[])
    q='From Verif Require '+' '.join(sorted(set(a for a,b in th)))+'.\n'+''.join('Print Assumptions %s.%s.\n'%x for x in th)
    open(W+'/ZQ.v','w').write(q)
    o=subprocess.run(['coqc','-Q','.','Verif','ZQ.v'],cwd=W,capture_output=True,text=True).stdout
    parts=re.split(r'^(?=Closed under|Axioms:)',o,flags=re.M)[1:]
    assert len(parts)==len(th),(len(parts),len(th),o[:300])
    failed=[t[1] for t,p in zip(th,parts) if p.startswith('Axioms')]
    return dict(mu,broken_proofs=broken,theorems_failed=failed)
def safe(mu):
    try: return run(mu)
    except Exception as e: return dict(mu,error=repr(e)[:400])
    finally: shutil.rmtree('/tmp/mut_%d'%os.getpid(),ignore_errors=True)
if __name__=='__main__':
    from multiprocessing import Pool
    prepare()
    ms=json.load(open(sys.argv[1])); sel=sys.argv[2:]
    ms=[m for m in ms if not sel or m['name'] in sel]
    with Pool(3) as p:
        for r in p.imap(safe,ms,1):
            print(json.dumps(r,ensure_ascii=False),flush=True)
            print(r['name'],r['edit'],'|',r.get('error') or (len(r['broken_proofs']),r['broken_proofs'][:3],len(r['theorems_failed']),r['theorems_failed'][:12]),file=sys.stderr,flush=True)
