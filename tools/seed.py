#!/usr/bin/env python3
"""Mutation testing of the theorems.  Usage: seed.py MUTATIONS.py OUT.jsonl
A mutation may name "targets", the only property files to rebuild.
Copies rocq/ to a scratch directory, applies one edit at a time to a model file, rebuilds, replaces every
proof that no longer goes through by Admitted (in the scratch copy only), and reports the theorems whose
Print Assumptions mentions such a proof (or that fail themselves)."""
import sys,re,os,subprocess,shutil,json,importlib.util
SRC=os.environ.get('SEED_SRC','/verif/rocq')
spec=importlib.util.spec_from_file_location('m',sys.argv[1]); m=importlib.util.module_from_spec(spec); spec.loader.exec_module(m)
out=sys.argv[2]; only=set(sys.argv[3:])
W='/tmp/seed/w_'+os.path.basename(out).replace('.','_')
def sh(c,**k): return subprocess.run(c,shell=True,capture_output=True,text=True,**k)
def deps():
    r=sh('cd %s/theories && coqdep -Q . Verif *.v'%SRC).stdout
    d={}
    for l in r.splitlines():
        mm=re.match(r'(\w+)\.vo .*?: (.*)',l)
        if mm: d[mm.group(1)]=[x[:-3] for x in mm.group(2).split() if x.endswith('.vo') and '/' not in x]
    return d
D=deps()
order=[]
def visit(f):
    if f in order: return
    for g in D[f]: visit(g)
    order.append(f)
for f in D: visit(f)
def dependents(f):
    s={f}
    for g in order:
        if any(x in s for x in D[g]): s.add(g)
    return [g for g in order if g in s]
HEAD=re.compile(r'^\s*(?:#\[[^]]*\]\s*)?(?:Local |Global |Program )?(Lemma|Theorem|Corollary|Fact|Remark|Example|Proposition|Definition|Fixpoint|Inductive|Instance|Record)\s+(\w+)')
def enclosing(lines,n):
    for i in range(n,-1,-1):
        mm=HEAD.match(lines[i])
        if mm: return i,mm.group(1),mm.group(2)
    return None
def admit(path,line):
    lines=open(path).read().split('\n')
    e=enclosing(lines,line-1)
    if not e: return None
    i,kind,name=e
    if kind in('Definition','Fixpoint','Inductive','Record'):
        # proof-style definition?
        pass
    text='\n'.join(lines[i:])
    q=re.search(r'\b(Qed|Defined)\.',text)
    if not q: return None
    nxt=[k for k in range(i+1,len(lines)) if HEAD.match(lines[k])]
    endline=i+text[:q.end()].count('\n')
    if nxt and nxt[0]<=endline: return ('stmt',name)
    body=text[:q.end()]
    p=re.search(r'\bProof\b[^.]*\.',body)
    if not p: return ('stmt',name)
    stmt_end=i+body[:p.start()].count('\n')
    if line-1<stmt_end and not body[:p.start()].rstrip().endswith('.'): return ('stmt',name)
    new=body[:p.start()]+'Proof. Admitted.'
    lines_new='\n'.join(lines[:i])+('\n' if i else '')+new+text[q.end():]
    open(path,'w').write(lines_new)
    return ('proof',name)
def run(mut):
    shutil.rmtree(W,ignore_errors=True); os.makedirs(W)
    sh('cp -a %s/theories %s/'%(SRC,W))
    T=W+'/theories'
    edits=mut['edits'] if 'edits' in mut else [(mut['file'],mut['old'],mut['new'])]
    todo=set()
    for fn,old,new in edits:
        s=open(f'{T}/{fn}.v').read()
        assert s.count(old)==1,(mut['edit'],fn,s.count(old))
        open(f'{T}/{fn}.v','w').write(s.replace(old,new))
        todo|=set(dependents(fn))
    todo=[f for f in order if f in todo]
    if mut.get('targets'):
        need=set()
        def v(f):
            if f not in need:
                need.add(f)
                for g in D[f]: v(g)
        for f in mut['targets']: v(f)
        todo=[f for f in todo if f in need]
    failed=[];thms=[];aborted=None
    for f in todo:
        path=f'{T}/{f}.v'
        for k in range(60):
            r=sh(f'cd {T} && timeout 400 coqc -Q . Verif {f}.v')
            if r.returncode==0: break
            mm=re.search(r'line (\d+), characters',r.stderr)
            if r.returncode==124 or not mm: aborted=(f,r.returncode,r.stderr[-300:]); break
            a=admit(path,int(mm.group(1)))
            if a is None or a[0]=='stmt':
                aborted=(f,a,r.stderr[-400:]); break
            failed.append(f+'.'+a[1])
        if aborted: break
        if f.startswith('Props'):
            names=re.findall(r'^Print Assumptions (\w+)\.',open(path).read(),re.M)
            outs=re.split(r'(?=Closed under the global context|Axioms:)',r.stdout)[1:]
            for n,o in zip(names,outs):
                if o.startswith('Axioms'): thms.append(n)
    thms+= [x.split('.')[1] for x in failed if re.search(r'\.C\d\d_',x)]
    lost=[]
    if aborted:
        fs=dependents(aborted[0])
        for g in fs:
            if g.startswith('Props'): lost+=re.findall(r'^Print Assumptions (\w+)\.',open(f'{SRC}/theories/{g}.v').read(),re.M)
    return failed,sorted(set(thms)),aborted,lost
for mut in m.MUTATIONS:
    if only and mut['id'] not in only: continue
    try: failed,thms,ab,lost=run(mut)
    except AssertionError as e: failed,thms,ab,lost=[],[],('assert',str(e)),[]
    with open(out,'a') as o:
        o.write(json.dumps({'id':mut['id'],'definition':mut['definition'],'edit':mut['edit'],'claim':mut['claim'],'theorems_failed':thms,'broken_proofs':failed[:12],'aborted':ab,'lost':lost[:20]})+'\n')
    print(mut['id'],thms[:6],len(failed),ab,flush=True)
