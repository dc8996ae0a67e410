#!/usr/bin/env python3
"""Mutation harness.  usage: mutate.py muts.json
muts.json: list of {"file","definition","old","new","claim","expect":[..]} .
Each mutant: scratch copy of rocq/, textual edit, rebuild; a lemma whose proof breaks is
admitted in the scratch copy so that later files still build, and every *_Props theorem that
then depends on an admitted lemma (Print Assumptions) is reported as failed.  One JSON line per
mutant is appended to seeded/LOG.jsonl."""
import sys,json,os,re,shutil,subprocess
ROOT='/verif'; SC='/tmp/mut%d'%os.getpid(); BASE='/tmp/mutb%d'%os.getpid()
def order():
    return [l.strip() for l in open(BASE+'/_CoqProject') if l.strip().endswith('.v')]
def deps(files):
    out=subprocess.run(['coqdep','-Q','theories','Verif']+files,cwd=SC,capture_output=True,text=True).stdout
    d={}
    for l in out.splitlines():
        m=re.match(r'(\S+)\.vo\b.*?:\s*(.*)',l)
        if m and m.group(1).startswith('theories/'):
            d[m.group(1)+'.v']=[x[:-1] for x in m.group(2).split() if x.endswith('.vo') and x.startswith('theories/')]
    return d
def topo(files,d):
    seen=[]; 
    def go(f):
        if f in seen: return
        for g in d.get(f,[]): go(g)
        seen.append(f)
    for f in files: go(f)
    return seen
HEAD=re.compile(r'^\s*(?:Local |Global |#\[.*?\] )?(Lemma|Theorem|Example|Corollary|Fact|Remark|Instance|Definition|Fixpoint|Inductive|Record)\s+([\w\']+)',re.M)
def compile_file(f,failed):
    for _ in range(60):
        try:
            r=subprocess.run(['coqc','-Q','theories','Verif',f],cwd=SC,capture_output=True,text=True,timeout=900)
        except subprocess.TimeoutExpired:
            return 'timeout',''
        if r.returncode==0: return 'ok',r.stdout
        m=re.search(r'line (\d+), characters (\d+)-(\d+):\s*\nError',r.stderr)
        if not m: return 'err '+r.stderr[-400:],''
        ln=int(m.group(1)); src=open(SC+'/'+f).read()
        pos=sum(len(x)+1 for x in src.split('\n')[:ln-1])+int(m.group(2))
        hs=[h for h in HEAD.finditer(src) if h.start()<=pos]
        if not hs: return 'err '+r.stderr[-300:],''
        h=hs[-1]; nm=h.group(2)
        mp=re.compile(r'\bProof\b[^.]*\.').search(src,h.end())
        mq=re.compile(r'\b(Qed|Defined)\.').search(src,h.end())
        if not mp or not mq or (nm in failed and pos< mp.start()) or pos<mp.start():
            # statement itself no longer typechecks, or a computed Definition: report
            if h.group(1) in('Lemma','Theorem','Example','Corollary') and mq:
                failed.append(nm); src=src[:h.start()]+src[mq.end():]
                open(SC+'/'+f,'w').write(src); continue
            return 'err at %s: %s'%(nm,r.stderr[-300:]),''
        failed.append(nm)
        src=src[:mp.start()]+'Proof. Admitted.'+src[mq.end():]
        open(SC+'/'+f,'w').write(src)
    return 'too many',''
def main():
    muts=json.load(open(sys.argv[1]))
    if os.path.exists(BASE): shutil.rmtree(BASE)
    shutil.copytree(ROOT+'/rocq',BASE)
    log=open(ROOT+'/seeded/LOG.jsonl','a')
    for mu in muts:
        if os.path.exists(SC): shutil.rmtree(SC)
        shutil.copytree(BASE,SC)
        p=SC+'/theories/'+mu['file']; s=open(p).read()
        n=s.count(mu['old'])
        k=mu.get('nth')
        if n==0 or (n>1 and k is None): print('BAD EDIT',mu['definition'],n); continue
        if k is None: s=s.replace(mu['old'],mu['new'])
        else:
            idx=-1
            for _ in range(k+1): idx=s.index(mu['old'],idx+1)
            s=s[:idx]+mu['new']+s[idx+len(mu['old']):]
        open(p,'w').write(s)
        files=order(); d=deps(files); o=topo(files,d)
        dirty={'theories/'+mu['file']}
        for f in o:
            if any(g in dirty for g in d.get(f,[])): dirty.add(f)
        failed=[]; props=set(); notes=[]; skip=set()
        for f in o:
            if f not in dirty: continue
            if any(g in skip for g in d.get(f,[])): skip.add(f); continue
            st,out=compile_file(f,failed)
            if st!='ok': notes.append(f+': '+st); skip.add(f); continue
            if f.endswith('_Props.v'):
                src=open(BASE+'/'+f).read()
                names=re.findall(r'Print Assumptions (\w+)\.',open(SC+'/'+f).read())
                blocks=re.split(r'(?=Closed under the global context|^Axioms:)',out,flags=re.M)
                blocks=[b for b in blocks if b.startswith('Closed') or b.startswith('Axioms:')]
                for nm,b in zip(names,blocks):
                    if any(re.search(r'\b%s\b'%re.escape(x),b) for x in failed): props.add(nm)
        pf=sorted(set(x for x in failed if re.match(r'C\d+_',x))|props)
        ok=bool(failed) or bool(notes)
        rec={"definition":mu['file']+':'+mu['definition'],"edit":mu['old']+'  ==>  '+mu['new'],"claim_broken":mu['claim'],
             "lemmas_failed":failed,"theorems_failed":pf,"theorems_tightened":mu.get('tightened',[]),"notes":notes}
        print('KILLED' if pf else ('killed-by-lemma/err' if ok else 'SURVIVED'),mu['definition'],'|',mu['new'][:60],'->',pf[:8],notes[:1])
        log.write(json.dumps(rec)+'\n'); log.flush()
main()
