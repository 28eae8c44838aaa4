#!/usr/bin/env python3
"""Mutation tester. usage: mutate.py muts.py [BASE]
muts.py defines M = [(file, definition, old, new, edit, claim)].
Copies a compiled tree, applies each edit to the model, rebuilds what depends
on it and appends a JSON line per mutant to the output."""
import sys,os,subprocess,shutil,json,re
SRC='/verif/rocq'; BASE='/tmp/mut/base'; RUN='/tmp/mut/run'
J=os.environ.get('MJ','2')
ns={}; exec(open(sys.argv[1]).read(),ns); M=ns['M']
out=sys.argv[2]
os.makedirs('/tmp/mut',exist_ok=True)
def sh(c,cwd): return subprocess.run(c,shell=True,cwd=cwd,stdout=subprocess.PIPE,stderr=subprocess.STDOUT,text=True)
if not os.environ.get('KEEP'):
    sh(f'rm -rf {BASE}; cp -a {SRC} {BASE}','/')
    r=sh('coq_makefile -f _CoqProject -o Makefile && make -j%s 2>&1 | tail -3'%J,BASE); print('base',r.stdout[-300:])
stmt=re.compile(r"^\s*(?:Theorem|Lemma|Corollary|Example|Definition|Fixpoint|Fact)\s+([\w']+)",re.M)
def at(f,line):
    t=open(f).read().split('\n'); 
    for k in range(min(line,len(t))-1,-1,-1):
        m=stmt.match(t[k])
        if m: return m.group(1)
    return '?'
for (f,d,old,new,edit,claim) in M:
    sh(f'rm -rf {RUN}; cp -a {BASE} {RUN}','/')
    p=f'{RUN}/theories/{f}'; s=open(p).read()
    if s.count(old)!=1:
        print('SKIP',d,edit,'count',s.count(old)); continue
    open(p,'w').write(s.replace(old,new))
    r=sh(f'timeout 400 make -k -j{J} {os.environ.get("TGT","")} 2>&1',RUN)
    bad=[]
    for m in re.finditer(r'File "\./theories/([\w.]+)", line (\d+).*?\n(?:.*\n)*?',r.stdout):
        fn,ln=m.group(1),int(m.group(2))
        tail=r.stdout[m.end():m.end()+300]
        if 'Warning' in tail.split('File "')[0][:40]: continue
        bad.append(fn[:-2]+'.'+at(f'{RUN}/theories/{fn}',ln))
    notbuilt=[x[:-2] for x in sorted(os.listdir(f'{RUN}/theories')) if x.endswith('.v') and x.startswith('Prop') and (not os.path.exists(f'{RUN}/theories/{x}o') or os.path.getmtime(f'{RUN}/theories/{x}o')<os.path.getmtime(p))]
    # files that did not need rebuilding keep an old .vo; only keep those make reported
    nb=set(re.findall(r"theories/(Prop\w+)\.vo\] Error|theories/(Prop\w+)\.vo' not remade|Target.*?theories/(Prop\w+)\.vo",r.stdout))
    nb=sorted({a or b or c for a,b,c in nb})
    j={"definition":f[:-2]+'.'+d,"edit":edit,"claim":claim,"failed":sorted(set(bad)),"not_rebuilt":nb}
    print(json.dumps(j),flush=True)
    open(out,'a').write(json.dumps(j)+'\n')
