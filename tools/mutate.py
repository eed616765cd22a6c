#!/usr/bin/env python3
# usage: run.py mutants.json  -> appends results to /tmp/mut/results.jsonl
import json,sys,subprocess,os,re,shutil,time
W=os.environ.get('W','/tmp/mut/work')
def sh(c,**k): return subprocess.run(c,shell=True,capture_output=True,text=True,**k)
muts=json.load(open(sys.argv[1]))
# fresh base copy with compiled files
if not os.path.exists(W) or '--fresh' in sys.argv:
    shutil.rmtree(W,ignore_errors=True); shutil.copytree('/verif/rocq',W)
    sh('coq_makefile -f _CoqProject -o Makefile && make -j4',cwd=W)
    shutil.rmtree('/tmp/mut/base',ignore_errors=True); sh(f'cp -a {W} /tmp/mut/base')
done=set(json.loads(l)['id'] for l in open('/tmp/mut/results.jsonl')) if os.path.exists('/tmp/mut/results.jsonl') else set()
for mu in muts:
    if mu['id'] in done: continue
    f=f"{W}/theories/{mu['file']}"
    src=open(f).read()
    if src.count(mu['old'])!=1:
        print('BAD',mu['id'],src.count(mu['old'])); continue
    st=os.stat(f)
    open(f,'w').write(src.replace(mu['old'],mu['new']))
    t=time.time()
    try: r=sh("ulimit -s unlimited; timeout 900 make -k -j2 "+mu.get('target','')+" 2>&1",cwd=W); out=r.stdout
    except Exception as e: out=str(e)
    fails=[]
    for m in re.finditer(r'File "\./theories/(\w+)\.v", line (\d+), characters [^\n]*\n(Error[^\n]*)?',out):
        mod,line=m.group(1),int(m.group(2))
        if 'Warning' in out[m.end():m.end()+10]: continue
        ls=open(f'{W}/theories/{mod}.v').read().split('\n')
        nm='?'
        for i in range(line-1,-1,-1):
            q=re.match(r'\s*(?:Lemma|Theorem|Example|Definition|Fixpoint)\s+(\w+)',ls[i])
            if q: nm=q.group(1); break
        fails.append(f'{mod}.{nm}')
    timeout='Error' not in out
    mu['failed']=fails; mu['secs']=round(time.time()-t)
    print(mu['id'],fails,mu['secs'],flush=True)
    open('/tmp/mut/results.jsonl','a').write(json.dumps(mu)+'\n')
    open(f,'w').write(src); 
    # rebuild base
    shutil.rmtree(W); sh(f'cp -a /tmp/mut/base {W}')
