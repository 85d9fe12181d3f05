#!/usr/bin/env python3
"""Systematic one-token mutants of the model definitions, screened by all proofs.

usage: SNAPSHOT=DIR automutate.py [RESULTS NUMBER SEED WORKERS]

DIR: a copy of rocq/theories outside the repository, with its .vo files. Without arguments: the number of mutants.
The environment variable FILES restricts the model files.
"""
import re,os,sys,json,subprocess,shutil,random,threading,queue
EX=os.environ['SNAPSHOT']
MODEL="GoBase Strutils SplitPattern NormString Vocab Json MergeMap Heap Bpe WordPiece Encodings PreTokString PreTokenizers Normalizers Regex Defaults Pointers Machine Recover Files Floats Capacity Arrays".split()
MODEL=os.environ.get("FILES"," ".join(MODEL)).split()
deps={}
for l in subprocess.run(['coqdep','-Q','.','Verif']+[f for f in os.listdir(EX) if f.endswith('.v')],cwd=EX,capture_output=True,text=True).stdout.split('\n'):
    if '.vo ' in l.split(':')[0]+' ' and '.vio' not in l.split(':')[0]:
        t=os.path.basename(l.split(':')[0].split()[0])[:-3]
        deps[t]=[os.path.basename(x)[:-3] for x in l.split(':')[1].split() if x.endswith('.vo')]
order=[]
def visit(x):
    if x in order: return
    for d in deps[x]: visit(d)
    order.append(x)
def cone(x,acc=None):
    acc=set() if acc is None else acc
    for d in deps[x]:
        if d not in acc: acc.add(d); cone(d,acc)
    return acc
for x in sorted(deps): visit(x)
def dependents(f): return [x for x in order if f in cone(x)]
OPS=[(r'<=\?','<?'),(r'(?<![<=])<\?','<=?'),(r'=\?','<=?'),(r'&&','||'),(r'\|\|','&&'),(r'\bnegb\b','id'),(r'\btrue\b','false'),(r'\bfalse\b','true'),
 (r' \+ 1\b',' + 2'),(r' \+ 1\b',' + 0'),(r' - 1\b',' - 0'),(r' - 1\b',' - 2'),(r'(?<![\w.\[0x])\b0\b(?!x)','1'),(r'(?<![\w.+\-] )(?<![\w.])\b1\b','2'),(r'\.1\b','.2'),(r'\.2\b','.1'),
 (r' \+ ',' - '),(r' - ',' + '),(r' \* ',' + '),(r'\brev \b','id '),(r'\bZ\.max\b','Z.min'),(r'\bZ\.min\b','Z.max'),(r'\btail\b','id'),(r'0x[0-9A-F]+',lambda m:'(%s + 1)'%m.group(0)),(r'(?<![\w.x])\b([2-9]|[1-9]\d+)\b',lambda m:'(%s + 1)'%m.group(0)),
 (r'\bRet None\b','Panic'),(r'\bSome \(','Some (id '),(r'\bc_start\b','c_end'),(r'\bc_end\b','c_start'),(r'\bo_start\b','o_end'),(r'\bo_end\b','o_start'),(r'\bns_norm\b','ns_orig'),(r'\bns_orig\b','ns_norm')]
def mutants():
    out=[]
    for f in MODEL:
        s=open(f'{EX}/{f}.v').read()
        for m in re.finditer(r'^(?:#\[[^\]]*\]\s*)?(Definition|Fixpoint|with)\s+(\w+)',s,re.M):
            e=re.compile(r'\.\s*(?:\n|$)').search(s,m.end())
            b=s.find(':=',m.end())
            if b<0 or b>e.end(): continue
            # body may contain ". " only at end
            for pat,rep in OPS:
                for k in re.finditer(pat,s[b:e.end()]):
                    i=b+k.start(); j=b+k.end(); r=rep(k) if callable(rep) else rep
                    out.append(dict(file=f,defn=m.group(2),pos=i,old=s[i:j],new=r,ctx=s[max(b,i-40):min(e.end(),j+30)].replace('\n',' ')))
    return out
def run(mu,w):
    d=f'{EX}-work/{w}'; shutil.rmtree(d,ignore_errors=True); os.makedirs(d)
    dp=dependents(mu['file'])
    bad=set(dp)|{mu['file']}
    for x in order:
        os.symlink(f'{EX}/{x}.v',f'{d}/{x}.v')
        if x not in bad: os.symlink(f'{EX}/{x}.vo',f'{d}/{x}.vo')
    s=open(f"{EX}/{mu['file']}.v").read()
    t=s[:mu['pos']]+mu['new']+s[mu['pos']+len(mu['old']):]
    os.remove(f"{d}/{mu['file']}.v"); open(f"{d}/{mu['file']}.v",'w').write(t)
    for x in [mu['file']]+dp:
        p=subprocess.run(f'ulimit -v 6000000; exec timeout 300 coqc -w none -Q . Verif {x}.v',shell=True,cwd=d,capture_output=True,text=True)
        rc=p.returncode; err=p.stdout[-300:]+p.stderr[:600]
        if rc:
            if x==mu['file']: return dict(mu,res='invalid',err=err)
            ln=re.search(r'line (\d+)',err); name='?'
            if ln:
                src=open(f'{d}/{x}.v').read().split('\n')
                for q in range(int(ln.group(1))-1,-1,-1):
                    g=re.match(r'^\s*(Example|Theorem|Lemma|Definition|Fixpoint)\s+(\w+)',src[q])
                    if g: name=g.group(2); break
            return dict(mu,res='killed',by=x+'.'+name,rc=rc)
    return dict(mu,res='survived')
if __name__=='__main__':
    ms=mutants()
    if len(sys.argv)<2:
        from collections import Counter
        print(len(ms),Counter(m['file'] for m in ms)); sys.exit()
    out=sys.argv[1]; n=int(sys.argv[2]); seed=int(sys.argv[3]); workers=int(sys.argv[4])
    random.seed(seed); random.shuffle(ms)
    done=set()
    if os.path.exists(out):
        for l in open(out):
            x=json.loads(l); done.add((x['file'],x['defn'],x['old'],x['new'],x['ctx']))
    ms=[m for m in ms if (m['file'],m['defn'],m['old'],m['new'],m['ctx']) not in done]
    q=queue.Queue(); [q.put(m) for m in ms[:n]]; lock=threading.Lock()
    def work(w):
        while True:
            try: m=q.get_nowait()
            except queue.Empty: return
            try: r=run(m,w)
            except Exception as e: r=dict(m,res='error',err=str(e))
            with lock: open(out,'a').write(json.dumps(r)+'\n')
    ts=[threading.Thread(target=work,args=(i,)) for i in range(workers)]
    [t.start() for t in ts]; [t.join() for t in ts]
