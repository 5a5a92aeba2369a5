#!/usr/bin/env python3
"""Mutation testing of the model.  Usage:
   mutate.py auto OUT.jsonl SEED PER_DEF FILE...      random operator mutants of the definitions of the given model files
   mutate.py hand OUT.jsonl MUTANTS.json              [{file, old, new, claim}] hand written mutants
 Works in scratch copies /tmp/mut/wN of rocq/theories (with the compiled files); never touches /verif/rocq.
 A mutant is killed by the first Lemma/Theorem that no longer compiles; failing Examples and *_refuted theorems are
 removed from the scratch copy and do not count."""
import sys, os, re, json, random, subprocess, shutil, threading, queue
LIVE='/verif/rocq/theories'; ROOT=os.environ.get('ROOT','/tmp/mut'); SRC=ROOT+'/src'; W=int(os.environ.get('W','3')); TMO=int(os.environ.get('TMO','420'))
os.makedirs(ROOT,exist_ok=True)
shutil.rmtree(SRC,ignore_errors=True); shutil.copytree(LIVE,SRC)   # snapshot: /verif may be edited meanwhile
# mutants already tried (SKIP=out1.jsonl:out2.jsonl)
SEEN={(m['file'],m['old'],m['new']) for f in os.environ.get('SKIP','').split(':') if f and os.path.exists(f) for m in map(json.loads,open(f))}

def deps():
    out=subprocess.run('coqdep -Q . Verif *.v',shell=True,cwd=SRC,capture_output=True,text=True).stdout
    d={}
    for l in out.splitlines():
        m=re.match(r'^(\w+)\.vo\b[^:]*:(.*)$',l)
        if m: d[m.group(1)]={x[:-3].split('/')[-1] for x in m.group(2).split() if x.endswith('.vo') and '/' not in x}
    return d
D=deps()
def topo():
    seen=[];
    def go(x):
        if x in seen: return
        for y in sorted(D[x]): go(y)
        seen.append(x)
    for x in sorted(D): go(x)
    return seen
ORDER=topo()
def dependents(f):
    s={f}
    for x in ORDER:
        if D[x]&s: s.add(x)
    grp=re.sub(r'Model$','',f)
    lst=[x for x in ORDER if x in s]
    # stable: own group first while respecting dependencies
    own=[x for x in lst if x.startswith(grp) or x.startswith('Prop'+grp)]
    need=set()
    def close(x):
        if x in need: return
        need.add(x)
        for y in D[x]:
            if y in s: close(y)
    for x in own: close(x)
    return [x for x in lst if x in need]+[x for x in lst if x not in need]

def blank(txt):
    """comments and strings blanked, same length"""
    r=list(txt);i=0;depth=0;n=len(txt)
    while i<n:
        if txt.startswith('(*',i): depth+=1; r[i]=r[i+1]=' '; i+=2; continue
        if depth and txt.startswith('*)',i): depth-=1; r[i]=r[i+1]=' '; i+=2; continue
        if depth:
            if r[i]!='\n': r[i]=' '
        elif txt[i]=='"':
            j=txt.index('"',i+1)
            for k in range(i,j+1): r[k]=' '
            i=j
        i+=1
    return ''.join(r)

def matching(s,i):
    d=0
    while i<len(s):
        if s[i]=='(': d+=1
        if s[i]==')':
            d-=1
            if d==0: return i
        i+=1
    return len(s)

OPS=[(r'<\?',['<=?']),(r'<=\?',['<?']),(r'(?<!<|>)=\?',['<=?']),(r'>\?',['>=?']),(r'>=\?',['>?']),
 (r'&&',['||']),(r'\|\|',['&&']),(r'\bnegb\b',['id']),(r'\btrue\b',['false']),(r'\bfalse\b',['true']),
 (r'\+ 1\b',['+ 0','+ 2']),(r'- 1\b',['- 0','- 2']),(r'\bfst\b',['snd']),(r'\bsnd\b',['fst']),
 (r'\bZ\.land\b',['Z.lor']),(r'\bZ\.lor\b',['Z.land']),(r'\bZ\.lxor\b',['Z.lor']),
 (r'\bZ\.shiftl\b',['Z.shiftr']),(r'\bZ\.shiftr\b',['Z.shiftl']),(r'\bmin\b',['max']),(r'\bmax\b',['min']),
 (r'\bSome [a-z]\w*',['None']),(r'(?<=[\w\)\]]) \+ (?=[\w\(])',[' - ']),(r'(?<=[\w\)\]]) - (?=[\w\(])',[' + ']),
 (r'(?<![\w\.])\d+\b',['INC','DEC']),(r' \+\+ ',[' ++ [] ++ rev ']),(r'\b[a-z]\w* :: ',['']),
 (r'(?<=if )',['NEG']),(r'(?<=\w )\b(?!then|else|if|in|let|match|with|end|fun|as)[a-z]\w*\'* (?!then|else|if|in|let|match|with|end|fun|as)[a-z]\w*\'*(?=[ \)\;])',['SWAP']),
 (r'<- (?:store|set_next|set_prev|set_\w+|wr|release|bput|mset|memcpy\w*) \w+ [^;]*;;',['DROP']),(r'\bO_\b',['I_']),(r'\bI_\b',['O_']),(r'\brev\b',['id']),(r'\bapp\b',['(fun x y => app y x)'])]

def sites(f):
    txt=open(f'{SRC}/{f}.v').read(); b=blank(txt); out=[]
    for m in re.finditer(r'^(?:#\[[^\]]*\]\s*)?(?:Local )?(Definition|Fixpoint)\s+([\w\']+)',b,re.M):
        name=m.group(2)
        e=re.compile(r'\.(\s|$)').search(b,m.end())
        while e and re.match(r'\.\s*$',b[e.start():e.end()])is None: e=re.compile(r'\.(\s|$)').search(b,e.end())
        end=e.start(); body=b.find(':=',m.end(),end)
        if body<0: continue
        skip=[]
        for s in re.finditer(r'\bsafe\b',b[body:end]):
            st=body+s.start(); p=b.find('(',st)
            skip.append((st,matching(b,p)))
        for pat,reps in OPS:
            for k in re.finditer(pat,b[body+2:end]):
                s0=body+2+k.start(); s1=body+2+k.end()
                if any(x<=s0<=y for x,y in skip): continue
                for r in reps:
                    old=txt[s0:s1]; new=r
                    if r=='INC': new=str(int(old)+1)
                    if r=='DEC':
                        if int(old)==0: continue
                        new=str(int(old)-1)
                    if r=='SWAP':
                        a,c=old.split(' ');
                        if a==c: continue
                        new=c+' '+a
                    if r=='DROP': new='<- Ok '+old.split()[2]+' ;;'
                    if r=='NEG':
                        t=re.compile(r'\bthen\b').search(b,s0)
                        if not t or t.start()>end or re.search(r'\bif\b',b[s0:t.start()]): continue
                        c=txt[s0:t.start()].rstrip()
                        out.append((name,s0,s0+len(c),f'negb ({c})')); continue
                    out.append((name,s0,s1,new))
    return txt,out

def item_at(txt,line):
    ls=txt.split('\n'); 
    for i in range(min(line,len(ls))-1,-1,-1):
        m=re.match(r'\s*(?:#\[[^\]]*\]\s*)?(?:Local |Global )?(Theorem|Lemma|Example|Corollary|Fact|Definition|Fixpoint|Remark|Record|Inductive|Ltac|Instance|Goal)\s+([\w\']+)',ls[i])
        if m: return m.group(1),m.group(2),i
    return None,None,0

def drop(txt,name,i):
    ls=txt.split('\n'); j=i
    while j<len(ls) and not re.search(r'\b(Qed|Defined)\.',ls[j]): j+=1
    for k in range(i,min(j+1,len(ls))): ls[k]=''
    return re.sub(r'Print Assumptions '+re.escape(name)+r'\s*\.','','\n'.join(ls))

def run(w,f,newtxt):
    d=f'{ROOT}/w{w}'
    order=dependents(f); dropped=[]; res=None
    open(f'{d}/{f}.v','w').write(newtxt)
    touched=[f]
    for x in order:
        while True:
            try:
                p=subprocess.run(['coqc','-Q','.','Verif',x+'.v'],cwd=d,capture_output=True,text=True,timeout=TMO)
                rc=p.returncode; err=p.stderr
            except subprocess.TimeoutExpired:
                rc=124; err=''
            if rc==0: break
            m=None
            for m in re.finditer(r'line (\d+), characters',err): pass
            txt=open(f'{d}/{x}.v').read()
            if not m: res={'status':'timeout' if rc==124 else f'rc{rc}','file':x}; break
            kind,nm,i=item_at(txt,int(m.group(1)))
            if x==f and kind in('Definition','Fixpoint','Record','Inductive',None): res={'status':'invalid','err':err[-300:]}; break
            if kind=='Example' or (nm and nm.endswith('_refuted')):
                dropped.append(nm); t2=drop(txt,nm,i)
                if t2==txt: res={'status':'killed','by':nm,'file':x}; break
                if x not in touched: touched.append(x)
                open(f'{d}/{x}.v','w').write(t2); continue
            res={'status':'killed','by':nm,'kind':kind,'file':x}; break
        if res: break
    if not res: res={'status':'SURVIVED'}
    res['dropped']=dropped
    for x in set(order)|set(touched):
        for s in('v','vo','glob','vos','vok'):
            try: shutil.copy2(f'{SRC}/{x}.{s}',f'{d}/{x}.{s}')
            except FileNotFoundError: pass
    return res

def main():
    mode,out=sys.argv[1:3]; jobs=queue.Queue()
    if mode=='auto':
        rnd=random.Random(int(sys.argv[3])); per=float(sys.argv[4])
        todo=[]
        for f in sys.argv[5:]:
            txt,ss=sites(f); byname={}
            for s in ss: byname.setdefault(s[0],[]).append(s)
            for nm,l in byname.items():
                k=int(per) if per>=1 else (1 if rnd.random()<per else 0)
                for s in rnd.sample(l,min(k,len(l))):
                    _,a,b,new=s
                    ln=txt.count('\n',0,a)+1; bl=txt.rfind('\n',0,a)+1; el=txt.find('\n',b)
                    todo.append({'file':f,'def':nm,'line':ln,'old':txt[bl:el].strip(),'new':(txt[bl:a]+new+txt[b:el]).strip(),'text':txt[:a]+new+txt[b:]})
        rnd.shuffle(todo)
    else:
        todo=[]
        for m in json.load(open(sys.argv[3])):
            txt=open(f"{SRC}/{m['file']}.v").read()
            if txt.count(m['old'])!=1: print('BAD',txt.count(m['old']),m); continue
            m=dict(m); m['text']=txt.replace(m['old'],m['new']); m['def']=item_at(txt,txt[:txt.index(m['old'])].count('\n')+1)[1]; todo.append(m)
    todo=[t for t in todo if (t['file'],t['old'],t['new']) not in SEEN]
    for t in todo: jobs.put(t)
    print(len(todo),'mutants',flush=True)
    lock=threading.Lock()
    def work(w):
        d=f'{ROOT}/w{w}'
        subprocess.run(['rsync','-a','--delete',SRC+'/',d+'/']) if shutil.which('rsync') else (shutil.rmtree(d,ignore_errors=True),shutil.copytree(SRC,d))
        while True:
            try: t=jobs.get_nowait()
            except queue.Empty: return
            txt=t.pop('text')
            try: r=run(w,t['file'],txt)
            except Exception as e: r={'status':'error','err':repr(e)}
            t['result']=r
            with lock:
                open(out,'a').write(json.dumps(t)+'\n')
                print(t['file'],t['def'],r.get('status'),r.get('by',''),flush=True)
    ts=[threading.Thread(target=work,args=(w,)) for w in range(W)]
    for t in ts: t.start()
    for t in ts: t.join()
main()
