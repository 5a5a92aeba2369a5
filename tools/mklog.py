#!/usr/bin/env python3
"""mklog.py OUT.jsonl... : append the results of mutate.py to /verif/seeded/LOG.jsonl.
 tools/survivors.json: [{file, def, match (substring of the mutated line), tightened: [...], note}] explains the survivors."""
import sys,json,re,glob
P={json.loads(l)['id']:json.loads(l)['title'] for l in open('/verif/properties.jsonl')}
F={'Float':'C71','Urace':'C73','Lrace':'C74','Urep':'C75','Arace':'C76','Oom':'C77','Tailq':'C78','Splay':'C79','Stailq':'C80','Blist':'C81','Circleq':'C82','RbMac':'C83','Sep':'C84','Ssplit':'C85','Nptr':'C86','Hex':'C70','Amem':'C64','Imem':'C65','Cmem':'C66','Pmem':'C67','Bmem':'C68','Heap':'C67','Sptr':'C63','Tptr':'C62','Reg':'C59','Tmem':'C61','Array':'C17','Atexit':'C40','Base':'C01','Buf':'C16','Cfg':'C35','Cstr':'C09','Elist':'C24','Ez':'C28','Format':'C34','Gc':'C41','Hash':'C06','Int':'C04','Ipv4':'C29','Llist':'C22','Log':'C39','Macros':'C44','Mem':'C27','Opts':'C36','Path':'C42','PtrArray':'C15','Rand':'C32','Rbt':'C26','Set':'C21','Sha1':'C30','Table':'C19','Time':'C05','Tp':'C37','Unit':'C43','Uuid':'C33','Prog':'C47','Daemon':'C48','Assert':'C50','Threads':'C52','Replace':'C54','Help':'C57'}
S=json.load(open('/verif/tools/survivors.json'))
# what each property theorem file proves
thm={}
for f in glob.glob('/verif/rocq/theories/*.v'):
    for m in re.finditer(r'^(?:Theorem|Lemma|Corollary) ([\w\']+)',open(f).read(),re.M): thm[m.group(1)]=f
def claim(d,res):
    if d.get('claim'): return d['claim']
    by=res.get('by') or ''
    m=re.match(r'(C\d\d)_',by)
    c=m.group(1) if m else None
    if not c and by in thm:
        t=open(thm[by]).read(); i=t.find(' '+by+' ')
        # first property theorem whose text (statement or proof) names the lemma
        for f in sorted(glob.glob('/verif/rocq/theories/Prop*.v')):
            for m in re.finditer(r'^Theorem (C\d\d)_([\w\']+).*?^Print',open(f).read(),re.M|re.S):
                if re.search(r'\b'+re.escape(by)+r'\b',m.group(0)): c=m.group(1); break
            if c: break
    if not c: c=F[d['file'].replace('Model','')]
    if d['def'].startswith('bs_'): c='C18'
    return f"{c}: {P.get(c,'')}"
out=open('/verif/seeded/LOG.jsonl','a'); n=0; miss=[]
for fn in sys.argv[1:]:
    for l in open(fn):
        d=json.loads(l); r=d['result']
        if r['status'] in('invalid','error') or r['status'].startswith('rc'): continue
        e={'definition':f"{d['file']}.{d['def']}",'edit':{'from':d['old'],'to':d['new']},'claim':claim(d,r),'theorems_failed':[],'theorems_tightened':[]}
        if r['status']=='killed': e['theorems_failed']=[f"{r['file']}.{r['by']}"]
        elif r['status']=='timeout': e['theorems_failed']=[f"{r['file']} (no longer builds within the time limit)"]
        else:
            for s in S:
                if s['file']==d['file'] and s['def']==d['def'] and s.get('match','') in d['new']:
                    e['theorems_tightened']=s.get('tightened',[]); e['note']=s['note']
                    if s.get('equivalent'): e['claim']='none: '+s['note']
                    break
            else: miss.append((d['file'],d['def'],d['old'],d['new']))
        if r.get('dropped'): e['counterexamples_changed']=r['dropped']
        out.write(json.dumps(e)+'\n'); n+=1
print(n,'lines'); 
for m in miss: print('UNEXPLAINED',*m,sep=' | ')
