#!/usr/bin/env python3
"""Mutation testing of the model.  usage: mutate.py SCRATCH OUT.jsonl N SEED [file...]
SCRATCH is a built copy of /verif/rocq outside /verif."""
import re,sys,os,random,subprocess,json,time
scratch,out,n,seed=sys.argv[1],sys.argv[2],int(sys.argv[3]),int(sys.argv[4])
files=sys.argv[5:]
random.seed(seed)
TH=scratch+'/theories/'
def mask_comments(s):
    o=list(s);d=0;i=0
    while i<len(s):
        if s.startswith('(*',i): d+=1;o[i]=o[i+1]='\0';i+=2;continue
        if s.startswith('*)',i) and d: d-=1;o[i]=o[i+1]='\0';i+=2;continue
        if d and s[i]!='\n': o[i]='\0'
        i+=1
    return ''.join(o)
OPS=[(r'<=\?','<?'),(r'(?<!<)<\?','<=?'),(r'>=\?','>?'),(r'>\?','>=?'),
 (r' \+ ',' - '),(r'(?<=\w|\)) - ',' + '),(r' \* ',' / '),(r' / ',' * '),
 (r'&&','||'),(r'\|\|','&&'),(r'\bland\b','lor'),(r'\blor\b','land'),(r'\blnot\b',''),(r'\bnegb\b',''),
 (r'\btrue\b','false'),(r'\bfalse\b','true'),(r'\bflt\b','fle'),(r'\bfle\b','flt'),
 (r'#(\d+)(?![\d.])',lambda m:'#%d'%(int(m.group(1))+1)),
 (r'#(\d+)\.(\d+)',lambda m:'#%s.%s1'%(m.group(1),m.group(2))),
 (r'(?<![#\w.])(\d+)(%nat|%Z)?(?![\d.\w])',lambda m:str(int(m.group(1))+1)+(m.group(2) or '')),
 (r'\(S (\w+)\)',r'(\1)'),
 (r'let (\w+) := (msetc?) .*? \1 in','LETDROP'),
 (r'\b(fsub|fdiv|flt|fle) (\(?\w+\)?) (\w+)',r'\1 \3 \2'),
 (r'\b(fadd)\b','fsub'),(r'\b(fmul)\b','fdiv'),
]
def candidates(f):
    s=open(TH+f).read();m=mask_comments(s);res=[]
    start=m.find('Section') if 'Section' in m else m.find('Definition')
    for pat,rep in OPS:
        for x in re.finditer(pat,m,re.S if rep=='LETDROP' else 0):
            if x.start()<start: continue
            line=m[m.rfind('\n',0,x.start())+1:m.find('\n',x.start())]
            if re.match(r'\s*(Section|Context|From|Notation|Infix|Arguments|Set|Open|Require|Inductive|Record)',line): continue
            r=('let _ := 0 in' if rep=='LETDROP' else (rep(x) if callable(rep) else x.expand(rep)))
            if r==x.group(0): continue
            res.append((f,x.start(),x.end(),r))
    return s,res
def enclosing(s,pos,kw=r'(?:Definition|Fixpoint|Inductive)'):
    ms=[x for x in re.finditer(r'^\s*(?:#\[\w+\] )?'+kw+r"\s+([\w']+)",s[:pos],re.M)]
    return ms[-1].group(1) if ms else '?'
allc=[];src={}
for f in files:
    s,c=candidates(f);src[f]=s;allc+=c
random.shuffle(allc)
# MUT_DEFS=a,b,c restricts to these definitions, MUT_PER=k to k edits of each
if os.environ.get('MUT_DEFS'):
    want=set(os.environ['MUT_DEFS'].split(','));per=int(os.environ.get('MUT_PER','1'));seen={};keep=[]
    for c in allc:
        d=enclosing(src[c[0]],c[1])
        if d in want and seen.get(d,0)<per: seen[d]=seen.get(d,0)+1;keep.append(c)
    allc=keep
print(len(allc),'candidates');sys.stdout.flush()
for f,a,b,r in allc[:n]:
    s=src[f];t=s[:a]+r+s[b:]
    ln=s.count('\n',0,a)
    before=s.split('\n')[ln].strip();after=t.split('\n')[ln].strip()
    open(TH+f,'w').write(t)
    t0=time.time()
    try: p=subprocess.run('make -k -j4',shell=True,cwd=scratch,capture_output=True,text=True,timeout=500);o=p.stdout+p.stderr;rc=p.returncode
    except subprocess.TimeoutExpired: o='TIMEOUT';rc=99
    fails=[]
    for x in re.finditer(r'File "\./(theories/[\w/]+\.v)", line (\d+)',o):
        ff,l=x.group(1),int(x.group(2))
        q=open(scratch+'/'+ff).read();pos=sum(len(y)+1 for y in q.split('\n')[:l])
        fails.append(os.path.basename(ff)+':'+enclosing(q,pos,r'(?:Theorem|Lemma|Example|Definition|Fixpoint|Corollary)'))
    errs=re.findall(r'^Error',o,re.M)
    if rc==0: fails=[]
    typeerr=any(x.startswith(os.path.basename(f)+':') for x in fails)
    open(TH+f,'w').write(s)
    rec=dict(file=f,definition=enclosing(s,a),line=ln+1,before=before,after=after,rc=rc,failed=sorted(set(fails)),stillborn=typeerr,secs=round(time.time()-t0))
    open(out,'a').write(json.dumps(rec)+'\n')
    print('SURVIVED' if rc==0 else ('stillborn' if typeerr else 'killed'),f,rec['definition'],'|',before,'=>',after,'|',rec['failed'][:4]);sys.stdout.flush()
