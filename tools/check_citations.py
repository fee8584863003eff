import ast,re,glob,os
R='/repo/lib/rule_engine/'
def defs(f):
    src=open(f).read(); T=ast.parse(src); out=[]
    def go(n,pre):
        for c in ast.iter_child_nodes(n):
            if isinstance(c,(ast.ClassDef,ast.FunctionDef)):
                s=min([c.lineno]+[d.lineno for d in c.decorator_list])
                out.append((s,c.end_lineno,pre+c.name)); go(c,pre+c.name+'.')
            elif isinstance(c,(ast.If,ast.Try,ast.With,ast.For)): go(c,pre)
    go(T,''); return out,len(src.split('\n'))
F={}
for p in glob.glob(R+'**/*.py',recursive=True): F[os.path.relpath(p,R)]=defs(p)
def look(f,a,b):
    ds,n=F[f]
    if b>n: return 'OUT OF RANGE %d'%n
    best=[]
    exact=[d for d in ds if d[0]==a and abs(d[1]-b)<=1]
    if exact: return '== '+exact[-1][2]
    inside=[d for d in ds if d[0]<=a and b<=d[1]]
    starts=[d[2] for d in ds if a<=d[0]<=b]
    s='in '+inside[-1][2]+'(%d-%d)'%inside[-1][:2] if inside else 'top'
    if starts: s+=' starts:'+','.join(starts[:6])
    return s
import sys
for v in sorted(glob.glob('/verif/rocq/theories/*.v')):
    L=open(v).read().split('\n')
    for i,l in enumerate(L):
        for m in re.finditer(r'(parser/__init__|parser/base|parser/utilities|ast|engine|builtins|types|errors|suggestions|_utils|\w+)\.py:([\d,\- ]+)',l):
            f=m.group(1)+'.py'
            if f not in F:
                c=[k for k in F if k.endswith('/'+f)]
                if not c: print(os.path.basename(v),i+1,'UNKNOWN',f); continue
                f=c[0]
            for r in re.findall(r'\d+(?:-\d+)?',m.group(2)):
                a,b=(map(int,r.split('-')) if '-' in r else (int(r),int(r)))
                # next Definition
                d=''
                for k in range(i,min(i+12,len(L))):
                    mm=re.match(r'\s*(Definition|Fixpoint|Inductive|Record|Class|Theorem|Lemma|with)\s+(\w+)',L[k])
                    if mm: d=mm.group(2);break
                print('%s:%d %s:%s -> %s | %s'%(os.path.basename(v),i+1,f,r,look(f,a,b),d))
