import re,math,sys
from fractions import Fraction
SH=24; SC=1<<SH; SLACK=64; BS=1<<7; DL,DH=7502,7504
src=open('/verif/rocq/theories/GridTables.v').read()
zmat={}
for m in re.finditer(r'Definition zmat_(\d+) : list ZM :=\s*\[(.*?)\]\.',src,re.S):
    rows=[]
    for r in re.finditer(r'zm ((?:\(?-?\d+\)?\s*){9})',m.group(2)):
        rows.append([int(x) for x in re.findall(r'-?\d+',r.group(1))])
    zmat[int(m.group(1))]=rows
assert all(len(zmat[n])==n for n in range(2,25)), {n:len(zmat[n]) for n in zmat}
U=10**11
def pivot(r):
    a,b,c,d,e,f,g,h,i=r
    t=a+e+i
    l=[a,e,i,t]; k=max(range(4),key=lambda j:(l[j],-j))
    if k==0: return (h-f,U-t+2*a,d+b,g+c)
    if k==1: return (c-g,b+d,U-t+2*e,h+f)
    if k==2: return (d-b,c+g,f+h,U-t+2*i)
    return (U+t,h-f,c-g,d-b)
dot=lambda p,q:sum(x*y for x,y in zip(p,q))
def dn(a,b): return a//b
def up(a,b): return -((-a)//b)
def dns(a): return a>>SH
def ups(a): return -((-a)>>SH)
def horner(y,h,d):
    return (SC-up(ups((y[0] if h[1]<0 else y[1])*h[1]),d), SC-dn(dns((y[1] if h[0]<0 else y[0])*h[0]),d))
def cosb(t):
    y=(dns(t*t),ups(t*t)); b=(SC-up(y[1],132),SC)
    for d in [90,56,30,12,2]: b=horner(y,b,d)
    return b
def square(b):
    l=max(0,b[0]); return (dns(l*l),ups(b[1]*b[1]))
def expb(t):
    y=(dn(t,8),up(t,8)); b=(SC-up(y[1],7),SC)
    for d in [6,5,4,3,2,1]: b=horner(y,b,d)
    return square(square(square(b)))
def above(num,den,t):
    c=cosb(t)[1]; return 0<=t<=2*SC and (c<=0 or c*c*den<=num*SC*SC)
def below(num,den,t):
    c=cosb(t)[0]; return t==0 or (0<=t<=2*SC and c>=0 and num*SC*SC<=c*c*den)
E8=expb(8*SC)[1]
def gaussb(k,d):
    ul=(d[0]*d[0]*k[0])>>48; uh=((d[1]*d[1]*k[1])>>48)+1
    if ul>=8*SC: return (0,E8)
    b=expb(ul); return (max(0,b[0]-(uh-ul)),b[1])
def width(rows):
    n=len(rows)
    lo=sum(sorted(x[0] for x in r)[1] for r in rows); hi=sum(sorted(x[1] for x in r)[1] for r in rows)
    return dn(8*lo,10*n),up(8*hi,10*n)
def kbox(w):
    return dn(69314718*SC**3,100000000*w[1]*w[1]),up(69314718*SC**3,100000000*w[0]*w[0])
def inv(M):
    n=len(M); A=[list(map(float,r))+[1.0 if i==j else 0.0 for j in range(n)] for i,r in enumerate(M)]
    for c in range(n):
        p=max(range(c,n),key=lambda r:abs(A[r][c])); A[c],A[p]=A[p],A[c]
        v=A[c][c]; A[c]=[x/v for x in A[c]]
        for r in range(n):
            if r!=c and A[r][c]!=0: f=A[r][c]; A[r]=[x-f*y for x,y in zip(A[r],A[c])]
    return [r[n:] for r in A]
def certify(n,D,W,name):
    w=width(W); k=kbox(w)
    m=[[gaussb(k,D[i][j]) for j in range(n)] for i in range(n)]
    e=max(b[1]-b[0] for r in m for b in r)
    lo=[[b[0] for b in r] for r in m]
    Bf=inv([[ (b[0]+b[1])/2/SC for b in r] for r in m])
    B=[[round(x*BS) for x in r] for r in Bf]
    worst=0;mb=0
    for i in range(n):
        rb=sum(map(abs,B[i])); s=sum(abs((SC*BS if i==j else 0)-sum(B[i][k]*lo[k][j] for k in range(n))) for j in range(n))+rb*n*e
        worst=max(worst,2*s/(SC*BS)); mb=max(mb,rb/BS)
    print(name,n,'w',w,'e',e/SC,'worst',worst,'beta',mb)
    return B
out={}
for n in range(2,25):
    q=[pivot(r) for r in zmat[n]]
    T=[]
    D=[[None]*n for _ in range(n)]
    for i in range(n):
        row=[]
        for j in range(i+1,n):
            num=dot(q[i],q[j])**2; den=dot(q[i],q[i])*dot(q[j],q[j])
            x=math.sqrt(num/den); t=round(math.acos(x)*SC); row.append(t)
            lo,hi=t-SLACK,t+SLACK
            if lo<0: lo=0
            if hi>2*SC: hi=2*SC
            assert below(num,den,lo) and above(num,den,hi),(n,i,j,t,x)
            D[i][j]=D[j][i]=(lo,hi)
        D[i][i]=(DL,DH)
        T.append(row)
    W=[[None]*n for _ in range(n)]; FH=[]
    for i in range(n):
        f=[U*U+dot(zmat[n][i],zmat[n][j]) for j in range(n)]
        cl=[abs(x)>=U*U for x in f]
        hr=[]
        others=[j for j in range(n) if j!=i and cl[j]]
        for j in range(n):
            if j==i or (others and j==others[0]): hr.append('C'); W[i][j]=(DL,DH)
            elif others: hr.append('A'); W[i][j]=(DL,2*SC)
            else:
                x=abs(f[j])/U/U; t=round(math.acos(min(x,1))*SC); hr.append(t); lo,hi=max(0,t-SLACK),t+SLACK
                assert below(f[j]**2,U**4,lo) and above(f[j]**2,U**4,hi),(n,i,j,t); W[i][j]=(lo,hi)
        FH.append(hr)
    nc=sum(1 for h in FH if not any(x=='A' for x in h) and n>2)
    BS3=certify(n,D,D,'SE3'); BE3=certify(n,D,W,'E3  rows without clamp %d'%nc)
    out[n]=(T,FH,BS3,BE3)
import pickle; pickle.dump(out,open('/tmp/rbf_out.pkl','wb'))
print('E8',E8)
z=lambda x: str(x) if x>=0 else '(%d)'%x
L=lambda xs: '['+'; '.join(xs)+']'
o=['(** Hints for the certificates of RbfCert.v, generated offline: distances at scale 2^24, how to enclose the flat distances, and rounded inverses of','    the RBF matrices at scale 128.  They are data only: every one is checked by the certificates. *)','From Coq Require Import ZArith List.','From Verif Require Import RbfCert.','Import ListNotations.','Open Scope Z_scope.']
def defn(name,ty,f):
    for n in range(2,25):
        o.append('Definition %s_%d : list (list %s) :=\n  %s.'%(name,n,ty,('['+';\n   '.join(L(r) for r in f(n))+']')))
    o.append('Definition %s (n : nat) : list (list %s) := nth n [[]; []; %s] [].'%(name,ty,'; '.join('%s_%d'%(name,n) for n in range(2,25))))
defn('dist_hint','Z',lambda n:[[z(x) for x in r] for r in out[n][0]])
defn('flat_hint','hint',lambda n:[['Hclamp' if x=='C' else 'Hany' if x=='A' else 'Hat %s'%z(x) for x in r] for r in out[n][1]])
defn('inverse_SE3','Z',lambda n:[[z(x) for x in r] for r in out[n][2]])
defn('inverse_E3','Z',lambda n:[[z(x) for x in r] for r in out[n][3]])
open('/verif/rocq/theories/RbfHints.v','w').write('\n'.join(o)+'\n')
