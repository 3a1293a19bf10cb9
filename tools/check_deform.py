"""Evaluate the formulas of DeformModel.v in exact fractions on tests/test_datasets/parameters.prm
and print the largest distance from each array recorded for test_deform.py."""
import struct,ast,sys
from fractions import Fraction as F
from configparser import ConfigParser
def load(f):
    b=open('/repo/tests/test_datasets/'+f,'rb').read()
    n=struct.unpack('<H',b[8:10])[0]; h=ast.literal_eval(b[10:10+n].decode())
    d=b[10+n:]; return h,list(struct.unpack('<%dd'%(len(d)//8),d))
def prm():
    c=ConfigParser();c.read('/repo/tests/test_datasets/parameters.prm')
    return c
def solve(A,b):
    n=len(A);M=[list(r)+[x] for r,x in zip(A,b)]
    for i in range(n):
        p=next(j for j in range(i,n) if M[j][i]!=0);M[i],M[p]=M[p],M[i]
        for j in range(n):
            if j!=i and M[j][i]!=0:
                k=M[j][i]/M[i][i];M[j]=[a-k*b for a,b in zip(M[j],M[i])]
    return [M[i][n]/M[i][i] for i in range(n)]
def bern(c,k,x):
    t=[min(max(i-k,0),c-k) for i in range(c+k+1)]
    l=k
    while l<c-1 and not x<t[l+1]: l+=1
    hh=[F(1)]
    for j in range(1,k+1):
        carry=F(0);new=[]
        for i,h in enumerate(hh,1):
            d=t[l+i]-t[l+i-j]
            f=h/d if d else F(0)
            new.append(carry+f*(t[l+i]-x));carry=f*(x-t[l+i-j])
        new.append(carry);hh=new
    r=[F(0)]*c
    for i,h in enumerate(hh): r[l-k+i]=h
    return r
def lin(a,b,n): return [a+(b-a)*F(i,n-1) for i in range(n)] if n>1 else [a]
def wend(x): return max(0,1-x/2)**4*(1+2*x)   # r=2: (1-x/r)^4 (1+4x/r)
def fit(X,Y,deg,nb,rbf):
    if rbf:
        W=[[wend(abs(a-b)) for b in X] for a in X]
        w=solve(W,Y)
        xx=lin(X[0],X[-1],rbf)
        Y=[sum(wi*wend(abs(x-c)) for wi,c in zip(w,X)) for x in xx];X=xx
    A=[bern(nb,deg,s) for s in lin(F(0),F(nb-deg),len(X))]
    def f(V):
        d=[v-a[0]*V[0]-a[-1]*V[-1] for v,a in zip(V,A)]
        m=nb-2
        N=[[sum(a[i+1]*a[j+1] for a in A) for j in range(m)] for i in range(m)]
        r=[sum(a[i+1]*x for a,x in zip(A,d)) for i in range(m)]
        return [V[0]]+solve(N,r)+[V[-1]]
    return f(X),f(Y)
def spl(cv,n,deg):
    c=len(cv[0]);out=[]
    for s in lin(F(0),F(c-deg),n):
        b=bern(c,deg,s);out.append(tuple(sum(x*y for x,y in zip(b,v)) for v in cv))
    return out
c=prm()
O=c['Original parameters']
R_=[F(x) for x in O['radial sections'].split()]
def run(n,deg=None,rbf=1000,upd=True):
    s=c[n.capitalize()+' B-Spline']
    d=deg or int(s['spline degree']);nb=int(s['number of control points']);npt=int(s['spline npoints'])
    Y=[F(x) for x in O['radial distribution of '+n].split()]
    D=[F(x) for x in s['control points y-deformations'].split()]
    X,Y=fit(R_,Y,d,nb,rbf)
    return X,Y,D,d,nb,npt
def cmp(f,v):
    h,e=load(f); print(f,h['shape'],h['fortran_order'],max(abs(float(a)-b) for a,b in zip(v,e)),len(v),len(e))
def il(X,Y): return [z for p in zip(X,Y) for z in p]
X,Y,D,d,nb,npt=run('pitch',rbf=0);print(d,nb,npt);cmp('pitch_control_points_no_rbf.npy',il(X,Y))
X,Y,D,d,nb,npt=run('pitch');cmp('pitch_control_points.npy',il(X,Y))
cmp('pitch_updated_control_points.npy',il(X,[a+b for a,b in zip(Y,D)]))
X,Y,D,d,nb,npt=run('camber');s=spl([X,Y],npt,d);print(d,nb,npt)
cmp('camber_spline.npy',[p[0] for p in s]+[p[1] for p in s])  # column order
for n,tol in(('chord',3),('pitch',3),('rake',2),('skew',2),('camber',2)):
    X,Y,D,d,nb,npt=run(n,3 if n=='rake' else None)
    Y=[a+b for a,b in zip(Y,D)];s=spl([X,Y],npt,d)
    t=F(1,10**tol)
    v=[next((p[1] for p in s if abs(p[0]-r)<t),None) for r in R_]
    marg=min(abs(abs(p[0]-r)-t) for r in R_ for p in s)
    print(n,d,nb,npt,float(marg));cmp('deformed_%s.npy'%n,v)
