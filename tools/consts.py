import re
s=open('/repo/include/electionguard/constants.h').read()
lines=s.split('\n')
def arrays(lo,hi):
    t='\n'.join(lines[lo-1:hi])
    out={}
    for m in re.finditer(r'static const uint64_t (\w+)\[[^\]]*\]\s*=\s*\{([^}]*)\}',t):
        out[m.group(1)]=([x.lower() for x in re.findall(r'0x[0-9a-fA-F]+',m.group(2))], lo+t[:m.start()].count('\n'))
    return out
std=arrays(55,214); tst=arrays(216,388)
def val(l): return sum(int(x,16)<<(64*i) for i,x in enumerate(l))
if __name__=='__main__':
    for nm,d in (('std',std),('test',tst)):
        n=len
        for k,(v,l) in d.items(): print(nm,k,n(v),l)
        P=val(d['P_ARRAY_REVERSE'][0]);Q=val(d['Q_ARRAY_REVERSE'][0]);R=val(d['R_ARRAY_REVERSE'][0]);G=val(d['G_ARRAY_REVERSE'][0])
        print(P==Q*R+1,pow(G,Q,P)==1,val(d['P_ARRAY_INVERSE_OFFSET'][0])==2**4096-P,val(d['Q_ARRAY_INVERSE_OFFSET'][0])==2**256-Q)
        for k in 'PQRG': print(k, d[k+'_ARRAY'][0][::-1]==d[k+'_ARRAY_REVERSE'][0])
