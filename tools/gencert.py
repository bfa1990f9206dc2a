import sys; sys.path.insert(0,'/verif/tools')
from consts import std,val
from math import gcd
Q=val(std['Q_ARRAY_REVERSE'][0]);P=val(std['P_ARRAY_REVERSE'][0]);G=val(std['G_ARRAY_REVERSE'][0])
N1=440208639276132997491800604758226661590679912188273141493
chain={ # N: prime factors used
 Q:[N1],
 N1:[23236691026952546459,14220365526706201077871],
 23236691026952546459:[68964293214041],
 68964293214041:[246301047193],
 246301047193:[10262543633],
 10262543633:[702529],
 14220365526706201077871:[973591,87881,36151],
}
def wit(N,q):
    for a in range(2,200):
        if pow(a,N-1,N)!=1: raise Exception
        t=pow(a,(N-1)//q,N)
        if gcd(t-1,N)==1: return a,t,pow(t-1,-1,N)
def limbs(x,n): return '['+';'.join(str((x>>(31*i))&(2**31-1)) for i in range(n))+']%uint63'
o=['''(** Certificates for the standard constants: Q is prime (Pocklington chain) and
    G^Q = 1 modulo P.  Generated by tools/gencert.py.  No repository code. *)
From Coq Require Import Uint63 Znumtheory.
From Verif Require Import Base GroupModel GroupProofs TestParams PrimeCert Big63 ConstModel.
Open Scope Z_scope.
Ltac Zify.zify_post_hook ::= idtac.

Ltac small_prime := apply prime_trial; [reflexivity|];
  intros d Hd Hdd; revert d Hd Hdd; apply (trial_ok 1100 2); [reflexivity|vm_compute; reflexivity].
''']
small=set()
for N,fs in chain.items():
    for f in fs:
        if f not in chain: small.add(f)
for f in sorted(small):
    o.append('Lemma prime_%d : prime %d. Proof. small_prime. Qed.'%(f,f))
for N in sorted(chain):
    if N in (Q,N1): continue
    fs=chain[N]
    ws=[]
    for q in fs:
        a,t,u=wit(N,q); ws.append('(%d, %d, %d)'%(q,a,u))
    o.append('Lemma prime_%d : prime %d.\nProof.\n  apply (pocklington_list _ [%s]); [lia|reflexivity| |].'%(N,N,'; '.join(ws)))
    o.append('  - repeat constructor; cbn; lia.')
    o.append('  - repeat apply Forall_cons; try apply Forall_nil; apply pock_check_ok; try lia;\n      try (vm_compute; reflexivity); '+'first ['+'|'.join('apply prime_%d'%q for q in fs)+'].\nQed.')
for nm,N in (('N1',N1),('Q',Q)):
    n=(N.bit_length()+30)//31
    R=2**(31*n)
    pinv=(-pow(N,-1,2**31))%2**31
    o.append('Definition %s_val : Z := %d.'%(nm,N))
    o.append('Definition %s_digits : list int := %s.'%(nm,limbs(N,n)))
    o.append('Lemma %s_digits_val : val %s_digits = %s_val. Proof. vm_compute. reflexivity. Qed.'%(nm,nm,nm))
    for k,q in enumerate(chain[N]):
        a,t,u=wit(N,q)
        am=a*R%N
        o.append('Lemma %s_fermat%d : pow_check %d%%uint63 %s_digits %s %d %d 1 = true.\nProof. vm_cast_no_check (eq_refl true). Qed.'%(nm,k,pinv,nm,limbs(am,n),a,N-1))
        o.append('Lemma %s_cofactor%d : pow_check %d%%uint63 %s_digits %s %d %d %d = true.\nProof. vm_cast_no_check (eq_refl true). Qed.'%(nm,k,pinv,nm,limbs(am,n),a,(N-1)//q,t))
    ws=['(%d, %d, %d)'%(q,wit(N,q)[0],wit(N,q)[2]) for q in chain[N]]
    o.append('Lemma prime_%s : prime %s_val.\nProof.\n  apply (pocklington_list _ [%s]); [unfold %s_val; lia|reflexivity| |].'%(nm,nm,'; '.join(ws),nm))
    o.append('  - repeat constructor; cbn; lia.')
    o.append('  - repeat apply Forall_cons; try apply Forall_nil.')
    for k,q in enumerate(chain[N]):
        a,t,u=wit(N,q)
        o.append('    + refine (pock_pow_check %s_val %d %d %d %d %s_digits %d%%uint63 %s %d %d %s_digits_val %s_fermat%d %s_cofactor%d prime_%s _ _ _ _ _);\n        vm_compute; reflexivity.'%(nm,q,a,u,t,nm,pinv,limbs(a*R%N,n),N-1,(N-1)//q,nm,nm,k,nm,k,'N1' if q==N1 else str(q)))
    o.append('Qed.')
o.insert(1,'''
(** A witness whose powers were computed on machine integers. *)
Lemma pock_pow_check N q a u t ds pinv am e1 e2 :
  val ds = N ->
  pow_check pinv ds am a e1 1 = true ->
  pow_check pinv ds am a e2 t = true ->
  prime q -> (2 <=? N) = true -> ((N - 1) mod q =? 0) = true ->
  (Zpos e1 =? N - 1) = true -> (Zpos e2 =? (N - 1) / q) = true ->
  (((t - 1) * u) mod N =? 1) = true -> pock_ok N (q, a, u).
Proof.
  intros Ev H1 H2 Hq HN Hd He1 He2 Hu.
  apply Z.leb_le in HN. apply Z.eqb_eq in Hd, Hu, He1, He2.
  apply pow_check_ok in H1. apply pow_check_ok in H2. rewrite Ev in H1, H2.
  rewrite He1 in H1. rewrite He2 in H2.
  rewrite (Z.mod_small 1) in H1 by lia.
  unfold pock_ok. split; [assumption|]. split; [assumption|]. split; [assumption|].
  rewrite <- Zmult_mod_idemp_l, <- Zminus_mod_idemp_l, H2, Zminus_mod_idemp_l, Zmult_mod_idemp_l.
  exact Hu.
Qed.
''')
n=133;R=2**(31*n)
pinv=(-pow(P,-1,2**31))%2**31
o.append('Definition P_digits : list int := %s.'%limbs(P,n))
o.append('Definition P_pinv : int := %d%%uint63.'%pinv)
o.append('Definition G_mont : list int := %s.'%limbs(G*R%P,n))
o.append('Definition G189 : Z := 0x%x.'%pow(G,189,P))
o.append('Definition Ginv : Z := 0x%x.'%pow(G,-1,P))
o.append('Definition Ginv_mont : list int := %s.'%limbs(pow(G,-1,P)*R%P,n))
o.append('''Lemma P_digits_val : val P_digits = gpP std_params.
Proof. vm_compute. reflexivity. Qed.
(** G^(2^256) = G^189: the exponent 2^256 costs 256 squarings only. *)
Lemma G_2_256 : pow_check P_pinv P_digits G_mont (gpG std_params) (2 ^ 256) G189 = true.
Proof. vm_cast_no_check (eq_refl true). Qed.
Lemma G_inv : mul_check P_pinv P_digits G_mont Ginv_mont (gpG std_params) Ginv 1 = true.
Proof. vm_cast_no_check (eq_refl true). Qed.
Lemma G_189 : pow_check P_pinv P_digits G_mont (gpG std_params) 189 G189 = true.
Proof. vm_cast_no_check (eq_refl true). Qed.
''')
open('/verif/rocq/theories/StdCert.v','w').write('\n'.join(o)+'\n')
