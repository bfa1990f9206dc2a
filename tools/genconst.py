import sys; sys.path.insert(0,'/verif/tools')
from consts import std,tst
o=['''(** include/electionguard/constants.h: the constant arrays, limb by limb, for both
    build configurations.  Generated from the header by tools/genconst.py; every
    definition names the line its array starts at. *)
From Verif Require Import Base GroupModel.
Open Scope Z_scope.

(** Value of an array of 64-bit limbs, least significant first. *)
Definition le_limbs (l : list Z) : Z := fold_right (fun d acc => d + 2 ^ 64 * acc) 0 l.

(** constants.h:30-31. *)
Definition MAX_256 : list Z := repeat 0xffffffffffffffff 4.
(** constants.h:33-52. *)
Definition MAX_4096 : list Z := repeat 0xffffffffffffffff 64.
''']
for nm,d,cfg in (('std',std,'USE_STANDARD_PRIMES'),('test',tst,'USE_TEST_PRIMES')):
    for k,(v,l) in d.items():
        assert len(v) in (4,64)
        o.append('(** constants.h:%d (%s). *)'%(l,cfg))
        o.append('Definition %s_%s : list Z := ['%(nm,k))
        for i in range(0,len(v),4):
            o.append('  '+'; '.join(v[i:i+4])+(';' if i+4<len(v) else ''))
        o.append('].')
o.append('''
(** The parameter sets the code is compiled with: the little-endian arrays. *)
Definition std_params : params := {|
  gpP := le_limbs std_P_ARRAY_REVERSE;
  gpQ := le_limbs std_Q_ARRAY_REVERSE;
  gpR := le_limbs std_R_ARRAY_REVERSE;
  gpG := le_limbs std_G_ARRAY_REVERSE;
  gpPoff := le_limbs std_P_ARRAY_INVERSE_OFFSET;
  gpQoff := le_limbs std_Q_ARRAY_INVERSE_OFFSET
|}.
Definition test_array_params : params := {|
  gpP := le_limbs test_P_ARRAY_REVERSE;
  gpQ := le_limbs test_Q_ARRAY_REVERSE;
  gpR := le_limbs test_R_ARRAY_REVERSE;
  gpG := le_limbs test_G_ARRAY_REVERSE;
  gpPoff := le_limbs test_P_ARRAY_INVERSE_OFFSET;
  gpQoff := le_limbs test_Q_ARRAY_INVERSE_OFFSET
|}.''')
open('/verif/rocq/theories/ConstModel.v','w').write('\n'.join(o)+'\n')
