(** Properties C11-C13 (the bignum library on its 64-bit limbs) and the limb level
    versions of C01-C10: the functions of group.cpp on the arrays they work with. *)
From Coq Require Import Znumtheory.
From Verif Require Import Base GroupModel GroupSpec GroupProofs GroupExtra CodecModel CodecProofs LookupModel LookupProofs
  PrimeCert HashedProofs ConstModel LimbModel LimbSpec LimbWord LimbProofs LimbKara MontProofs ExpProofs LimbBytes GroupLimbModel GroupLimbProofs.
Open Scope Z_scope.
Ltac Zify.zify_post_hook ::= idtac.

(** * C11 *)
Theorem C11_add n a b : limbs n a -> limbs n b ->
  let '(carry, s) := lb_add a b in
  limbs n s /\ lval s = (lval a + lval b) mod 2 ^ (64 * Z.of_nat n) /\
  carry = (lval a + lval b) / 2 ^ (64 * Z.of_nat n).
Proof.
  intros Ha Hb. pose proof (lb_add_val n a b Ha Hb) as H. rewrite <- Wn_pow2.
  destruct (lb_add a b). exact H.
Qed.
Theorem C11_sub n a b : limbs n a -> limbs n b ->
  let '(borrow, s) := lb_sub a b in
  limbs n s /\ lval s = (lval a - lval b) mod 2 ^ (64 * Z.of_nat n) /\
  borrow = if lval a <? lval b then 1 else 0.
Proof.
  intros Ha Hb. destruct (lb_sub_mod n a b Ha Hb) as [H1 H2]. pose proof (lb_sub_borrow n a b Ha Hb) as H3.
  rewrite <- Wn_pow2. destruct (lb_sub a b). exact (conj H1 (conj H2 H3)).
Qed.
(** School book and Karatsuba products; the last is the one both bignum files use. *)
Theorem C11_mul n m a b : limbs n a -> limbs m b ->
  limbs (n + m) (lb_mul a b) /\ lval (lb_mul a b) = lval a * lval b.
Proof. apply lb_mul_spec. Qed.
Theorem C11_sqr n a : limbs n a -> limbs (n + n) (lb_sqr a) /\ lval (lb_sqr a) = lval a * lval a.
Proof. apply lb_sqr_spec. Qed.
Theorem C11_karatsuba_mul n a b : limbs n a -> limbs n b ->
  limbs (n + n) (lb_kmul a b) /\ lval (lb_kmul a b) = lval a * lval b.
Proof. apply lb_kmul_spec. Qed.
Theorem C11_karatsuba_sqr n a : limbs n a ->
  limbs (n + n) (lb_ksqr a) /\ lval (lb_ksqr a) = lval a * lval a.
Proof. apply lb_ksqr_spec. Qed.
(** Comparisons return all ones or zero. *)
Theorem C11_compare n a b : limbs n a -> limbs n b ->
  lb_lt a b = (if lval a <? lval b then 2 ^ 64 - 1 else 0) /\
  lb_eq a b = (if lval a =? lval b then 2 ^ 64 - 1 else 0).
Proof. intros Ha Hb. split; [exact (lb_lt_spec n a b Ha Hb)|exact (lb_eq_spec n a b Ha Hb)]. Qed.
(** Bytes in, bytes out. *)
Theorem C11_from_bytes l : is_bytes l -> 0 < Z.of_nat (length l) <= 4294967288 ->
  exists r, bn_from_bytes_be l = Some r /\ Forall limb r /\ lval r = be_val l.
Proof.
  intros B L. destruct (bn_from_bytes_spec l B) as [[_ [E|E]]|(r & E & [_ F] & V & _)].
  - subst l. cbn in L. lia.
  - lia.
  - exists r. exact (conj E (conj F V)).
Qed.
Theorem C11_to_bytes n b : limbs n b ->
  length (bn_to_bytes_be b) = (8 * n)%nat /\ is_bytes (bn_to_bytes_be b) /\ be_val (bn_to_bytes_be b) = lval b.
Proof.
  intros Hb. rewrite (bn_to_bytes_spec n) by trivial.
  split; [apply be_bytes_length|]. split; [apply be_bytes_is_bytes|]. apply be_val_bytes.
  rewrite <- Wn_bytes. exact (limbs_bound _ _ Hb).
Qed.
Theorem C11_bytes_roundtrip n b : limbs n b -> (0 < n)%nat -> Z.of_nat n <= 536870911 ->
  bn_from_bytes_be (bn_to_bytes_be b) = Some b.
Proof.
  intros Hb Hn Hl. destruct (C11_to_bytes n b Hb) as (L & B & V).
  destruct (bn_from_bytes_spec _ B) as [[_ [E|E]]|(r & E & R & Vr & _)].
  - rewrite E in L. cbn [length] in L. lia.
  - lia.
  - rewrite E. f_equal. rewrite L in R. assert (bn_words (8 * n) = n) as W.
    { pose proof (bn_words_spec (8 * n) ltac:(lia)). lia. }
    rewrite W in R. apply (lval_inj n); trivial. congruence.
Qed.
Definition ones n : list Z := repeat (2 ^ 64 - 1) n.
Example C11_carry_chain : (* a carry through all 64 limbs *)
  lb_add (ones 64) (lb_one 64) = (1, zeros 64) /\ limbs 64 (ones 64) /\
  lb_sub (zeros 64) (lb_one 64) = (1, ones 64).
Proof. split; [vm_compute; reflexivity|]. split; [apply limbs_b_ok; vm_compute; reflexivity|vm_compute; reflexivity]. Qed.
Example C11_karatsuba_case : (* 32 limbs: one Karatsuba level *)
  lb_kmul (ones 32) (ones 32) = lb_one 32 ++ (2 ^ 64 - 2) :: ones 31.
Proof. vm_compute. reflexivity. Qed.
Example C11_bytes_case : bn_from_bytes_be [1; 2; 3; 4; 5; 6; 7; 8; 9] = Some [0x0203040506070809; 1].
Proof. vm_compute. reflexivity. Qed.

(** * C12 *)
(** The context: mu inverts -n modulo 2^64 and r2 is the square of the radix. *)
Theorem C12_context len n : limbs len n -> Z.of_nat len < 2 ^ 64 -> Z.odd (lval n) = true -> 1 < lval n ->
  let k := mont_ctx_init n in
  mc_n k = n /\ limb (mc_mu k) /\ (1 + lval n * mc_mu k) mod 2 ^ 64 = 0 /\
  limbs len (mc_r2 k) /\ lval (mc_r2 k) = 2 ^ (128 * Z.of_nat len) mod lval n.
Proof.
  intros Hn HL O H1. cbv zeta. destruct (mont_ctx_init_ok len n Hn HL O H1) as [(_ & M & _ & _ & k & E) _ R V].
  split; [reflexivity|]. split; [trivial|]. split.
  { change (mc_n (mont_ctx_init n)) with n in E. rewrite E. change W64 with (2 ^ 64). rewrite Z.mul_comm. apply Z.mod_mul. discriminate. }
  split; [trivial|]. rewrite V, Wn_pow2, <- Z.pow_add_r by lia. do 2 f_equal. lia.
Qed.
(** Montgomery reduction of c: the canonical r with r 2^(64 len) = c (mod n). *)
Theorem C12_reduction len n c : limbs len n -> Z.of_nat len < 2 ^ 64 -> Z.odd (lval n) = true -> 1 < lval n ->
  limbs (len + len) c -> lval c < lval n * 2 ^ (64 * Z.of_nat len) ->
  let r := reduction n (mc_mu (mont_ctx_init n)) c in
  limbs len r /\ lval r < lval n /\ (lval r * 2 ^ (64 * Z.of_nat len)) mod lval n = lval c mod lval n.
Proof.
  intros Hn HL O H1 Hc Bc. cbv zeta. destruct (mont_ctx_init_ok len n Hn HL O H1) as [M _ _ _].
  change (mc_n (mont_ctx_init n)) with n in M. rewrite <- Wn_pow2 in *.
  destruct (reduction_spec len n _ c M Hc Bc) as (R1 & R2 & [R3]). exact (conj R1 (conj R2 R3)).
Qed.
(** The modular reduction of group.cpp: any double length number. *)
Theorem C12_mod_precomp len n a : limbs len n -> Z.of_nat len < 2 ^ 64 -> Z.odd (lval n) = true -> 1 < lval n ->
  limbs (len + len) a ->
  limbs len (mod_precomp (mont_ctx_init n) a) /\ lval (mod_precomp (mont_ctx_init n) a) = lval a mod lval n.
Proof. intros Hn HL O H1. apply mod_precomp_spec. now apply mont_ctx_init_ok. Qed.
(** mod: reports a bad modulus (even, zero or one) and writes zero in that case. *)
Theorem C12_mod len n a : limbs len n -> (0 < len)%nat -> Z.of_nat len < 2 ^ 64 -> limbs (len + len) a ->
  limbs len (snd (lb_mod n a)) /\
  (fst (lb_mod n a) = true <-> Z.odd (lval n) = true /\ 1 < lval n) /\
  lval (snd (lb_mod n a)) = if fst (lb_mod n a) then lval a mod lval n else 0.
Proof.
  intros Hn H0 HL Ha. destruct (lb_mod_spec len n a Hn H0 HL Ha) as (H1 & H2 & H3).
  split; [trivial|]. split; [|trivial]. rewrite H2, andb_true_iff, Z.ltb_lt. reflexivity.
Qed.
Example C12_case : (* one limb, all ones over all ones: the final subtraction is needed *)
  let n := [2 ^ 64 - 59] in
  mod_precomp (mont_ctx_init n) (ones 2) = [59 * 59 - 1] /\ lb_mod [6] (ones 2) = (false, [0]).
Proof. vm_compute. split; reflexivity. Qed.
Example C12_q : (* the largest double length number modulo Q *)
  snd (lb_mod (arQ std_arrays) (ones 8)) = to_limbs 4 (189 * 189 - 1).
Proof. vm_compute. reflexivity. Qed.

(** * C13 *)
Theorem C13_exponentiation (ct : bool) len n a bBits b :
  limbs len n -> limbs len a -> (0 < len)%nat -> Z.of_nat len < 2 ^ 64 ->
  0 <= bBits -> limbs (Z.to_nat (exp_len bBits)) b ->
  let '(ok, r) := mod_exp ct n a bBits b in
  limbs len r /\
  (ok = true <-> Z.odd (lval n) = true /\ 1 < lval n /\ lval b < 2 ^ bBits /\ lval a < lval n) /\
  lval r = if ok then lval a ^ lval b mod lval n else 0.
Proof.
  intros Hn Ha H0 HL HB Hb. pose proof (mod_exp_spec ct len n a bBits b Hn Ha H0 HL HB Hb) as H.
  destruct (mod_exp ct n a bBits b) as [ok r]. destruct H as (H1 & H2 & H3).
  split; [trivial|]. split; [|trivial]. rewrite H2, !andb_true_iff, !Z.ltb_lt. tauto.
Qed.
(** The unchecked entry points the facade calls, for a base of any size and any
    exponent array: they use the exponent modulo 2^bBits, when 4 divides bBits. *)
Theorem C13_precomp_vartime len n a bBits b : limbs len n -> Z.of_nat len < 2 ^ 64 ->
  Z.odd (lval n) = true -> 1 < lval n -> limbs len a -> Forall limb b -> 0 <= bBits -> bBits mod 4 = 0 ->
  let r := mod_exp_vartime_precomp (mont_ctx_init n) a bBits b in
  limbs len r /\ lval r = lval a ^ (lval b mod 2 ^ bBits) mod lval n.
Proof.
  intros Hn HL O H1 Ha F HB H4.
  pose proof (exp_vartime_spec len _ _ (mont_ctx_init_ok len n Hn HL O H1) a bBits b Ha F HB) as H.
  cbv zeta in *. now rewrite exp_bits_4 in H.
Qed.
Theorem C13_precomp_consttime len n a bBits b : limbs len n -> Z.of_nat len < 2 ^ 64 ->
  Z.odd (lval n) = true -> 1 < lval n -> limbs len a -> Forall limb b -> 0 <= bBits -> bBits mod 4 = 0 ->
  let r := mod_exp_consttime_precomp (mont_ctx_init n) a bBits b in
  limbs len r /\ lval r = lval a ^ (lval b mod 2 ^ bBits) mod lval n.
Proof.
  intros Hn HL O H1 Ha F HB H4.
  pose proof (exp_consttime_spec len _ _ (mont_ctx_init_ok len n Hn HL O H1) a bBits b Ha F HB) as H.
  cbv zeta in *. now rewrite exp_bits_4 in H.
Qed.
(** The constant time and the variable time algorithm agree on every input. *)
Theorem C13_algorithms_agree len n a bBits b : limbs len n -> Z.of_nat len < 2 ^ 64 ->
  Z.odd (lval n) = true -> 1 < lval n -> limbs len a -> Forall limb b -> 0 <= bBits ->
  mod_exp_vartime_precomp (mont_ctx_init n) a bBits b = mod_exp_consttime_precomp (mont_ctx_init n) a bBits b.
Proof.
  intros Hn HL O H1 Ha F HB. pose proof (mont_ctx_init_ok len n Hn HL O H1) as OK.
  destruct (exp_vartime_spec len _ _ OK a bBits b Ha F HB) as [A1 A2].
  destruct (exp_consttime_spec len _ _ OK a bBits b Ha F HB) as [B1 B2].
  apply (lval_inj len); trivial. etransitivity; [exact A2|]. symmetry. exact B2.
Qed.
Theorem C13_inverse len n a : limbs len n -> limbs len a -> (0 < len)%nat -> Z.of_nat len < 2 ^ 64 ->
  let '(ok, r) := mod_inv_prime n a in
  limbs len r /\
  (ok = true <-> Z.odd (lval n) = true /\ 1 < lval n /\ 0 < lval a < lval n) /\
  (ok = true -> lval a ^ (lval n - 1) mod lval n = 1 -> (lval a * lval r) mod lval n = 1).
Proof.
  intros Hn Ha H0 HL. pose proof (mod_inv_prime_spec len n a Hn Ha H0 HL) as H.
  destruct (mod_inv_prime n a) as [ok r]. destruct H as (H1 & H2 & H3).
  pose proof (limbs_bound _ _ Ha) as B.
  assert (I : ok = true <-> Z.odd (lval n) = true /\ 1 < lval n /\ 0 < lval a < lval n).
  { rewrite H2, !andb_true_iff, !Z.ltb_lt, negb_true_iff, Z.eqb_neq. intuition lia. }
  split; [trivial|]. split; [trivial|]. intros E F. pose proof (proj1 I E) as (_ & N1 & _).
  rewrite H3, E, Z.mul_mod_idemp_r by lia.
  assert (lval n - 1 = Z.succ (lval n - 2)) as S by lia. rewrite S in F.
  assert (0 <= lval n - 2) as P by lia. clear - F P.
  now rewrite Z.pow_succ_r in F by trivial.
Qed.
(** In particular for a prime modulus every nonzero residue. *)
Theorem C13_inverse_prime len n a : limbs len n -> limbs len a -> (0 < len)%nat -> Z.of_nat len < 2 ^ 64 ->
  prime (lval n) -> lval n <> 2 -> 0 < lval a < lval n ->
  fst (mod_inv_prime n a) = true /\ (lval a * lval (snd (mod_inv_prime n a))) mod lval n = 1.
Proof.
  intros Hn Ha H0 HL Pr N2 B. pose proof (C13_inverse len n a Hn Ha H0 HL) as H.
  destruct (mod_inv_prime n a) as [ok r]. cbn [fst snd]. destruct H as (_ & I & J).
  pose proof (prime_ge_2 _ Pr).
  assert (O : Z.odd (lval n) = true).
  { destruct (Z.odd (lval n)) eqn:O; [trivial|]. exfalso. rewrite <- Z.negb_even in O. apply negb_false_iff in O.
    apply Z.even_spec in O. destruct O as [k K].
    assert (D : (2 | lval n)) by (exists k; lia). apply prime_divisors in D; [|trivial]. lia. }
  assert (E : ok = true) by (apply I; repeat split; trivial; lia). split; [trivial|]. apply J; trivial.
  apply fermat; trivial. intros D. apply Z.divide_pos_le in D; lia.
Qed.
Example C13_case : (* 3^1000 and an inverse modulo the prime 2^64 - 59 *)
  let n := [2 ^ 64 - 59] in
  mod_exp false n [3] 10 [1000] = (true, [powmod 3 1000 (2 ^ 64 - 59)]) /\
  mod_exp true n [3] 10 [1000] = (true, [powmod 3 1000 (2 ^ 64 - 59)]) /\
  mod_exp true n [3] 9 [1000] = (false, [0]) /\
  (3 * lval (snd (mod_inv_prime n [3]))) mod (2 ^ 64 - 59) = 1.
Proof. vm_compute. repeat split. Qed.
Example C13_windows : (* 200-bit exponent: the windowed branch, across limb boundaries *)
  let n := [2 ^ 64 - 59] in
  let e := [5; 2 ^ 63; 3; 129] in
  mod_exp_vartime_precomp (mont_ctx_init n) [7] 200 e = [powmod 7 (lval e) (2 ^ 64 - 59)].
Proof. vm_compute. reflexivity. Qed.

(** * The functions of group.cpp on limb arrays
    [arrays_ok ar gp]: the constant arrays hold the constants of [gp]; both sets in
    constants.h do (std_arrays_ok, test_arrays_ok). *)
Theorem C01_limbs_add_mod_q ar gp a b : valid_params gp -> arrays_ok ar gp -> limbs 4 a -> limbs 4 b ->
  lval a <= gpQ gp -> lval b <= gpQ gp ->
  limbs 4 (l_add_mod_q ar a b) /\ lval (l_add_mod_q ar a b) = (lval a + lval b) mod gpQ gp.
Proof.
  intros V A Ha Hb La Lb. destruct (l_add_mod_q_spec ar gp V A a b Ha Hb) as [H1 H2]. split; [trivial|].
  rewrite H2. apply add_mod_q_correct; trivial; split; trivial; [apply (limbs_bound _ _ Ha)|apply (limbs_bound _ _ Hb)].
Qed.
(** Every operand, including those for which the sum is wrong (C03): the limbs
    hold what the integer model says. *)
Theorem C03_limbs_add_every_operand ar gp a b : valid_params gp -> arrays_ok ar gp -> limbs 4 a -> limbs 4 b ->
  lval (l_add_mod_q ar a b) = add_mod_q gp (lval a) (lval b) /\
  lval (l_sub_mod_q ar a b) = sub_mod_q gp (lval a) (lval b).
Proof.
  intros V A Ha Hb. split; [apply (l_add_mod_q_spec ar gp V A a b Ha Hb)|apply (l_sub_mod_q_spec ar gp V A a b Ha Hb)].
Qed.
Theorem C03_limbs_refuted : exists a b, limbs 4 a /\ limbs 4 b /\
  lval (l_add_mod_q std_arrays a b) <> (lval a + lval b) mod lval (arQ std_arrays).
Proof.
  exists (ones 4), (lb_one 4 ). split; [apply limbs_b_ok; vm_compute; reflexivity|].
  split; [apply limbs_b_ok; vm_compute; reflexivity|]. vm_compute. discriminate.
Qed.
Theorem C02_limbs_sub_mod_q ar gp a b : valid_params gp -> arrays_ok ar gp -> limbs 4 a -> limbs 4 b ->
  lval a <= gpQ gp -> lval b <= gpQ gp ->
  limbs 4 (l_sub_mod_q ar a b) /\ lval (l_sub_mod_q ar a b) = (lval a - lval b) mod gpQ gp.
Proof.
  intros V A Ha Hb La Lb. destruct (l_sub_mod_q_spec ar gp V A a b Ha Hb) as [H1 H2]. split; [trivial|].
  rewrite H2. apply sub_mod_q_correct; trivial; split; trivial; [apply (limbs_bound _ _ Ha)|apply (limbs_bound _ _ Hb)].
Qed.
Theorem C02_limbs_a_plus_bc ar gp a b c : valid_params gp -> arrays_ok ar gp ->
  limbs 4 a -> limbs 4 b -> limbs 4 c ->
  exists r, l_a_plus_bc_mod_q ar a b c = Ok r /\ limbs 4 r /\ lval r = (lval a + lval b * lval c) mod gpQ gp.
Proof.
  intros V A Ha Hb Hc. destruct (l_a_plus_bc_spec ar gp V A a b c Ha Hb Hc) as (r & E & R & H).
  exists r. split; [trivial|]. split; [trivial|].
  assert (B : 0 <= lval a < W256) by (rewrite <- Wn4; exact (limbs_bound _ _ Ha)).
  rewrite (a_plus_bc_mod_q_correct gp V) in H by trivial. now apply Ok_inj in H.
Qed.
Theorem C02_limbs_sub_from_q ar gp a : valid_params gp -> arrays_ok ar gp -> limbs 4 a -> lval a <= gpQ gp ->
  limbs 4 (l_sub_from_q ar a) /\ lval (l_sub_from_q ar a) = gpQ gp - lval a.
Proof.
  intros V A Ha La. destruct (l_sub_from_q_spec ar gp A a Ha) as [H1 H2]. split; [trivial|].
  rewrite H2. apply sub_from_q_correct; trivial. split; [apply (limbs_bound _ _ Ha)|trivial].
Qed.
Theorem C04_limbs_mul_mod_p ar gp a b : valid_params gp -> arrays_ok ar gp -> limbs 64 a -> limbs 64 b ->
  limbs 64 (l_mul_mod_p ar a b) /\ lval (l_mul_mod_p ar a b) = (lval a * lval b) mod gpP gp.
Proof. intros V A. exact (l_mul_mod_p_spec ar gp V A a b). Qed.
Theorem C05_limbs_pow_mod_p ar gp b e : valid_params gp -> arrays_ok ar gp -> limbs 64 b -> limbs 4 e ->
  limbs 64 (l_pow_mod_p ar b e) /\ lval (l_pow_mod_p ar b e) = (lval b ^ lval e) mod gpP gp.
Proof.
  intros V A Hb He. destruct (l_pow_spec ar gp V A b e Hb He) as [H1 H2]. split; [trivial|].
  rewrite H2. apply pow_mod_p_correct; trivial. rewrite <- Wn4. exact (limbs_bound _ _ He).
Qed.
(** Fixed base: the table built for the base gives the same value. *)
Theorem C05_limbs_table ar gp b e : valid_params gp -> arrays_ok ar gp -> limbs 64 b -> limbs 4 e ->
  limbs 64 (l_table_pow ar (l_gen_table ar b) e) /\
  lval (l_table_pow ar (l_gen_table ar b) e) = (lval b ^ lval e) mod gpP gp /\
  l_table_pow ar (l_gen_table ar b) e = l_pow_mod_p ar b e.
Proof.
  intros V A Hb He. destruct (l_table_pow_spec ar gp V A b e Hb He) as [H1 H2].
  assert (E : lval (l_table_pow ar (l_gen_table ar b) e) = (lval b ^ lval e) mod gpP gp).
  { rewrite H2. apply table_pow_correct; [pose proof (P_pos gp V); lia|apply V|]. rewrite <- Wn4. exact (limbs_bound _ _ He). }
  split; [trivial|]. split; [trivial|].
  destruct (C05_limbs_pow_mod_p ar gp b e V A Hb He) as [P1 P2]. apply (lval_inj 64); trivial. congruence.
Qed.
Theorem C06_limbs_pow_mod_p_truncates ar gp b e : valid_params gp -> arrays_ok ar gp -> limbs 64 b -> limbs 64 e ->
  limbs 64 (l_pow_mod_p_p ar b e) /\
  lval (l_pow_mod_p_p ar b e) = (lval b ^ (lval e mod 2 ^ 512)) mod gpP gp.
Proof.
  intros V A Hb He. destruct (l_pow_p_spec ar gp V A b e Hb He) as [H1 H2]. split; [trivial|].
  rewrite H2. apply pow_mod_p_p_actual; trivial. change (2 ^ 4096) with W4096. rewrite <- Wn64. exact (limbs_bound _ _ He).
Qed.
Theorem C08_limbs_bytes_p ar gp l u : arrays_ok ar gp -> is_bytes l ->
  match l_bytes_to_p ar l u, bytes_to_p gp l u with
  | Ok r, Ok v => limbs 64 r /\ lval r = v
  | Throw e, Throw e' => e = e'
  | UB, UB => True
  | _, _ => False
  end.
Proof. intros A. exact (l_bytes_to_p_spec ar gp A l u). Qed.
Theorem C08_limbs_bytes_q ar gp l u : arrays_ok ar gp -> is_bytes l ->
  match l_bytes_to_q ar l u, bytes_to_q gp l u with
  | Ok r, Ok v => limbs 4 r /\ lval r = v
  | Throw e, Throw e' => e = e'
  | UB, UB => True
  | _, _ => False
  end.
Proof. intros A. exact (l_bytes_to_q_spec ar gp A l u). Qed.
(** toBytes then bytes_to_p / bytes_to_q gives the same array back. *)
Theorem C09_limbs_roundtrip_p ar gp a : arrays_ok ar gp -> limbs 64 a -> lval a <= gpP gp ->
  l_bytes_to_p ar (bn_to_bytes_be a) false = Ok a.
Proof.
  intros A Ha La. destruct (C11_to_bytes 64 a Ha) as (L & B & V).
  pose proof (l_bytes_to_p_spec ar gp A _ false B) as H. unfold bytes_to_p, make_p in H.
  rewrite L, V in H. change ((512 <? 8 * 64)%nat) with false in H. change ((8 * 64 =? 0)%nat) with false in H.
  change ((64 <? 64)%nat) with false in H. cbn iota in H.
  replace (gpP gp <? lval a) with false in H by (symmetry; apply Z.ltb_ge; trivial). cbn [negb andb] in H.
  destruct (l_bytes_to_p ar (bn_to_bytes_be a) false); cbn [out_val] in H; try contradiction.
  f_equal. now apply (lval_inj 64).
Qed.
Theorem C09_limbs_roundtrip_q ar gp a : arrays_ok ar gp -> limbs 4 a -> lval a <= gpQ gp ->
  l_bytes_to_q ar (bn_to_bytes_be a) false = Ok a.
Proof.
  intros A Ha La. destruct (C11_to_bytes 4 a Ha) as (L & B & V).
  pose proof (l_bytes_to_q_spec ar gp A _ false B) as H. unfold bytes_to_q, make_q in H.
  rewrite L, V in H. change ((32 <? 8 * 4)%nat) with false in H. change ((8 * 4 =? 0)%nat) with false in H.
  change ((4 <? 4)%nat) with false in H. cbn iota in H.
  replace (gpQ gp <? lval a) with false in H by (symmetry; apply Z.ltb_ge; trivial). cbn [negb andb] in H.
  destruct (l_bytes_to_q ar (bn_to_bytes_be a) false); cbn [out_val] in H; try contradiction.
  f_equal. now apply (lval_inj 4).
Qed.
Theorem C10_limbs_compare n a b : limbs n a -> limbs n b ->
  (l_lt a b = true <-> lval a < lval b) /\ (l_eq a b = true <-> lval a = lval b) /\ (l_eq a b = true <-> a = b).
Proof.
  intros Ha Hb. rewrite (l_lt_spec n), (l_eq_spec n), Z.ltb_lt, Z.eqb_eq by trivial.
  split; [reflexivity|]. split; [reflexivity|]. split; [now apply (lval_inj n)|now intros ->].
Qed.
Theorem C10_limbs_valid_residue ar gp a : valid_params gp -> arrays_ok ar gp -> limbs 64 a ->
  (l_valid_residue ar a = true <-> 0 < lval a < gpP gp /\ (lval a ^ gpQ gp) mod gpP gp = 1) /\
  (l_in_bounds_p ar a = true <-> 0 < lval a < gpP gp).
Proof.
  intros V A Ha. rewrite (l_valid_residue_spec ar gp V A) by trivial.
  rewrite (l_in_bounds_spec ar gp A) by trivial.
  split; [now apply valid_residue_spec|apply in_bounds_p_spec].
Qed.
Example limbs_add_case : (* Q - 1 plus Q - 2 on limbs, carry out of the top limb *)
  l_add_mod_q std_arrays (to_limbs 4 (gpQ std_params - 1)) (to_limbs 4 (gpQ std_params - 2))
  = to_limbs 4 (gpQ std_params - 3).
Proof. vm_compute. reflexivity. Qed.
Example limbs_sub_case :
  l_sub_mod_q std_arrays [3; 0; 0; 0] [5; 0; 0; 0] = to_limbs 4 (gpQ std_params - 2) /\
  l_sub_from_q std_arrays (zeros 4) = arQ std_arrays.
Proof. vm_compute. repeat split. Qed.
Example limbs_bytes_case :
  l_bytes_to_q std_arrays [1; 0; 0; 0; 0; 0; 0; 0; 2] false = Ok [2; 1; 0; 0] /\
  l_bytes_to_q std_arrays (repeat 255 32) false = Throw OutOfRange /\
  l_bytes_to_q std_arrays [] true = Throw BadAlloc.
Proof. vm_compute. repeat split. Qed.

Print Assumptions C11_add.
Print Assumptions C11_sub.
Print Assumptions C11_mul.
Print Assumptions C11_sqr.
Print Assumptions C11_karatsuba_mul.
Print Assumptions C11_karatsuba_sqr.
Print Assumptions C11_compare.
Print Assumptions C11_from_bytes.
Print Assumptions C11_to_bytes.
Print Assumptions C11_bytes_roundtrip.
Print Assumptions C12_context.
Print Assumptions C12_reduction.
Print Assumptions C12_mod_precomp.
Print Assumptions C12_mod.
Print Assumptions C13_exponentiation.
Print Assumptions C13_precomp_vartime.
Print Assumptions C13_precomp_consttime.
Print Assumptions C13_algorithms_agree.
Print Assumptions C13_inverse.
Print Assumptions C13_inverse_prime.
Print Assumptions C01_limbs_add_mod_q.
Print Assumptions C03_limbs_add_every_operand.
Print Assumptions C03_limbs_refuted.
Print Assumptions C02_limbs_sub_mod_q.
Print Assumptions C02_limbs_a_plus_bc.
Print Assumptions C02_limbs_sub_from_q.
Print Assumptions C04_limbs_mul_mod_p.
Print Assumptions C05_limbs_pow_mod_p.
Print Assumptions C05_limbs_table.
Print Assumptions C06_limbs_pow_mod_p_truncates.
Print Assumptions C08_limbs_bytes_p.
Print Assumptions C08_limbs_bytes_q.
Print Assumptions C09_limbs_roundtrip_p.
Print Assumptions C09_limbs_roundtrip_q.
Print Assumptions C10_limbs_compare.
Print Assumptions C10_limbs_valid_residue.
