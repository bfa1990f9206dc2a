(** Properties C74 and C75: arithmetic modulo P in a Windows build, where the same
    arrays go through the 32-bit library. *)
From Verif Require Import Base GroupModel GroupSpec GroupProofs LimbModel LimbSpec LimbWord LimbProofs LimbKara
  MontProofs ExpProofs LimbExtra GroupLimbModel GroupLimbProofs ConstModel WinModel WinProofs PropLimb.
From Verif Require Limb32Model.
Local Open Scope Z_scope.
Ltac Zify.zify_post_hook ::= idtac.

(** * C74 *)
(** The facade's static functions, for arrays of every length. *)
Theorem C74_plain n a b : limbs n a -> limbs n b ->
  w_add a b = lb_add a b /\ w_sub a b = lb_sub a b /\ w_mul a b = lb_kmul a b.
Proof.
  intros Ha Hb. split; [now apply (w_add_same n)|]. split; [now apply (w_sub_same n)|now apply (w_mul_same n)].
Qed.
(** mod, for every modulus, also those it refuses. *)
Theorem C74_mod n m a : limbs n m -> (0 < n)%nat -> Z.of_nat (n + n) < 2 ^ 32 -> limbs (n + n) a ->
  w_mod m a = lb_mod m a.
Proof. exact (w_mod_same n m a). Qed.
(** The functions of a context, for every odd modulus above 1.  The arguments of the
    Montgomery functions need not be reduced; a bit count need not fit the exponent. *)
Theorem C74_context n m : limbs n m -> Z.of_nat (n + n) < 2 ^ 32 -> Z.odd (lval m) = true -> 1 < lval m ->
  (forall a, limbs (n + n) a -> w_mod_precomp (w_ctx m) a = mod_precomp (mont_ctx_init m) a) /\
  (forall ct a bBits b, limbs n a -> Forall limb b -> 0 <= bBits ->
     w_mod_exp_precomp ct (w_ctx m) a bBits b = x_mod_exp_precomp ct (mont_ctx_init m) a bBits b) /\
  (forall a, limbs n a -> w_to_mont (w_ctx m) a = to_mont (mont_ctx_init m) a) /\
  (forall a b, limbs n a -> limbs n b -> w_mont_mul (w_ctx m) a b = mont_mul (mont_ctx_init m) a b) /\
  (forall a, limbs n a -> w_from_mont (w_ctx m) a = from_mont (mont_ctx_init m) a).
Proof.
  intros Hm HS O N1. split; [exact (w_mod_precomp_same n m Hm HS O N1)|].
  split; [exact (w_mod_exp_precomp_same n m Hm HS O N1)|]. split; [exact (w_to_mont_same n m Hm HS O N1)|].
  split; [exact (w_mont_mul_same n m Hm HS O N1)|exact (w_from_mont_same n m Hm HS O N1)].
Qed.
(** group.cpp and lookup_table.hpp: the same arrays, limb for limb. *)
Theorem C74_group ar gp a b e : valid_params gp -> arrays_ok ar gp -> limbs 64 a -> limbs 64 b -> limbs 4 e ->
  w_mul_mod_p ar a b = l_mul_mod_p ar a b /\
  w_pow_mod_p ar b e = l_pow_mod_p ar b e /\
  w_pow_mod_p_p ar a b = l_pow_mod_p_p ar a b /\
  w_valid_residue ar a = l_valid_residue ar a /\
  w_gen_table ar b = l_gen_table ar b /\
  w_table_pow ar (w_gen_table ar b) e = l_table_pow ar (l_gen_table ar b) e.
Proof.
  intros V A Ha Hb He. split; [now apply (w_mul_mod_p_same ar gp V A)|].
  split; [apply (w_pow_mod_p_same ar gp V A); [trivial|apply He]|].
  split; [apply (w_pow_mod_p_p_same ar gp V A); [trivial|apply Hb]|].
  split; [now apply (w_valid_residue_same ar gp V A)|].
  split; [now apply (w_gen_table_same ar gp V A)|now apply (w_table_pow_same ar gp V A)].
Qed.
(** In terms of integers. *)
Theorem C74_meaning ar gp a b e : valid_params gp -> arrays_ok ar gp -> limbs 64 a -> limbs 64 b -> limbs 4 e ->
  lval (w_mul_mod_p ar a b) = (lval a * lval b) mod gpP gp /\
  lval (w_pow_mod_p ar b e) = (lval b ^ lval e) mod gpP gp /\
  lval (w_table_pow ar (w_gen_table ar b) e) = (lval b ^ lval e) mod gpP gp /\
  lval (w_pow_mod_p_p ar a b) = (lval a ^ (lval b mod 2 ^ 512)) mod gpP gp /\
  (w_valid_residue ar a = true <-> 0 < lval a < gpP gp /\ (lval a ^ gpQ gp) mod gpP gp = 1).
Proof.
  intros V A Ha Hb He. destruct (C74_group ar gp a b e V A Ha Hb He) as (-> & -> & -> & -> & _ & ->).
  split; [now apply C04_limbs_mul_mod_p|]. split; [now apply C05_limbs_pow_mod_p|].
  split; [now apply (C05_limbs_table ar gp b e V A)|]. split; [now apply C06_limbs_pow_mod_p_truncates|].
  now apply C10_limbs_valid_residue.
Qed.
(** Hypotheses are met by both constant sets (std_arrays_ok, test_arrays_ok); words
    whose halves carry into one another, on a modulus of two limbs. *)
Definition m2 : list Z := [2 ^ 64 - 59; 2 ^ 63 + 5].
Example C74_case :
  w_add (ones 2) [1; 0] = (1, [0; 0]) /\
  w_mul (ones 2) (ones 2) = [1; 0; 2 ^ 64 - 2; 2 ^ 64 - 1] /\
  lval (w_mod_precomp (w_ctx m2) (ones 4)) = (2 ^ 256 - 1) mod lval m2 /\
  w_mont_mul (w_ctx m2) (ones 2) (ones 2) = mont_mul (mont_ctx_init m2) (ones 2) (ones 2) /\
  lval (w_mod_exp_precomp false (w_ctx m2) [3; 7] 80 [2 ^ 40 + 1; 77]) =
    powmod (lval [3; 7]) (2 ^ 40 + 1 + 77 * 2 ^ 64) (lval m2) /\
  limbs 2 m2 /\ Z.odd (lval m2) = true.
Proof.
  split; [vm_compute; reflexivity|]. split; [vm_compute; reflexivity|]. split; [vm_compute; reflexivity|].
  split; [vm_compute; reflexivity|]. split; [vm_compute; reflexivity|].
  split; [apply limbs_b_ok; vm_compute; reflexivity|reflexivity].
Qed.
Example C74_std : arrays_ok std_arrays std_params /\ arrays_ok test_arrays test_params.
Proof. split; [exact std_arrays_ok|exact test_arrays_ok]. Qed.

(** * C75: the checked exponentiation of the facade
    The number of 64-bit words that hold [bBits] bits. *)
Definition words (w bBits : Z) : Z := (bBits - 1) / w + 1.
(** The claim: a call whose exponent has more bits than announced reports failure. *)
Definition refuses_long_exponents (f : list Z -> list Z -> Z -> list Z -> bool * option (list Z)) : Prop :=
  forall n a bBits b, limbs 64 n -> limbs 64 a -> limbs 64 b -> 0 < bBits <= 4096 ->
  2 ^ bBits <= lval b -> fst (f n a bBits b) = false.
Definition pad64 (l : list Z) : list Z := l ++ zeros (64 - length l).
(** Neither build does: only the words that hold [bBits] bits are looked at. *)
Theorem C75_long_exponent_refuted : forall ct,
  ~ refuses_long_exponents (x_mod_exp ct) /\ ~ refuses_long_exponents (w_mod_exp ct).
Proof.
  intros ct.
  assert (L : limbs 64 (pad64 [9]) /\ limbs 64 (pad64 [2]) /\ limbs 64 (pad64 [3; 1])).
  { split; [|split]; apply limbs_b_ok; vm_compute; reflexivity. }
  destruct L as (L1 & L2 & L3).
  assert (E1 : lval (pad64 [9]) = 9 /\ lval (pad64 [2]) = 2 /\ lval (pad64 [3; 1]) = 2 ^ 64 + 3) by (vm_compute; repeat split).
  destruct E1 as (V1 & V2 & V3).
  split; intros H; specialize (H (pad64 [9]) (pad64 [2]) 10 (pad64 [3; 1]) L1 L2 L3 ltac:(lia) ltac:(rewrite V3; lia)).
  - destruct (x_mod_exp_spec ct 64 _ _ 10 (pad64 [3; 1]) L1 L2 ltac:(lia) small_p ltac:(lia) (proj2 L3) ltac:(vm_compute; discriminate))
      as (ok & r & E & _ & O & _). rewrite E in H. cbn [fst] in H. rewrite V1, V2, V3 in O. rewrite O in H. vm_compute in H. discriminate H.
  - destruct (w_mod_exp_spec ct 64 _ _ 10 (pad64 [3; 1]) L1 L2 ltac:(lia) small_p ltac:(lia) (proj2 L3) ltac:(vm_compute; discriminate))
      as (ok & r & E & _ & O & _). rewrite E in H. cbn [fst] in H. rewrite V1, V2, V3 in O. rewrite O in H. vm_compute in H. discriminate H.
Qed.
(** Exactly what each build accepts, and the result. *)
Theorem C75_accepts_partial ct n a bBits b : limbs 64 n -> limbs 64 a -> limbs 64 b -> 0 < bBits <= 4096 ->
  (let e := lval b mod 2 ^ (64 * words 64 bBits) in
   exists ok r, x_mod_exp ct n a bBits b = (ok, Some r) /\ limbs 64 r /\
     (ok = true <-> Z.odd (lval n) = true /\ 1 < lval n /\ e < 2 ^ bBits /\ lval a < lval n) /\
     lval r = if ok then lval a ^ e mod lval n else 0) /\
  (let e := lval b mod 2 ^ (32 * words 32 bBits) in
   exists ok r, w_mod_exp ct n a bBits b = (ok, Some r) /\ limbs 64 r /\
     (ok = true <-> Z.odd (lval n) = true /\ 1 < lval n /\ e < 2 ^ bBits /\ lval a < lval n) /\
     lval r = if ok then lval a ^ e mod lval n else 0).
Proof.
  intros Hn Ha [Lb Fb] HB.
  assert (E64 : exp_len bBits = words 64 bBits).
  { unfold exp_len, words. destruct (Z.eqb_spec bBits 0); [lia|reflexivity]. }
  assert (E32 : Limb32Model.exp_len bBits = words 32 bBits).
  { unfold Limb32Model.exp_len, words. destruct (Z.eqb_spec bBits 0); [lia|reflexivity]. }
  assert (LE : exp_len bBits <= Z.of_nat (length b)).
  { rewrite E64, Lb. unfold words. assert ((bBits - 1) / 64 < 64) by (apply Z.div_lt_upper_bound; lia). lia. }
  split; cbv zeta.
  - destruct (x_mod_exp_spec ct 64 n a bBits b Hn Ha ltac:(lia) small_p ltac:(lia) Fb LE) as (ok & r & E & R & O & V).
    rewrite E64 in *. exists ok, r. split; [trivial|]. split; [trivial|]. split; [|trivial].
    rewrite O, !andb_true_iff, !Z.ltb_lt. tauto.
  - destruct (w_mod_exp_spec ct 64 n a bBits b Hn Ha ltac:(lia) small_p ltac:(lia) Fb LE) as (ok & r & E & R & O & V).
    rewrite E32 in *. exists ok, r. split; [trivial|]. split; [trivial|]. split; [|trivial].
    rewrite O, !andb_true_iff, !Z.ltb_lt. tauto.
Qed.
(** When the exponent has no bits beyond the words looked at by Windows, the two agree,
    and the claim holds of both. *)
Theorem C75_agree_partial ct n a bBits b : limbs 64 n -> limbs 64 a -> limbs 64 b -> 0 < bBits <= 4096 ->
  lval b < 2 ^ (32 * words 32 bBits) ->
  w_mod_exp ct n a bBits b = x_mod_exp ct n a bBits b /\
  (2 ^ bBits <= lval b -> fst (x_mod_exp ct n a bBits b) = false).
Proof.
  intros Hn Ha Hb HB L. destruct (C75_accepts_partial ct n a bBits b Hn Ha Hb HB) as [X W].
  pose proof (limbs_bound _ _ Hb) as [B0 _].
  assert (M : 2 ^ (32 * words 32 bBits) <= 2 ^ (64 * words 64 bBits)).
  { apply Z.pow_le_mono_r; [lia|]. unfold words.
    pose proof (Z.div_mod (bBits - 1) 64 ltac:(lia)). pose proof (Z.mod_pos_bound (bBits - 1) 64 ltac:(lia)).
    pose proof (Z.div_mod (bBits - 1) 32 ltac:(lia)). pose proof (Z.mod_pos_bound (bBits - 1) 32 ltac:(lia)). lia. }
  assert (S1 : lval b mod 2 ^ (64 * words 64 bBits) = lval b) by (apply Z.mod_small; lia).
  assert (S2 : lval b mod 2 ^ (32 * words 32 bBits) = lval b) by (apply Z.mod_small; lia).
  cbv zeta in X, W. rewrite S1 in X. rewrite S2 in W.
  destruct X as (ok & r & E & R & O & V), W as (ok' & r' & E' & R' & O' & V'). rewrite E, E'.
  assert (EO : ok' = ok).
  { destruct ok, ok'; try reflexivity; destruct (proj1 O) || destruct (proj1 O'); intuition congruence. }
  subst ok'. split.
  - rewrite <- V in V'. now rewrite (lval_inj 64 _ _ R' R V').
  - intros G. cbn [fst]. destruct ok; [|reflexivity]. destruct (proj1 O eq_refl) as (_ & _ & F & _). lia.
Qed.
(** Beyond that the two builds differ: an exponent of 2^40 announced with 10 bits is
    refused elsewhere and taken as 0 on Windows. *)
Theorem C75_platforms_differ_refuted : exists n a bBits b, limbs 64 n /\ limbs 64 a /\ limbs 64 b /\
  0 < bBits <= 4096 /\ forall ct,
  fst (x_mod_exp ct n a bBits b) = false /\
  fst (w_mod_exp ct n a bBits b) = true /\
  option_map lval (snd (w_mod_exp ct n a bBits b)) = Some 1.
Proof.
  exists (pad64 [9]), (pad64 [2]), 10, (pad64 [2 ^ 40]).
  assert (L : limbs 64 (pad64 [9]) /\ limbs 64 (pad64 [2]) /\ limbs 64 (pad64 [2 ^ 40])).
  { split; [|split]; apply limbs_b_ok; vm_compute; reflexivity. }
  destruct L as (L1 & L2 & L3).
  assert (E1 : lval (pad64 [9]) = 9 /\ lval (pad64 [2]) = 2 /\ lval (pad64 [2 ^ 40]) = 2 ^ 40) by (vm_compute; repeat split).
  destruct E1 as (V1 & V2 & V3).
  do 4 (split; [trivial; lia|]). intros ct.
  destruct (x_mod_exp_spec ct 64 _ _ 10 (pad64 [2 ^ 40]) L1 L2 ltac:(lia) small_p ltac:(lia) (proj2 L3) ltac:(vm_compute; discriminate))
    as (ok & r & E & _ & O & _).
  destruct (w_mod_exp_spec ct 64 _ _ 10 (pad64 [2 ^ 40]) L1 L2 ltac:(lia) small_p ltac:(lia) (proj2 L3) ltac:(vm_compute; discriminate))
    as (ok' & r' & E' & _ & O' & V').
  rewrite E, E'. cbn [fst snd option_map]. rewrite V1, V2, V3 in *. subst ok ok'.
  split; [vm_compute; reflexivity|]. split; [vm_compute; reflexivity|]. f_equal. rewrite V'. vm_compute. reflexivity.
Qed.
Example C75_case : (* one limb, so that it computes: 3^1000 announced with 10 and with 9 bits *)
  let n := [2 ^ 64 - 59] in
  x_mod_exp false n [3] 10 [1000] = (true, Some [powmod 3 1000 (2 ^ 64 - 59)]) /\
  w_mod_exp false n [3] 10 [1000] = (true, Some [powmod 3 1000 (2 ^ 64 - 59)]) /\
  x_mod_exp false n [3] 9 [1000] = (false, Some [0]) /\
  w_mod_exp false n [3] 9 [1000] = (false, Some [0]) /\
  w_mod_exp false n [3] 0 [0] = (false, None).
Proof. vm_compute. repeat split. Qed.

Print Assumptions C74_plain.
Print Assumptions C74_mod.
Print Assumptions C74_context.
Print Assumptions C74_group.
Print Assumptions C74_meaning.
Print Assumptions C75_long_exponent_refuted.
Print Assumptions C75_accepts_partial.
Print Assumptions C75_agree_partial.
Print Assumptions C75_platforms_differ_refuted.
