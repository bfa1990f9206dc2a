(** Properties C01-C10, C14, C58: exponent and group arithmetic, construction and
    encodings. *)
From Coq Require Import Znumtheory Permutation Psatz String.
From Verif Require Import Base GroupModel GroupSpec GroupProofs GroupExtra CodecModel CodecProofs
  LookupModel LookupProofs Algebra SoundProofs TestParams ConstModel StdParams.
Open Scope string_scope.
Open Scope list_scope.
Open Scope Z_scope.
Ltac Zify.zify_post_hook ::= idtac.

(** The two parameter sets of constants.h.  Both satisfy [valid_params] and
    [prime_params] (proved from their limbs; only this uses the Uint63 axioms), so
    every theorem below stated for [valid_params] applies to the shipped code. *)
Definition shipped (gp : params) : Prop := gp = std_params \/ gp = test_array_params.
Lemma shipped_prime gp : shipped gp -> prime_params gp.
Proof. intros [->| ->]; [apply std_params_prime|rewrite test_arrays; apply test_params_prime]. Qed.
Lemma shipped_valid gp : shipped gp -> valid_params gp.
Proof. intros H. apply pp_valid, shipped_prime, H. Qed.

(** * C01 *)
Theorem C01_add_mod_q gp a b :
  valid_params gp -> 0 <= a <= gpQ gp -> 0 <= b <= gpQ gp ->
  add_mod_q gp a b = (a + b) mod gpQ gp /\ 0 <= add_mod_q gp a b < gpQ gp.
Proof.
  intros S Ha Hb. pose proof S as V.
  split; [exact (add_mod_q_correct gp V a b Ha Hb)|exact (add_mod_q_range gp V a b)].
Qed.
Theorem C01_add_mod_q_list gp l :
  valid_params gp -> l <> [] -> Forall (fun a => 0 <= a <= gpQ gp) l ->
  add_mod_q_list gp l = Ok (fold_right Z.add 0 l mod gpQ gp).
Proof. intros S Hl Hf. exact (add_mod_q_list_correct gp S l Hf Hl). Qed.
Theorem C01_add_mod_q_list_order gp l l' :
  valid_params gp -> Forall (fun a => 0 <= a <= gpQ gp) l -> Permutation l l' ->
  add_mod_q_list gp l = add_mod_q_list gp l'.
Proof. intros S Hf Hp. exact (add_mod_q_list_perm gp S l l' Hf Hp). Qed.
Theorem C01_add_mod_q_list_throws gp l :
  (exists e, add_mod_q_list gp l = Throw e) <-> l = [].
Proof.
  destruct l; cbn [add_mod_q_list]; split.
  - reflexivity.
  - intros _. exists InvalidArgument. reflexivity.
  - intros [e H]. discriminate.
  - discriminate.
Qed.
Example C01_carry : (* both operands just below Q: the sum overflows 256 bits *)
  let Q := gpQ std_params in
  add_mod_q std_params (Q - 1) (Q - 2) = Q - 3 /\ 2 ^ 256 <= (Q - 1) + (Q - 2).
Proof. vm_compute. split; [reflexivity|discriminate]. Qed.
Example C01_list : add_mod_q_list std_params [gpQ std_params - 1; 5; gpQ std_params - 1] = Ok 3.
Proof. vm_compute. reflexivity. Qed.

(** * C02 *)
Theorem C02_sub_mod_q gp a b :
  valid_params gp -> 0 <= a <= gpQ gp -> 0 <= b <= gpQ gp ->
  sub_mod_q gp a b = (a - b) mod gpQ gp.
Proof. intros S. exact (sub_mod_q_correct gp S a b). Qed.
Theorem C02_a_plus_bc gp a b c :
  valid_params gp -> 0 <= a < 2 ^ 256 -> 0 <= b < 2 ^ 256 -> 0 <= c < 2 ^ 256 ->
  a_plus_bc_mod_q gp a b c = Ok ((a + b * c) mod gpQ gp).
Proof. intros S Ha _ _. exact (a_plus_bc_mod_q_correct gp S a b c Ha). Qed.
Theorem C02_sub_from_q gp a :
  valid_params gp -> 0 <= a <= gpQ gp ->
  0 <= sub_from_q gp a <= gpQ gp /\ (a + sub_from_q gp a) mod gpQ gp = 0.
Proof.
  intros S Ha. pose proof S as V. rewrite (sub_from_q_correct gp V a Ha).
  split; [lia|]. replace (a + (gpQ gp - a)) with (gpQ gp) by lia.
  apply Z.mod_same. pose proof (vp_Qlo _ V). lia.
Qed.
Example C02_borrow : sub_mod_q std_params 3 5 = gpQ std_params - 2.
Proof. vm_compute. reflexivity. Qed.
Example C02_big : a_plus_bc_mod_q std_params (2 ^ 256 - 1) (2 ^ 256 - 1) (2 ^ 256 - 1) = Ok (188 + 188 * 188).
Proof. vm_compute. reflexivity. Qed.
Example C02_zero : (* the inverse of 0 is returned as Q, not 0 *)
  sub_from_q std_params 0 = gpQ std_params.
Proof. vm_compute. reflexivity. Qed.

(** * C03: false of the code *)
Theorem C03_add_every_operand_refuted :
  exists a b, 0 <= a < 2 ^ 256 /\ 0 <= b < 2 ^ 256 /\
    add_mod_q std_params a b <> (a + b) mod gpQ std_params.
Proof. exists (2 ^ 256 - 1), 1. vm_compute. repeat split; discriminate. Qed.
(** The value hash_elems computes for an all-ones digest. *)
Theorem C03_hash_all_ones_refuted :
  add_mod_q std_params (2 ^ 256 - 1) 0 <> (2 ^ 256 - 1) mod gpQ std_params.
Proof. vm_compute. discriminate. Qed.
Theorem C03_sub_every_operand_refuted :
  exists a b, 0 <= a < 2 ^ 256 /\ 0 <= b < 2 ^ 256 /\
    sub_mod_q std_params a b <> (a - b) mod gpQ std_params.
Proof. exists 0, (gpQ std_params + 1). vm_compute. repeat split; discriminate. Qed.
(** What holds: operands may exceed Q as long as there is no carry/borrow and the
    sum is not the all-ones array.  Missing: the remaining operands, for which the
    statement is false. *)
Theorem C03_add_partial gp a b :
  0 <= a < 2 ^ 256 -> 0 <= b < 2 ^ 256 -> a + b < 2 ^ 256 - 1 ->
  add_mod_q gp a b = (a + b) mod gpQ gp.
Proof. intros Ha Hb H. apply (add_mod_q_nocarry gp a b); [apply Ha|apply Hb|exact H]. Qed.
Theorem C03_sub_partial gp a b :
  0 <= b <= a -> a < 2 ^ 256 -> sub_mod_q gp a b = (a - b) mod gpQ gp.
Proof. exact (sub_mod_q_noborrow gp a b). Qed.
Example C03_partial_case : add_mod_q std_params (gpQ std_params + 7) 3 = 10.
Proof. vm_compute. reflexivity. Qed.

(** * C04 *)
Theorem C04_mul_mod_p gp a b :
  valid_params gp -> 0 <= a < 2 ^ 4096 -> 0 <= b < 2 ^ 4096 ->
  mul_mod_p gp a b = (a * b) mod gpP gp /\ 0 <= mul_mod_p gp a b < gpP gp.
Proof. intros S _ _. split; [reflexivity|exact (mul_mod_p_range gp S a b)]. Qed.
Theorem C04_mul_mod_p_list gp l :
  valid_params gp -> mul_mod_p_list gp l = fold_right Z.mul 1 l mod gpP gp.
Proof. intros S. exact (mul_mod_p_list_correct gp S l). Qed.
Theorem C04_mul_mod_p_list_order gp l l' :
  valid_params gp -> Permutation l l' -> mul_mod_p_list gp l = mul_mod_p_list gp l'.
Proof. intros S. exact (mul_mod_p_list_perm gp S l l'). Qed.
Example C04_list : mul_mod_p_list test_array_params [2 ^ 63; 2; 3] = 14894097
  /\ mul_mod_p_list test_array_params [] = 1.
Proof. vm_compute. split; reflexivity. Qed.

(** * C05 *)
(** Generic path. *)
Theorem C05_pow_mod_p gp b e :
  valid_params gp -> 0 <= b < 2 ^ 4096 -> 0 <= e < 2 ^ 256 -> pow_mod_p gp b e = (b ^ e) mod gpP gp.
Proof. intros S _ He. exact (pow_mod_p_correct gp S b e He). Qed.
(** Table path, after any history of earlier requests. *)
Theorem C05_pow_mod_p_fixed gp reqs b e :
  valid_params gp -> Forall (fun r => 0 <= fst r < 2 ^ 4096 /\ 0 <= snd r < 2 ^ 256) reqs ->
  0 <= b < 2 ^ 4096 -> 0 <= e < 2 ^ 256 ->
  fst (pow_mod_p_fixed gp (cache_run gp reqs) b e) = (b ^ e) mod gpP gp.
Proof.
  intros S HR Hb He. pose proof S as V.
  exact (proj1 (pow_mod_p_fixed_ok gp V _ b e (cache_run_ok gp V reqs HR) Hb He)).
Qed.
Theorem C05_paths_agree gp reqs b e :
  valid_params gp -> Forall (fun r => 0 <= fst r < 2 ^ 4096 /\ 0 <= snd r < 2 ^ 256) reqs ->
  0 <= b < 2 ^ 4096 -> 0 <= e < 2 ^ 256 ->
  fst (pow_mod_p_fixed gp (cache_run gp reqs) b e) = pow_mod_p gp b e.
Proof.
  intros S HR Hb He. rewrite C05_pow_mod_p_fixed, C05_pow_mod_p by assumption. reflexivity.
Qed.
Example C05_case : pow_mod_p test_array_params 3 65600 = 10456473918717572842
  /\ pow_mod_p test_array_params 3 0 = 1.
Proof. vm_compute. split; reflexivity. Qed.

(** * C06: false of the code *)
Theorem C06_pow_mod_p_big_exponent_refuted :
  exists b e, 0 <= b < gpP test_array_params /\ 0 <= e < 2 ^ 4096 /\
    pow_mod_p_p test_array_params b e <> (b ^ e) mod gpP test_array_params.
Proof.
  exists 2, (2 ^ 512). split; [split; [discriminate|reflexivity]|]. split; [split; [discriminate|reflexivity]|].
  rewrite <- powmod_spec by discriminate. vm_compute. discriminate.
Qed.
(** What holds: exponents below 2^512, and in general the exponent modulo 2^512 is
    used.  Missing: exponents with a bit above position 511. *)
Theorem C06_pow_mod_p_partial gp b e :
  valid_params gp -> 0 <= e < 2 ^ 512 -> pow_mod_p_p gp b e = (b ^ e) mod gpP gp.
Proof. intros S. exact (pow_mod_p_p_correct gp S b e). Qed.
Theorem C06_pow_mod_p_truncates gp b e :
  valid_params gp -> 0 <= e < 2 ^ 4096 -> pow_mod_p_p gp b e = (b ^ (e mod 2 ^ 512)) mod gpP gp.
Proof. intros S. exact (pow_mod_p_p_actual gp S b e). Qed.
Example C06_case : pow_mod_p_p test_array_params 2 (2 ^ 300 + 5) = 16284883406181658763.
Proof. vm_compute. reflexivity. Qed.

(** * C07: false of the code *)
Theorem C07_add_mod_p_out_of_bounds_refuted :
  exists a b, 0 <= a < gpP std_params /\ 0 <= b < gpP std_params /\ add_mod_p std_params a b = UB.
Proof. exists (gpP std_params - 1), (gpP std_params - 1). vm_compute. repeat split; discriminate || reflexivity. Qed.
Theorem C07_mod_p_out_of_bounds_refuted :
  exists a, 0 <= a < gpP std_params /\ mod_p a = UB.
Proof. exists 5. vm_compute. repeat split; discriminate || reflexivity. Qed.
(** What holds: sums below 2^4096 - 1.  Missing: the rest, where memory is read out
    of bounds. *)
Theorem C07_add_mod_p_partial gp a b :
  valid_params gp -> 0 <= a -> 0 <= b -> a + b < 2 ^ 4096 - 1 -> add_mod_p gp a b = Ok ((a + b) mod gpP gp).
Proof. intros S. exact (add_mod_p_nocarry gp a b). Qed.
Theorem C07_add_mod_p_ub gp a b :
  valid_params gp -> 0 <= a <= gpP gp -> 0 <= b <= gpP gp -> 2 ^ 4096 - 1 <= a + b -> add_mod_p gp a b = UB.
Proof. intros S. exact (add_mod_p_ub gp S a b). Qed.
Example C07_case : add_mod_p test_array_params 18446744073704586916 5 = Ok 4.
Proof. vm_compute. reflexivity. Qed.

(** * C08: false at the modulus *)
Theorem C08_modulus_accepted_refuted :
  make_p std_params 64 (gpP std_params) false = Ok (gpP std_params) /\
  make_q std_params 4 (gpQ std_params) false = Ok (gpQ std_params).
Proof. vm_compute. split; reflexivity. Qed.
(** What holds: checked construction admits exactly the values up to and including
    the modulus, and stores the denoted value; from limbs and integers ... *)
Theorem C08_limbs_p_partial gp len v :
  (len <= 64)%nat ->
  make_p gp len v false = if v <=? gpP gp then Ok v else Throw OutOfRange.
Proof.
  intros H. unfold make_p. replace (64 <? len)%nat with false by (symmetry; apply Nat.ltb_ge; exact H).
  cbn [negb andb]. destruct (Z.ltb_spec (gpP gp) v), (Z.leb_spec v (gpP gp)); lia || reflexivity.
Qed.
Theorem C08_limbs_q_partial gp len v :
  (len <= 4)%nat ->
  make_q gp len v false = if v <=? gpQ gp then Ok v else Throw OutOfRange.
Proof.
  intros H. unfold make_q. replace (4 <? len)%nat with false by (symmetry; apply Nat.ltb_ge; exact H).
  cbn [negb andb]. destruct (Z.ltb_spec (gpQ gp) v), (Z.leb_spec v (gpQ gp)); lia || reflexivity.
Qed.
(** ... from bytes of every length ... *)
Theorem C08_bytes_p_partial gp l :
  l <> [] ->
  bytes_to_p gp l false =
  if (length l <=? 512)%nat && (be_val l <=? gpP gp) then Ok (be_val l) else Throw OutOfRange.
Proof.
  intros N. unfold bytes_to_p. destruct l as [|x l]; [congruence|].
  destruct (Nat.ltb_spec 512 (length (x :: l))), (Nat.leb_spec (length (x :: l)) 512); try lia; cbn [andb];
    [reflexivity|]. cbn [length Nat.eqb]. apply (C08_limbs_p_partial gp 64). lia.
Qed.
Theorem C08_bytes_q_partial gp l :
  l <> [] ->
  bytes_to_q gp l false =
  if (length l <=? 32)%nat && (be_val l <=? gpQ gp) then Ok (be_val l) else Throw OutOfRange.
Proof.
  intros N. unfold bytes_to_q. destruct l as [|x l]; [congruence|].
  destruct (Nat.ltb_spec 32 (length (x :: l))), (Nat.leb_spec (length (x :: l)) 32); try lia; cbn [andb];
    [reflexivity|]. cbn [length Nat.eqb]. apply (C08_limbs_q_partial gp 4). lia.
Qed.
(** ... and from hexadecimal digit strings (either case, any length) of non-zero
    value; [hex_number] is the number the digits denote. *)
Theorem C08_hex_p_partial gp s v :
  hex_number 0 s = Some v -> v <> 0 ->
  from_hex_p gp s false =
  if (length (drop_leading s) <=? 1024)%nat && (v <=? gpP gp) then Ok v else Throw OutOfRange.
Proof.
  intros H N. rewrite (from_hex_p_number gp s v false H N).
  destruct (Nat.ltb_spec 1024 (length (drop_leading s))), (Nat.leb_spec (length (drop_leading s)) 1024);
    try lia; cbn [andb]; [reflexivity|]. apply (C08_limbs_p_partial gp 64). lia.
Qed.
Theorem C08_hex_q_partial gp s v :
  hex_number 0 s = Some v -> v <> 0 ->
  from_hex_q gp s false =
  if (length (drop_leading s) <=? 64)%nat && (v <=? gpQ gp) then Ok v else Throw OutOfRange.
Proof.
  intros H N. rewrite (from_hex_q_number gp s v false H N).
  destruct (Nat.ltb_spec 64 (length (drop_leading s))), (Nat.leb_spec (length (drop_leading s)) 64);
    try lia; cbn [andb]; [reflexivity|]. apply (C08_limbs_q_partial gp 4). lia.
Qed.
(** A vector longer than the element overflows the array. *)
Theorem C08_long_vector_refuted : make_q std_params 5 1 false = UB /\ make_p std_params 65 1 true = UB.
Proof. split; reflexivity. Qed.
Example C08_hex_case : hex_number 0 (s2b "00aBc") = Some 2748
  /\ from_hex_q std_params (s2b "00aBc") false = Ok 2748
  /\ from_hex_q test_array_params (s2b "fff2") false = Throw OutOfRange.
Proof. vm_compute. repeat split. Qed.

(** * C09: false for zero *)
Theorem C09_zero_hex_refuted gp :
  from_hex_p gp (to_hex_p 0) false = Throw OutOfRange /\ from_hex_q gp (to_hex_q 0) false = Throw OutOfRange.
Proof. split; vm_compute; reflexivity. Qed.
(** What holds: every non-zero element round-trips through hex.  Missing: zero. *)
Theorem C09_hex_roundtrip_p_partial gp x u :
  0 < x < 2 ^ 4096 -> x <= gpP gp -> from_hex_p gp (to_hex_p x) u = Ok x.
Proof.
  intros H HP. etransitivity; [exact (from_to_hex_p gp x u H)|].
  unfold make_p. destruct u; cbn; [reflexivity|]. destruct (Z.ltb_spec (gpP gp) x); [lia|reflexivity].
Qed.
Theorem C09_hex_roundtrip_q_partial gp x u :
  0 < x < 2 ^ 256 -> x <= gpQ gp -> from_hex_q gp (to_hex_q x) u = Ok x.
Proof.
  intros H HP. etransitivity; [exact (from_to_hex_q gp x u H)|].
  unfold make_q. destruct u; cbn; [reflexivity|]. destruct (Z.ltb_spec (gpQ gp) x); [lia|reflexivity].
Qed.
Theorem C09_bytes_roundtrip_p gp x u :
  0 <= x < 2 ^ 4096 -> x <= gpP gp ->
  length (to_bytes_p x) = 512%nat /\ bytes_to_p gp (to_bytes_p x) u = Ok x.
Proof.
  intros H HP. split; [exact (to_bytes_p_length x)|]. etransitivity; [exact (bytes_to_p_to_bytes gp x u H)|].
  unfold make_p. destruct u; cbn; [reflexivity|]. destruct (Z.ltb_spec (gpP gp) x); [lia|reflexivity].
Qed.
Theorem C09_bytes_roundtrip_q gp x u :
  0 <= x < 2 ^ 256 -> x <= gpQ gp ->
  length (to_bytes_q x) = 32%nat /\ bytes_to_q gp (to_bytes_q x) u = Ok x.
Proof.
  intros H HP. split; [exact (to_bytes_q_length x)|]. etransitivity; [exact (bytes_to_q_to_bytes gp x u H)|].
  unfold make_q. destruct u; cbn; [reflexivity|]. destruct (Z.ltb_spec (gpQ gp) x); [lia|reflexivity].
Qed.
Theorem C09_hex_injective_p a b :
  0 <= a < 2 ^ 4096 -> 0 <= b < 2 ^ 4096 -> to_hex_p a = to_hex_p b -> a = b.
Proof. exact (to_hex_p_inj a b). Qed.
Theorem C09_hex_injective_q a b :
  0 <= a < 2 ^ 256 -> 0 <= b < 2 ^ 256 -> to_hex_q a = to_hex_q b -> a = b.
Proof. exact (to_hex_q_inj a b). Qed.
Example C09_case : to_hex_q 4011 = s2b "0FAB" /\ from_hex_q test_array_params (s2b "0FAB") false = Ok 4011.
Proof. vm_compute. split; reflexivity. Qed.

(** * C10 (integer level; the limb level is in PropLimb.v) *)
Theorem C10_in_bounds gp a :
  (in_bounds_p gp a = true <-> 0 < a < gpP gp) /\ (in_bounds_q gp a = true <-> 0 < a < gpQ gp).
Proof. split; [exact (in_bounds_p_spec gp a)|exact (in_bounds_q_spec gp a)]. Qed.
Theorem C10_valid_residue gp a :
  valid_params gp -> (valid_residue gp a = true <-> 0 < a < gpP gp /\ (a ^ gpQ gp) mod gpP gp = 1).
Proof. intros S. exact (valid_residue_spec gp S a). Qed.
Example C10_case : valid_residue test_array_params (gpG test_array_params) = true
  /\ valid_residue test_array_params 2 = false /\ in_bounds_q test_array_params 65521 = false.
Proof. vm_compute. repeat split. Qed.

(** * C14 *)
Theorem C14_constants gp :
  shipped gp ->
  gpP gp = gpQ gp * gpR gp + 1 /\ prime (gpQ gp) /\ gpG gp <> 1 /\ 0 < gpG gp < gpP gp /\
  (gpG gp ^ gpQ gp) mod gpP gp = 1 /\ gpQoff gp = 2 ^ 256 - gpQ gp /\ gpPoff gp = 2 ^ 4096 - gpP gp.
Proof.
  intros S. pose proof (shipped_prime gp S) as [V PQ]. pose proof (vp_Grng _ V).
  split; [apply (vp_PQR _ V)|]. split; [assumption|]. split; [lia|]. split; [lia|].
  split; [apply (vp_GQ _ V)|]. split; [apply (vp_Qoff _ V)|apply (vp_Poff _ V)].
Qed.
Theorem C14_arrays :
  (std_P_ARRAY = rev std_P_ARRAY_REVERSE /\ std_Q_ARRAY = rev std_Q_ARRAY_REVERSE /\
   std_R_ARRAY = rev std_R_ARRAY_REVERSE /\ std_G_ARRAY = rev std_G_ARRAY_REVERSE) /\
  (test_P_ARRAY = rev test_P_ARRAY_REVERSE /\ test_Q_ARRAY = rev test_Q_ARRAY_REVERSE /\
   test_R_ARRAY = rev test_R_ARRAY_REVERSE /\ test_G_ARRAY = rev test_G_ARRAY_REVERSE).
Proof. exact (conj std_arrays_agree test_arrays_agree). Qed.
(** Hence the powers of G are exactly the Q residues of the subgroup: exponents
    collide only modulo Q. *)
Theorem C14_generator_order gp a b :
  shipped gp -> 0 <= a < gpQ gp -> 0 <= b < gpQ gp ->
  (gpG gp ^ a) mod gpP gp = (gpG gp ^ b) mod gpP gp -> a = b.
Proof.
  intros S Ha Hb H. pose proof (shipped_prime gp S) as PP. pose proof (pp_valid _ PP) as V.
  rewrite <- !(Algebra.ex_nonneg gp V) in H by (try (apply Algebra.sub_G; exact V); lia).
  apply (SoundProofs.ex_G_inj gp PP) in H. rewrite !Z.mod_small in H by assumption. exact H.
Qed.

(** * C58: false of the code *)
Theorem C58_four_never_drawn_refuted :
  exists v, 0 <= v < gpQ std_params /\ forall r, 0 <= r < 2 ^ 256 -> rand_q std_params r <> v.
Proof.
  exists 4. split; [split; [discriminate|reflexivity]|]. intros r Hr E.
  assert (H : 0 <= 4 < Qstd /\ Z.land 4 0xBC = 0) by (apply rand_q_image; exists r; split; assumption).
  destruct H as [_ H]. discriminate H.
Qed.
(** What holds: results are in range; the reachable values are exactly those with
    six given bits clear. *)
Theorem C58_rand_q_image_partial v :
  (exists r, 0 <= r < 2 ^ 256 /\ rand_q std_params r = v) <->
  0 <= v < gpQ std_params /\ Z.land v 0xBC = 0.
Proof. exact (rand_q_image v). Qed.
Theorem C58_rand_q_range gp r : valid_params gp -> 0 <= rand_q gp r < gpQ gp.
Proof. intros S. exact (add_mod_q_range gp S _ _). Qed.
Example C58_case : rand_q std_params 0xFF = 0x43.
Proof. vm_compute. reflexivity. Qed.

Print Assumptions C01_add_mod_q.
Print Assumptions C01_add_mod_q_list.
Print Assumptions C01_add_mod_q_list_order.
Print Assumptions C01_add_mod_q_list_throws.
Print Assumptions C02_sub_mod_q.
Print Assumptions C02_a_plus_bc.
Print Assumptions C02_sub_from_q.
Print Assumptions C03_add_every_operand_refuted.
Print Assumptions C03_hash_all_ones_refuted.
Print Assumptions C03_sub_every_operand_refuted.
Print Assumptions C03_add_partial.
Print Assumptions C03_sub_partial.
Print Assumptions C04_mul_mod_p.
Print Assumptions C04_mul_mod_p_list.
Print Assumptions C04_mul_mod_p_list_order.
Print Assumptions C05_pow_mod_p.
Print Assumptions C05_pow_mod_p_fixed.
Print Assumptions C05_paths_agree.
Print Assumptions C06_pow_mod_p_big_exponent_refuted.
Print Assumptions C06_pow_mod_p_partial.
Print Assumptions C06_pow_mod_p_truncates.
Print Assumptions C07_add_mod_p_out_of_bounds_refuted.
Print Assumptions C07_mod_p_out_of_bounds_refuted.
Print Assumptions C07_add_mod_p_partial.
Print Assumptions C07_add_mod_p_ub.
Print Assumptions C08_modulus_accepted_refuted.
Print Assumptions C08_limbs_p_partial.
Print Assumptions C08_limbs_q_partial.
Print Assumptions C08_bytes_p_partial.
Print Assumptions C08_bytes_q_partial.
Print Assumptions C08_hex_p_partial.
Print Assumptions C08_hex_q_partial.
Print Assumptions C08_long_vector_refuted.
Print Assumptions C09_zero_hex_refuted.
Print Assumptions C09_hex_roundtrip_p_partial.
Print Assumptions C09_hex_roundtrip_q_partial.
Print Assumptions C09_bytes_roundtrip_p.
Print Assumptions C09_bytes_roundtrip_q.
Print Assumptions C09_hex_injective_p.
Print Assumptions C09_hex_injective_q.
Print Assumptions C10_in_bounds.
Print Assumptions C10_valid_residue.
Print Assumptions C14_constants.
Print Assumptions C14_arrays.
Print Assumptions C14_generator_order.
Print Assumptions C58_four_never_drawn_refuted.
Print Assumptions C58_rand_q_image_partial.
Print Assumptions C58_rand_q_range.
