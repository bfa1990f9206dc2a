(** What Montgomery reduction returns for every double length input, also for
    those too large to be reduced completely; exponent arrays of any length. *)
From Coq Require Import Znumtheory.
From Verif Require Import Base LimbModel LimbSpec LimbWord LimbProofs LimbKara MontProofs ExpProofs.
Open Scope Z_scope.

(** The quotient T of c + n Q by the radix, with the modulus taken off once. *)
Lemma reduction_exact len n mu c : modulus len n mu -> limbs (len + len) c ->
  limbs len (reduction n mu c) /\
  exists Q T, 0 <= Q < Wn len /\ T * Wn len = lval c + lval n * Q /\
    lval (reduction n mu c) = if T <? lval n then T else T - lval n.
Proof.
  intros Hm Hc. pose proof (red_loop_spec len n mu c Hm Hc) as R. cbv zeta in R.
  destruct Hm as (Hn & _ & On & N1 & _). assert (Ln : length n = len) by apply Hn.
  unfold reduction. rewrite Ln. destruct (red_loop n mu c) as [c0 c']. cbn [fst snd] in R.
  destruct R as (Hb & Hs & (Q & HQ & E)). set (s := skipn len c') in *.
  set (T := lval s + Wn len * c0) in *.
  pose proof (limbs_bound _ _ Hc) as BC. rewrite Wn_add in BC.
  pose proof (limbs_bound _ _ Hs) as Bs. pose proof (Wn_pos len) as WP.
  pose proof (limbs_bound _ _ Hn) as Bn.
  assert (BT : T < Wn len + lval n).
  { assert (lval n * Q <= lval n * (Wn len - 1)) by (apply Z.mul_le_mono_nonneg_l; lia).
    apply (Z.mul_lt_mono_pos_r (Wn len)); [trivial|]. rewrite E, Z.mul_add_distr_r.
    rewrite Z.mul_sub_distr_l, Z.mul_1_r in H. lia. }
  pose proof (lb_sub_spec len s n Hs Hn) as (C1 & Ht & Et).
  destruct (lb_sub s n) as [c1 tmp]. cbn [fst snd] in *. pose proof (limbs_bound _ _ Ht) as Bt.
  assert (G : limbs len (sel_loop (u64 (c0 - c1)) s tmp) /\
              lval (sel_loop (u64 (c0 - c1)) s tmp) = if T <? lval n then T else T - lval n).
  { unfold T in *. destruct Hb as [-> | ->]; destruct C1 as [-> | ->].
    - change (u64 (0 - 0)) with 0. rewrite (sel_loop_zero len) by trivial. split; [trivial|].
      destruct (Z.ltb_spec (lval s + Wn len * 0) (lval n)); lia.
    - change (u64 (0 - 1)) with (W64 - 1). rewrite (sel_loop_ones len) by trivial. split; [trivial|].
      destruct (Z.ltb_spec (lval s + Wn len * 0) (lval n)); lia.
    - exfalso. lia.
    - change (u64 (1 - 1)) with 0. rewrite (sel_loop_zero len) by trivial. split; [trivial|].
      destruct (Z.ltb_spec (lval s + Wn len * 1) (lval n)); lia. }
  destruct G as [G1 G2]. split; [trivial|]. exists Q, T. split; [trivial|]. split; [trivial|exact G2].
Qed.

(** The checked exponentiation with an exponent array longer than the number of bits
    needs: the limbs it looks at decide. *)
Lemma exp_bits_words bBits : 0 < bBits -> exp_bits bBits <= 64 * exp_len bBits.
Proof.
  intros H. unfold exp_bits, win_bits, exp_len. destruct (Z.eqb_spec bBits 0); [lia|].
  pose proof (Z.div_mod (bBits - 1) 64 ltac:(lia)) as D. pose proof (Z.mod_pos_bound (bBits - 1) 64 ltac:(lia)) as B.
  destruct (bBits <? 200); [lia|].
  destruct (Z.eqb_spec (bBits mod 4) 0) as [E|E]; pose proof (Z.div_mod bBits 4 ltac:(lia)) as D4;
    pose proof (Z.mod_pos_bound bBits 4 ltac:(lia)) as B4; lia.
Qed.
Lemma mod_exp_firstn ct len n a bBits b : limbs len n -> limbs len a -> (0 < len)%nat -> Z.of_nat len < 2 ^ 64 ->
  0 < bBits -> Forall limb b -> exp_len bBits <= Z.of_nat (length b) ->
  mod_exp ct n a bBits b = mod_exp ct n a bBits (firstn (Z.to_nat (exp_len bBits)) b).
Proof.
  intros Hn Ha H0 HL HB F Lb. unfold mod_exp.
  assert (C : exp_check n a bBits (firstn (Z.to_nat (exp_len bBits)) b) = exp_check n a bBits b).
  { unfold exp_check. rewrite firstn_firstn, Nat.min_id. reflexivity. }
  destruct (exp_len_pos bBits ltac:(lia)) as [P1 P2].
  assert (Lf : limbs (Z.to_nat (exp_len bBits)) (firstn (Z.to_nat (exp_len bBits)) b)).
  { split; [rewrite firstn_length; lia|now apply Forall_firstn]. }
  rewrite C. pose proof (exp_check_spec len n a bBits _ Hn Ha H0 ltac:(lia) Lf) as S. cbv zeta in S. rewrite C in S.
  destruct (Z.eqb_spec (exp_check n a bBits b) (W64 - 1)) as [E|E]; [|reflexivity].
  assert (V : Z.odd (lval n) && (1 <? lval n) && ((lval (firstn (Z.to_nat (exp_len bBits)) b) <? 2 ^ bBits) && (lval a <? lval n)) = true).
  { rewrite S in E. destruct (_ && _); [reflexivity|discriminate E]. }
  apply andb_true_iff in V. destruct V as [V _]. apply andb_true_iff in V. destruct V as [O N1]. apply Z.ltb_lt in N1.
  pose proof (mont_ctx_init_ok len n Hn HL O N1) as OK.
  assert (M : lval b mod 2 ^ exp_bits bBits = lval (firstn (Z.to_nat (exp_len bBits)) b) mod 2 ^ exp_bits bBits).
  { rewrite (lval_split (Z.to_nat (exp_len bBits)) b) by lia. rewrite Wn_pow2, Z2Nat.id by lia.
    pose proof (exp_bits_words bBits HB). pose proof (exp_bits_ge bBits ltac:(lia)).
    replace (64 * exp_len bBits) with (64 * exp_len bBits - exp_bits bBits + exp_bits bBits) by lia.
    rewrite Z.pow_add_r by lia.
    rewrite (Z.mul_comm (2 ^ (64 * exp_len bBits - exp_bits bBits))), <- Z.mul_assoc, (Z.mul_comm (2 ^ exp_bits bBits)).
    apply Z.mod_add. apply Z.pow_nonzero; lia. }
  cbv zeta. f_equal. destruct ct.
  - destruct (exp_consttime_spec len _ _ OK a bBits b Ha F ltac:(lia)) as [X1 X2].
    destruct (exp_consttime_spec len _ _ OK a bBits _ Ha (proj2 Lf) ltac:(lia)) as [Y1 Y2].
    cbn [mc_n mc_mu mc_r2 mont_ctx_init] in *. apply (lval_inj len); trivial. rewrite X2, Y2, M. reflexivity.
  - destruct (exp_vartime_spec len _ _ OK a bBits b Ha F ltac:(lia)) as [X1 X2].
    destruct (exp_vartime_spec len _ _ OK a bBits _ Ha (proj2 Lf) ltac:(lia)) as [Y1 Y2].
    cbn [mc_n mc_mu mc_r2 mont_ctx_init] in *. apply (lval_inj len); trivial. rewrite X2, Y2, M. reflexivity.
Qed.
Lemma lval_firstn b k : Forall limb b -> (k <= length b)%nat -> lval (firstn k b) = lval b mod 2 ^ (64 * Z.of_nat k).
Proof.
  intros F L. rewrite (lval_split k b L), <- Wn_pow2, Z.mul_comm, Z.mod_add, Z.mod_small; trivial.
  - pose proof (lval_bound _ (Forall_firstn _ k _ F)) as B. rewrite firstn_length, Nat.min_l in B by trivial. exact B.
  - pose proof (Wn_pos k). lia.
Qed.
