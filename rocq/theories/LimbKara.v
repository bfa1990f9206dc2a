(** Squaring and Karatsuba multiplication of limb arrays. *)
From Verif Require Import Base LimbModel LimbSpec LimbWord LimbProofs.
Open Scope Z_scope.

Lemma lb_add_nocarry n a b : limbs n a -> limbs n b -> lval a + lval b < Wn n ->
  limbs n (snd (lb_add a b)) /\ lval (snd (lb_add a b)) = lval a + lval b.
Proof.
  intros Ha Hb H. destruct (lb_add_spec n a b Ha Hb) as (C & R & E).
  split; [trivial|]. pose proof (limbs_bound _ _ R). destruct C as [C|C]; rewrite C in E; lia.
Qed.

(** ** Squaring *)
Lemma firstn_S_get k (a : list Z) : (k < length a)%nat -> firstn (S k) a = firstn k a ++ [get a k].
Proof.
  unfold get. revert k. induction a as [|x a IH]; intros [|k] H; cbn in H; try lia; [reflexivity|].
  cbn [firstn app nth]. f_equal. apply IH. lia.
Qed.
Lemma sqr_diag_len a : length (sqr_diag a) = (length a + length a)%nat.
Proof. induction a; cbn; lia. Qed.
Lemma sqr_diag_limbs a : Forall limb (sqr_diag a).
Proof. induction a; cbn; constructor; [apply u64_limb|constructor; trivial; apply u64_limb]. Qed.
Lemma sqr_diag_app a b : sqr_diag (a ++ b) = sqr_diag a ++ sqr_diag b.
Proof. induction a; cbn; [reflexivity|]. now rewrite IHa. Qed.
Lemma sqr_diag_1 x : limb x -> lval (sqr_diag [x]) = x * x.
Proof.
  intros H. assert (Z0 : limb 0) by (split; [lia|reflexivity]).
  pose proof (mul_wide_add2_spec x x 0 0 H H Z0 Z0) as (_ & _ & E).
  unfold mul_wide_add2 in E. cbn [fst snd] in E.
  assert (B : 0 <= x * x < W64 * W64).
  { rewrite limb_W in H. split; [apply Z.mul_nonneg_nonneg; lia|]. apply Z.mul_lt_mono_nonneg; lia. }
  rewrite !Z.add_0_r, Z.mod_small in E by trivial.
  cbn [sqr_diag]. cbv zeta. rewrite !lval_cons. cbn [lval].
  replace (u64 (x * x) + W64 * (u64 (Z.shiftr (x * x) 64) + W64 * 0))
    with (u64 (x * x) + W64 * u64 (Z.shiftr (x * x) 64)) by ring. now rewrite <- E.
Qed.

Lemma sqr_step_spec a res k : Forall limb a -> (k < length a)%nat ->
  limbs (length a + length a) res -> lval (skipn (k + k) res) = 0 ->
  limbs (length a + length a) (sqr_step a res k) /\
  lval (skipn (S k + S k) (sqr_step a res k)) = 0 /\
  lval (sqr_step a res k) = lval res + Wn k * (lval (firstn k a) * get a k).
Proof.
  intros Fa Hk Hres Z0. set (N := (length a + length a)%nat) in *.
  assert (LF : length (firstn k a) = k) by (rewrite firstn_length; lia).
  assert (SL : limbs k (slice k k res)) by (apply limbs_slice with N; [trivial|subst N; lia]).
  assert (Z0l : limb 0) by (split; [lia|reflexivity]).
  assert (Ga : limb (get a k)) by (apply get_limb with (length a); now split).
  unfold sqr_step. destruct SL as [SL1 SL2].
  pose proof (mul_row_spec (firstn k a) (get a k) 0 (slice k k res) Ga Z0l) as M.
  specialize (M ltac:(lia) (Forall_firstn _ _ _ Fa) SL2). destruct M as (C & [RL RF] & E).
  destruct (mul_row (firstn k a) (get a k) 0 (slice k k res)) as [c w]. cbn [fst snd] in *.
  rewrite LF in *.
  assert (S1 : limbs N (splice k w res)) by (apply limbs_splice; trivial; subst N; lia).
  assert (S2 : limbs N (splice (k + k) [c] (splice k w res))).
  { apply limbs_splice; [trivial|now constructor|subst N; cbn; lia]. }
  destruct Hres as [Lres Fres]. destruct S1 as [S1L S1F].
  assert (Tail : skipn (k + k) (splice k w res) = skipn (k + k) res).
  { apply skipn_splice_ge; subst N; lia. }
  split; [trivial|]. split.
  - rewrite skipn_splice_ge by (subst N; cbn; lia).
    replace (S k + S k)%nat with (2 + (k + k))%nat by lia.
    rewrite <- skipn_skipn, Tail.
    assert (F3 : Forall limb (skipn (k + k) res)) by now apply Forall_skipn.
    assert (L3 : (2 <= length (skipn (k + k) res))%nat) by (rewrite skipn_length; subst N; lia).
    pose proof (lval_split 2 _ L3) as Q. rewrite Z0 in Q.
    pose proof (lval_bound _ (Forall_skipn _ 2 _ F3)). pose proof (lval_bound _ (Forall_firstn _ 2 _ F3)).
    pose proof (Wn_pos 2). assert (0 <= Wn 2 * lval (skipn 2 (skipn (k + k) res))) by (apply Z.mul_nonneg_nonneg; lia).
    assert (Wn 2 * lval (skipn 2 (skipn (k + k) res)) = 0) as P by lia. apply Z.mul_eq_0 in P. lia.
  - rewrite lval_splice by (subst N; cbn; lia). rewrite lval_splice by (subst N; lia).
    rewrite (slice_zero_tail (k + k)) by (rewrite ?Tail; trivial).
    rewrite RL, lval_cons. cbn [lval]. rewrite Wn_add.
    replace (lval w) with (lval (firstn k a) * get a k + 0 + lval (slice k k res) - Wn k * c) by lia. ring.
Qed.

Lemma sqr_fold_spec a : Forall limb a -> forall k, (k <= length a)%nat ->
  let res := fold_left (sqr_step a) (seq 0 k) (zeros (length a + length a)) in
  limbs (length a + length a) res /\ lval (skipn (k + k) res) = 0 /\
  2 * lval res + lval (sqr_diag (firstn k a)) = lval (firstn k a) * lval (firstn k a).
Proof.
  intros Fa. induction k as [|k IH]; intros Hk.
  - cbn [seq fold_left firstn sqr_diag lval]. rewrite lval_zeros. split; [apply limbs_zeros|].
    split; [|lia]. cbn [skipn Nat.add]. apply lval_zeros.
  - rewrite seq_S, fold_left_app. cbn [fold_left Nat.add].
    destruct (IH ltac:(lia)) as (H1 & H2 & H3). cbv zeta in *.
    destruct (sqr_step_spec a _ k Fa ltac:(lia) H1 H2) as (G1 & G2 & G3).
    split; [trivial|]. split; [trivial|].
    rewrite G3, firstn_S_get by lia. rewrite sqr_diag_app, !lval_app, sqr_diag_len, sqr_diag_1.
    2:{ apply get_limb with (length a); now split. }
    rewrite firstn_length, Nat.min_l, Wn_add by lia. cbn [lval].
    remember (lval (fold_left _ _ _)) as V. remember (lval (sqr_diag (firstn k a))) as D.
    remember (lval (firstn k a)) as A. replace D with (A * A - 2 * V) by lia.
    rewrite Z.mul_0_r, Z.add_0_r. ring.
Qed.

Lemma lb_sqr_spec n a : limbs n a ->
  limbs (n + n) (lb_sqr a) /\ lval (lb_sqr a) = lval a * lval a.
Proof.
  intros Ha. pose proof (limbs_bound _ _ Ha) as B. destruct Ha as [La Fa]. subst n.
  destruct (sqr_fold_spec a Fa (length a) (le_n _)) as (H1 & _ & H3). cbv zeta in *.
  rewrite firstn_all in H3. unfold lb_sqr.
  set (res := fold_left _ _ _) in *. clearbody res.
  assert (HD : limbs (length a + length a) (sqr_diag a)) by (split; [apply sqr_diag_len|apply sqr_diag_limbs]).
  assert (B2 : lval a * lval a < Wn (length a + length a)).
  { rewrite Wn_add. apply Z.mul_lt_mono_nonneg; lia. }
  pose proof (limbs_bound _ _ H1). pose proof (limbs_bound _ _ HD).
  destruct (lb_add_nocarry _ _ _ H1 H1) as [G1 G2]; [lia|].
  destruct (lb_add res res) as [c1 r1]. cbn [snd] in *.
  destruct (lb_add_nocarry _ _ _ G1 HD) as [K1 K2]; [lia|].
  destruct (lb_add r1 (sqr_diag a)) as [c2 r2]. cbn [snd] in *.
  split; [trivial|]. lia.
Qed.

(** ** Karatsuba *)
Lemma abs_diff_spec n a0 a1 : limbs n a0 -> limbs n a1 ->
  let c0 := fst (lb_sub a0 a1) in
  let t := sel_loop (u64 (0 - c0)) (snd (lb_sub a1 a0)) (snd (lb_sub a0 a1)) in
  bit c0 /\ limbs n t /\ lval t = (if c0 =? 0 then lval a0 - lval a1 else lval a1 - lval a0).
Proof.
  intros H0 H1. cbv zeta.
  pose proof (lb_sub_spec n a0 a1 H0 H1) as (C & R & E).
  pose proof (lb_sub_spec n a1 a0 H1 H0) as (C' & R' & E').
  pose proof (lb_sub_borrow n a0 a1 H0 H1) as B.
  pose proof (lb_sub_borrow n a1 a0 H1 H0) as B'.
  split; [trivial|]. rewrite u64_neg_bit by trivial.
  destruct C as [C|C]; rewrite C in *; cbn [Z.eqb].
  - rewrite (sel_loop_zero n) by trivial. split; [trivial|]. lia.
  - rewrite (sel_loop_ones n) by trivial. split; [trivial|].
    rewrite B' in E'. destruct (Z.ltb_spec (lval a0) (lval a1)); [|discriminate B].
    destruct (Z.ltb_spec (lval a1) (lval a0)); [lia|]. lia.
Qed.

(** Recombination shared by the product and the square: the middle term is
    t + W^len c5. *)
Lemma recombine h r01 r23 t c5 :
  let len := (h + h)%nat in
  (0 < h)%nat -> limbs len r01 -> limbs len r23 -> limbs len t -> bit c5 ->
  let V := lval r01 + Wn h * (lval t + Wn len * c5) + Wn len * lval r23 in
  0 <= V < Wn (len + len) ->
  let res := r01 ++ r23 in
  let c6 := fst (lb_add (slice h len res) t) in
  let mid := snd (lb_add (slice h len res) t) in
  let res1 := splice h mid res in
  let res2 := splice (len + h) (add_limb (skipn (len + h) res1) (u64 (c5 + c6))) res1 in
  limbs (len + len) res2 /\ lval res2 = V.
Proof.
  intros len Hh H01 H23 Ht Hc5 V HV res c6 mid res1 res2.
  assert (Hres : limbs (len + len) res) by now apply limbs_app.
  assert (Hsl : limbs len (slice h len res)) by (apply limbs_slice with (len + len)%nat; [trivial|subst len; lia]).
  pose proof (lb_add_spec len _ _ Hsl Ht) as (C6 & Hmid & E6). fold c6 mid in C6, Hmid, E6.
  assert (Lmid : length mid = len) by apply Hmid.
  assert (H1 : limbs (len + len) res1).
  { apply limbs_splice; [trivial|apply Hmid|rewrite Lmid; subst len; lia]. }
  assert (V1 : lval res1 = lval r01 + Wn len * lval r23 + Wn h * (lval mid - lval (slice h len res))).
  { unfold res1. rewrite lval_splice by (rewrite Lmid; destruct Hres as [-> _]; subst len; lia).
    rewrite Lmid. unfold res at 1. rewrite lval_app. destruct H01 as [-> _]. reflexivity. }
  assert (Htail : limbs h (skipn (len + h) res1)).
  { replace h with (len + len - (len + h))%nat at 1 by (subst len; lia). now apply limbs_skipn. }
  assert (C7 : u64 (c5 + c6) = c5 + c6).
  { destruct Hc5 as [-> | ->], C6 as [-> | ->]; reflexivity. }
  assert (L7 : limb (u64 (c5 + c6))) by apply u64_limb.
  destruct (add_limb_spec h _ _ Htail L7 Hh) as [Hadd Eadd].
  set (tl := add_limb _ _) in *.
  assert (Ltl : length tl = h) by apply Hadd.
  assert (H2 : limbs (len + len) res2).
  { apply limbs_splice; [trivial|apply Hadd|rewrite Ltl; subst len; lia]. }
  split; [trivial|].
  assert (V2 : lval res2 = lval res1 + Wn (len + h) * (lval tl - lval (skipn (len + h) res1))).
  { unfold res2. rewrite lval_splice by (rewrite Ltl; destruct H1 as [-> _]; subst len; lia).
    rewrite Ltl. unfold slice. rewrite (firstn_all2 (n := h)) by (destruct Htail as [-> _]; lia). reflexivity. }
  rewrite C7 in Eadd.
  set (q := (lval (skipn (len + h) res1) + (c5 + c6)) / Wn h).
  assert (Q : lval tl = lval (skipn (len + h) res1) + (c5 + c6) - Wn h * q).
  { rewrite Eadd. rewrite Z.mod_eq by (pose proof (Wn_pos h); lia). reflexivity. }
  assert (V3 : lval res2 = V - Wn (len + len) * q).
  { rewrite V2, V1, Q. unfold V.
    replace (lval mid) with (lval (slice h len res) + lval t - Wn len * c6) by lia.
    rewrite (Wn_add len h), (Wn_add len len).
    assert (WL : Wn len = Wn h * Wn h) by apply Wn_add. rewrite WL. ring. }
  pose proof (limbs_bound _ _ H2) as B2.
  assert (Q0 : q = 0); [|rewrite V3, Q0; ring].
  rewrite V3 in B2. clearbody q V. clear - HV B2. pose proof (Wn_pos (len + len)) as P.
  remember (Wn (len + len)) as W. clear HeqW.
  assert (W * q < W * 1) by lia. assert (W * (-1) < W * q) by lia.
  apply Z.mul_lt_mono_pos_l in H; [|trivial]. apply Z.mul_lt_mono_pos_l in H0; [|trivial]. lia.
Qed.

Lemma kmul_step_eq fuel a b : ((length a <? 32)%nat || Nat.odd (length a)) = false ->
  kmul (S fuel) a b =
    let len := length a in
    let len2 := (len / 2)%nat in
    let a0 := firstn len2 a in let a1 := skipn len2 a in
    let b0 := firstn len2 b in let b1 := skipn len2 b in
    let c0 := fst (lb_sub a0 a1) in
    let t0 := sel_loop (u64 (0 - c0)) (snd (lb_sub a1 a0)) (snd (lb_sub a0 a1)) in
    let c1 := fst (lb_sub b0 b1) in
    let t1 := sel_loop (u64 (0 - c1)) (snd (lb_sub b1 b0)) (snd (lb_sub b0 b1)) in
    let t23 := kmul fuel t0 t1 in
    let r01 := kmul fuel a0 b0 in
    let r23 := kmul fuel a1 b1 in
    let c2 := fst (lb_add r01 r23) in let t01 := snd (lb_add r01 r23) in
    let mask := u64 (0 - Z.lxor c0 c1) in
    let t45 := sel_loop mask (snd (lb_add t01 t23)) (snd (lb_sub t01 t23)) in
    let c5 := sel mask (u64 (c2 + fst (lb_add t01 t23))) (u64 (c2 - fst (lb_sub t01 t23))) in
    let res := r01 ++ r23 in
    let c6 := fst (lb_add (slice len2 len res) t45) in
    let mid := snd (lb_add (slice len2 len res) t45) in
    let res1 := splice len2 mid res in
    splice (len + len2) (add_limb (skipn (len + len2) res1) (u64 (c5 + c6))) res1.
Proof.
  intros H. cbn [kmul]. rewrite H. cbv zeta.
  set (len2 := (length a / 2)%nat).
  set (a0 := firstn len2 a). set (a1 := skipn len2 a). set (b0 := firstn len2 b). set (b1 := skipn len2 b).
  destruct (lb_sub a0 a1) as [c0 ta]. destruct (lb_sub a1 a0) as [c0' ta']. cbn [fst snd].
  destruct (lb_sub b0 b1) as [c1 tb]. destruct (lb_sub b1 b0) as [c1' tb']. cbn [fst snd].
  set (t23 := kmul fuel (sel_loop _ _ _) _).
  set (r01 := kmul fuel a0 b0). set (r23 := kmul fuel a1 b1).
  destruct (lb_add r01 r23) as [c2 t01]. cbn [fst snd].
  destruct (lb_sub t01 t23) as [c3 t67]. destruct (lb_add t01 t23) as [c4 t45]. cbn [fst snd].
  destruct (lb_add (slice _ _ _) _) as [c6 mid]. reflexivity.
Qed.

Lemma kmul_spec fuel : forall n a b, limbs n a -> limbs n b ->
  limbs (n + n) (kmul fuel a b) /\ lval (kmul fuel a b) = lval a * lval b.
Proof.
  induction fuel as [|fuel IH]; intros n a b Ha Hb. { now apply lb_mul_spec. }
  destruct ((length a <? 32)%nat || Nat.odd (length a)) eqn:Cond.
  { cbn [kmul]. rewrite Cond. now apply lb_mul_spec. }
  rewrite kmul_step_eq by trivial. cbv zeta.
  apply orb_false_iff in Cond. destruct Cond as [C32 Codd]. apply Nat.ltb_ge in C32.
  assert (La : length a = n) by apply Ha. rewrite La in C32, Codd |- *.
  set (h := (n / 2)%nat) in *.
  assert (Ev : n = (h + h)%nat).
  { assert (Nat.Even n) as [k Hk] by (rewrite <- Nat.even_spec, <- Nat.negb_odd, Codd; reflexivity).
    unfold h. rewrite Hk, (Nat.mul_comm 2 k), Nat.div_mul by lia. lia. }
  clearbody h. assert (Hh : (0 < h)%nat) by lia. clear Codd C32 La. subst n.
  set (a0 := firstn h a). set (a1 := skipn h a). set (b0 := firstn h b). set (b1 := skipn h b).
  assert (Ha0 : limbs h a0) by (apply limbs_firstn with (h + h)%nat; [trivial|lia]).
  assert (Hb0 : limbs h b0) by (apply limbs_firstn with (h + h)%nat; [trivial|lia]).
  assert (Ha1 : limbs h a1) by (replace h with (h + h - h)%nat at 1 by lia; now apply limbs_skipn).
  assert (Hb1 : limbs h b1) by (replace h with (h + h - h)%nat at 1 by lia; now apply limbs_skipn).
  assert (Ea : lval a = lval a0 + Wn h * lval a1) by (apply lval_split; destruct Ha as [-> _]; lia).
  assert (Eb : lval b = lval b0 + Wn h * lval b1) by (apply lval_split; destruct Hb as [-> _]; lia).
  pose proof (abs_diff_spec h a0 a1 Ha0 Ha1) as (C0 & Ht0 & Et0). cbv zeta in *.
  pose proof (abs_diff_spec h b0 b1 Hb0 Hb1) as (C1 & Ht1 & Et1). cbv zeta in *.
  set (c0 := fst (lb_sub a0 a1)) in *. set (c1 := fst (lb_sub b0 b1)) in *.
  set (t0 := sel_loop (u64 (0 - c0)) _ _) in *. set (t1 := sel_loop (u64 (0 - c1)) _ _) in *.
  clearbody c0 c1 t0 t1.
  destruct (IH h t0 t1 Ht0 Ht1) as [H23 E23]. set (t23 := kmul fuel t0 t1) in *.
  destruct (IH h a0 b0 Ha0 Hb0) as [Hr01 Er01]. set (r01 := kmul fuel a0 b0) in *.
  destruct (IH h a1 b1 Ha1 Hb1) as [Hr23 Er23]. set (r23 := kmul fuel a1 b1) in *.
  clearbody t23 r01 r23.
  pose proof (lb_add_spec _ _ _ Hr01 Hr23) as (C2 & H01 & E01).
  set (c2 := fst (lb_add r01 r23)) in *. set (t01 := snd (lb_add r01 r23)) in *.
  clearbody c2 t01.
  pose proof (lb_sub_spec _ _ _ H01 H23) as (C3 & H67 & E67).
  pose proof (lb_add_spec _ _ _ H01 H23) as (C4 & H45 & E45).
  set (c3 := fst (lb_sub t01 t23)) in *. set (t67 := snd (lb_sub t01 t23)) in *.
  set (c4 := fst (lb_add t01 t23)) in *. set (t45 := snd (lb_add t01 t23)) in *.
  clearbody c3 t67 c4 t45.
  set (W := Wn (h + h)) in *.
  assert (Wsq : W = Wn h * Wn h) by apply Wn_add.
  pose proof (limbs_bound _ _ Ha0) as B0. pose proof (limbs_bound _ _ Ha1) as B1.
  pose proof (limbs_bound _ _ Hb0) as D0. pose proof (limbs_bound _ _ Hb1) as D1.
  pose proof (Wn_pos h) as WP.
  (* the middle term *)
  set (M := lval a0 * lval b1 + lval a1 * lval b0).
  assert (BM : 0 <= M < 2 * W).
  { unfold M. rewrite Wsq.
    assert (0 <= lval a0 * lval b1) by (apply Z.mul_nonneg_nonneg; lia).
    assert (0 <= lval a1 * lval b0) by (apply Z.mul_nonneg_nonneg; lia).
    assert (lval a0 * lval b1 < Wn h * Wn h) by (apply Z.mul_lt_mono_nonneg; lia).
    assert (lval a1 * lval b0 < Wn h * Wn h) by (apply Z.mul_lt_mono_nonneg; lia). lia. }
  set (mask := u64 (0 - Z.lxor c0 c1)).
  set (tt := sel_loop mask t45 t67). set (c5 := sel mask (u64 (c2 + c4)) (u64 (c2 - c3))).
  assert (Mid : limbs (h + h) tt /\ bit c5 /\ lval tt + W * c5 = M).
  { assert (Sum : lval r01 + lval r23 = lval a0 * lval b0 + lval a1 * lval b1) by lia.
    pose proof (limbs_bound _ _ H67) as BT67. pose proof (limbs_bound _ _ H45) as BT45. fold W in BT67, BT45.
    assert (Sg : (Z.lxor c0 c1 = 0 /\ lval t01 + W * c2 - lval t23 = M) \/
                 (Z.lxor c0 c1 = 1 /\ lval t01 + W * c2 + lval t23 = M)).
    { destruct C0 as [-> | ->], C1 as [-> | ->]; cbn [Z.eqb] in *;
        [left|right|right|left]; (split; [reflexivity|]);
        replace (lval t01 + W * c2) with (lval a0 * lval b0 + lval a1 * lval b1) by lia;
        rewrite E23, Et0, Et1; unfold M; ring. }
    destruct Sg as [[S0 EM]|[S1 EM]].
    - unfold tt, c5, mask. rewrite S0. change (u64 (0 - 0)) with 0.
      rewrite (sel_loop_zero (h + h)) by trivial. rewrite sel_zero by apply u64_limb.
      assert (E : lval t67 + W * (c2 - c3) = M) by lia.
      assert (Bc : bit (c2 - c3)).
      { destruct C2 as [-> | ->], C3 as [-> | ->]; try (now left); try (now right); exfalso; lia. }
      rewrite u64_id by now apply bit_limb. split; [trivial|]. split; [trivial|lia].
    - unfold tt, c5, mask. rewrite S1. change (u64 (0 - 1)) with (W64 - 1).
      rewrite (sel_loop_ones (h + h)) by trivial. rewrite sel_ones by apply u64_limb.
      assert (E : lval t45 + W * (c2 + c4) = M) by lia.
      assert (Bc : bit (c2 + c4)).
      { destruct C2 as [-> | ->], C4 as [-> | ->]; try (now left); try (now right); exfalso; lia. }
      rewrite u64_id by now apply bit_limb. split; [trivial|]. split; [trivial|lia]. }
  destruct Mid as (Htt & Hc5 & EM). clearbody tt c5. clear mask.
  assert (Vab : lval r01 + Wn h * (lval tt + W * c5) + W * lval r23 = lval a * lval b).
  { rewrite EM, Er01, Er23, Ea, Eb, Wsq. unfold M. ring. }
  pose proof (recombine h r01 r23 tt c5) as R. cbv zeta in R. fold W in R.
  rewrite Vab in R. apply R; trivial.
  pose proof (limbs_bound _ _ Ha). pose proof (limbs_bound _ _ Hb).
  split; [apply Z.mul_nonneg_nonneg; lia|]. rewrite (Wn_add (h + h)). apply Z.mul_lt_mono_nonneg; lia.
Qed.
Lemma lb_kmul_spec n a b : limbs n a -> limbs n b ->
  limbs (n + n) (lb_kmul a b) /\ lval (lb_kmul a b) = lval a * lval b.
Proof. apply kmul_spec. Qed.

Lemma ksqr_step_eq fuel a : ((length a <? 32)%nat || Nat.odd (length a)) = false ->
  ksqr (S fuel) a =
    let len := length a in
    let len2 := (len / 2)%nat in
    let a0 := firstn len2 a in let a1 := skipn len2 a in
    let c0 := fst (lb_sub a0 a1) in
    let t0 := sel_loop (u64 (0 - c0)) (snd (lb_sub a1 a0)) (snd (lb_sub a0 a1)) in
    let t23 := ksqr fuel t0 in
    let r01 := ksqr fuel a0 in
    let r23 := ksqr fuel a1 in
    let c2 := fst (lb_add r01 r23) in let t01 := snd (lb_add r01 r23) in
    let t45 := snd (lb_sub t01 t23) in
    let c5 := u64 (c2 - fst (lb_sub t01 t23)) in
    let res := r01 ++ r23 in
    let c6 := fst (lb_add (slice len2 len res) t45) in
    let mid := snd (lb_add (slice len2 len res) t45) in
    let res1 := splice len2 mid res in
    splice (len + len2) (add_limb (skipn (len + len2) res1) (u64 (c5 + c6))) res1.
Proof.
  intros H. cbn [ksqr]. rewrite H. cbv zeta.
  set (len2 := (length a / 2)%nat).
  set (a0 := firstn len2 a). set (a1 := skipn len2 a).
  destruct (lb_sub a0 a1) as [c0 ta]. destruct (lb_sub a1 a0) as [c0' ta']. cbn [fst snd].
  set (t23 := ksqr fuel (sel_loop _ _ _)).
  set (r01 := ksqr fuel a0). set (r23 := ksqr fuel a1).
  destruct (lb_add r01 r23) as [c2 t01]. cbn [fst snd].
  destruct (lb_sub t01 t23) as [c3 t45]. cbn [fst snd].
  destruct (lb_add (slice _ _ _) _) as [c6 mid]. reflexivity.
Qed.
Lemma ksqr_spec fuel : forall n a, limbs n a ->
  limbs (n + n) (ksqr fuel a) /\ lval (ksqr fuel a) = lval a * lval a.
Proof.
  induction fuel as [|fuel IH]; intros n a Ha. { now apply lb_sqr_spec. }
  destruct ((length a <? 32)%nat || Nat.odd (length a)) eqn:Cond.
  { cbn [ksqr]. rewrite Cond. now apply lb_sqr_spec. }
  rewrite ksqr_step_eq by trivial. cbv zeta.
  apply orb_false_iff in Cond. destruct Cond as [C32 Codd]. apply Nat.ltb_ge in C32.
  assert (La : length a = n) by apply Ha. rewrite La in C32, Codd |- *.
  set (h := (n / 2)%nat) in *.
  assert (Ev : n = (h + h)%nat).
  { assert (Nat.Even n) as [k Hk] by (rewrite <- Nat.even_spec, <- Nat.negb_odd, Codd; reflexivity).
    unfold h. rewrite Hk, (Nat.mul_comm 2 k), Nat.div_mul by lia. lia. }
  clearbody h. assert (Hh : (0 < h)%nat) by lia. clear Codd C32 La. subst n.
  set (a0 := firstn h a). set (a1 := skipn h a).
  assert (Ha0 : limbs h a0) by (apply limbs_firstn with (h + h)%nat; [trivial|lia]).
  assert (Ha1 : limbs h a1) by (replace h with (h + h - h)%nat at 1 by lia; now apply limbs_skipn).
  assert (Ea : lval a = lval a0 + Wn h * lval a1) by (apply lval_split; destruct Ha as [-> _]; lia).
  pose proof (abs_diff_spec h a0 a1 Ha0 Ha1) as (C0 & Ht0 & Et0). cbv zeta in *.
  set (c0 := fst (lb_sub a0 a1)) in *.
  set (t0 := sel_loop (u64 (0 - c0)) _ _) in *.
  clearbody c0 t0.
  destruct (IH h t0 Ht0) as [H23 E23]. set (t23 := ksqr fuel t0) in *.
  destruct (IH h a0 Ha0) as [Hr01 Er01]. set (r01 := ksqr fuel a0) in *.
  destruct (IH h a1 Ha1) as [Hr23 Er23]. set (r23 := ksqr fuel a1) in *.
  clearbody t23 r01 r23.
  pose proof (lb_add_spec _ _ _ Hr01 Hr23) as (C2 & H01 & E01).
  set (c2 := fst (lb_add r01 r23)) in *. set (t01 := snd (lb_add r01 r23)) in *.
  clearbody c2 t01.
  pose proof (lb_sub_spec _ _ _ H01 H23) as (C3 & H67 & E67).
  set (c3 := fst (lb_sub t01 t23)) in *. set (t67 := snd (lb_sub t01 t23)) in *.
  clearbody c3 t67.
  set (W := Wn (h + h)) in *.
  assert (Wsq : W = Wn h * Wn h) by apply Wn_add.
  pose proof (limbs_bound _ _ Ha0) as B0. pose proof (limbs_bound _ _ Ha1) as B1.
  pose proof (Wn_pos h) as WP.
  set (M := 2 * (lval a0 * lval a1)).
  assert (BM : 0 <= M < 2 * W).
  { unfold M. rewrite Wsq.
    assert (0 <= lval a0 * lval a1) by (apply Z.mul_nonneg_nonneg; lia).
    assert (lval a0 * lval a1 < Wn h * Wn h) by (apply Z.mul_lt_mono_nonneg; lia). lia. }
  assert (EM : lval t67 + W * (c2 - c3) = M).
  { replace (lval t67) with (lval t01 - lval t23 + W * c3) by lia.
    replace (lval t01) with (lval r01 + lval r23 - W * c2) by lia.
    rewrite E23, Er01, Er23, Et0. unfold M. destruct (c0 =? 0); ring. }
  assert (Bc : bit (c2 - c3)).
  { pose proof (limbs_bound _ _ H67) as BT67. fold W in BT67.
    destruct C2 as [-> | ->], C3 as [-> | ->]; try (now left); try (now right); exfalso; lia. }
  rewrite (u64_id (c2 - c3)) by now apply bit_limb.
  assert (Vab : lval r01 + Wn h * (lval t67 + W * (c2 - c3)) + W * lval r23 = lval a * lval a).
  { rewrite EM, Er01, Er23, Ea, Wsq. unfold M. ring. }
  pose proof (recombine h r01 r23 t67 (c2 - c3)) as R. cbv zeta in R. fold W in R.
  rewrite Vab in R. apply R; trivial.
  pose proof (limbs_bound _ _ Ha).
  split; [apply Z.mul_nonneg_nonneg; lia|]. rewrite (Wn_add (h + h)). apply Z.mul_lt_mono_nonneg; lia.
Qed.
Lemma lb_ksqr_spec n a : limbs n a ->
  limbs (n + n) (lb_ksqr a) /\ lval (lb_ksqr a) = lval a * lval a.
Proof. apply ksqr_spec. Qed.
