(** The limb level functions compute the integer level ones, for every array. *)
From Coq Require Import Setoid Morphisms.
From Verif Require Import Base GroupModel GroupSpec GroupProofs CodecModel CodecProofs LookupModel LookupProofs
  ConstModel LimbModel LimbSpec LimbWord LimbProofs LimbKara MontProofs ExpProofs LimbBytes GroupLimbModel.
Open Scope Z_scope.
Ltac Zify.zify_post_hook ::= idtac.

Record arrays_ok (ar : arrays) (gp : params) : Prop := {
  aoP : limbs 64 (arP ar); aoPv : lval (arP ar) = gpP gp;
  aoQ : limbs 4 (arQ ar); aoQv : lval (arQ ar) = gpQ gp;
  aoG : limbs 64 (arG ar); aoGv : lval (arG ar) = gpG gp;
  aoPo : limbs 64 (arPoff ar); aoPov : lval (arPoff ar) = gpPoff gp;
  aoQo : limbs 4 (arQoff ar); aoQov : lval (arQoff ar) = gpQoff gp
}.

Lemma Wn4 : Wn 4 = W256. Proof. apply Wn_pow2. Qed.
Lemma Wn64 : Wn 64 = W4096. Proof. apply Wn_pow2. Qed.
Lemma lb_add_val n a b : limbs n a -> limbs n b ->
  limbs n (snd (lb_add a b)) /\ lval (snd (lb_add a b)) = (lval a + lval b) mod Wn n /\
  fst (lb_add a b) = (lval a + lval b) / Wn n.
Proof.
  intros Ha Hb. destruct (lb_add_spec n a b Ha Hb) as (C & R & E). split; [trivial|].
  pose proof (limbs_bound _ _ R) as B. rewrite E, (Z.mul_comm (Wn n)).
  pose proof (Wn_pos n). rewrite Z.mod_add, Z.mod_small by lia. split; [reflexivity|].
  rewrite Z.div_add, Z.div_small by lia. reflexivity.
Qed.
Lemma lb_sub_mod n a b : limbs n a -> limbs n b ->
  limbs n (snd (lb_sub a b)) /\ lval (snd (lb_sub a b)) = (lval a - lval b) mod Wn n.
Proof.
  intros Ha Hb. destruct (lb_sub_spec n a b Ha Hb) as (C & R & E). split; [trivial|].
  pose proof (limbs_bound _ _ R) as B. rewrite E. pose proof (Wn_pos n).
  replace (lval (snd (lb_sub a b)) - Wn n * fst (lb_sub a b)) with (lval (snd (lb_sub a b)) + (- fst (lb_sub a b)) * Wn n) by ring.
  rewrite Z.mod_add, Z.mod_small by lia. reflexivity.
Qed.
Lemma l_lt_spec n a b : limbs n a -> limbs n b -> l_lt a b = (lval a <? lval b).
Proof.
  intros Ha Hb. unfold l_lt. rewrite (lb_lt_spec n) by trivial.
  destruct (lval a <? lval b); reflexivity.
Qed.
Lemma l_eq_spec n a b : limbs n a -> limbs n b -> l_eq a b = (lval a =? lval b).
Proof.
  intros Ha Hb. destruct (Z.eqb_spec (lval a) (lval b)) as [E|E].
  - apply (lval_inj n) in E; trivial. subst b. clear. induction a as [|x a IH]; cbn [l_eq]; [trivial|]. now rewrite Z.eqb_refl.
  - destruct (l_eq a b) eqn:X; [|trivial]. exfalso. apply E. f_equal. clear - X.
    revert b X. induction a as [|x a IH]; intros [|y b] X; cbn [l_eq] in X; try discriminate; trivial.
    destruct (Z.eqb_spec x y); [|discriminate]. subst y. f_equal. now apply IH.
Qed.
Lemma l_isMax_spec n a : limbs n a -> l_isMax a = (lval a =? Wn n - 1).
Proof.
  intros [L F]. revert n L. induction F as [|x a Hx F IH]; intros n L; cbn [length] in L; subst n.
  { reflexivity. }
  cbn [l_isMax forallb]. fold (l_isMax a). rewrite (IH _ eq_refl). rewrite lval_cons. cbn [length].
  rewrite Wn_S. rewrite limb_W in Hx. pose proof (lval_bound _ F) as B.
  change 18446744073709551615 with (W64 - 1). pose proof W64_pos.
  destruct (Z.eqb_spec x (W64 - 1)), (Z.eqb_spec (lval a) (Wn (length a) - 1)); cbn [andb].
  - symmetry. apply Z.eqb_eq. subst x. rewrite e0. ring.
  - symmetry. apply Z.eqb_neq. intros E. apply n. subst x.
    assert (W64 * (lval a + 1) = W64 * Wn (length a)) as M by lia. apply Z.mul_reg_l in M; lia.
  - symmetry. apply Z.eqb_neq. rewrite e.  intros E. apply n. lia.
  - symmetry. apply Z.eqb_neq. intros E. assert (W64 * lval a <= W64 * (Wn (length a) - 1)) by (apply Z.mul_le_mono_nonneg_l; lia). lia.
Qed.

Section Refine.
Context (ar : arrays) (gp : params) (VP : valid_params gp) (AO : arrays_ok ar gp).

Lemma ctxQ_ok : ctx_ok 4 (gpQ gp) (ctxQ ar).
Proof.
  rewrite <- (aoQv _ _ AO). apply mont_ctx_init_ok; [apply AO|reflexivity| |];
    rewrite (aoQv _ _ AO); [apply VP|pose proof (vp_Qlo _ VP); lia].
Qed.
Lemma ctxP_ok : ctx_ok 64 (gpP gp) (ctxP ar).
Proof.
  rewrite <- (aoPv _ _ AO). apply mont_ctx_init_ok; [apply AO|reflexivity| |];
    rewrite (aoPv _ _ AO); [apply VP|pose proof (P_pos gp VP); lia].
Qed.
Lemma modQ_spec s : limbs 4 s ->
  limbs 4 (mod_precomp (ctxQ ar) (s ++ zeros 4)) /\
  lval (mod_precomp (ctxQ ar) (s ++ zeros 4)) = lval s mod gpQ gp.
Proof.
  intros Hs. pose proof (limbs_app 4 4 _ _ Hs (limbs_zeros 4)) as H.
  destruct (mod_precomp_spec 4 _ _ _ ctxQ_ok H) as [H1 H2]. split; [trivial|].
  rewrite H2, lval_app, lval_zeros. f_equal. ring.
Qed.
Lemma one4 : limbs 4 (lb_one 4) /\ lval (lb_one 4) = 1. Proof. apply lb_one_spec. lia. Qed.
Lemma one64 : limbs 64 (lb_one 64) /\ lval (lb_one 64) = 1. Proof. apply lb_one_spec. lia. Qed.

Lemma off_step off v : limbs 4 off -> lval off = v ->
  limbs 4 (snd (lb_add (snd (lb_add off (arQoff ar))) (lb_one 4))) /\
  lval (snd (lb_add (snd (lb_add off (arQoff ar))) (lb_one 4)))
    = fst (bn_add W256 (fst (bn_add W256 v (gpQoff gp))) 1).
Proof.
  intros H <-. destruct (lb_add_val 4 off (arQoff ar) H (aoQo _ _ AO)) as (A1 & A2 & _).
  destruct (lb_add_val 4 _ _ A1 (proj1 one4)) as (B1 & B2 & _). split; [trivial|].
  rewrite B2, A2, (proj2 one4), (aoQov _ _ AO), Wn4. reflexivity.
Qed.

Lemma l_add_mod_q_spec a b : limbs 4 a -> limbs 4 b ->
  limbs 4 (l_add_mod_q ar a b) /\ lval (l_add_mod_q ar a b) = add_mod_q gp (lval a) (lval b).
Proof.
  intros Ha Hb. destruct (lb_add_val 4 a b Ha Hb) as (A1 & A2 & A3). rewrite Wn4 in A2, A3.
  unfold l_add_mod_q, add_mod_q. destruct (lb_add a b) as [carry s]. cbn [fst snd] in *.
  unfold bn_add at 1. rewrite <- A2, <- A3.
  rewrite (l_isMax_spec 4) by trivial. unfold isMax. rewrite Wn4.
  rewrite !(l_lt_spec 4) by (trivial; apply AO). rewrite (aoQv _ _ AO).
  set (big_a := gpQ gp <? lval a). set (big_b := gpQ gp <? lval b).
  match goal with |- limbs 4 (mod_precomp _ (?x ++ _)) /\ _ = ?y mod _ => cut (limbs 4 x /\ lval x = y) end.
  { intros [H1 H2]. rewrite <- H2. now apply modQ_spec. }
  destruct ((0 <? carry) || (lval s =? W256 - 1)); [|now split].
  destruct (big_a || big_b).
  2:{ destruct (lb_add_val 4 s (arQoff ar) A1 (aoQo _ _ AO)) as (B1 & B2 & _). split; [trivial|].
      rewrite B2, (aoQov _ _ AO), Wn4. reflexivity. }
  set (o1 := if big_a then _ else zeros 4). set (v1 := if big_a then _ else 0).
  assert (O1 : limbs 4 o1 /\ lval o1 = v1).
  { unfold o1, v1. destruct big_a; [|split; [apply limbs_zeros|apply lval_zeros]].
    apply off_step; [apply limbs_zeros|apply lval_zeros]. }
  clearbody o1 v1. destruct O1 as [O1 O2].
  set (o2 := if big_b then _ else o1). set (v2 := if big_b then _ else v1).
  assert (O3 : limbs 4 o2 /\ lval o2 = v2).
  { unfold o2, v2. destruct big_b; [now apply off_step|now split]. }
  clearbody o2 v2. destruct O3 as [O3 O4].
  destruct (lb_add_val 4 s o2 A1 O3) as (B1 & B2 & _). split; [trivial|]. rewrite B2, O4, Wn4. reflexivity.
Qed.

Lemma l_sub_mod_q_spec a b : limbs 4 a -> limbs 4 b ->
  limbs 4 (l_sub_mod_q ar a b) /\ lval (l_sub_mod_q ar a b) = sub_mod_q gp (lval a) (lval b).
Proof.
  intros Ha Hb. destruct (lb_sub_mod 4 a b Ha Hb) as (A1 & A2). rewrite Wn4 in A2.
  pose proof (lb_sub_borrow 4 a b Ha Hb) as A3.
  unfold l_sub_mod_q, sub_mod_q. destruct (lb_sub a b) as [borrow s]. cbn [fst snd] in *.
  unfold bn_sub at 1. rewrite <- A2, <- A3.
  rewrite !(l_lt_spec 4) by (trivial; apply AO). rewrite (aoQv _ _ AO).
  set (big_a := gpQ gp <? lval a). set (big_b := gpQ gp <? lval b).
  match goal with |- limbs 4 (mod_precomp _ (?x ++ _)) /\ _ = ?y mod _ => cut (limbs 4 x /\ lval x = y) end.
  { intros [H1 H2]. rewrite <- H2. now apply modQ_spec. }
  destruct (0 <? borrow); [|now split].
  destruct (big_a || big_b).
  - destruct (off_step (zeros 4) 0 (limbs_zeros 4) (lval_zeros 4)) as [O1 O2].
    destruct (lb_sub_mod 4 s _ A1 O1) as [B1 B2]. split; [trivial|]. rewrite B2, O2, Wn4. reflexivity.
  - destruct (lb_sub_mod 4 s (arQoff ar) A1 (aoQo _ _ AO)) as [B1 B2]. split; [trivial|].
    rewrite B2, (aoQov _ _ AO), Wn4. reflexivity.
Qed.

Lemma l_a_plus_bc_spec a b c : limbs 4 a -> limbs 4 b -> limbs 4 c ->
  exists r, l_a_plus_bc_mod_q ar a b c = Ok r /\ limbs 4 r /\
            a_plus_bc_mod_q gp (lval a) (lval b) (lval c) = Ok (lval r).
Proof.
  intros Ha Hb Hc. pose proof (vp_Qlo _ VP) as Q3. pose proof (vp_Qodd _ VP) as Qo.
  unfold l_a_plus_bc_mod_q, a_plus_bc_mod_q.
  rewrite <- Z.negb_odd, Qo. replace (gpQ gp <=? 1) with false by (symmetry; apply Z.leb_gt; lia).
  cbn [negb orb].
  destruct (lb_mul_spec 4 4 b c Hb Hc) as [M1 M2].
  destruct (lb_mod_spec 4 (arQ ar) (lb_mul b c) (aoQ _ _ AO) ltac:(lia) eq_refl M1) as (D1 & D2 & D3).
  rewrite (aoQv _ _ AO), Qo in D2. replace (1 <? gpQ gp) with true in D2 by (symmetry; apply Z.ltb_lt; lia).
  destruct (lb_mod (arQ ar) (lb_mul b c)) as [ok1 bcm]. cbn [fst snd] in *. subst ok1. cbn [andb negb] in *.
  rewrite (aoQv _ _ AO), M2 in D3.
  destruct (lb_add_val 4 a bcm Ha D1) as (A1 & A2 & A3). rewrite Wn4 in A2, A3.
  pose proof (proj1 (lb_add_spec 4 a bcm Ha D1)) as Hcb.
  destruct (lb_add a bcm) as [carry s]. cbn [fst snd] in *.
  assert (Z0 : limb 0) by (split; [lia|reflexivity]).
  assert (T : limbs 4 [carry; 0; 0; 0]) by (split; [reflexivity|]; constructor; [now apply bit_limb|now repeat (constructor; [trivial|])]).
  pose proof (limbs_app 4 4 _ _ A1 T) as Hs.
  destruct (lb_mod_spec 4 (arQ ar) (s ++ [carry; 0; 0; 0]) (aoQ _ _ AO) ltac:(lia) eq_refl Hs) as (E1 & E2 & E3).
  rewrite (aoQv _ _ AO), Qo in E2. replace (1 <? gpQ gp) with true in E2 by (symmetry; apply Z.ltb_lt; lia).
  destruct (lb_mod (arQ ar) _) as [ok2 res]. cbn [fst snd] in *. subst ok2. cbn [andb negb] in *.
  exists res. split; [reflexivity|]. split; [trivial|]. unfold bn_add. rewrite <- D3, <- A2, <- A3.
  rewrite E3, (aoQv _ _ AO), lval_app. destruct A1 as [-> _]. rewrite Wn4. cbn [lval]. do 2 f_equal. ring.
Qed.

Lemma l_sub_from_q_spec a : limbs 4 a ->
  limbs 4 (l_sub_from_q ar a) /\ lval (l_sub_from_q ar a) = sub_from_q gp (lval a).
Proof.
  intros Ha. destruct (lb_sub_mod 4 (arQ ar) a (aoQ _ _ AO) Ha) as [H1 H2]. split; [exact H1|].
  unfold l_sub_from_q, sub_from_q, bn_sub. cbn [fst]. now rewrite H2, (aoQv _ _ AO), Wn4.
Qed.

Lemma l_mul_mod_p_spec a b : limbs 64 a -> limbs 64 b ->
  limbs 64 (l_mul_mod_p ar a b) /\ lval (l_mul_mod_p ar a b) = mul_mod_p gp (lval a) (lval b).
Proof.
  intros Ha Hb. destruct (lb_kmul_spec 64 a b Ha Hb) as [K1 K2].
  destruct (mod_precomp_spec 64 _ _ _ ctxP_ok K1) as [H1 H2]. split; [exact H1|].
  unfold l_mul_mod_p, mul_mod_p. now rewrite H2, K2.
Qed.

Lemma l_pow_p_spec b e : limbs 64 b -> limbs 64 e ->
  limbs 64 (l_pow_mod_p_p ar b e) /\ lval (l_pow_mod_p_p ar b e) = pow_mod_p_p gp (lval b) (lval e).
Proof.
  intros Hb He. unfold l_pow_mod_p_p, pow_mod_p_p.
  rewrite (l_eq_spec 64) by (trivial; apply limbs_zeros). rewrite lval_zeros.
  destruct (lval e =? 0). { apply one64. }
  destruct (exp_vartime_spec 64 _ _ ctxP_ok b 512 e Hb (proj2 He) ltac:(lia)) as [H1 H2].
  split; [exact H1|]. unfold mod_exp_vartime_precomp. rewrite H2. change (exp_bits 512) with 512.
  rewrite powmod_spec; [reflexivity| |]; [pose proof (P_pos gp VP); lia|].
  apply Z.mod_pos_bound. reflexivity.
Qed.
Lemma l_pow_spec b e : limbs 64 b -> limbs 4 e ->
  limbs 64 (l_pow_mod_p ar b e) /\ lval (l_pow_mod_p ar b e) = pow_mod_p gp (lval b) (lval e).
Proof.
  intros Hb He. unfold l_pow_mod_p, pow_mod_p.
  rewrite (l_eq_spec 4) by (trivial; apply limbs_zeros). rewrite lval_zeros.
  destruct (lval e =? 0). { apply one64. }
  pose proof (limbs_app 4 60 _ _ He (limbs_zeros 60)) as H.
  destruct (l_pow_p_spec b _ Hb H) as [H1 H2]. split; [exact H1|]. rewrite H2, lval_app, lval_zeros.
  f_equal. ring.
Qed.
Lemma l_in_bounds_spec a : limbs 64 a -> l_in_bounds_p ar a = in_bounds_p gp (lval a).
Proof.
  intros Ha. unfold l_in_bounds_p, in_bounds_p.
  rewrite (l_lt_spec 64 (zeros 64)) by (trivial; apply limbs_zeros). rewrite lval_zeros.
  rewrite (l_lt_spec 64 a (arP ar)) by (trivial; apply AO). now rewrite (aoPv _ _ AO).
Qed.
Lemma l_valid_residue_spec a : limbs 64 a -> l_valid_residue ar a = valid_residue gp (lval a).
Proof.
  intros Ha. unfold l_valid_residue, valid_residue. rewrite l_in_bounds_spec by trivial.
  destruct (l_pow_spec a (arQ ar) Ha (aoQ _ _ AO)) as [H1 H2].
  rewrite (l_eq_spec 64 _ _ H1 (proj1 one64)), (proj2 one64), H2, (aoQv _ _ AO). apply andb_comm.
Qed.

(** ** Bytes *)
Lemma firstn_pad cap src : (length src <= cap)%nat ->
  firstn cap (src ++ zeros cap) = src ++ zeros (cap - length src).
Proof.
  intros H. rewrite firstn_app, firstn_all2 by trivial. f_equal.
  replace (zeros cap) with (zeros (cap - length src) ++ zeros (length src)) by (unfold zeros; rewrite <- repeat_app; f_equal; lia).
  assert (L : length (zeros (cap - length src)) = (cap - length src)%nat) by apply repeat_length.
  rewrite firstn_app, L, Nat.sub_diag, firstn_all2 by lia. apply app_nil_r.
Qed.
Lemma l_memcpy_spec cap src size : (0 < size <= 8 * cap)%nat -> limbs (bn_words size) src ->
  lval src < 256 ^ Z.of_nat size ->
  limbs cap (l_memcpy cap src size) /\ lval (l_memcpy cap src size) = lval src.
Proof.
  intros Hs Hsrc Hv. pose proof (bn_words_spec size ltac:(lia)) as Hw.
  assert (Ls : length src = bn_words size) by apply Hsrc.
  pose proof (Nat.div_mod size 8 ltac:(lia)) as DM. pose proof (Nat.mod_upper_bound size 8 ltac:(lia)) as Hr.
  unfold l_memcpy. set (w := (size / 8)%nat) in *. set (r := (size mod 8)%nat) in *.
  destruct (Nat.eqb_spec r 0) as [E|E].
  - assert (bn_words size = w) as Ew by lia. rewrite (firstn_all2 src) by lia. cbn [app].
    rewrite firstn_pad by lia. rewrite Ls, Ew. split.
    + replace cap with (w + (cap - w))%nat at 1 by lia. apply limbs_app; [now rewrite <- Ew|apply limbs_zeros].
    + rewrite lval_app, lval_zeros. ring.
  - assert (bn_words size = S w) as Ew by lia.
    assert (Hlast : get src w mod 2 ^ (8 * Z.of_nat r) = get src w).
    { apply Z.mod_small. pose proof (get_limb _ _ w Hsrc) as G. split; [apply G|].
      pose proof (lval_split w src ltac:(lia)) as S1.
      assert (Sk : skipn w src = [get src w]).
      { pose proof (slice_1 w src ltac:(lia)) as S2. unfold slice in S2.
        rewrite firstn_all2 in S2 by (rewrite skipn_length; lia). exact S2. }
      rewrite Sk in S1. cbn [lval] in S1.
      pose proof (lval_bound _ (Forall_firstn _ w _ (proj2 Hsrc))) as B.
      apply (Z.mul_lt_mono_pos_l (Wn w)); [apply Wn_pos|].
      replace (Wn w * 2 ^ (8 * Z.of_nat r)) with (256 ^ Z.of_nat size); [lia|].
      rewrite Wn_pow2, <- Z.pow_add_r by lia. change 256 with (2 ^ 8). rewrite <- Z.pow_mul_r by lia. f_equal. lia. }
    rewrite Hlast.
    rewrite app_assoc, <- firstn_S_get by lia. rewrite (firstn_all2 src) by lia.
    rewrite firstn_pad by lia. rewrite Ls, Ew. split.
    + replace cap with (S w + (cap - S w))%nat at 1 by lia. apply limbs_app; [now rewrite <- Ew|apply limbs_zeros].
    + rewrite lval_app, lval_zeros. ring.
Qed.

(** The outcome of a limb level constructor denotes that of an integer level one. *)
Definition out_val (n : nat) (x : outcome (list Z)) (y : outcome Z) : Prop :=
  match x, y with
  | Ok r, Ok v => limbs n r /\ lval r = v
  | Throw e, Throw e' => e = e'
  | UB, UB => True
  | _, _ => False
  end.
Lemma l_from_bytes_spec cap md M l unchecked : limbs cap md -> lval md = M ->
  Z.of_nat cap <= 64 -> is_bytes l ->
  out_val cap (l_from_bytes cap md l unchecked)
    (if (8 * cap <? length l)%nat then Throw OutOfRange
     else if (length l =? 0)%nat then Throw BadAlloc
     else if negb unchecked && (M <? be_val l) then Throw OutOfRange else Ok (be_val l)).
Proof.
  intros Hm Vm Hc B. unfold l_from_bytes.
  destruct (Nat.ltb_spec (8 * cap) (length l)) as [H|H]; [reflexivity|].
  destruct (bn_from_bytes_spec l B) as [[E1 [E2|E2]]|(r & E & R1 & R2 & R3)].
  - rewrite E1. subst l. reflexivity.
  - exfalso. lia.
  - rewrite E. destruct (Nat.eqb_spec (length l) 0) as [E0|E0]; [lia|].
    destruct (l_memcpy_spec cap r (length l) ltac:(lia) R1) as [M1 M2].
    { rewrite R2. apply be_val_range, B. }
    rewrite (l_lt_spec cap) by trivial. rewrite M2, Vm, R2.
    destruct (negb unchecked && (M <? be_val l)); cbn [out_val]; [reflexivity|]. split; [trivial|congruence].
Qed.
Lemma l_bytes_to_p_spec l unchecked : is_bytes l ->
  out_val 64 (l_bytes_to_p ar l unchecked) (bytes_to_p gp l unchecked).
Proof. intros B. apply (l_from_bytes_spec 64 (arP ar) (gpP gp) l unchecked); try apply AO; trivial. lia. Qed.
Lemma l_bytes_to_q_spec l unchecked : is_bytes l ->
  out_val 4 (l_bytes_to_q ar l unchecked) (bytes_to_q gp l unchecked).
Proof. intros B. apply (l_from_bytes_spec 4 (arQ ar) (gpQ gp) l unchecked); try apply AO; trivial. lia. Qed.

(** ** Fixed base tables *)
Let N := gpP gp.
Definition lm (x : list Z) (v : Z) : Prop := limbs 64 x /\ lval x = v /\ 0 <= v < N.
Lemma Npos : 1 < N. Proof. pose proof (P_pos gp VP). unfold N. lia. Qed.
Lemma Nodd : Z.odd N = true. Proof. apply VP. Qed.
Lemma rinv_cg : cg N (W4096 * mont_rinv N) 1.
Proof. constructor. rewrite mont_rinv_spec; [|apply Npos|apply Nodd]. symmetry. apply Z.mod_small. pose proof Npos. lia. Qed.
Lemma cancelW a b : cg N (a * W4096) (b * W4096) -> cg N a b.
Proof.
  intros H. pose proof Npos. apply eqm_cancel with W4096; [lia| |trivial].
  rewrite <- Wn64. apply Wn_coprime, Nodd.
Qed.
Lemma arr_a x r w : x * r * w = x * (w * r). Proof. ring. Qed.
Lemma arr_b v w r W : v * r * (w * r) * W = v * w * r * (W * r). Proof. ring. Qed.
Lemma lm_mr x v : lm x v -> mr 64 N x (v * mont_rinv N).
Proof.
  intros (H & <- & _). split; [trivial|]. rewrite Wn64.
  rewrite arr_a.
  rewrite rinv_cg, Z.mul_1_r. reflexivity.
Qed.
Lemma l_mont_mul x y v w : lm x v -> lm y w -> lm (LimbModel.mont_mul (ctxP ar) x y) (LookupModel.mont_mul N v w).
Proof.
  intros Hx Hy. assert (L : lval x < N) by (destruct Hx as (_ & -> & ?); lia).
  destruct (mont_mul_spec 64 N _ ctxP_ok _ _ _ _ (lm_mr _ _ Hx) (lm_mr _ _ Hy) L) as [[R1 R2] R3].
  pose proof (limbs_bound _ _ R1). unfold LookupModel.mont_mul.
  split; [trivial|]. split; [|apply Z.mod_pos_bound; pose proof Npos; lia].
  apply eqm_eq; [lia|]. rewrite R2, Wn64.
  rewrite arr_b.
  rewrite rinv_cg, Z.mul_1_r. reflexivity.
Qed.
Lemma l_to_mont a : limbs 64 a -> lm (LimbModel.to_mont (ctxP ar) a) (LookupModel.to_mont N (lval a)).
Proof.
  intros Ha. destruct (to_mont_spec 64 N _ ctxP_ok a Ha) as [[R1 R2] R3].
  pose proof (limbs_bound _ _ R1). unfold LookupModel.to_mont.
  split; [trivial|]. split; [|apply Z.mod_pos_bound; pose proof Npos; lia].
  apply eqm_eq; [lia|]. now rewrite R2, Wn64.
Qed.
Lemma l_from_mont x v : lm x v -> limbs 64 (LimbModel.from_mont (ctxP ar) x) /\
  lval (LimbModel.from_mont (ctxP ar) x) = LookupModel.from_mont N v.
Proof. intros H. exact (from_mont_spec 64 N _ ctxP_ok _ _ (lm_mr _ _ H)). Qed.

Lemma l_gen_row_spec k : forall rb run v w, lm rb v -> lm run w ->
  let '(r, f) := l_gen_row ar k rb run in
  let '(r', f') := gen_row N k v w in
  Forall2 lm r r' /\ lm f f'.
Proof.
  induction k as [|k IH]; intros rb run v w Hb Hr. { cbn. now split. }
  cbn [l_gen_row gen_row]. specialize (IH rb _ v _ Hb (l_mont_mul _ _ _ _ Hr Hb)).
  destruct (l_gen_row ar k rb _) as [r f]. destruct (gen_row N k v _) as [r' f'].
  destruct IH as [I1 I2]. split; [|trivial]. now constructor.
Qed.
Lemma l_gen_rows_spec k : forall rb run v w, lm rb v -> lm run w ->
  Forall2 (Forall2 lm) (l_gen_rows ar k rb run) (gen_rows N k v w).
Proof.
  induction k as [|k IH]; intros rb run v w Hb Hr. { constructor. }
  cbn [l_gen_rows gen_rows]. pose proof (l_gen_row_spec 255 rb run v w Hb Hr) as H.
  destruct (l_gen_row ar 255 rb run) as [r f]. destruct (gen_row N 255 v w) as [r' f'].
  destruct H as [H1 H2]. constructor; [trivial|]. now apply IH.
Qed.
Lemma gen_row_length k : forall rb run, length (fst (gen_row N k rb run)) = k.
Proof.
  induction k as [|k IH]; intros rb run; [reflexivity|]. cbn [gen_row].
  specialize (IH rb (LookupModel.mont_mul N run rb)). destruct (gen_row N k rb _). cbn [fst length] in *. now rewrite IH.
Qed.
Lemma gen_rows_shape k : forall rb run, length (gen_rows N k rb run) = k /\
  Forall (fun r => length r = 255%nat) (gen_rows N k rb run).
Proof.
  induction k as [|k IH]; intros rb run; [split; [reflexivity|constructor]|]. cbn [gen_rows].
  pose proof (gen_row_length 255 rb run) as L. destruct (gen_row N 255 rb run) as [r f]. cbn [fst] in L.
  destruct (IH f f) as [I1 I2]. cbn [length]. split; [now rewrite I1|now constructor].
Qed.
Lemma Forall2_nth {A B} (R : A -> B -> Prop) l l' i d d' :
  Forall2 R l l' -> (i < length l')%nat -> R (nth i l d) (nth i l' d').
Proof.
  intros H. revert i. induction H as [|x y l l' H F IH]; intros i Hi; cbn [length] in Hi; [lia|].
  destruct i; cbn [nth]; [trivial|]. apply IH. lia.
Qed.
Lemma rev_be_bytes n : forall v, 0 <= v -> 
  match n with
  | O => rev (be_bytes n v) = []
  | S k => rev (be_bytes n v) = v mod 256 :: rev (be_bytes k (v / 256))
  end.
Proof. destruct n; intros v Hv; [reflexivity|]. cbn [be_bytes]. now rewrite rev_app_distr. Qed.
Lemma l_table_loop_spec rows : forall rows' e acc v, Forall2 (Forall2 lm) rows rows' ->
  Forall (fun r => length r = 255%nat) rows' -> 0 <= e -> lm acc v ->
  lm (l_table_loop ar rows (rev (be_bytes (length rows') e)) acc) (table_loop N rows' e v).
Proof.
  induction rows as [|r rows IH]; intros rows' e acc v F L He Ha; inversion F as [|? r' ? rr Hr Frr]; subst; clear F.
  - exact Ha.
  - inversion_clear L as [|? ? L1 L2]. cbn [length]. rewrite (rev_be_bytes (S (length rr)) e He).
    cbn [l_table_loop table_loop]. pose proof (Z.mod_pos_bound e 256 ltac:(lia)) as B.
    apply IH; trivial; [apply Z.div_pos; lia|].
    destruct (Z.eqb_spec (e mod 256) 0) as [E|E]; [trivial|]. apply l_mont_mul; [trivial|].
    apply Forall2_nth; [trivial|]. rewrite L1. lia.
Qed.
Lemma l_table_pow_spec base e : limbs 64 base -> limbs 4 e ->
  limbs 64 (l_table_pow ar (l_gen_table ar base) e) /\
  lval (l_table_pow ar (l_gen_table ar base) e) = table_pow N (gen_table N (lval base)) (lval e).
Proof.
  intros Hb He. unfold l_table_pow, table_pow, l_gen_table, gen_table.
  cbn [lt_rows lt_one tb_rows tb_one]. apply l_from_mont.
  pose proof (l_to_mont base Hb) as HB. pose proof (l_to_mont _ (proj1 one64)) as H1. rewrite (proj2 one64) in H1.
  rewrite (bn_to_bytes_spec 4) by trivial. change (8 * 4)%nat with 32%nat.
  destruct (gen_rows_shape 32 (LookupModel.to_mont N (lval base)) (LookupModel.to_mont N (lval base))) as [S1 S2].
  rewrite <- S1 at 2. apply l_table_loop_spec; trivial; [|apply (limbs_bound _ _ He)].
  now apply l_gen_rows_spec.
Qed.
End Refine.

(** ** The arrays of constants.h *)
Lemma le_limbs_lval l : le_limbs l = lval l.
Proof. induction l as [|x l IH]; [reflexivity|]. unfold le_limbs in *. cbn [fold_right lval]. now rewrite IH. Qed.
Definition limbs_b (n : nat) (l : list Z) : bool :=
  (length l =? n)%nat && forallb (fun x => (0 <=? x) && (x <? 18446744073709551616)) l.
Lemma limbs_b_ok n l : limbs_b n l = true -> limbs n l.
Proof.
  intros H. apply andb_true_iff in H. destruct H as [H1 H2]. split; [now apply Nat.eqb_eq|].
  apply Forall_forall. intros x Hx. rewrite forallb_forall in H2. specialize (H2 x Hx).
  apply andb_true_iff in H2. destruct H2 as [A B]. apply Z.leb_le in A. apply Z.ltb_lt in B.
  split; [trivial|]. exact B.
Qed.
Lemma std_arrays_ok : arrays_ok std_arrays std_params.
Proof. constructor; try (apply limbs_b_ok; vm_compute; reflexivity); symmetry; apply le_limbs_lval. Qed.
Lemma test_arrays_ok : arrays_ok test_arrays test_array_params.
Proof. constructor; try (apply limbs_b_ok; vm_compute; reflexivity); symmetry; apply le_limbs_lval. Qed.
