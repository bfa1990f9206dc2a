(** The 32-bit library on the halves of the limbs computes what the 64-bit library
    does, for every array. *)
From Coq Require Import Znumtheory.
From Verif Require Import Base GroupModel GroupSpec GroupProofs CodecProofs LimbBytes LimbModel LimbSpec LimbWord LimbProofs LimbKara MontProofs ExpProofs LimbExtra
  GroupLimbModel GroupLimbProofs WinModel.
From Verif Require Limb32Model Limb32Spec Limb32Word Limb32Proofs Limb32Kara Mont32Proofs Exp32Proofs Limb32Extra.
Local Open Scope Z_scope.
Ltac Zify.zify_post_hook ::= idtac.

Notation limbs32 := Limb32Spec.limbs.
Notation lval32 := Limb32Spec.lval.

Lemma w32_pos : 0 < 2 ^ 32. Proof. reflexivity. Qed.
Lemma w32_sq : 2 ^ 64 = 2 ^ 32 * 2 ^ 32. Proof. reflexivity. Qed.

Lemma halves_ok n a : limbs n a -> limbs32 (n + n) (halves a) /\ lval32 (halves a) = lval a.
Proof.
  intros [<- F]. induction F as [|x a [X0 X1] F IH]; [split; [split; [reflexivity|constructor]|reflexivity]|].
  destruct IH as [[L F32] V]. change (halves (x :: a)) with (x mod 2 ^ 32 :: x / 2 ^ 32 :: halves a).
  split.
  - split; [cbn [length]; rewrite L; lia|]. constructor; [apply Z.mod_pos_bound; reflexivity|].
    constructor; [|trivial]. rewrite w32_sq in X1. split; [apply Z.div_pos; [lia|reflexivity]|].
    apply Z.div_lt_upper_bound; [reflexivity|lia].
  - cbn [Limb32Spec.lval lval]. rewrite V, w32_sq. pose proof (Z.div_mod x (2 ^ 32) ltac:(discriminate)) as D.
    rewrite D at 3. ring.
Qed.
Lemma joined_ok n : forall r, limbs32 (n + n) r -> limbs n (joined r) /\ lval (joined r) = lval32 r.
Proof.
  induction n as [|n IH]; intros r [L F].
  - destruct r; [split; [split; [reflexivity|constructor]|reflexivity]|cbn in L; lia].
  - destruct r as [|lo [|hi r]]; cbn [length] in L; try lia.
    inversion_clear F as [|? ? [L0 L1] F1]. inversion_clear F1 as [|? ? [H0 H1] F2].
    destruct (IH r) as [[J1 J2] J3]. { split; [lia|trivial]. }
    cbn [joined]. split.
    + split; [cbn [length]; lia|]. constructor; [|trivial]. split; [lia|]. rewrite w32_sq.
      assert (2 ^ 32 * hi <= 2 ^ 32 * (2 ^ 32 - 1)) by (apply Z.mul_le_mono_nonneg_l; lia). lia.
    + cbn [lval Limb32Spec.lval]. rewrite J3, w32_sq. ring.
Qed.
Lemma joined_same n a r : limbs n a -> limbs32 (n + n) r -> lval32 r = lval a -> joined r = a.
Proof.
  intros Ha Hr E. destruct (joined_ok n r Hr) as [J V]. apply (lval_inj n); trivial. congruence.
Qed.
Lemma joined_halves n a : limbs n a -> joined (halves a) = a.
Proof. intros Ha. destruct (halves_ok n a Ha) as [H V]. now apply joined_same with n. Qed.
Lemma Wn_double n : Limb32Proofs.Wn (n + n) = Wn n.
Proof. rewrite Limb32Proofs.Wn_pow2, Wn_pow2. f_equal. lia. Qed.

Lemma w_add_same n a b : limbs n a -> limbs n b -> w_add a b = lb_add a b.
Proof.
  intros Ha Hb. destruct (halves_ok n a Ha) as [HA VA]. destruct (halves_ok n b Hb) as [HB VB].
  pose proof (lb_add_spec n a b Ha Hb) as (C & R & E).
  pose proof (Limb32Proofs.lb_add_spec _ _ _ HA HB) as (C' & R' & E').
  rewrite Wn_double, VA, VB in E'. unfold w_add.
  destruct (lb_add a b) as [c r]. destruct (Limb32Model.lb_add (halves a) (halves b)) as [c' r']. cbn [fst snd] in *.
  pose proof (limbs_bound _ _ R) as B. pose proof (Limb32Proofs.limbs_bound _ _ R') as B'. rewrite Wn_double in B'.
  assert (c' = c /\ lval32 r' = lval r) as [-> V].
  { unfold bit, Limb32Word.bit in *. destruct C as [-> | ->], C' as [-> | ->]; lia. }
  f_equal. now apply joined_same with n.
Qed.
Lemma w_sub_same n a b : limbs n a -> limbs n b -> w_sub a b = lb_sub a b.
Proof.
  intros Ha Hb. destruct (halves_ok n a Ha) as [HA VA]. destruct (halves_ok n b Hb) as [HB VB].
  pose proof (lb_sub_spec n a b Ha Hb) as (C & R & E).
  pose proof (Limb32Proofs.lb_sub_spec _ _ _ HA HB) as (C' & R' & E').
  rewrite Wn_double, VA, VB in E'. unfold w_sub.
  destruct (lb_sub a b) as [c r]. destruct (Limb32Model.lb_sub (halves a) (halves b)) as [c' r']. cbn [fst snd] in *.
  pose proof (limbs_bound _ _ R) as B. pose proof (Limb32Proofs.limbs_bound _ _ R') as B'. rewrite Wn_double in B'.
  assert (c' = c /\ lval32 r' = lval r) as [-> V].
  { unfold bit, Limb32Word.bit in *. destruct C as [-> | ->], C' as [-> | ->]; lia. }
  f_equal. now apply joined_same with n.
Qed.
Lemma w_mul_same n a b : limbs n a -> limbs n b -> w_mul a b = lb_kmul a b.
Proof.
  intros Ha Hb. destruct (halves_ok n a Ha) as [HA VA]. destruct (halves_ok n b Hb) as [HB VB].
  destruct (lb_kmul_spec n a b Ha Hb) as [R V].
  destruct (Limb32Kara.lb_kmul_spec _ _ _ HA HB) as [R' V']. rewrite VA, VB in V'.
  unfold w_mul. apply joined_same with (n + n)%nat; [trivial..|congruence].
Qed.

Definition small (n : nat) : Prop := Z.of_nat (n + n) < 2 ^ 32.
Lemma small64 n : small n -> Z.of_nat n < 2 ^ 64.
Proof. unfold small. change (2 ^ 64) with 18446744073709551616. change (2 ^ 32) with 4294967296. lia. Qed.

Lemma w_mod_same n m a : limbs n m -> (0 < n)%nat -> small n -> limbs (n + n) a -> w_mod m a = lb_mod m a.
Proof.
  intros Hm H0 HS Ha. destruct (halves_ok n m Hm) as [HM VM]. destruct (halves_ok _ a Ha) as [HA VA].
  destruct (lb_mod_spec n m a Hm H0 (small64 n HS) Ha) as (R & O & V).
  destruct (Mont32Proofs.lb_mod_spec _ _ _ HM ltac:(lia) HS HA) as (R' & O' & V').
  rewrite VM, VA in *. unfold w_mod.
  destruct (lb_mod m a) as [o r]. destruct (Limb32Model.lb_mod (halves m) (halves a)) as [o' r']. cbn [fst snd] in *.
  assert (o' = o) as -> by congruence. f_equal. apply joined_same with n; [trivial..|congruence].
Qed.

Section Ctx.
Variables (n : nat) (m : list Z).
Hypotheses (Hm : limbs n m) (HS : small n) (O : Z.odd (lval m) = true) (N1 : 1 < lval m).
Lemma ctx64 : ctx_ok n (lval m) (mont_ctx_init m).
Proof. exact (mont_ctx_init_ok n m Hm (small64 n HS) O N1). Qed.
Lemma ctx32 : Mont32Proofs.ctx_ok (n + n) (lval m) (w_ctx m).
Proof.
  destruct (halves_ok n m Hm) as [HM VM]. rewrite <- VM.
  apply Mont32Proofs.mont_ctx_init_ok; [trivial|exact HS|congruence..].
Qed.

Lemma w_mod_precomp_same a : limbs (n + n) a -> w_mod_precomp (w_ctx m) a = mod_precomp (mont_ctx_init m) a.
Proof.
  intros Ha. destruct (halves_ok _ a Ha) as [HA VA].
  destruct (mod_precomp_spec n _ _ a ctx64 Ha) as [R V].
  destruct (Mont32Proofs.mod_precomp_spec _ _ _ _ ctx32 HA) as [R' V'].
  unfold w_mod_precomp. apply joined_same with n; [trivial..|congruence].
Qed.
Lemma w_mod_exp_precomp_same ct a bBits b : limbs n a -> Forall limb b -> 0 <= bBits ->
  w_mod_exp_precomp ct (w_ctx m) a bBits b = x_mod_exp_precomp ct (mont_ctx_init m) a bBits b.
Proof.
  intros Ha Hb HB. destruct (halves_ok _ a Ha) as [HA VA].
  destruct (halves_ok _ b (conj eq_refl Hb)) as [[_ FB] VB].
  unfold w_mod_exp_precomp, x_mod_exp_precomp. destruct ct.
  - destruct (exp_consttime_spec n _ _ ctx64 a bBits b Ha Hb HB) as [R V].
    destruct (Exp32Proofs.exp_consttime_spec _ _ _ ctx32 _ bBits _ HA FB HB) as [R' V'].
    apply joined_same with n; [exact R|exact R'|].
    change Exp32Proofs.exp_bits with exp_bits in V'. rewrite VA, VB in V'. exact (eq_trans V' (eq_sym V)).
  - destruct (exp_vartime_spec n _ _ ctx64 a bBits b Ha Hb HB) as [R V].
    destruct (Exp32Proofs.exp_vartime_spec _ _ _ ctx32 _ bBits _ HA FB HB) as [R' V'].
    apply joined_same with n; [exact R|exact R'|].
    change Exp32Proofs.exp_bits with exp_bits in V'. rewrite VA, VB in V'. exact (eq_trans V' (eq_sym V)).
Qed.

(** Montgomery reduction: the same residue whatever the word size. *)
Lemma reduction_same c c' : limbs (n + n) c -> limbs32 ((n + n) + (n + n)) c' -> lval32 c' = lval c ->
  joined (Limb32Model.reduction (Limb32Model.mc_n (w_ctx m)) (Limb32Model.mc_mu (w_ctx m)) c') =
  reduction (mc_n (mont_ctx_init m)) (mc_mu (mont_ctx_init m)) c.
Proof.
  intros Hc Hc' E. pose proof ctx64 as [M V _ _]. pose proof ctx32 as [M' V' _ _].
  destruct (reduction_exact n _ _ c M Hc) as (R & Q & T & HQ & ET & ER).
  destruct (Limb32Extra.reduction_exact _ _ _ c' M' Hc') as (R' & Q' & T' & HQ' & ET' & ER').
  rewrite V in *. rewrite V', E, Wn_double in *.
  apply joined_same with n; [trivial..|]. rewrite ER, ER'.
  pose proof (Wn_pos n) as W. pose proof (Wn_coprime (lval m) n O) as G.
  assert (Q = Q') as <-.
  { assert (D : (Wn n | lval m * (Q - Q'))) by (exists (T - T'); lia).
    apply Z.gauss in D; [|now rewrite Z.gcd_comm]. destruct D as [k K].
    assert (k = 0) by nia. subst k. lia. }
  assert (T = T') as <- by (apply (Z.mul_reg_r _ _ (Wn n)); lia). reflexivity.
Qed.
Lemma w_to_mont_same a : limbs n a -> w_to_mont (w_ctx m) a = to_mont (mont_ctx_init m) a.
Proof.
  intros Ha. destruct (halves_ok _ a Ha) as [HA VA].
  pose proof ctx64 as [_ _ R V]. pose proof ctx32 as [_ _ R' V'].
  destruct (lb_kmul_spec _ _ _ Ha R) as [K KV]. destruct (Limb32Kara.lb_kmul_spec _ _ _ HA R') as [K' KV'].
  unfold w_to_mont, to_mont, Limb32Model.to_mont. apply reduction_same; trivial.
  rewrite KV, KV', VA, V, V', Wn_double. reflexivity.
Qed.
Lemma w_mont_mul_same a b : limbs n a -> limbs n b ->
  w_mont_mul (w_ctx m) a b = mont_mul (mont_ctx_init m) a b.
Proof.
  intros Ha Hb. destruct (halves_ok _ a Ha) as [HA VA]. destruct (halves_ok _ b Hb) as [HB VB].
  destruct (lb_kmul_spec _ _ _ Ha Hb) as [K KV]. destruct (Limb32Kara.lb_kmul_spec _ _ _ HA HB) as [K' KV'].
  unfold w_mont_mul, mont_mul, Limb32Model.mont_mul. apply reduction_same; trivial. congruence.
Qed.
Lemma mont_mul_limbs a b : limbs n a -> limbs n b -> limbs n (mont_mul (mont_ctx_init m) a b).
Proof.
  intros Ha Hb. pose proof ctx64 as [M _ _ _]. destruct (lb_kmul_spec _ _ _ Ha Hb) as [K KV].
  exact (proj1 (reduction_exact n _ _ _ M K)).
Qed.
Lemma to_mont_limbs a : limbs n a -> limbs n (to_mont (mont_ctx_init m) a).
Proof.
  intros Ha. pose proof ctx64 as [M _ R _]. destruct (lb_kmul_spec _ _ _ Ha R) as [K KV].
  exact (proj1 (reduction_exact n _ _ _ M K)).
Qed.
Lemma w_from_mont_same a : limbs n a -> w_from_mont (w_ctx m) a = from_mont (mont_ctx_init m) a.
Proof.
  intros Ha. destruct (halves_ok _ a Ha) as [HA VA].
  unfold w_from_mont, from_mont, Limb32Model.from_mont.
  assert (L : length (mc_n (mont_ctx_init m)) = n) by apply Hm.
  assert (L' : length (Limb32Model.mc_n (w_ctx m)) = (n + n)%nat) by apply (halves_ok n m Hm).
  rewrite L, L'. apply reduction_same.
  - apply limbs_app; [trivial|apply limbs_zeros].
  - apply Limb32Proofs.limbs_app; [trivial|apply Limb32Proofs.limbs_zeros].
  - rewrite lval_app, lval_zeros, Limb32Proofs.lval_app, Limb32Proofs.lval_zeros, VA. ring.
Qed.
End Ctx.

(** ** The checked exponentiation *)
Lemma x_mod_exp_spec ct n m a bBits b : limbs n m -> limbs n a -> (0 < n)%nat -> small n -> 0 < bBits ->
  Forall limb b -> exp_len bBits <= Z.of_nat (length b) ->
  let e := lval b mod 2 ^ (64 * exp_len bBits) in
  exists ok r, x_mod_exp ct m a bBits b = (ok, Some r) /\ limbs n r /\
    ok = (Z.odd (lval m) && (1 <? lval m) && ((e <? 2 ^ bBits) && (lval a <? lval m))) /\
    lval r = if ok then lval a ^ e mod lval m else 0.
Proof.
  intros Hm Ha H0 HS HB F L e. destruct (exp_len_pos bBits ltac:(lia)) as [P1 P2].
  assert (E : lval (firstn (Z.to_nat (exp_len bBits)) b) = e).
  { rewrite lval_firstn by (trivial; lia). rewrite Z2Nat.id by lia. reflexivity. }
  assert (Lf : limbs (Z.to_nat (exp_len bBits)) (firstn (Z.to_nat (exp_len bBits)) b)).
  { split; [rewrite firstn_length; lia|now apply Forall_firstn]. }
  pose proof (mod_exp_spec ct n m a bBits _ Hm Ha H0 (small64 n HS) ltac:(lia) Lf) as S. rewrite E in S.
  unfold x_mod_exp. destruct (Z.leb_spec bBits 0); [lia|].
  rewrite (mod_exp_firstn ct n) by (trivial; exact (small64 n HS)).
  destruct (mod_exp ct m a bBits _) as [ok r]. destruct S as (S1 & S2 & S3). exists ok, r. auto.
Qed.
Lemma exp_len_halves bBits : 0 < bBits -> Limb32Model.exp_len bBits <= 2 * exp_len bBits.
Proof.
  intros H. unfold Limb32Model.exp_len, exp_len. destruct (Z.eqb_spec bBits 0); [lia|].
  pose proof (Z.div_mod (bBits - 1) 64 ltac:(lia)). pose proof (Z.mod_pos_bound (bBits - 1) 64 ltac:(lia)).
  pose proof (Z.div_mod (bBits - 1) 32 ltac:(lia)). pose proof (Z.mod_pos_bound (bBits - 1) 32 ltac:(lia)). lia.
Qed.
Lemma w_mod_exp_spec ct n m a bBits b : limbs n m -> limbs n a -> (0 < n)%nat -> small n -> 0 < bBits ->
  Forall limb b -> exp_len bBits <= Z.of_nat (length b) ->
  let e := lval b mod 2 ^ (32 * Limb32Model.exp_len bBits) in
  exists ok r, w_mod_exp ct m a bBits b = (ok, Some r) /\ limbs n r /\
    ok = (Z.odd (lval m) && (1 <? lval m) && ((e <? 2 ^ bBits) && (lval a <? lval m))) /\
    lval r = if ok then lval a ^ e mod lval m else 0.
Proof.
  intros Hm Ha H0 HS HB F L e. destruct (Exp32Proofs.exp_len_pos bBits ltac:(lia)) as [P1 P2].
  pose proof (exp_len_halves bBits HB) as LL.
  destruct (halves_ok _ m Hm) as [HM VM]. destruct (halves_ok _ a Ha) as [HA VA].
  destruct (halves_ok _ b (conj eq_refl F)) as [[LB FB] VB].
  assert (E : lval32 (firstn (Z.to_nat (Limb32Model.exp_len bBits)) (halves b)) = e).
  { rewrite Limb32Extra.lval_firstn by (trivial; lia). rewrite Z2Nat.id, VB by lia. reflexivity. }
  assert (Lf : limbs32 (Z.to_nat (Limb32Model.exp_len bBits)) (firstn (Z.to_nat (Limb32Model.exp_len bBits)) (halves b))).
  { split; [rewrite firstn_length; lia|now apply Forall_firstn]. }
  pose proof (Exp32Proofs.mod_exp_spec ct _ _ _ bBits _ HM HA ltac:(lia) HS ltac:(lia) Lf) as S. rewrite E, VM, VA in S.
  unfold w_mod_exp. destruct (Z.leb_spec bBits 0); [lia|].
  rewrite (Limb32Extra.mod_exp_firstn ct (n + n)) by (trivial; lia).
  destruct (Limb32Model.mod_exp ct (halves m) (halves a) bBits _) as [ok r]. destruct S as (S1 & S2 & S3).
  destruct (joined_ok n r S1) as [J1 J2]. exists ok, (joined r). split; [reflexivity|].
  split; [trivial|]. split; [trivial|]. congruence.
Qed.

(** ** group.cpp and lookup_table.hpp *)
Section Group.
Variables (ar : arrays) (gp : params).
Hypotheses (VP : valid_params gp) (A : arrays_ok ar gp).
Lemma small_p : small 64. Proof. reflexivity. Qed.
Lemma P_odd : Z.odd (lval (arP ar)) = true.
Proof. rewrite (aoPv ar gp A). apply VP. Qed.
Lemma P_gt : 1 < lval (arP ar).
Proof. rewrite (aoPv ar gp A). pose proof (GroupProofs.P_pos gp VP). lia. Qed.
Notation PP f := (f 64%nat (arP ar) (aoP ar gp A) small_p P_odd P_gt).

Lemma w_mul_mod_p_same a b : limbs 64 a -> limbs 64 b -> w_mul_mod_p ar a b = l_mul_mod_p ar a b.
Proof.
  intros Ha Hb. unfold w_mul_mod_p, l_mul_mod_p. rewrite (w_mul_same 64) by trivial.
  apply (PP w_mod_precomp_same). exact (proj1 (lb_kmul_spec 64 a b Ha Hb)).
Qed.
Lemma w_pow_mod_p_p_same b e : limbs 64 b -> Forall limb e -> w_pow_mod_p_p ar b e = l_pow_mod_p_p ar b e.
Proof.
  intros Hb He. unfold w_pow_mod_p_p, l_pow_mod_p_p. destruct (l_eq e (zeros 64)); [reflexivity|].
  exact (PP w_mod_exp_precomp_same false b 512 e Hb He ltac:(lia)).
Qed.
Lemma w_pow_mod_p_same b e : limbs 64 b -> Forall limb e -> w_pow_mod_p ar b e = l_pow_mod_p ar b e.
Proof.
  intros Hb He. unfold w_pow_mod_p, l_pow_mod_p. destruct (l_eq e (zeros 4)); [reflexivity|].
  apply w_pow_mod_p_p_same; [trivial|]. apply Forall_app. split; [trivial|apply (limbs_zeros 60)].
Qed.
Lemma w_valid_residue_same a : limbs 64 a -> w_valid_residue ar a = l_valid_residue ar a.
Proof.
  intros Ha. unfold w_valid_residue, l_valid_residue. rewrite w_pow_mod_p_same by (trivial; apply (aoQ ar gp A)).
  reflexivity.
Qed.
Lemma w_gen_row_same k : forall rb run, limbs 64 rb -> limbs 64 run ->
  w_gen_row ar k rb run = l_gen_row ar k rb run /\
  Forall (limbs 64) (fst (l_gen_row ar k rb run)) /\ limbs 64 (snd (l_gen_row ar k rb run)).
Proof.
  induction k as [|k IH]; intros rb run Hb Hr; cbn [w_gen_row l_gen_row]; [split; [reflexivity|split; [constructor|exact Hr]]|].
  rewrite (PP w_mont_mul_same : forall a b, _ -> _ -> w_mont_mul (w_ctxP ar) a b = mont_mul (ctxP ar) a b) by trivial.
  destruct (IH rb (mont_mul (ctxP ar) run rb) Hb (PP mont_mul_limbs run rb Hr Hb)) as (E & F & L). rewrite E.
  destruct (l_gen_row ar k rb (mont_mul (ctxP ar) run rb)) as [r fin]. cbn [fst snd] in *. auto.
Qed.
Lemma w_gen_rows_same k : forall rb run, limbs 64 rb -> limbs 64 run ->
  w_gen_rows ar k rb run = l_gen_rows ar k rb run /\ Forall (Forall (limbs 64)) (l_gen_rows ar k rb run).
Proof.
  induction k as [|k IH]; intros rb run Hb Hr; cbn [w_gen_rows l_gen_rows]; [split; [reflexivity|constructor]|].
  destruct (w_gen_row_same 255 rb run Hb Hr) as (E & F & L). rewrite E.
  destruct (l_gen_row ar 255 rb run) as [r fin]. cbn [fst snd] in *.
  destruct (IH fin fin L L) as [E2 F2]. rewrite E2. auto.
Qed.
Lemma one64 : limbs 64 (lb_one 64). Proof. apply lb_one_spec. lia. Qed.
Lemma w_gen_table_same b : limbs 64 b -> w_gen_table ar b = l_gen_table ar b /\
  Forall (Forall (limbs 64)) (lt_rows (l_gen_table ar b)) /\ limbs 64 (lt_one (l_gen_table ar b)).
Proof.
  intros Hb. unfold w_gen_table, l_gen_table.
  rewrite !(PP w_to_mont_same : forall a, _ -> w_to_mont (w_ctxP ar) a = to_mont (ctxP ar) a) by (trivial; apply one64).
  pose proof (PP to_mont_limbs b Hb) as Hm. pose proof (PP to_mont_limbs _ one64) as H1.
  destruct (w_gen_rows_same 32 _ _ Hm Hm) as [E F]. unfold ctxP. rewrite E. auto.
Qed.
(** Every row of a table has an entry for every byte. *)
Lemma l_gen_row_length k : forall rb run, length (fst (l_gen_row ar k rb run)) = k.
Proof.
  induction k as [|k IH]; intros rb run; [reflexivity|]. cbn [l_gen_row].
  specialize (IH rb (mont_mul (ctxP ar) run rb)). destruct (l_gen_row ar k rb _). cbn in *. now f_equal.
Qed.
Lemma l_gen_rows_length k : forall rb run, Forall (fun r => length r = 255%nat) (l_gen_rows ar k rb run).
Proof.
  induction k as [|k IH]; intros rb run; cbn [l_gen_rows]; [constructor|].
  pose proof (l_gen_row_length 255 rb run) as L. destruct (l_gen_row ar 255 rb run) as [r fin]. cbn [fst] in L.
  constructor; [exact L|apply IH].
Qed.
Lemma w_table_loop_same rows : forall e acc, Forall (Forall (limbs 64)) rows ->
  Forall (fun r => length r = 255%nat) rows -> is_bytes e -> limbs 64 acc ->
  w_table_loop ar rows e acc = l_table_loop ar rows e acc /\ limbs 64 (l_table_loop ar rows e acc).
Proof.
  induction rows as [|r rows IH]; intros [|x e] acc HR HL HE HA; cbn [w_table_loop l_table_loop]; try (split; [reflexivity|exact HA]).
  inversion_clear HR as [|? ? R1 R2]. inversion_clear HL as [|? ? L1 L2]. inversion_clear HE as [|? ? E1 E2].
  destruct (Z.eqb_spec x 0); [now apply IH|].
  assert (Hn : limbs 64 (nth (Z.to_nat (x - 1)) r [])).
  { rewrite Forall_forall in R1. apply R1. apply nth_In. unfold is_byte in E1. rewrite L1. lia. }
  rewrite (PP w_mont_mul_same : forall a b, _ -> _ -> w_mont_mul (w_ctxP ar) a b = mont_mul (ctxP ar) a b) by trivial.
  apply IH; trivial. exact (PP mont_mul_limbs _ _ HA Hn).
Qed.
Lemma w_table_pow_same b e : limbs 64 b -> limbs 4 e ->
  w_table_pow ar (w_gen_table ar b) e = l_table_pow ar (l_gen_table ar b) e.
Proof.
  intros Hb He. destruct (w_gen_table_same b Hb) as (E & F & L). rewrite E. unfold w_table_pow, l_table_pow.
  assert (B : is_bytes (rev (bn_to_bytes_be e))).
  { unfold is_bytes. apply Forall_rev. rewrite (LimbBytes.bn_to_bytes_spec 4) by trivial. apply CodecProofs.be_bytes_is_bytes. }
  destruct (w_table_loop_same (lt_rows (l_gen_table ar b)) _ _ F (l_gen_rows_length 32 _ _) B L) as [E2 L2].
  rewrite E2. exact (PP w_from_mont_same _ L2).
Qed.
End Group.
