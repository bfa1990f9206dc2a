(** Addition, subtraction, comparison and multiplication of limb arrays compute
    the integer operations. *)
From Verif Require Import Base Limb32Model Limb32Spec Limb32Word.
Open Scope Z_scope.

Definition Wn (n : nat) : Z := W32 ^ Z.of_nat n.
Lemma Wn_0 : Wn 0 = 1. Proof. reflexivity. Qed.
Lemma Wn_S n : Wn (S n) = W32 * Wn n.
Proof. unfold Wn. rewrite Nat2Z.inj_succ, Z.pow_succ_r by lia. reflexivity. Qed.
Lemma Wn_add n m : Wn (n + m) = Wn n * Wn m.
Proof. unfold Wn. rewrite Nat2Z.inj_add, Z.pow_add_r by lia. reflexivity. Qed.
Lemma Wn_pos n : 0 < Wn n.
Proof. apply Z.pow_pos_nonneg; [reflexivity|lia]. Qed.
Lemma Wn_pow2 n : Wn n = 2 ^ (32 * Z.of_nat n).
Proof. unfold Wn, W32. rewrite <- Z.pow_mul_r by lia. reflexivity. Qed.

Lemma lval_cons x l : lval (x :: l) = x + W32 * lval l. Proof. reflexivity. Qed.
Lemma limb_ones : limb (W32 - 1).
Proof. split; cbv; congruence. Qed.
Global Opaque W32.
Lemma lval_app a b : lval (a ++ b) = lval a + Wn (length a) * lval b.
Proof.
  induction a as [|x a IH]; cbn [app length].
  - rewrite Wn_0. cbn [lval]. ring.
  - rewrite !lval_cons, IH, Wn_S. ring.
Qed.
Lemma lval_zeros n : lval (zeros n) = 0.
Proof. induction n; [reflexivity|]. change (zeros (S n)) with (0 :: zeros n). rewrite lval_cons, IHn. ring. Qed.
Lemma lval_bound l : Forall limb l -> 0 <= lval l < Wn (length l).
Proof.
  induction 1 as [|x l Hx _ IH]. { cbn [lval length]. rewrite Wn_0. lia. }
  rewrite lval_cons. cbn [length]. rewrite Wn_S. rewrite limb_W in Hx.
  pose proof (Wn_pos (length l)). pose proof W32_pos.
  assert (W32 * lval l <= W32 * (Wn (length l) - 1)) by (apply Z.mul_le_mono_nonneg_l; lia).
  assert (0 <= W32 * lval l) by (apply Z.mul_nonneg_nonneg; lia). lia.
Qed.
Lemma limbs_bound n l : limbs n l -> 0 <= lval l < Wn n.
Proof. intros [<- F]. now apply lval_bound. Qed.

Lemma lval_inj n a b : limbs n a -> limbs n b -> lval a = lval b -> a = b.
Proof.
  intros [<- Fa] [L Fb]. revert b L Fb.
  induction Fa as [|x a Hx Fa IH]; intros [|y b] L Fb E; try discriminate L; trivial.
  inversion_clear Fb as [|? ? Hy Fb']. rewrite !lval_cons in E. rewrite limb_W in Hx, Hy.
  assert (x = y /\ lval a = lval b) as [-> E'].
  { assert (A : x mod W32 = y mod W32).
    { rewrite <- (Z.mod_add x (lval a) W32), <- (Z.mod_add y (lval b) W32) by (pose proof W32_pos; lia).
      f_equal. lia. }
    rewrite !Z.mod_small in A by lia. split; [exact A|]. subst.
    apply Z.mul_reg_l with W32; pose proof W32_pos; lia. }
  f_equal. injection L as L. now apply IH.
Qed.

Lemma limbs_zeros n : limbs n (zeros n).
Proof.
  split; [apply repeat_length|]. apply Forall_forall. intros x H. apply repeat_spec in H. subst.
  split; [lia|reflexivity].
Qed.
Lemma limbs_app n m a b : limbs n a -> limbs m b -> limbs (n + m) (a ++ b).
Proof. intros [La Fa] [Lb Fb]. split; [rewrite app_length; lia|]. now apply Forall_app. Qed.
Lemma Forall_firstn {A} (P : A -> Prop) n l : Forall P l -> Forall P (firstn n l).
Proof.
  intros F. revert n. induction F; intros [|n]; cbn; constructor; auto.
Qed.
Lemma Forall_skipn {A} (P : A -> Prop) n l : Forall P l -> Forall P (skipn n l).
Proof.
  intros F. revert n. induction F; intros [|n]; cbn; auto.
Qed.
Lemma limbs_firstn n m l : limbs n l -> (m <= n)%nat -> limbs m (firstn m l).
Proof. intros [L F] H. split; [rewrite firstn_length; lia|]. now apply Forall_firstn. Qed.
Lemma limbs_skipn n m l : limbs n l -> limbs (n - m) (skipn m l).
Proof. intros [L F]. split; [rewrite skipn_length; lia|]. now apply Forall_skipn. Qed.
Lemma limbs_slice N i n l : limbs N l -> (i + n <= N)%nat -> limbs n (slice i n l).
Proof.
  intros H L. apply (limbs_firstn (N - i)); [now apply limbs_skipn|lia].
Qed.
Lemma limbs_splice N i w l : limbs N l -> Forall limb w -> (i + length w <= N)%nat ->
  limbs N (splice i w l).
Proof.
  intros H Fw L. unfold splice.
  replace N with (i + (length w + (N - (i + length w))))%nat by lia.
  apply limbs_app; [apply limbs_firstn with N; trivial; lia|].
  apply limbs_app; [now split|]. now apply limbs_skipn.
Qed.
Lemma lval_split i l : (i <= length l)%nat -> lval l = lval (firstn i l) + Wn i * lval (skipn i l).
Proof.
  intros H. rewrite <- (firstn_skipn i l) at 1. rewrite lval_app, firstn_length, Nat.min_l by trivial. reflexivity.
Qed.
Lemma skipn_skipn {A} (n m : nat) (l : list A) : skipn n (skipn m l) = skipn (n + m) l.
Proof.
  revert l. induction m; intros l. { now rewrite Nat.add_0_r. }
  destruct l; [now rewrite !skipn_nil|]. rewrite Nat.add_succ_r. cbn [skipn]. apply IHm.
Qed.
Lemma lval_splice i w l : (i + length w <= length l)%nat ->
  lval (splice i w l) = lval l + Wn i * (lval w - lval (slice i (length w) l)).
Proof.
  intros H. unfold splice, slice.
  rewrite !lval_app, firstn_length, Nat.min_l by lia.
  rewrite (lval_split i l) by lia.
  rewrite (lval_split (length w) (skipn i l)) by (rewrite skipn_length; lia).
  rewrite skipn_skipn. rewrite (Nat.add_comm (length w) i).
  ring.
Qed.
Lemma get_limb n l i : limbs n l -> limb (get l i).
Proof.
  intros [L F]. unfold get. destruct (Nat.lt_ge_cases i (length l)) as [H|H].
  - rewrite Forall_forall in F. apply F. now apply nth_In.
  - rewrite nth_overflow by trivial. split; [lia|reflexivity].
Qed.
Lemma slice_1 i l : (i < length l)%nat -> slice i 1 l = [get l i].
Proof.
  unfold slice, get. revert i. induction l as [|x l IH]; intros [|i] H; cbn in *; try lia; trivial.
  apply IH. lia.
Qed.

(** ** Addition and subtraction *)
Lemma add_loop_spec c a b : bit c -> length a = length b -> Forall limb a -> Forall limb b ->
  bit (fst (add_loop c a b)) /\ limbs (length a) (snd (add_loop c a b)) /\
  lval a + lval b + c = lval (snd (add_loop c a b)) + Wn (length a) * fst (add_loop c a b).
Proof.
  revert c b. induction a as [|x a IH]; intros c [|y b] Hc L Fa Fb; try discriminate L.
  - cbn [add_loop fst snd lval length]. rewrite Wn_0. split; [trivial|]. split; [now split|lia].
  - inversion_clear Fa as [|? ? Hx Fa']. inversion_clear Fb as [|? ? Hy Fb']. injection L as L.
    cbn [add_loop length]. rewrite !lval_cons.
    pose proof (add_carry_spec c x y Hc Hx Hy) as (C1 & R1 & E1).
    destruct (add_carry c x y) as [c1 r]. cbn [fst snd] in *.
    pose proof (IH c1 b C1 L Fa' Fb') as (C2 & [L2 F2] & E2).
    destruct (add_loop c1 a b) as [c2 rs]. cbn [fst snd] in *.
    split; [trivial|]. split.
    + split; [cbn; lia|now constructor].
    + rewrite lval_cons, Wn_S.
      replace (x + W32 * lval a + (y + W32 * lval b) + c) with (x + y + c + W32 * (lval a + lval b)) by ring.
      rewrite E1. replace (r + W32 * c1 + W32 * (lval a + lval b)) with (r + W32 * (lval a + lval b + c1)) by ring.
      rewrite E2. ring.
Qed.
Lemma lb_add_spec n a b : limbs n a -> limbs n b ->
  bit (fst (lb_add a b)) /\ limbs n (snd (lb_add a b)) /\
  lval a + lval b = lval (snd (lb_add a b)) + Wn n * fst (lb_add a b).
Proof.
  intros [La Fa] [Lb Fb]. subst n.
  destruct (add_loop_spec 0 a b) as (H1 & H2 & H3); trivial; [now left|lia|].
  split; [trivial|]. split; [trivial|]. unfold lb_add. lia.
Qed.
Lemma sub_loop_spec c a b : bit c -> length a = length b -> Forall limb a -> Forall limb b ->
  bit (fst (sub_loop c a b)) /\ limbs (length a) (snd (sub_loop c a b)) /\
  lval a - lval b - c = lval (snd (sub_loop c a b)) - Wn (length a) * fst (sub_loop c a b).
Proof.
  revert c b. induction a as [|x a IH]; intros c [|y b] Hc L Fa Fb; try discriminate L.
  - cbn [sub_loop fst snd lval length]. rewrite Wn_0. split; [trivial|]. split; [now split|lia].
  - inversion_clear Fa as [|? ? Hx Fa']. inversion_clear Fb as [|? ? Hy Fb']. injection L as L.
    cbn [sub_loop length]. rewrite !lval_cons.
    pose proof (sub_borrow_spec c x y Hc Hx Hy) as (C1 & R1 & E1).
    destruct (sub_borrow c x y) as [c1 r]. cbn [fst snd] in *.
    pose proof (IH c1 b C1 L Fa' Fb') as (C2 & [L2 F2] & E2).
    destruct (sub_loop c1 a b) as [c2 rs]. cbn [fst snd] in *.
    split; [trivial|]. split.
    + split; [cbn; lia|now constructor].
    + rewrite lval_cons, Wn_S.
      replace (x + W32 * lval a - (y + W32 * lval b) - c) with (x - y - c + W32 * (lval a - lval b)) by ring.
      rewrite E1. replace (r - W32 * c1 + W32 * (lval a - lval b)) with (r + W32 * (lval a - lval b - c1)) by ring.
      rewrite E2. ring.
Qed.
Lemma lb_sub_spec n a b : limbs n a -> limbs n b ->
  bit (fst (lb_sub a b)) /\ limbs n (snd (lb_sub a b)) /\
  lval a - lval b = lval (snd (lb_sub a b)) - Wn n * fst (lb_sub a b).
Proof.
  intros [La Fa] [Lb Fb]. subst n.
  destruct (sub_loop_spec 0 a b) as (H1 & H2 & H3); trivial; [now left|lia|].
  split; [trivial|]. split; [trivial|]. unfold lb_sub. lia.
Qed.
(** The borrow tells the comparison. *)
Lemma lb_sub_borrow n a b : limbs n a -> limbs n b ->
  fst (lb_sub a b) = if lval a <? lval b then 1 else 0.
Proof.
  intros Ha Hb. pose proof (lb_sub_spec n a b Ha Hb) as (C & R & E).
  pose proof (limbs_bound _ _ R). pose proof (limbs_bound _ _ Ha). pose proof (limbs_bound _ _ Hb).
  destruct C as [C|C]; rewrite C in *; destruct (Z.ltb_spec (lval a) (lval b)); lia.
Qed.
Lemma lb_sub_val n a b : limbs n a -> limbs n b ->
  lval (snd (lb_sub a b)) = lval a - lval b + (if lval a <? lval b then Wn n else 0).
Proof.
  intros Ha Hb. pose proof (lb_sub_spec n a b Ha Hb) as (C & R & E).
  rewrite (lb_sub_borrow n a b Ha Hb) in E. destruct (lval a <? lval b); lia.
Qed.

Lemma carry_loop_spec c a : bit c -> Forall limb a ->
  limbs (length a) (carry_loop c a) /\ lval (carry_loop c a) = (lval a + c) mod Wn (length a).
Proof.
  revert c. induction a as [|x a IH]; intros c Hc Fa.
  - cbn [carry_loop length lval]. rewrite Wn_0, Z.mod_1_r. split; [now split|trivial].
  - inversion_clear Fa as [|? ? Hx Fa']. cbn [carry_loop length].
    assert (H0 : limb 0) by (split; [lia|reflexivity]).
    pose proof (add_carry_spec c x 0 Hc Hx H0) as (C1 & R1 & E1).
    destruct (add_carry c x 0) as [c1 r]. cbn [fst snd] in *.
    destruct (IH c1 C1 Fa') as [[L F] E]. split.
    + split; [cbn; lia|now constructor].
    + rewrite !lval_cons, E, Wn_S.
      replace (x + W32 * lval a + c) with (r + (lval a + c1) * W32) by lia.
      rewrite Z.rem_mul_r by (pose proof (Wn_pos (length a)); pose proof W32_pos; lia).
      rewrite Z.mod_add, Z.div_add by (pose proof W32_pos; lia).
      rewrite (Z.mod_small r), (Z.div_small r) by exact R1. rewrite Z.add_0_l. ring.
Qed.
Lemma add_limb_spec n a v : limbs n a -> limb v -> (0 < n)%nat ->
  limbs n (add_limb a v) /\ lval (add_limb a v) = (lval a + v) mod Wn n.
Proof.
  intros [L F] Hv Hn. destruct a as [|x a]; [cbn in L; lia|].
  inversion_clear F as [|? ? Hx Fa']. cbn [add_limb].
  pose proof (add_carry_spec 0 x v (or_introl eq_refl) Hx Hv) as (C1 & R1 & E1).
  destruct (add_carry 0 x v) as [c1 r]. cbn [fst snd] in *.
  destruct (carry_loop_spec c1 a C1 Fa') as [[L2 F2] E]. subst n. cbn [length]. split.
  - split; [cbn; lia|now constructor].
  - rewrite !lval_cons, E, Wn_S.
    replace (x + W32 * lval a + v) with (r + (lval a + c1) * W32) by lia.
    rewrite Z.rem_mul_r by (pose proof (Wn_pos (length a)); pose proof W32_pos; lia).
    rewrite Z.mod_add, Z.div_add by (pose proof W32_pos; lia).
    rewrite (Z.mod_small r), (Z.div_small r) by exact R1. rewrite Z.add_0_l. ring.
Qed.
(** ** Selection *)
Lemma sel_loop_ones n a b : limbs n a -> limbs n b -> sel_loop (W32 - 1) a b = a.
Proof.
  intros [La Fa] [Lb Fb]. subst n. revert b Lb Fb. induction Fa as [|x a Hx Fa IH]; intros [|y b] L Fb; try discriminate L; trivial.
  cbn [sel_loop]. inversion_clear Fb. rewrite sel_ones by trivial. f_equal. apply IH; trivial. now injection L.
Qed.
Lemma sel_loop_zero n a b : limbs n a -> limbs n b -> sel_loop 0 a b = b.
Proof.
  intros [La Fa] [Lb Fb]. subst n. revert b Lb Fb. induction Fa as [|x a Hx Fa IH]; intros [|y b] L Fb; try discriminate L; trivial.
  cbn [sel_loop]. inversion_clear Fb. rewrite sel_zero by trivial. f_equal. apply IH; trivial. now injection L.
Qed.

(** ** Comparison *)
Lemma lor_0_0 : Z.lor 0 0 = 0. Proof. reflexivity. Qed.
Lemma lt_loop_spec acc a b : acc = 0 \/ acc = W32 - 1 -> length a = length b ->
  Forall limb a -> Forall limb b ->
  lt_loop acc a b =
    if lval a <? lval b then W32 - 1 else if lval a =? lval b then acc else 0.
Proof.
  revert acc b. induction a as [|x a IH]; intros acc [|y b] Hacc L Fa Fb; try discriminate L.
  - reflexivity.
  - inversion_clear Fa as [|? ? Hx Fa']. inversion_clear Fb as [|? ? Hy Fb']. injection L as L.
    cbn [lt_loop]. rewrite eq_mask_spec, gte_mask_spec by trivial.
    assert (LO : limb (W32 - 1)) by exact limb_ones.
    assert (LZ : limb 0) by (split; [lia|reflexivity]).
    assert (LA : limb acc) by (destruct Hacc as [-> | ->]; trivial).
    set (acc' := Z.lor _ _).
    assert (A : acc' = if x =? y then acc else if x <? y then W32 - 1 else 0).
    { unfold acc'. destruct (Z.eqb_spec x y) as [->|N].
      - rewrite ones_land by trivial. rewrite not32_ones, Z.land_0_l, Z.lor_0_r. reflexivity.
      - rewrite Z.land_0_l, Z.lor_0_l, not32_0.
        destruct (Z.leb_spec y x) as [H|H].
        + rewrite not32_ones, Z.land_0_l, Z.lor_0_l, not32_0.
          rewrite !(ones_land 0) by trivial. destruct (Z.ltb_spec x y); [lia|reflexivity].
        + rewrite not32_0, not32_ones, Z.land_0_l, Z.lor_0_r.
          rewrite !(ones_land (W32 - 1)) by trivial. destruct (Z.ltb_spec x y); [reflexivity|lia]. }
    rewrite IH; trivial.
    2:{ rewrite A. destruct (x =? y); [trivial|]. destruct (x <? y); [now right|now left]. }
    rewrite A, !lval_cons. rewrite limb_W in Hx, Hy. pose proof W32_pos as WP.
    destruct (Z.ltb_spec (lval a) (lval b)) as [H|H].
    { destruct (Z.ltb_spec (x + W32 * lval a) (y + W32 * lval b)); [reflexivity|].
      exfalso. assert (W32 * (lval a + 1) <= W32 * lval b) by (apply Z.mul_le_mono_nonneg_l; lia). lia. }
    destruct (Z.eqb_spec (lval a) (lval b)) as [E|N].
    { rewrite E. destruct (Z.eqb_spec x y) as [->|].
      - rewrite Z.ltb_irrefl, Z.eqb_refl. reflexivity.
      - destruct (Z.ltb_spec x y); destruct (Z.ltb_spec (x + W32 * lval b) (y + W32 * lval b)); try lia;
        destruct (Z.eqb_spec (x + W32 * lval b) (y + W32 * lval b)); lia. }
    assert (W32 * (lval b + 1) <= W32 * lval a) by (apply Z.mul_le_mono_nonneg_l; lia).
    destruct (Z.ltb_spec (x + W32 * lval a) (y + W32 * lval b)); [lia|].
    destruct (Z.eqb_spec (x + W32 * lval a) (y + W32 * lval b)); [lia|reflexivity].
Qed.
Lemma lb_lt_spec n a b : limbs n a -> limbs n b ->
  lb_lt a b = if lval a <? lval b then W32 - 1 else 0.
Proof.
  intros [La Fa] [Lb Fb]. unfold lb_lt. rewrite lt_loop_spec; trivial; [|now left|lia].
  destruct (lval a <? lval b); trivial. now destruct (lval a =? lval b).
Qed.
(** ** School book multiplication *)
Lemma mul_row_spec a bj c w : limb bj -> limb c -> length a = length w ->
  Forall limb a -> Forall limb w ->
  limb (fst (mul_row a bj c w)) /\ limbs (length a) (snd (mul_row a bj c w)) /\
  lval a * bj + c + lval w = lval (snd (mul_row a bj c w)) + Wn (length a) * fst (mul_row a bj c w).
Proof.
  intros Hb. revert c w. induction a as [|x a IH]; intros c [|y w] Hc L Fa Fw; try discriminate L.
  - cbn [mul_row fst snd lval length]. rewrite Wn_0. split; [trivial|]. split; [now split|lia].
  - inversion_clear Fa as [|? ? Hx Fa']. inversion_clear Fw as [|? ? Hy Fw']. injection L as L.
    cbn [mul_row length]. rewrite !lval_cons.
    pose proof (mul_wide_add2_spec x bj c y Hx Hb Hc Hy) as (C1 & R1 & E1).
    destruct (mul_wide_add2 x bj c y) as [c1 r]. cbn [fst snd] in *.
    pose proof (IH c1 w C1 L Fa' Fw') as (C2 & [L2 F2] & E2).
    destruct (mul_row a bj c1 w) as [c2 rs]. cbn [fst snd] in *.
    split; [trivial|]. split.
    + split; [cbn; lia|now constructor].
    + rewrite lval_cons, Wn_S.
      replace ((x + W32 * lval a) * bj + c + (y + W32 * lval w))
        with (x * bj + c + y + W32 * (lval a * bj + lval w)) by ring.
      rewrite E1. replace (r + W32 * c1 + W32 * (lval a * bj + lval w))
        with (r + W32 * (lval a * bj + c1 + lval w)) by ring.
      rewrite E2. ring.
Qed.

Lemma skipn_splice_ge i w (l : list Z) k : (i + length w <= length l)%nat -> (i + length w <= k)%nat ->
  skipn k (splice i w l) = skipn k l.
Proof.
  intros H1 H2. unfold splice. rewrite !skipn_app, firstn_length, Nat.min_l by lia.
  rewrite skipn_all2 by (rewrite firstn_length; lia).
  rewrite skipn_all2 by lia. rewrite skipn_skipn. cbn [app]. f_equal. lia.
Qed.
Lemma skipn_zeros k n : skipn k (zeros n) = zeros (n - k).
Proof. revert k. induction n; intros [|k]; cbn; auto. Qed.

Lemma slice_zero_tail i n l : lval (skipn i l) = 0 -> Forall limb l -> lval (slice i n l) = 0.
Proof.
  intros E F. unfold slice.
  destruct (Nat.le_gt_cases n (length (skipn i l))) as [H|H].
  - rewrite (lval_split n) in E by trivial.
    assert (F1 : Forall limb (firstn n (skipn i l))) by (apply Forall_firstn, Forall_skipn, F).
    assert (F2 : Forall limb (skipn n (skipn i l))) by (apply Forall_skipn, Forall_skipn, F).
    apply lval_bound in F1, F2. pose proof (Wn_pos n).
    assert (0 <= Wn n * lval (skipn n (skipn i l))) by (apply Z.mul_nonneg_nonneg; lia). lia.
  - rewrite firstn_all2 by lia. trivial.
Qed.

Lemma mul_loop_spec a b : forall i res N, Forall limb a -> Forall limb b -> limbs N res ->
  N = (length a + i + length b)%nat -> lval (skipn (length a + i) res) = 0 ->
  limbs N (mul_loop a i b res) /\
  lval (mul_loop a i b res) = lval res + Wn i * (lval a * lval b).
Proof.
  induction b as [|bj b IH]; intros i res N Fa Fb Hres EN Z0; cbn [mul_loop].
  - split; [trivial|]. cbn [lval]. ring.
  - inversion_clear Fb as [|? ? Hb Fb']. cbn [length] in EN.
    destruct Hres as [Lres Fres].
    assert (SL : limbs (length a) (slice i (length a) res)).
    { apply limbs_slice with N; [now split|lia]. }
    assert (Z0limb : limb 0) by (split; [lia|reflexivity]).
    pose proof (mul_row_spec a bj 0 (slice i (length a) res) Hb Z0limb) as M.
    destruct SL as [SL1 SL2]. specialize (M (eq_sym SL1) Fa SL2). destruct M as (C & [RL RF] & E).
    unfold mul_step. destruct (mul_row a bj 0 (slice i (length a) res)) as [c w]. cbn [fst snd] in *.
    assert (S1 : limbs N (splice i w res)) by (apply limbs_splice; [now split|trivial|lia]).
    assert (Tail : skipn (length a + i) (splice i w res) = skipn (length a + i) res).
    { apply skipn_splice_ge; lia. }
    assert (S2 : limbs N (splice (length a + i) [c] (splice i w res))).
    { apply limbs_splice; [trivial|now constructor|cbn; lia]. }
    assert (V : lval (splice (length a + i) [c] (splice i w res)) = lval res + Wn i * (lval a * bj)).
    { destruct S1 as [S1L S1F].
      rewrite lval_splice by (cbn; lia). rewrite lval_splice by lia.
      rewrite (slice_zero_tail (length a + i)) by (rewrite ?Tail; trivial).
      rewrite RL. rewrite lval_cons. cbn [lval].
      rewrite (Nat.add_comm (length a) i), Wn_add.
      replace (lval w) with (lval a * bj + 0 + lval (slice i (length a) res) - Wn (length a) * c) by lia.
      ring. }
    destruct (IH (S i) (splice (length a + i) [c] (splice i w res)) N) as [G1 G2]; trivial.
    + lia.
    + destruct S1 as [S1L S1F].
      rewrite skipn_splice_ge by (cbn; lia).
      replace (length a + S i)%nat with (1 + (length a + i))%nat by lia.
      rewrite <- skipn_skipn, Tail.
      assert (F3 : Forall limb (skipn (length a + i) res)) by now apply Forall_skipn.
      destruct (skipn (length a + i) res) as [|z t] eqn:Es; [reflexivity|].
      cbn [skipn]. rewrite lval_cons in Z0. inversion_clear F3 as [|? ? Hz Ft]. apply lval_bound in Ft.
      rewrite limb_W in Hz. pose proof W32_pos. assert (0 <= W32 * lval t) by (apply Z.mul_nonneg_nonneg; lia).
      assert (W32 * lval t = 0) as Q by lia. apply Z.mul_eq_0 in Q. lia.
    + split; [trivial|]. rewrite G2, V, lval_cons, Wn_S. ring.
Qed.
Lemma lb_mul_spec n m a b : limbs n a -> limbs m b ->
  limbs (n + m) (lb_mul a b) /\ lval (lb_mul a b) = lval a * lval b.
Proof.
  intros [La Fa] [Lb Fb]. subst. unfold lb_mul.
  destruct (mul_loop_spec a b 0 (zeros (length a + length b)) (length a + length b)) as [H1 H2]; trivial.
  - apply limbs_zeros.
  - lia.
  - rewrite skipn_zeros. apply lval_zeros.
  - split; [trivial|]. rewrite H2, lval_zeros, Wn_0. ring.
Qed.
