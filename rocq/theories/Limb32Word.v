(** Word level facts: masks, carries, borrows, the double-width product. *)
From Verif Require Import Base Limb32Model Limb32Spec.
Open Scope Z_scope.

Lemma W32_eq : W32 = 2 ^ 32. Proof. reflexivity. Qed.
Lemma W32_pos : 0 < W32. Proof. reflexivity. Qed.

Lemma limb_W x : limb x <-> 0 <= x < W32. Proof. reflexivity. Qed.

Lemma u32_limb x : limb (u32 x).
Proof. apply Z.mod_pos_bound. reflexivity. Qed.
Lemma u32_id x : limb x -> u32 x = x.
Proof. intros H. apply Z.mod_small. exact H. Qed.

(** Bitwise operations stay inside the word. *)
Lemma land_limb a b : limb a -> limb b -> limb (Z.land a b).
Proof.
  intros [A0 A1] [B0 B1]. split. { apply Z.land_nonneg; lia. }
  destruct (Z.eq_dec (Z.land a b) 0) as [E|E]; [rewrite E; reflexivity|].
  assert (0 <= Z.land a b) by (apply Z.land_nonneg; lia).
  apply Z.log2_lt_pow2; [lia|].
  pose proof (Z.log2_land a b A0 B0).
  destruct (Z.eq_dec a 0) as [->|]; [rewrite Z.land_0_l in E; lia|].
  assert (Z.log2 a < 32) by (apply Z.log2_lt_pow2; lia). lia.
Qed.
Lemma lor_limb a b : limb a -> limb b -> limb (Z.lor a b).
Proof.
  intros [A0 A1] [B0 B1]. split. { apply Z.lor_nonneg; lia. }
  destruct (Z.eq_dec (Z.lor a b) 0) as [E|E]; [rewrite E; reflexivity|].
  assert (0 <= Z.lor a b) by (apply Z.lor_nonneg; lia).
  apply Z.log2_lt_pow2; [lia|].
  rewrite Z.log2_lor by lia.
  assert (forall c, 0 <= c < 2^32 -> Z.log2 c < 32).
  { intros c [C0 C1]. destruct (Z.eq_dec c 0) as [->|]; [reflexivity|]. apply Z.log2_lt_pow2; lia. }
  apply Z.max_lub_lt; auto.
Qed.
Lemma lxor_limb a b : limb a -> limb b -> limb (Z.lxor a b).
Proof.
  intros [A0 A1] [B0 B1]. split. { apply Z.lxor_nonneg; lia. }
  destruct (Z.eq_dec (Z.lxor a b) 0) as [E|E]; [rewrite E; reflexivity|].
  assert (0 <= Z.lxor a b) by (apply Z.lxor_nonneg; lia).
  apply Z.log2_lt_pow2; [lia|].
  pose proof (Z.log2_lxor a b A0 B0).
  assert (forall c, 0 <= c < 2^32 -> Z.log2 c < 32).
  { intros c [C0 C1]. destruct (Z.eq_dec c 0) as [->|]; [reflexivity|]. apply Z.log2_lt_pow2; lia. }
  eapply Z.le_lt_trans; [eassumption|]. apply Z.max_lub_lt; auto.
Qed.

Lemma ones_land x : limb x -> Z.land (W32 - 1) x = x.
Proof.
  intros H. change (W32 - 1) with (Z.ones 32). rewrite Z.land_comm, Z.land_ones by lia.
  apply Z.mod_small. exact H.
Qed.
Lemma not32_0 : not32 0 = W32 - 1. Proof. reflexivity. Qed.
Lemma not32_ones : not32 (W32 - 1) = 0. Proof. reflexivity. Qed.

Lemma sel_ones x y : limb x -> sel (W32 - 1) x y = x.
Proof. intros H. unfold sel. rewrite not32_ones, ones_land by trivial. now rewrite Z.land_0_l, Z.lor_0_r. Qed.
Lemma sel_zero x y : limb y -> sel 0 x y = y.
Proof. intros H. unfold sel. rewrite not32_0, ones_land by trivial. now rewrite Z.land_0_l, Z.lor_0_l. Qed.

(** The top bit of a word. *)
Lemma top_bit x : limb x -> Z.shiftr x 31 = if x <? 2 ^ 31 then 0 else 1.
Proof.
  intros [H0 H1]. rewrite Z.shiftr_div_pow2 by lia.
  destruct (Z.ltb_spec x (2^31)).
  - apply Z.div_small. lia.
  - symmetry. apply Z.div_unique with (r := x - 2^31); [|ring]. left.
    change (2^32) with (2 * 2^31) in H1. lia.
Qed.

Lemma eq_mask_spec a b : limb a -> limb b -> eq_mask a b = if a =? b then W32 - 1 else 0.
Proof.
  intros Ha Hb. unfold eq_mask.
  destruct (Z.eqb_spec a b) as [->|N].
  - rewrite Z.lxor_nilpotent. reflexivity.
  - assert (X : limb (Z.lxor a b)) by now apply lxor_limb.
    assert (X0 : Z.lxor a b <> 0) by (rewrite Z.lxor_eq_0_iff; trivial).
    set (x := Z.lxor a b) in *. clearbody x.
    assert (M : u32 (not32 x + 1) = W32 - x).
    { unfold not32. replace (W32 - 1 - x + 1) with (W32 - x) by ring.
      apply u32_id. destruct X. split; unfold W32 in *; lia. }
    rewrite M, Z.shiftr_lor.
    assert (X2 : limb (W32 - x)) by (destruct X; split; unfold W32 in *; lia).
    rewrite !top_bit by trivial.
    destruct (Z.ltb_spec x (2^31)); destruct (Z.ltb_spec (W32 - x) (2^31)); try reflexivity.
    exfalso. unfold W32 in *. change (2^32) with (2^31 + 2^31) in *. lia.
Qed.

Lemma gte_mask_spec x y : limb x -> limb y -> gte_mask x y = if y <=? x then W32 - 1 else 0.
Proof.
  intros Hx Hy. unfold gte_mask.
  rewrite !Z.shiftr_lxor, !Z.shiftr_lor, !Z.shiftr_lxor.
  rewrite (top_bit x Hx), (top_bit y Hy), (top_bit (u32 (x - y)) (u32_limb _)).
  assert (D : u32 (x - y) = if y <=? x then x - y else x - y + W32).
  { destruct Hx, Hy. destruct (Z.leb_spec y x).
    - apply u32_id. split; lia.
    - unfold u32. symmetry. apply Z.mod_unique with (-1); [left; unfold W32; lia|ring]. }
  rewrite D. destruct Hx, Hy.
  change (2^32) with (2^31 + 2^31) in *.
  destruct (Z.ltb_spec x (2^31)), (Z.ltb_spec y (2^31)), (Z.leb_spec y x);
    match goal with |- context [?a <? 2^31] => destruct (Z.ltb_spec a (2^31)) end;
    try reflexivity; exfalso; unfold W32 in *; change (2^32) with (2^31 + 2^31) in *; lia.
Qed.

Definition bit (c : Z) : Prop := c = 0 \/ c = 1.
Lemma bit_limb c : bit c -> limb c.
Proof. intros [-> | ->]; split; reflexivity || discriminate. Qed.

Lemma add_carry_spec c x y : bit c -> limb x -> limb y ->
  bit (fst (add_carry c x y)) /\ limb (snd (add_carry c x y)) /\
  x + y + c = snd (add_carry c x y) + W32 * fst (add_carry c x y).
Proof.
  intros Hc Hx Hy. unfold add_carry. cbn [fst snd].
  assert (B : 0 <= x + c + y < 2 * W32).
  { destruct Hx, Hy. unfold W32 in *. destruct Hc; lia. }
  rewrite (Z.mod_small (x + c + y)) by (change W64 with (W32 * W32); unfold W32 in *; lia).
  rewrite Z.shiftr_div_pow2 by lia. fold W32.
  assert (D : bit ((x + c + y) / W32)).
  { assert (0 <= (x + c + y) / W32) by (apply Z.div_pos; [lia|reflexivity]).
    assert ((x + c + y) / W32 < 2) by (apply Z.div_lt_upper_bound; [reflexivity|lia]).
    unfold bit. lia. }
  rewrite (u32_id (_ / _)) by now apply bit_limb.
  split; [exact D|]. split; [apply u32_limb|].
  unfold u32. pose proof (Z.div_mod (x + c + y) W32). unfold W32 in *. lia.
Qed.

Lemma sub_borrow_spec c x y : bit c -> limb x -> limb y ->
  bit (fst (sub_borrow c x y)) /\ limb (snd (sub_borrow c x y)) /\
  x - y - c = snd (sub_borrow c x y) - W32 * fst (sub_borrow c x y).
Proof.
  intros Hc Hx Hy. unfold sub_borrow. cbn [fst snd].
  rewrite Z.shiftr_div_pow2 by lia. fold W32. destruct Hx as [X0 X1], Hy as [Y0 Y1].
  change (2 ^ 32) with W32 in *.
  destruct (Z.lt_ge_cases (x - y - c) 0) as [N|N].
  - assert (M : (x - y - c) mod W64 = x - y - c + W64).
    { symmetry. apply Z.mod_unique with (-1); [left|ring]. unfold W64, W32 in *. destruct Hc; lia. }
    rewrite M.
    assert (D : (x - y - c + W64) / W32 = W32 - 1).
    { symmetry. apply Z.div_unique with (x - y - c + W32); [left; destruct Hc; lia|]. change W64 with (W32 * W32). ring. }
    rewrite D. change (Z.land (u32 (W32 - 1)) 1) with 1. split; [now right|]. split; [apply u32_limb|].
    assert (U : u32 (x - y - c + W64) = x - y - c + W32).
    { unfold u32. symmetry. apply Z.mod_unique with (W32 - 1); [left; destruct Hc; lia|]. change W64 with (W32 * W32). ring. }
    rewrite U. ring.
  - rewrite (Z.mod_small (x - y - c)) by (unfold W64, W32 in *; destruct Hc; lia).
    rewrite (Z.div_small (x - y - c)) by (destruct Hc; lia).
    change (Z.land (u32 0) 1) with 0. split; [now left|]. split; [apply u32_limb|].
    rewrite u32_id by (split; change (2 ^ 32) with W32; destruct Hc; lia). ring.
Qed.

Lemma mul_wide_add2_spec a b c o : limb a -> limb b -> limb c -> limb o ->
  limb (fst (mul_wide_add2 a b c o)) /\ limb (snd (mul_wide_add2 a b c o)) /\
  a * b + c + o = snd (mul_wide_add2 a b c o) + W32 * fst (mul_wide_add2 a b c o).
Proof.
  intros Ha Hb Hc Ho. unfold mul_wide_add2. cbn [fst snd].
  assert (R : 0 <= a * b + c + o < W32 * W32).
  { destruct Ha, Hb, Hc, Ho. assert (a * b <= (W32 - 1) * (W32 - 1)) by (apply Z.mul_le_mono_nonneg; unfold W32; lia).
    assert (0 <= a * b) by (apply Z.mul_nonneg_nonneg; lia). unfold W32 in *. lia. }
  rewrite Z.mod_small by trivial.
  rewrite Z.shiftr_div_pow2 by lia. fold W32.
  split; [apply u32_limb|]. split; [apply u32_limb|].
  rewrite (u32_id (_ / _)).
  - unfold u32. rewrite (Z.div_mod (a * b + c + o) W32) at 1 by discriminate. ring.
  - split. + apply Z.div_pos; [lia|reflexivity]. + apply Z.div_lt_upper_bound; [reflexivity|].
      change (2^32) with W32. lia.
Qed.

Lemma u32_neg_bit c : bit c -> u32 (0 - c) = if c =? 0 then 0 else W32 - 1.
Proof. intros [-> | ->]; reflexivity. Qed.
