(** Word level facts: masks, carries, borrows, the double-width product. *)
From Verif Require Import Base LimbModel LimbSpec.
Open Scope Z_scope.

Lemma W64_eq : W64 = 2 ^ 64. Proof. reflexivity. Qed.
Lemma W64_pos : 0 < W64. Proof. reflexivity. Qed.

Lemma limb_W x : limb x <-> 0 <= x < W64. Proof. reflexivity. Qed.

Lemma u64_limb x : limb (u64 x).
Proof. apply Z.mod_pos_bound. reflexivity. Qed.
Lemma u64_id x : limb x -> u64 x = x.
Proof. intros H. apply Z.mod_small. exact H. Qed.

(** Bitwise operations stay inside the word. *)
Lemma land_limb a b : limb a -> limb b -> limb (Z.land a b).
Proof.
  intros [A0 A1] [B0 B1]. split. { apply Z.land_nonneg; lia. }
  destruct (Z.eq_dec (Z.land a b) 0) as [E|E]; [rewrite E; reflexivity|].
  assert (0 <= Z.land a b) by (apply Z.land_nonneg; lia).
  apply Z.log2_lt_pow2; [lia|].
  pose proof (Z.log2_land a b A0 B0).
  destruct (Z.eq_dec a 0) as [->|]; [rewrite Z.land_0_l in E; lia|].
  assert (Z.log2 a < 64) by (apply Z.log2_lt_pow2; lia). lia.
Qed.
Lemma lor_limb a b : limb a -> limb b -> limb (Z.lor a b).
Proof.
  intros [A0 A1] [B0 B1]. split. { apply Z.lor_nonneg; lia. }
  destruct (Z.eq_dec (Z.lor a b) 0) as [E|E]; [rewrite E; reflexivity|].
  assert (0 <= Z.lor a b) by (apply Z.lor_nonneg; lia).
  apply Z.log2_lt_pow2; [lia|].
  rewrite Z.log2_lor by lia.
  assert (forall c, 0 <= c < 2^64 -> Z.log2 c < 64).
  { intros c [C0 C1]. destruct (Z.eq_dec c 0) as [->|]; [reflexivity|]. apply Z.log2_lt_pow2; lia. }
  apply Z.max_lub_lt; auto.
Qed.
Lemma lxor_limb a b : limb a -> limb b -> limb (Z.lxor a b).
Proof.
  intros [A0 A1] [B0 B1]. split. { apply Z.lxor_nonneg; lia. }
  destruct (Z.eq_dec (Z.lxor a b) 0) as [E|E]; [rewrite E; reflexivity|].
  assert (0 <= Z.lxor a b) by (apply Z.lxor_nonneg; lia).
  apply Z.log2_lt_pow2; [lia|].
  pose proof (Z.log2_lxor a b A0 B0).
  assert (forall c, 0 <= c < 2^64 -> Z.log2 c < 64).
  { intros c [C0 C1]. destruct (Z.eq_dec c 0) as [->|]; [reflexivity|]. apply Z.log2_lt_pow2; lia. }
  eapply Z.le_lt_trans; [eassumption|]. apply Z.max_lub_lt; auto.
Qed.

Lemma ones_land x : limb x -> Z.land (W64 - 1) x = x.
Proof.
  intros H. change (W64 - 1) with (Z.ones 64). rewrite Z.land_comm, Z.land_ones by lia.
  apply Z.mod_small. exact H.
Qed.
Lemma not64_0 : not64 0 = W64 - 1. Proof. reflexivity. Qed.
Lemma not64_ones : not64 (W64 - 1) = 0. Proof. reflexivity. Qed.

Lemma sel_ones x y : limb x -> sel (W64 - 1) x y = x.
Proof. intros H. unfold sel. rewrite not64_ones, ones_land by trivial. now rewrite Z.land_0_l, Z.lor_0_r. Qed.
Lemma sel_zero x y : limb y -> sel 0 x y = y.
Proof. intros H. unfold sel. rewrite not64_0, ones_land by trivial. now rewrite Z.land_0_l, Z.lor_0_l. Qed.

(** The top bit of a word. *)
Lemma top_bit x : limb x -> Z.shiftr x 63 = if x <? 2 ^ 63 then 0 else 1.
Proof.
  intros [H0 H1]. rewrite Z.shiftr_div_pow2 by lia.
  destruct (Z.ltb_spec x (2^63)).
  - apply Z.div_small. lia.
  - symmetry. apply Z.div_unique with (r := x - 2^63); [|ring]. left.
    change (2^64) with (2 * 2^63) in H1. lia.
Qed.

Lemma eq_mask_spec a b : limb a -> limb b -> eq_mask a b = if a =? b then W64 - 1 else 0.
Proof.
  intros Ha Hb. unfold eq_mask.
  destruct (Z.eqb_spec a b) as [->|N].
  - rewrite Z.lxor_nilpotent. reflexivity.
  - assert (X : limb (Z.lxor a b)) by now apply lxor_limb.
    assert (X0 : Z.lxor a b <> 0) by (rewrite Z.lxor_eq_0_iff; trivial).
    set (x := Z.lxor a b) in *. clearbody x.
    assert (M : u64 (not64 x + 1) = W64 - x).
    { unfold not64. replace (W64 - 1 - x + 1) with (W64 - x) by ring.
      apply u64_id. destruct X. split; unfold W64 in *; lia. }
    rewrite M, Z.shiftr_lor.
    assert (X2 : limb (W64 - x)) by (destruct X; split; unfold W64 in *; lia).
    rewrite !top_bit by trivial.
    destruct (Z.ltb_spec x (2^63)); destruct (Z.ltb_spec (W64 - x) (2^63)); try reflexivity.
    exfalso. unfold W64 in *. change (2^64) with (2^63 + 2^63) in *. lia.
Qed.

Lemma gte_mask_spec x y : limb x -> limb y -> gte_mask x y = if y <=? x then W64 - 1 else 0.
Proof.
  intros Hx Hy. unfold gte_mask.
  rewrite !Z.shiftr_lxor, !Z.shiftr_lor, !Z.shiftr_lxor.
  rewrite (top_bit x Hx), (top_bit y Hy), (top_bit (u64 (x - y)) (u64_limb _)).
  assert (D : u64 (x - y) = if y <=? x then x - y else x - y + W64).
  { destruct Hx, Hy. destruct (Z.leb_spec y x).
    - apply u64_id. split; lia.
    - unfold u64. symmetry. apply Z.mod_unique with (-1); [left; unfold W64; lia|ring]. }
  rewrite D. destruct Hx, Hy.
  change (2^64) with (2^63 + 2^63) in *.
  destruct (Z.ltb_spec x (2^63)), (Z.ltb_spec y (2^63)), (Z.leb_spec y x);
    match goal with |- context [?a <? 2^63] => destruct (Z.ltb_spec a (2^63)) end;
    try reflexivity; exfalso; unfold W64 in *; change (2^64) with (2^63 + 2^63) in *; lia.
Qed.

Definition bit (c : Z) : Prop := c = 0 \/ c = 1.
Lemma bit_limb c : bit c -> limb c.
Proof. intros [-> | ->]; split; reflexivity || discriminate. Qed.

Lemma land_1 a : limb a -> a = 0 \/ a = 1 \/ a = W64 - 1 -> Z.land a 1 = if a =? 0 then 0 else 1.
Proof. intros _ [-> | [-> | ->]]; reflexivity. Qed.

Lemma add_carry_spec c x y : bit c -> limb x -> limb y ->
  bit (fst (add_carry c x y)) /\ limb (snd (add_carry c x y)) /\
  x + y + c = snd (add_carry c x y) + W64 * fst (add_carry c x y).
Proof.
  intros Hc Hx Hy. unfold add_carry. cbn [fst snd].
  set (r := u64 (x + c + y)). assert (Hr : limb r) by apply u64_limb.
  rewrite gte_mask_spec, eq_mask_spec by trivial.
  assert (B : x + c + y < W64 /\ r = x + c + y \/ W64 <= x + c + y /\ r = x + c + y - W64).
  { destruct Hx, Hy. destruct (Z.lt_ge_cases (x + c + y) W64); [left|right]; split; trivial.
    - apply u64_id. split; [destruct Hc; lia | trivial].
    - unfold r, u64. symmetry. apply Z.mod_unique with 1; [left|ring]. unfold W64 in *. destruct Hc; lia. }
  clearbody r. destruct Hx, Hy, Hr.
  destruct Hc as [-> | ->]; destruct B as [[B ->]|[B ->]];
  match goal with |- context [x <=? ?e] => destruct (Z.leb_spec x e) end;
  match goal with |- context [?e =? x] => destruct (Z.eqb_spec e x) end;
  cbn; unfold W64 in *; (split; [first [now left|now right]|]); (split; [split; lia|]);
  lia.
Qed.

Lemma sub_borrow_spec c x y : bit c -> limb x -> limb y ->
  bit (fst (sub_borrow c x y)) /\ limb (snd (sub_borrow c x y)) /\
  x - y - c = snd (sub_borrow c x y) - W64 * fst (sub_borrow c x y).
Proof.
  intros Hc Hx Hy. unfold sub_borrow. cbn [fst snd].
  set (r := u64 (x - y - c)). assert (Hr : limb r) by apply u64_limb.
  rewrite gte_mask_spec, eq_mask_spec by trivial.
  assert (B : 0 <= x - y - c /\ r = x - y - c \/ x - y - c < 0 /\ r = x - y - c + W64).
  { destruct Hx, Hy. destruct (Z.lt_ge_cases (x - y - c) 0); [right|left]; split; trivial.
    - unfold r, u64. symmetry. apply Z.mod_unique with (-1); [left|ring]. unfold W64 in *. destruct Hc; lia.
    - apply u64_id. split; [trivial|destruct Hc; lia]. }
  clearbody r. destruct Hx, Hy, Hr.
  destruct Hc as [-> | ->]; destruct B as [[B ->]|[B ->]];
  match goal with |- context [x <=? ?e] => destruct (Z.leb_spec x e) end;
  match goal with |- context [?e =? x] => destruct (Z.eqb_spec e x) end;
  cbn; unfold W64 in *; (split; [first [now left|now right]|]); (split; [split; lia|]);
  lia.
Qed.

Lemma mul_wide_add2_spec a b c o : limb a -> limb b -> limb c -> limb o ->
  limb (fst (mul_wide_add2 a b c o)) /\ limb (snd (mul_wide_add2 a b c o)) /\
  a * b + c + o = snd (mul_wide_add2 a b c o) + W64 * fst (mul_wide_add2 a b c o).
Proof.
  intros Ha Hb Hc Ho. unfold mul_wide_add2. cbn [fst snd].
  assert (R : 0 <= a * b + c + o < W64 * W64).
  { destruct Ha, Hb, Hc, Ho. assert (a * b <= (W64 - 1) * (W64 - 1)) by (apply Z.mul_le_mono_nonneg; unfold W64; lia).
    assert (0 <= a * b) by (apply Z.mul_nonneg_nonneg; lia). unfold W64 in *. lia. }
  rewrite Z.mod_small by trivial.
  rewrite Z.shiftr_div_pow2 by lia. fold W64.
  split; [apply u64_limb|]. split; [apply u64_limb|].
  rewrite (u64_id (_ / _)).
  - unfold u64. rewrite (Z.div_mod (a * b + c + o) W64) at 1 by discriminate. ring.
  - split. + apply Z.div_pos; [lia|reflexivity]. + apply Z.div_lt_upper_bound; [reflexivity|].
      change (2^64) with W64. lia.
Qed.

Lemma u64_neg_bit c : bit c -> u64 (0 - c) = if c =? 0 then 0 else W64 - 1.
Proof. intros [-> | ->]; reflexivity. Qed.
