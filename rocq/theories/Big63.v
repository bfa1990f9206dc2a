(** Modular exponentiation on machine integers, for the facts about the
    4096-bit constants.  Montgomery multiplication with 31-bit digits on
    Coq's 63-bit integers; only congruences are proved.  No repository code. *)
From Coq Require Import ZArith List Lia Bool Uint63 Znumtheory Zpow_facts ZifyBool.
Import ListNotations.
Open Scope Z_scope.
Ltac Zify.zify_post_hook ::= idtac.

Definition mask : int := 2147483647%uint63.
Definition B : Z := 2 ^ 31.

Fixpoint val (l : list int) : Z :=
  match l with [] => 0 | d :: t => to_Z d + B * val t end.

Definition small (d : int) : Prop := to_Z d < B.

Fixpoint addc (acc : list int) (c : int) : list int :=
  match acc with
  | [] => if (c =? 0)%uint63 then [] else [c]
  | a :: t => let s := (a + c)%uint63 in (s land mask)%uint63 :: addc t (s >> 31)%uint63
  end.

(** acc + x*y + c *)
Fixpoint mac (x : int) (y acc : list int) (c : int) : list int :=
  match y with
  | [] => addc acc c
  | d :: y' =>
      match acc with
      | [] => let s := (x * d + c)%uint63 in (s land mask)%uint63 :: mac x y' [] (s >> 31)%uint63
      | a :: t => let s := (a + (x * d + c))%uint63 in
                  (s land mask)%uint63 :: mac x y' t (s >> 31)%uint63
      end
  end.

Definition shift1 (pinv : int) (p acc : list int) : list int :=
  match acc with
  | [] => []
  | a :: _ => tl (mac ((a * pinv) land mask)%uint63 p acc 0%uint63)
  end.

Fixpoint mont (pinv : int) (p x y acc : list int) : list int :=
  match x with
  | [] => acc
  | d :: x' => mont pinv p x' y (shift1 pinv p (mac d y acc 0%uint63))
  end.

Lemma B_pos : 0 < B. Proof. reflexivity. Qed.
Lemma wB_B : wB = 2 * B * B. Proof. reflexivity. Qed.
Lemma to_Z_pos d : 0 <= to_Z d. Proof. apply to_Z_bounded. Qed.

Lemma land_mask s : to_Z (s land mask)%uint63 = to_Z s mod B.
Proof.
  rewrite land_spec'. change (to_Z mask) with (Z.ones 31). apply Z.land_ones. lia.
Qed.
Lemma shr31 s : to_Z (s >> 31)%uint63 = to_Z s / B.
Proof. rewrite lsr_spec. reflexivity. Qed.
Lemma digit_split s : to_Z (s land mask)%uint63 + B * to_Z (s >> 31)%uint63 = to_Z s.
Proof. rewrite land_mask, shr31. pose proof (Z.div_mod (to_Z s) B ltac:(discriminate)). lia. Qed.
Lemma small_land s : small (s land mask)%uint63.
Proof. unfold small. rewrite land_mask. apply Z.mod_pos_bound. reflexivity. Qed.

Lemma add_val a c : to_Z a + to_Z c < wB -> to_Z (a + c)%uint63 = to_Z a + to_Z c.
Proof. intros H. rewrite add_spec. apply Z.mod_small. pose proof (to_Z_pos a). pose proof (to_Z_pos c). lia. Qed.
Lemma mul_val a c : to_Z a * to_Z c < wB -> to_Z (a * c)%uint63 = to_Z a * to_Z c.
Proof.
  intros H. rewrite mul_spec. apply Z.mod_small. pose proof (to_Z_pos a). pose proof (to_Z_pos c).
  split; [apply Z.mul_nonneg_nonneg; assumption|assumption].
Qed.

Lemma addc_val acc c : Forall small acc -> small c ->
  val (addc acc c) = val acc + to_Z c /\ Forall small (addc acc c).
Proof.
  intros H. revert c. induction H as [|a t Ha Ht IH]; intros c Hc; cbn [addc].
  - destruct (eqb_spec c 0) as [H1 H2].
    destruct (c =? 0)%uint63 eqn:E.
    + rewrite (H1 eq_refl). cbn [val]. split; [reflexivity|constructor].
    + cbn [val]. split; [lia|constructor; [assumption|constructor]].
  - unfold small in *. pose proof (to_Z_pos a). pose proof (to_Z_pos c).
    assert (Es : to_Z (a + c)%uint63 = to_Z a + to_Z c).
    { apply add_val. rewrite wB_B. unfold B in *. lia. }
    pose proof (digit_split (a + c)%uint63) as Hd.
    assert (Hs : to_Z ((a + c) >> 31)%uint63 < B).
    { rewrite shr31, Es. apply Z.div_lt_upper_bound; [reflexivity|]. unfold B in *. lia. }
    destruct (IH _ Hs) as [E F]. cbn [val]. rewrite E. split; [lia|].
    constructor; [apply small_land|assumption].
Qed.

Lemma step_bound x d c a : 0 <= x < B -> 0 <= d < B -> 0 <= c < B -> 0 <= a < B ->
  0 <= x * d < wB /\ x * d + c < wB /\ a + (x * d + c) < B * B.
Proof.
  intros Hx Hd Hc Ha. assert (0 <= x * d) by (apply Z.mul_nonneg_nonneg; lia).
  assert (x * d <= (B - 1) * (B - 1)) by (apply Z.mul_le_mono_nonneg; lia).
  rewrite wB_B. unfold B in *. lia.
Qed.

Lemma mac_val x y acc c : small x -> Forall small y -> Forall small acc -> small c ->
  val (mac x y acc c) = val acc + to_Z x * val y + to_Z c /\ Forall small (mac x y acc c).
Proof.
  intros Hx Hy. revert acc c. induction Hy as [|d y' Hd Hy IH]; intros acc c Ha Hc.
  - cbn [mac val]. destruct (addc_val acc c Ha Hc) as [E F]. split; [lia|assumption].
  - assert (G : forall a, small a -> 
      to_Z (a + (x * d + c))%uint63 = to_Z a + (to_Z x * to_Z d + to_Z c) /\
      to_Z (x * d + c)%uint63 = to_Z x * to_Z d + to_Z c /\
      to_Z ((a + (x * d + c)) >> 31)%uint63 < B /\ to_Z ((x * d + c) >> 31)%uint63 < B).
    { intros a Ha'. unfold small in *.
      destruct (step_bound (to_Z x) (to_Z d) (to_Z c) (to_Z a)) as (B1 & B2 & B3);
        try (split; [apply to_Z_pos|assumption]).
      assert (E1 : to_Z (x * d)%uint63 = to_Z x * to_Z d) by (apply mul_val; lia).
      assert (E2 : to_Z (x * d + c)%uint63 = to_Z x * to_Z d + to_Z c).
      { rewrite <- E1. apply add_val. rewrite E1. assumption. }
      assert (E3 : to_Z (a + (x * d + c))%uint63 = to_Z a + (to_Z x * to_Z d + to_Z c)).
      { rewrite <- E2. apply add_val. rewrite E2, wB_B. unfold B in *. lia. }
      rewrite !shr31, E2, E3. pose proof (to_Z_pos a).
      repeat split; try (apply Z.div_lt_upper_bound; [reflexivity|]); lia. }
    destruct acc as [|a t]; cbn [mac].
    + destruct (G 0%uint63) as (_ & E & _ & Hs); [reflexivity|].
      destruct (IH [] _ (Forall_nil _) Hs) as [V F]. cbn [val] in *. rewrite V.
      pose proof (digit_split (x * d + c)%uint63).
      split; [lia|constructor; [apply small_land|assumption]].
    + inversion Ha as [|? ? Ha1 Ha2]; subst.
      destruct (G a Ha1) as (E & _ & Hs & _).
      destruct (IH t _ Ha2 Hs) as [V F]. cbn [val] in *. rewrite V.
      pose proof (digit_split (a + (x * d + c))%uint63).
      split; [lia|constructor; [apply small_land|assumption]].
Qed.

Section Mont.
Context (pinv : int) (p0 : int) (p' : list int).
Notation p := (p0 :: p').
Context (Hp : Forall small p).
Context (Hinv : (to_Z p0 * to_Z pinv) mod B = B - 1).

Lemma shift1_val acc : Forall small acc ->
  (exists m, B * val (shift1 pinv p acc) = val acc + m * val p) /\ Forall small (shift1 pinv p acc).
Proof.
  intros Ha. destruct acc as [|a t]; cbn [shift1].
  { split; [exists 0; reflexivity|constructor]. }
  set (m := ((a * pinv) land mask)%uint63).
  destruct (mac_val m p (a :: t) 0%uint63) as [V F]; try assumption.
  { apply small_land. } { reflexivity. }
  assert (Hd : exists rest, mac m p (a :: t) 0%uint63 = ((a + (m * p0 + 0)) land mask)%uint63 :: rest).
  { eexists. reflexivity. }
  destruct Hd as [rest Hd]. rewrite Hd in *. cbn [tl].
  assert (Z0 : to_Z ((a + (m * p0 + 0)) land mask)%uint63 = 0).
  { inversion Hp as [|? ? Hp0 _]; subst. inversion Ha as [|? ? Ha0 _]; subst.
    unfold small in *.
    assert (Hm : to_Z m < B) by apply small_land.
    destruct (step_bound (to_Z m) (to_Z p0) 0 (to_Z a)) as (B1 & B2 & B3);
      try (split; [apply to_Z_pos|assumption]); [unfold B; lia|].
    rewrite Z.add_0_r in *.
    assert (E1 : to_Z (m * p0)%uint63 = to_Z m * to_Z p0) by (apply mul_val; lia).
    assert (E2 : to_Z (m * p0 + 0)%uint63 = to_Z m * to_Z p0).
    { rewrite add_val; rewrite E1; change (to_Z 0%uint63) with 0; lia. }
    rewrite land_mask, add_val; rewrite E2; [|rewrite wB_B; unfold B in *; lia].
    assert (Em : to_Z m mod B = (to_Z a * to_Z pinv) mod B).
    { unfold m. rewrite land_mask, mul_spec, Z.mod_mod by discriminate.
      symmetry. apply Zmod_div_mod; try reflexivity. rewrite wB_B. exists (2 * B). ring. }
    rewrite <- Zplus_mod_idemp_r, <- (Zmult_mod_idemp_l (to_Z m)), Em, Zmult_mod_idemp_l.
    rewrite <- Z.mul_assoc, (Z.mul_comm (to_Z pinv)).
    rewrite <- (Zmult_mod_idemp_r (to_Z p0 * to_Z pinv)), Hinv, Zplus_mod_idemp_r.
    replace (to_Z a + to_Z a * (B - 1)) with (to_Z a * B) by ring. apply Z_mod_mult. }
  cbn [val] in V. rewrite Z0 in V. change (to_Z 0%uint63) with 0 in V.
  split.
  - exists (to_Z m). cbn [val]. lia.
  - inversion F; assumption.
Qed.

Lemma mont_val x y acc : Forall small x -> Forall small y -> Forall small acc ->
  (exists m, B ^ Z.of_nat (length x) * val (mont pinv p x y acc)
             = val acc + val x * val y + m * val p)
  /\ Forall small (mont pinv p x y acc).
Proof.
  intros Hx Hy. revert acc. induction Hx as [|d x' Hd Hx IH]; intros acc Ha; cbn [mont].
  - split; [exists 0; change (val []) with 0; cbn [length]; change (B ^ Z.of_nat 0) with 1; lia|assumption].
  - destruct (mac_val d y acc 0%uint63) as [V F]; try assumption; [reflexivity|].
    destruct (shift1_val _ F) as [[m Em] F2].
    destruct (IH _ F2) as [[m' Em'] F3]. split; [|assumption].
    exists (m + B * m'). cbn [length]. change (val (d :: x')) with (to_Z d + B * val x').
    rewrite Nat2Z.inj_succ, Z.pow_succ_r by lia.
    rewrite <- Z.mul_assoc, Em'. rewrite !Z.mul_add_distr_l, Em, V.
    change (to_Z 0%uint63) with 0. ring.
Qed.

(** ** Exponentiation *)
Context (n : nat).

Definition padn (x : list int) : list int := x ++ repeat 0%uint63 (n - length x).
Definition mulm (x y : list int) : option (list int) :=
  if Nat.leb (length x) n then Some (mont pinv p (padn x) y []) else None.
Lemma val_app_zeros x k : val (x ++ repeat 0%uint63 k) = val x.
Proof.
  induction x as [|d x IH]; cbn [app val]; [|rewrite IH; reflexivity].
  induction k as [|k IH]; cbn [repeat val]; [reflexivity|]. rewrite IH. reflexivity.
Qed.
Lemma padn_ok x : Forall small x -> (length x <= n)%nat ->
  Forall small (padn x) /\ val (padn x) = val x /\ length (padn x) = n.
Proof.
  intros S L. unfold padn. split; [|split; [apply val_app_zeros|rewrite app_length, repeat_length; lia]].
  apply Forall_app. split; [assumption|]. apply Forall_forall. intros d Hd.
  apply repeat_spec in Hd. subst d. reflexivity.
Qed.
Definition obind {A C} (o : option A) (f : A -> option C) : option C :=
  match o with Some a => f a | None => None end.
Fixpoint powm (e : positive) (x : list int) : option (list int) :=
  match e with
  | xH => Some x
  | xO e' => obind (powm e' x) (fun h => mulm h h)
  | xI e' => obind (obind (powm e' x) (fun h => mulm h h)) (fun h => mulm h x)
  end.

Notation P := (val p).
Notation R := (B ^ Z.of_nat n).
Context (HP : 1 < P).
Context (HR : rel_prime R P).

Definition mform (x : list int) (v : Z) : Prop :=
  Forall small x /\ (val x) mod P = (v * R) mod P.

Lemma R_cancel a b : (R * a) mod P = (R * b) mod P -> a mod P = b mod P.
Proof.
  intros H. assert (D : (P | R * (a - b))).
  { rewrite Z.mul_sub_distr_l. apply Z.mod_divide; [lia|].
    rewrite Zminus_mod, H, Z.sub_diag. apply Z.mod_0_l. lia. }
  apply Gauss in D; [|apply rel_prime_sym; assumption].
  destruct D as [k Hk]. replace a with (b + k * P) by lia. apply Z.mod_add. lia.
Qed.

Lemma mulm_form x y v w z : mform x v -> mform y w -> mulm x y = Some z -> mform z (v * w).
Proof.
  intros [Sx Vx] [Sy Vy]. unfold mulm. destruct (Nat.leb_spec (length x) n) as [L|]; [|discriminate].
  intros E. injection E as <-. destruct (padn_ok x Sx L) as (Sx' & Vp & L').
  destruct (mont_val (padn x) y [] Sx' Sy (Forall_nil _)) as [[m Em] F]. split; [assumption|].
  rewrite L', Vp in Em. apply R_cancel.
  change (val []) with 0 in Em. rewrite Z.add_0_l in Em.
  rewrite Em, Z.mod_add by lia. rewrite Zmult_mod, Vx, Vy, <- Zmult_mod. f_equal. ring.
Qed.

Lemma powm_form e x v z : mform x v -> powm e x = Some z -> mform z (v ^ Zpos e).
Proof.
  intros Hx. revert z. induction e as [e IH|e IH|]; intros z; cbn [powm].
  - destruct (powm e x) as [h|]; cbn [obind]; [|discriminate].
    destruct (mulm h h) as [h2|] eqn:E; cbn [obind]; [|discriminate]. intros E2.
    specialize (IH h eq_refl).
    pose proof (mulm_form _ _ _ _ _ IH IH E) as F2.
    pose proof (mulm_form _ _ _ _ _ F2 Hx E2) as F3.
    replace (v ^ Zpos e~1) with (v ^ Zpos e * v ^ Zpos e * v); [assumption|].
    rewrite Pos2Z.inj_xI. rewrite Z.pow_add_r, Z.pow_1_r by lia.
    replace (2 * Zpos e) with (Zpos e + Zpos e) by ring. rewrite Z.pow_add_r by lia. ring.
  - destruct (powm e x) as [h|]; cbn [obind]; [|discriminate]. intros E.
    specialize (IH h eq_refl).
    pose proof (mulm_form _ _ _ _ _ IH IH E) as F2.
    replace (v ^ Zpos e~0) with (v ^ Zpos e * v ^ Zpos e); [assumption|].
    rewrite Pos2Z.inj_xO. replace (2 * Zpos e) with (Zpos e + Zpos e) by ring.
    rewrite Z.pow_add_r by lia. ring.
  - intros E. injection E as <-. rewrite Z.pow_1_r. assumption.
Qed.

(** Reading a number out of Montgomery form. *)
Definition outm (x : list int) : option (list int) := mulm x [1%uint63].

Definition is_val (x : list int) (v : Z) : bool :=
  match outm x with
  | Some z => (val z =? v) || (val z =? v + P)
  | None => false
  end.

Lemma is_val_form x v : Forall small x -> is_val x v = true -> mform x v.
Proof.
  intros Sx. unfold is_val, outm, mulm. destruct (Nat.leb_spec (length x) n) as [L|]; [|discriminate].
  intros E. split; [assumption|]. destruct (padn_ok x Sx L) as (Sx' & Vp & L').
  destruct (mont_val (padn x) [1%uint63] [] Sx') as [[m Em] F].
  { constructor; [reflexivity|constructor]. } { constructor. }
  rewrite L', Vp in Em. change (val [1%uint63]) with 1 in Em. change (val []) with 0 in Em.
  rewrite Z.add_0_l, Z.mul_1_r in Em.
  assert (Ev : (val (mont pinv p (padn x) [1%uint63] [])) mod P = v mod P).
  { apply orb_prop in E. destruct E as [E|E]; apply Z.eqb_eq in E; rewrite E; [reflexivity|].
    replace (v + P) with (v + 1 * P) by ring. apply Z.mod_add. lia. }
  rewrite (Z.mul_comm v), <- Zmult_mod_idemp_r, <- Ev, Zmult_mod_idemp_r, Em.
  symmetry. apply Z.mod_add. lia.
Qed.

Lemma form_is_val x v w : mform x v -> is_val x w = true -> v mod P = w mod P.
Proof.
  intros [S V] E. apply is_val_form in E; [|assumption]. destruct E as [_ E].
  rewrite V in E. rewrite !(Z.mul_comm _ R) in E. apply R_cancel in E. exact E.
Qed.
End Mont.

Definition smallb (l : list int) : bool := forallb (fun d => (d <? 2147483648)%uint63) l.
Lemma smallb_ok l : smallb l = true -> Forall small l.
Proof.
  intros H. apply Forall_forall. intros d Hd. unfold smallb in H. rewrite forallb_forall in H.
  specialize (H d Hd). apply ltb_spec in H. exact H.
Qed.

(** Boolean certificate: a^e = t modulo the odd number written in [p]. *)
Definition pow_check (pinv : int) (p am : list int) (a : Z) (e : positive) (t : Z) : bool :=
  match p with
  | [] => false
  | p0 :: p' =>
      smallb p && smallb am && ((to_Z p0 * to_Z pinv) mod B =? B - 1) && (1 <? val p)
      && Z.odd (val p) && is_val pinv p0 p' (length p) am a
      && match powm pinv p0 p' (length p) e am with
         | Some z => is_val pinv p0 p' (length p) z t
         | None => false
         end
  end.

Lemma odd_rel_prime_pow2 k m : 0 <= k -> Z.odd m = true -> rel_prime (2 ^ k) m.
Proof.
  intros Hk Hm. apply rel_prime_sym, rel_prime_Zpower_r; [assumption|].
  apply rel_prime_sym, prime_rel_prime; [apply prime_2|].
  intros D. destruct D as [q Hq]. rewrite Hq, Z.odd_mul, andb_false_r in Hm. discriminate.
Qed.

Theorem pow_check_ok pinv p am a e t :
  pow_check pinv p am a e t = true -> (a ^ Zpos e) mod val p = t mod val p.
Proof.
  unfold pow_check. destruct p as [|p0 p']; [discriminate|].
  rewrite !andb_true_iff. intros [[[[[[H Sa] Hi] H1] Ho] Ea] Ez'].
  apply smallb_ok in H. apply smallb_ok in Sa. apply Z.eqb_eq in Hi. apply Z.ltb_lt in H1.
  assert (HR : rel_prime (B ^ Z.of_nat (length (p0 :: p'))) (val (p0 :: p'))).
  { unfold B. rewrite <- Z.pow_mul_r by lia. apply odd_rel_prime_pow2; [lia|assumption]. }
  apply is_val_form in Ea; try assumption.
  destruct (powm pinv p0 p' (length (p0 :: p')) e am) as [z|] eqn:Ez; [|discriminate].
  pose proof (powm_form pinv p0 p' H Hi _ H1 HR _ _ _ _ Ea Ez) as Fz.
  eapply form_is_val; eassumption.
Qed.

(** Boolean certificate: a*b = t modulo the odd number written in [p]. *)
Definition mul_check (pinv : int) (p am bm : list int) (a b t : Z) : bool :=
  match p with
  | [] => false
  | p0 :: p' =>
      smallb p && smallb am && smallb bm && ((to_Z p0 * to_Z pinv) mod B =? B - 1) && (1 <? val p)
      && Z.odd (val p) && is_val pinv p0 p' (length p) am a && is_val pinv p0 p' (length p) bm b
      && match mulm pinv p0 p' (length p) am bm with
         | Some z => is_val pinv p0 p' (length p) z t
         | None => false
         end
  end.

Theorem mul_check_ok pinv p am bm a b t :
  mul_check pinv p am bm a b t = true -> (a * b) mod val p = t mod val p.
Proof.
  unfold mul_check. destruct p as [|p0 p']; [discriminate|].
  rewrite !andb_true_iff. intros [[[[[[[[H Sa] Sb] Hi] H1] Ho] Ea] Eb] Ez'].
  apply smallb_ok in H. apply smallb_ok in Sa. apply smallb_ok in Sb.
  apply Z.eqb_eq in Hi. apply Z.ltb_lt in H1.
  assert (HR : rel_prime (B ^ Z.of_nat (length (p0 :: p'))) (val (p0 :: p'))).
  { unfold B. rewrite <- Z.pow_mul_r by lia. apply odd_rel_prime_pow2; [lia|assumption]. }
  apply is_val_form in Ea; try assumption. apply is_val_form in Eb; try assumption.
  destruct (mulm pinv p0 p' (length (p0 :: p')) am bm) as [z|] eqn:Ez; [|discriminate].
  pose proof (mulm_form pinv p0 p' H Hi _ H1 HR _ _ _ _ _ Ea Eb Ez) as Fz.
  eapply form_is_val; eassumption.
Qed.
