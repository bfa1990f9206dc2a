(** Exponentiation: right-to-left binary, Montgomery ladder and fixed windows. *)
From Coq Require Import Znumtheory Zdiv Setoid Morphisms.
From Verif Require Import Base LimbModel LimbSpec LimbWord LimbProofs LimbKara MontProofs.
Open Scope Z_scope.

(** ** Bits of an array *)
Lemma lval_get b : Forall limb b -> forall i, get b i = (lval b / Wn i) mod W64.
Proof.
  induction 1 as [|x b Hx Fb IH]; intros i.
  - cbn [lval]. rewrite Z.div_0_l by (pose proof (Wn_pos i); lia). unfold get. destruct i; reflexivity.
  - rewrite lval_cons. rewrite limb_W in Hx. pose proof W64_pos. destruct i as [|i].
    + rewrite Wn_0, Z.div_1_r. unfold get. cbn [nth]. rewrite (Z.mul_comm W64), Z.mod_add, Z.mod_small; lia.
    + change (get (x :: b) (S i)) with (get b i). rewrite IH, Wn_S.
      rewrite <- Z.div_div by (pose proof (Wn_pos i); lia).
      rewrite (Z.mul_comm W64 (lval b)), Z.div_add, (Z.div_small x) by lia. reflexivity.
Qed.
Lemma lval_testbit b i : Forall limb b -> 0 <= i ->
  Z.testbit (lval b) i = Z.testbit (get b (Z.to_nat (i / 64))) (i mod 64).
Proof.
  intros F Hi. rewrite lval_get by trivial. change W64 with (2 ^ 64).
  rewrite Wn_pow2, Z2Nat.id by (apply Z.div_pos; lia).
  pose proof (Z.mod_pos_bound i 64 ltac:(lia)).
  rewrite Z.mod_pow2_bits_low by lia. rewrite Z.div_pow2_bits by (try apply Z.mul_nonneg_nonneg; try apply Z.div_pos; lia).
  f_equal. pose proof (Z.div_mod i 64). lia.
Qed.
Lemma exp_bit_spec b i : Forall limb b -> 0 <= i -> exp_bit b i = Z.b2z (Z.testbit (lval b) i).
Proof.
  intros F Hi. unfold exp_bit. rewrite land_one_odd, <- Z.bit0_odd, Z.shiftr_spec, Z.add_0_l by lia.
  now rewrite lval_testbit.
Qed.
Lemma exp_window_spec len b i : Forall limb b -> 0 <= i -> i mod 4 = 0 ->
  exp_window len b i = (lval b / 2 ^ i) mod 16.
Proof.
  intros F Hi H4. unfold exp_window.
  set (j := i mod 64).
  assert (Bj : 0 <= j <= 60).
  { pose proof (Z.mod_pos_bound i 64 ltac:(lia)) as B. fold j in B.
    assert (j mod 4 = 0).
    { unfold j. rewrite <- H4. rewrite (Z.div_mod i 64) at 2 by lia.
      replace (64 * (i / 64)) with (16 * (i / 64) * 4) by ring. rewrite Z.add_comm, Z.mod_add by lia. reflexivity. }
    pose proof (Z.div_mod j 4). lia. }
  assert (Tail : Z.land (Z.shiftr (get b (Z.to_nat (i / 64))) j) 15 = (lval b / 2 ^ i) mod 16).
  { change 15 with (Z.ones 4). rewrite Z.land_ones by lia. change (2 ^ 4) with 16.
    rewrite <- Z.shiftr_div_pow2 by lia. change 16 with (2 ^ 4).
    apply Z.bits_inj'. intros n Hn. destruct (Z.lt_ge_cases n 4).
    - rewrite !Z.mod_pow2_bits_low, !Z.shiftr_spec by lia. rewrite (lval_testbit b (n + i)) by (trivial; lia).
      assert (E : n + i = (i / 64) * 64 + (n + j)) by (unfold j; pose proof (Z.div_mod i 64); lia).
      rewrite E. rewrite Z.div_add_l, (Z.div_small (n + j)), Z.add_0_r by lia.
      rewrite (Z.add_comm (i / 64 * 64)), Z.mod_add, Z.mod_small by lia. reflexivity.
    - now rewrite !Z.mod_pow2_bits_high by lia. }
  destruct ((i / 64 + 1 <? len) && (0 <? j)); [|exact Tail].
  rewrite Z.land_lor_distr_l, Tail.
  assert (HZ : Z.land (u64 (Z.shiftl (get b (Z.to_nat (i / 64 + 1))) (64 - j))) 15 = 0).
  { change 15 with (Z.ones 4). rewrite Z.land_ones by lia.
    unfold u64. change W64 with (2 ^ 64). rewrite Z.shiftl_mul_pow2 by lia.
    apply Z.bits_inj'. intros n Hn. rewrite Z.bits_0. destruct (Z.lt_ge_cases n 4).
    - rewrite !Z.mod_pow2_bits_low by lia. apply Z.mul_pow2_bits_low. lia.
    - now rewrite Z.mod_pow2_bits_high by lia. }
  now rewrite HZ, Z.lor_0_r.
Qed.

Lemma b2z_bit x : bit (Z.b2z x).
Proof. destruct x; [right|left]; reflexivity. Qed.

(** ** Conditional swap *)
Lemma cswap_spec n m a b : limbs n a -> limbs n b -> m = 0 \/ m = W64 - 1 ->
  cswap m a b = if m =? 0 then (a, b) else (b, a).
Proof.
  intros [La Fa] [Lb Fb] Hm. subst n. revert b Lb Fb.
  induction Fa as [|x a Hx Fa IH]; intros [|y b] Lb Fb; try discriminate Lb.
  { cbn. now destruct (m =? 0). }
  inversion_clear Fb as [|? ? Hy Fb']. cbn [cswap].
  rewrite (IH b) by (trivial; now injection Lb).
  destruct Hm as [-> | ->].
  - cbn [Z.eqb]. now rewrite Z.land_0_l, !Z.lxor_0_r.
  - change (W64 - 1 =? 0) with false. cbv iota. rewrite ones_land by now apply lxor_limb.
    rewrite <- Z.lxor_assoc, Z.lxor_nilpotent, Z.lxor_0_l.
    rewrite (Z.lxor_comm x y), <- Z.lxor_assoc, Z.lxor_nilpotent, Z.lxor_0_l. reflexivity.
Qed.

Section Exp.
Context (len : nat) (N : Z) (k : mont_ctx) (OK : ctx_ok len N k).
Notation mr := (mr len N).
Notation n := (mc_n k).
Notation mu := (mc_mu k).
Notation amul := (amont_mul (mc_n k) (mc_mu k)).
Notation asqr := (amont_sqr (mc_n k) (mc_mu k)).

Lemma mr_eq x X Y : X = Y -> mr x X -> mr x Y. Proof. now intros ->. Qed.

Lemma mod_pow2_S B i : 0 <= i -> B mod 2 ^ (i + 1) = B mod 2 ^ i + 2 ^ i * Z.b2z (Z.testbit B i).
Proof.
  intros Hi. rewrite Z.pow_add_r by lia. change (2 ^ 1) with 2.
  rewrite Z.rem_mul_r by (try apply Z.pow_nonzero; lia). rewrite Z.testbit_spec' by lia. reflexivity.
Qed.

(** *** Right to left *)
Lemma bin_loop_spec b a0 aM one : Forall limb b -> mr aM a0 -> mr one 1 -> forall i,
  let st := fold_left (bin_step n mu b) (seq 0 i) (one, aM) in
  mr (fst st) (a0 ^ (lval b mod 2 ^ Z.of_nat i)) /\ mr (snd st) (a0 ^ (2 ^ Z.of_nat i)).
Proof.
  intros F Ha H1. induction i as [|i IH].
  - cbn [seq fold_left fst snd]. change (2 ^ Z.of_nat 0) with 1. rewrite Z.mod_1_r, Z.pow_0_r, Z.pow_1_r. now split.
  - rewrite seq_S, fold_left_app. cbn [fold_left Nat.add]. cbv zeta in *.
    destruct (fold_left _ _ _) as [r a] eqn:E. cbn [fst snd] in *. destruct IH as [Ir Ia].
    unfold bin_step. rewrite exp_bit_spec by (trivial; lia). cbn [fst snd].
    rewrite Nat2Z.inj_succ, <- Z.add_1_r. rewrite mod_pow2_S by lia.
    assert (P : 0 < 2 ^ Z.of_nat i) by (apply Z.pow_pos_nonneg; lia).
    pose proof (Z.mod_pos_bound (lval b) (2 ^ Z.of_nat i) P).
    split.
    + destruct (Z.testbit (lval b) (Z.of_nat i)); cbn [Z.b2z Z.eqb].
      * rewrite Z.mul_1_r, Z.pow_add_r by lia. now apply amont_mul_spec.
      * rewrite Z.mul_0_r, Z.add_0_r. exact Ir.
    + rewrite (Z.pow_add_r 2) by lia. change (2 ^ 1) with 2. rewrite Z.mul_comm.
      replace (2 * 2 ^ Z.of_nat i) with (2 ^ Z.of_nat i + 2 ^ Z.of_nat i) by ring.
      rewrite Z.pow_add_r by lia. now apply amont_sqr_spec.
Qed.

(** *** Montgomery ladder *)
Lemma div_pow2_S B s : 0 <= B -> 0 <= s -> B / 2 ^ s = 2 * (B / 2 ^ (s + 1)) + Z.b2z (Z.testbit B s).
Proof.
  intros HB Hs. rewrite Z.testbit_spec' by lia. rewrite Z.pow_add_r by lia. change (2 ^ 1) with 2.
  rewrite <- Z.div_div by (try apply Z.pow_nonzero; lia). apply Z.div_mod. lia.
Qed.
Lemma ladder_spec b a0 aM one bBits : Forall limb b -> 0 <= bBits -> mr aM a0 -> mr one 1 -> forall i,
  (i <= Z.to_nat bBits)%nat ->
  let '(sw, (r, a)) := fold_left (ladder_step n mu bBits b) (seq 0 i) (0, (one, aM)) in
  let E := (lval b mod 2 ^ bBits) / 2 ^ (bBits - Z.of_nat i) in
  bit sw /\ (if sw =? 0 then mr r (a0 ^ E) /\ mr a (a0 ^ (E + 1))
             else mr r (a0 ^ (E + 1)) /\ mr a (a0 ^ E)).
Proof.
  intros F Hb Ha H1.
  assert (PB : 0 < 2 ^ bBits) by (apply Z.pow_pos_nonneg; lia).
  pose proof (Z.mod_pos_bound (lval b) (2 ^ bBits) PB) as BB.
  induction i as [|i IH]; intros Hi.
  - cbn [seq fold_left]. change (Z.of_nat 0) with 0. rewrite Z.sub_0_r. cbv zeta.
    rewrite Z.div_small by lia. cbn [Z.eqb]. change (0 + 1) with 1. rewrite Z.pow_0_r, Z.pow_1_r.
    split; [now left|]. now split.
  - rewrite seq_S, fold_left_app. cbn [fold_left Nat.add]. specialize (IH ltac:(lia)).
    destruct (fold_left _ _ _) as [sw [r a]]. cbv zeta in IH. destruct IH as [Hsw IH].
    unfold ladder_step. cbv zeta.
    set (s := bBits - Z.of_nat i - 1). rewrite exp_bit_spec by (trivial; subst s; lia).
    assert (TB : Z.testbit (lval b) s = Z.testbit (lval b mod 2 ^ bBits) s).
    { rewrite Z.mod_pow2_bits_low by (subst s; lia). reflexivity. }
    rewrite TB. replace (bBits - Z.of_nat (S i)) with s by (subst s; lia).
    rewrite (div_pow2_S (lval b mod 2 ^ bBits) s) by (subst s; lia).
    replace (s + 1) with (bBits - Z.of_nat i) by (subst s; lia).
    set (E := (lval b mod 2 ^ bBits) / 2 ^ (bBits - Z.of_nat i)) in *.
    assert (HE : 0 <= E) by (apply Z.div_pos; [lia|apply Z.pow_pos_nonneg; lia]).
    set (bt := Z.b2z (Z.testbit (lval b mod 2 ^ bBits) s)).
    assert (Hbt : bit bt) by apply b2z_bit.
    clearbody bt.
    assert (Lr : limbs len r) by (destruct (sw =? 0); apply IH).
    assert (La : limbs len a) by (destruct (sw =? 0); apply IH).
    assert (Hx : bit (Z.lxor bt sw)) by (destruct Hbt as [-> | ->], Hsw as [-> | ->]; (now left) || (now right)).
    rewrite u64_neg_bit by trivial.
    rewrite (cswap_spec len) by (trivial; destruct (Z.lxor bt sw =? 0); auto).
    assert (SW : (if (if Z.lxor bt sw =? 0 then 0 else W64 - 1) =? 0 then (r, a) else (a, r))
                 = if bt =? sw then (r, a) else (a, r)).
    { destruct Hbt as [-> | ->], Hsw as [-> | ->]; reflexivity. }
    rewrite SW. clear SW Hx.
    assert (Dbl : forall x, mr x (a0 ^ E) -> mr (asqr x) (a0 ^ (2 * E))).
    { intros x Hx. replace (2 * E) with (E + E) by ring. rewrite Z.pow_add_r by lia. now apply amont_sqr_spec. }
    assert (Dbl1 : forall x, mr x (a0 ^ (E + 1)) -> mr (asqr x) (a0 ^ (2 * E + 1 + 1))).
    { intros x Hx. replace (2 * E + 1 + 1) with (E + 1 + (E + 1)) by ring. rewrite Z.pow_add_r by lia. now apply amont_sqr_spec. }
    assert (Mix1 : forall x y, mr x (a0 ^ E) -> mr y (a0 ^ (E + 1)) -> mr (amul y x) (a0 ^ (2 * E + 1))).
    { intros x y Hx Hy. replace (2 * E + 1) with (E + 1 + E) by ring. rewrite Z.pow_add_r by lia. now apply amont_mul_spec. }
    assert (Mix2 : forall x y, mr x (a0 ^ E) -> mr y (a0 ^ (E + 1)) -> mr (amul x y) (a0 ^ (2 * E + 1))).
    { intros x y Hx Hy. replace (2 * E + 1) with (E + (E + 1)) by ring. rewrite Z.pow_add_r by lia. now apply amont_mul_spec. }
    destruct Hbt as [-> | ->], Hsw as [-> | ->]; cbn [Z.eqb Pos.eqb] in *; destruct IH as [I1 I2];
      (split; [(now left) || (now right)|]); rewrite ?Z.add_0_r; split;
      try (now apply Dbl); try (now apply Dbl1); try (now apply Mix1); try (now apply Mix2).
Qed.

(** *** Fixed windows *)
Lemma pow_table_spec aM a0 : mr aM a0 -> forall c last e, mr last (a0 ^ e) -> 0 <= e ->
  length (pow_table n mu aM c last) = S c /\
  forall i, (i <= c)%nat -> mr (nth i (pow_table n mu aM c last) []) (a0 ^ (e + Z.of_nat i)).
Proof.
  intros Ha. induction c as [|c IH]; intros last e Hl He.
  - cbn [pow_table length]. split; [trivial|]. intros i Hi. destruct i; [|lia]. cbn [nth]. change (Z.of_nat 0) with 0. now rewrite Z.add_0_r.
  - cbn [pow_table length].
    assert (M : mr (amul aM last) (a0 ^ (e + 1))).
    { rewrite Z.pow_add_r, Z.pow_1_r, Z.mul_comm by lia. now apply amont_mul_spec. }
    destruct (IH _ _ M ltac:(lia)) as [I1 I2]. split; [now rewrite I1|].
    intros [|i] Hi; cbn [nth]. { change (Z.of_nat 0) with 0. now rewrite Z.add_0_r. }
    replace (e + Z.of_nat (S i)) with (e + 1 + Z.of_nat i) by lia. apply I2. lia.
Qed.

(** An access function that returns the entry asked for. *)
Definition picks (sel_entry : list (list Z) -> Z -> list Z) : Prop :=
  forall table bits, (forall i, (i <= 15)%nat -> limbs len (nth i table [])) -> 0 <= bits < 16 ->
  sel_entry table bits = nth (Z.to_nat bits) table [].
Lemma table_get_picks : picks table_get.
Proof. intros table bits _ _. reflexivity. Qed.
Lemma table_scan_picks : picks table_scan.
Proof.
  intros table bits HT HB. unfold table_scan.
  assert (Lb : limb bits) by (split; [lia|]; apply Z.lt_trans with 16; [lia|reflexivity]).
  assert (I : forall m, (m <= 15)%nat ->
    fold_left (fun acc i => sel_loop (eq_mask bits (Z.of_nat i)) (nth i table []) acc) (seq 1 m) (nth 0 table [])
    = nth (if (Z.to_nat bits <=? m)%nat then Z.to_nat bits else 0) table []).
  { induction m as [|m IH]; intros Hm.
    - cbn [seq fold_left]. destruct (Nat.leb_spec (Z.to_nat bits) 0); [|trivial]. f_equal. lia.
    - rewrite seq_S, fold_left_app. cbn [fold_left Nat.add]. rewrite IH by lia.
      assert (Lm : limb (Z.of_nat (S m))) by (split; [lia|]; apply Z.lt_trans with 16; [lia|reflexivity]).
      rewrite eq_mask_spec by trivial.
      destruct (Z.eqb_spec bits (Z.of_nat (S m))) as [E|E].
      + rewrite (sel_loop_ones len); [|apply HT; lia|apply HT; destruct (_ <=? _)%nat; lia].
        replace (Z.to_nat bits) with (S m) by lia. now rewrite Nat.leb_refl.
      + rewrite (sel_loop_zero len); [|apply HT; lia|apply HT; destruct (_ <=? _)%nat; lia].
        f_equal. destruct (Nat.leb_spec (Z.to_nat bits) m), (Nat.leb_spec (Z.to_nat bits) (S m)); lia. }
  rewrite I by lia. destruct (Nat.leb_spec (Z.to_nat bits) 15); [reflexivity|lia].
Qed.

Lemma iter_sqr4 x X : mr x X -> mr (Nat.iter 4 asqr x) (X ^ 16).
Proof.
  intros H. cbn [Nat.iter nat_rect].
  replace (X ^ 16) with ((X * X) * (X * X) * ((X * X) * (X * X)) * ((X * X) * (X * X) * ((X * X) * (X * X)))) by ring.
  repeat apply (amont_sqr_spec len N k OK). exact H.
Qed.
Lemma div_pow2_4 B s : 0 <= s -> B / 2 ^ s = 16 * (B / 2 ^ (s + 4)) + (B / 2 ^ s) mod 16.
Proof.
  intros Hs. rewrite Z.pow_add_r by lia. change (2 ^ 4) with 16.
  rewrite <- Z.div_div by (try apply Z.pow_nonzero; lia). apply Z.div_mod. lia.
Qed.
Lemma mod_div_window B K s : 0 <= s -> s + 4 <= K -> ((B mod 2 ^ K) / 2 ^ s) mod 16 = (B / 2 ^ s) mod 16.
Proof.
  intros Hs HK. change 16 with (2 ^ 4). apply Z.bits_inj'. intros i Hi. destruct (Z.lt_ge_cases i 4).
  - rewrite !Z.mod_pow2_bits_low, !Z.div_pow2_bits, Z.mod_pow2_bits_low by lia. reflexivity.
  - now rewrite !Z.mod_pow2_bits_high by lia.
Qed.

(** The exponent actually read: the low [bBits] bits rounded up to whole
    windows. *)
Definition win_bits (bBits : Z) : Z := bBits - bBits mod 4 + (if bBits mod 4 =? 0 then 0 else 4).

Lemma win_loop_spec sel_entry table b a0 bBits r0 : picks sel_entry -> Forall limb b -> 0 <= bBits ->
  (forall i, (i <= 15)%nat -> mr (nth i table []) (a0 ^ Z.of_nat i)) ->
  let B := lval b mod 2 ^ win_bits bBits in
  let bk := bBits - bBits mod 4 in
  mr r0 (a0 ^ (B / 2 ^ bk)) -> forall i, (i <= Z.to_nat (bBits / 4))%nat ->
  mr (fold_left (win_step sel_entry n mu table bBits b) (seq 0 i) r0) (a0 ^ (B / 2 ^ (bk - 4 * Z.of_nat i))).
Proof.
  intros HP F Hb HT B bk H0.
  assert (Ebk : bk = 4 * (bBits / 4)) by (unfold bk; pose proof (Z.div_mod bBits 4); lia).
  assert (Q4 : 0 <= bBits / 4) by (apply Z.div_pos; lia).
  assert (K4 : bk <= win_bits bBits) by (unfold win_bits; fold bk; destruct (_ =? _); lia).
  assert (BB : 0 <= B) by (apply Z.mod_pos_bound, Z.pow_pos_nonneg; lia).
  induction i as [|i IH]; intros Hi.
  - cbn [seq fold_left]. change (Z.of_nat 0) with 0. rewrite Z.mul_0_r, Z.sub_0_r. exact H0.
  - rewrite seq_S, fold_left_app. cbn [fold_left Nat.add]. specialize (IH ltac:(lia)).
    remember (fold_left _ _ _) as r. unfold win_step. cbv zeta. fold bk.
    set (s := bk - 4 * Z.of_nat i - 4).
    assert (Hs : 0 <= s) by (unfold s; lia).
    rewrite exp_window_spec by (trivial; unfold s; rewrite Ebk;
      replace (4 * (bBits / 4) - 4 * Z.of_nat i - 4) with ((bBits / 4 - Z.of_nat i - 1) * 4) by ring; apply Z.mod_mul; lia).
    replace (bk - 4 * Z.of_nat (S i)) with s by (unfold s; lia).
    assert (Hw : 0 <= (lval b / 2 ^ s) mod 16 < 16) by (apply Z.mod_pos_bound; lia).
    rewrite HP; [|intros j Hj; apply HT; lia|trivial].
    rewrite (div_pow2_4 B s) by trivial. unfold B at 2. rewrite mod_div_window by (unfold s; lia).
    replace (s + 4) with (bk - 4 * Z.of_nat i) by (unfold s; lia).
    assert (HE : 0 <= B / 2 ^ (bk - 4 * Z.of_nat i)) by (apply Z.div_pos; [trivial|apply Z.pow_pos_nonneg; lia]).
    rewrite Z.pow_add_r by lia. apply amont_mul_spec; trivial.
    + rewrite (Z.mul_comm 16), Z.pow_mul_r by lia. now apply iter_sqr4.
    + rewrite <- (Z2Nat.id ((lval b / 2 ^ s) mod 16)) at 2 by lia. apply HT. lia.
Qed.

Lemma win_exp_spec sel_entry a bBits b : picks sel_entry -> limbs len a -> Forall limb b -> 0 <= bBits ->
  let r := win_exp sel_entry n mu (mc_r2 k) a bBits b in
  limbs len r /\ lval r = lval a ^ (lval b mod 2 ^ win_bits bBits) mod N.
Proof.
  intros HP Ha F Hb. unfold win_exp. cbv zeta.
  assert (Ln : length n = len) by apply (co_mod _ _ _ OK). rewrite Ln.
  destruct (to_mont_spec len N k OK a Ha) as [HA _]. unfold to_mont in HA.
  set (aM := reduction n mu (lb_kmul a (mc_r2 k))) in *.
  pose proof (ctx_one_spec len N k OK) as H1.
  set (one := reduction n mu (mc_r2 k ++ zeros len)) in *.
  assert (H1' : mr one (lval a ^ 0)) by now rewrite Z.pow_0_r.
  destruct (pow_table_spec aM (lval a) HA 15 one 0 H1' ltac:(lia)) as [_ HT].
  set (table := pow_table n mu aM 15 one) in *.
  assert (HT' : forall i, (i <= 15)%nat -> mr (nth i table []) (lval a ^ Z.of_nat i)).
  { intros i Hi. specialize (HT i Hi). now rewrite Z.add_0_l in HT. }
  set (B := lval b mod 2 ^ win_bits bBits). set (bk := bBits - bBits mod 4).
  assert (Ebk : bk = 4 * (bBits / 4)) by (unfold bk; pose proof (Z.div_mod bBits 4); lia).
  assert (Q4 : 0 <= bBits / 4) by (apply Z.div_pos; lia).
  set (r0 := if bBits mod 4 =? 0 then one else _).
  assert (H0 : mr r0 (lval a ^ (B / 2 ^ bk))).
  { unfold r0, B, win_bits. fold bk. destruct (Z.eqb_spec (bBits mod 4) 0) as [E4|E4].
    - rewrite Z.add_0_r. rewrite Z.div_small by (apply Z.mod_pos_bound, Z.pow_pos_nonneg; lia). exact H1'.
    - replace (bBits / 4 * 4) with bk by lia.
      rewrite exp_window_spec by (trivial; try lia; rewrite Ebk, Z.mul_comm; apply Z.mod_mul; lia).
      assert (Hw : 0 <= (lval b / 2 ^ bk) mod 16 < 16) by (apply Z.mod_pos_bound; lia).
      rewrite HP; [|intros j Hj; apply HT'; lia|trivial].
      assert (Ew : (lval b mod 2 ^ (bk + 4)) / 2 ^ bk = (lval b / 2 ^ bk) mod 16).
      { rewrite <- (mod_div_window _ (bk + 4)) by lia. symmetry. apply Z.mod_small.
        assert (0 < 2 ^ bk) by (apply Z.pow_pos_nonneg; lia).
        split; [apply Z.div_pos; [apply Z.mod_pos_bound, Z.pow_pos_nonneg; lia|trivial]|].
        apply Z.div_lt_upper_bound; [trivial|]. change 16 with (2 ^ 4). rewrite <- Z.pow_add_r by lia.
        apply Z.mod_pos_bound, Z.pow_pos_nonneg; lia. }
      rewrite Ew. rewrite <- (Z2Nat.id ((lval b / 2 ^ bk) mod 16)) at 2 by lia. apply HT'. lia. }
  pose proof (win_loop_spec sel_entry table b (lval a) bBits r0 HP F Hb HT' H0 (Z.to_nat (bBits / 4)) (le_n _)) as HL.
  rewrite Z2Nat.id in HL by lia. fold bk B in HL. rewrite Ebk, Z.sub_diag, Z.pow_0_r, Z.div_1_r in HL.
  pose proof (from_mont_spec len N k OK _ _ HL) as G. unfold from_mont in G. rewrite Ln in G. exact G.
Qed.

(** ** The exported functions *)
Definition exp_bits (bBits : Z) : Z := if bBits <? 200 then bBits else win_bits bBits.

Lemma exp_vartime_spec a bBits b : limbs len a -> Forall limb b -> 0 <= bBits ->
  let r := exp_vartime n mu (mc_r2 k) a bBits b in
  limbs len r /\ lval r = lval a ^ (lval b mod 2 ^ exp_bits bBits) mod N.
Proof.
  intros Ha F Hb. unfold exp_vartime, exp_bits. destruct (bBits <? 200).
  2:{ apply win_exp_spec; trivial. apply table_get_picks. }
  cbv zeta. assert (Ln : length n = len) by apply (co_mod _ _ _ OK). rewrite Ln.
  destruct (to_mont_spec len N k OK a Ha) as [HA _]. unfold to_mont in HA.
  pose proof (ctx_one_spec len N k OK) as H1.
  pose proof (bin_loop_spec b (lval a) _ _ F HA H1 (Z.to_nat bBits)) as HL. cbv zeta in HL.
  destruct (fold_left _ _ _) as [r x]. cbn [fst snd] in HL. rewrite Z2Nat.id in HL by trivial.
  pose proof (from_mont_spec len N k OK _ _ (proj1 HL)) as G. unfold from_mont in G. rewrite Ln in G. exact G.
Qed.
Lemma exp_consttime_spec a bBits b : limbs len a -> Forall limb b -> 0 <= bBits ->
  let r := exp_consttime n mu (mc_r2 k) a bBits b in
  limbs len r /\ lval r = lval a ^ (lval b mod 2 ^ exp_bits bBits) mod N.
Proof.
  intros Ha F Hb. unfold exp_consttime, exp_bits. destruct (bBits <? 200).
  2:{ apply win_exp_spec; trivial. apply table_scan_picks. }
  cbv zeta. assert (Ln : length n = len) by apply (co_mod _ _ _ OK). rewrite Ln.
  destruct (to_mont_spec len N k OK a Ha) as [HA _]. unfold to_mont in HA.
  pose proof (ctx_one_spec len N k OK) as H1.
  pose proof (ladder_spec b (lval a) _ _ bBits F Hb HA H1 (Z.to_nat bBits) (le_n _)) as HL.
  destruct (fold_left _ _ _) as [sw [r x]]. cbv zeta in HL.
  rewrite Z2Nat.id, Z.sub_diag, Z.pow_0_r, Z.div_1_r in HL by trivial. destruct HL as [Hsw HL].
  assert (Lr : limbs len r) by (destruct (sw =? 0); apply HL).
  assert (Lx : limbs len x) by (destruct (sw =? 0); apply HL).
  rewrite u64_neg_bit by trivial.
  rewrite (cswap_spec len) by (trivial; destruct (sw =? 0); auto).
  destruct Hsw as [-> | ->].
  - cbn [Z.eqb] in *. pose proof (from_mont_spec len N k OK _ _ (proj1 HL)) as G.
    unfold from_mont in G. rewrite Ln in G. exact G.
  - cbn [Z.eqb] in *. change (W64 - 1 =? 0) with false. cbv iota.
    pose proof (from_mont_spec len N k OK _ _ (proj2 HL)) as G.
    unfold from_mont in G. rewrite Ln in G. exact G.
Qed.
End Exp.

Lemma exp_bits_4 bBits : bBits mod 4 = 0 -> exp_bits bBits = bBits.
Proof. intros H. unfold exp_bits, win_bits. rewrite H. cbn [Z.eqb]. destruct (bBits <? 200); lia. Qed.
Lemma exp_bits_ge bBits : 0 <= bBits -> bBits <= exp_bits bBits.
Proof.
  intros H. unfold exp_bits, win_bits. destruct (bBits <? 200); [lia|].
  pose proof (Z.mod_pos_bound bBits 4). destruct (Z.eqb_spec (bBits mod 4) 0); lia.
Qed.
Lemma exp_bits_small bBits B : 0 <= bBits -> 0 <= B < 2 ^ bBits -> B mod 2 ^ exp_bits bBits = B.
Proof.
  intros H HB. apply Z.mod_small. split; [lia|]. apply Z.lt_le_trans with (2 ^ bBits); [lia|].
  apply Z.pow_le_mono_r; [lia|now apply exp_bits_ge].
Qed.

(** ** Argument checks *)
Lemma exp_len_pos bBits : 0 <= bBits -> 0 < exp_len bBits /\ bBits <= 64 * exp_len bBits.
Proof.
  intros H. unfold exp_len. destruct (Z.eqb_spec bBits 0) as [->|]; [lia|].
  assert (0 <= (bBits - 1) / 64) by (apply Z.div_pos; lia). pose proof (Z.div_mod (bBits - 1) 64).
  pose proof (Z.mod_pos_bound (bBits - 1) 64). lia.
Qed.
Lemma land_masks (p q : bool) : Z.land (if p then W64 - 1 else 0) (if q then W64 - 1 else 0) = if p && q then W64 - 1 else 0.
Proof. destruct p, q; cbn [andb]; [apply ones_land, limb_ones|apply Z.land_0_r|apply Z.land_0_l|reflexivity]. Qed.
Lemma exp_check_spec len n a bBits b : limbs len n -> limbs len a -> (0 < len)%nat -> 0 <= bBits ->
  limbs (Z.to_nat (exp_len bBits)) b ->
  exp_check n a bBits b =
    if Z.odd (lval n) && (1 <? lval n) && ((lval b <? 2 ^ bBits) && (lval a <? lval n)) then W64 - 1 else 0.
Proof.
  intros Hn Ha HL Hb HB. unfold exp_check. cbv zeta.
  rewrite (check_modulus_spec len) by trivial. rewrite (lb_lt_spec len a n) by trivial.
  destruct (exp_len_pos bBits Hb) as [P1 P2]. set (bl := exp_len bBits) in *.
  assert (Lb : length b = Z.to_nat bl) by apply HB.
  assert (M1 : (if bBits <? 64 * bl
     then lb_lt (firstn (Z.to_nat bl) b)
       (splice (Z.to_nat (bBits / 64)) [Z.lor (get (zeros (Z.to_nat bl)) (Z.to_nat (bBits / 64))) (u64 (Z.shiftl 1 (bBits mod 64)))] (zeros (Z.to_nat bl)))
     else W64 - 1) = if lval b <? 2 ^ bBits then W64 - 1 else 0).
  { pose proof (limbs_bound _ _ HB) as BB. rewrite Wn_pow2, Z2Nat.id in BB by lia.
    destruct (Z.ltb_spec bBits (64 * bl)) as [L|L].
    - rewrite firstn_all2 by lia.
      assert (Q : 0 <= bBits / 64) by (apply Z.div_pos; lia).
      pose proof (Z.mod_pos_bound bBits 64 ltac:(lia)) as Bm. pose proof (Z.div_mod bBits 64 ltac:(lia)) as DM.
      unfold get, zeros. rewrite nth_repeat, Z.lor_0_l.
      assert (U : u64 (Z.shiftl 1 (bBits mod 64)) = 2 ^ (bBits mod 64)).
      { rewrite Z.shiftl_1_l. apply u64_id. split; [apply Z.pow_nonneg; lia|apply Z.pow_lt_mono_r; lia]. }
      rewrite U.
      assert (HZ : length (repeat 0 (Z.to_nat bl)) = Z.to_nat bl) by apply repeat_length.
      assert (L2 : limb (2 ^ (bBits mod 64))) by (split; [apply Z.pow_nonneg; lia|apply Z.pow_lt_mono_r; lia]).
      rewrite (lb_lt_spec (Z.to_nat bl)); trivial.
      2:{ apply limbs_splice; [apply limbs_zeros|constructor; [exact L2|constructor]|cbn [length]; lia]. }
      rewrite lval_splice by (rewrite HZ; cbn [length]; lia). cbn [length].
      rewrite slice_1 by (rewrite HZ; lia). unfold get. rewrite nth_repeat.
      change (repeat 0 (Z.to_nat bl)) with (zeros (Z.to_nat bl)). rewrite lval_zeros. cbn [lval].
      rewrite Wn_pow2, Z2Nat.id by lia.
      replace (0 + 2 ^ (64 * (bBits / 64)) * (2 ^ (bBits mod 64) + 2 ^ 64 * 0 - (0 + 2 ^ 64 * 0)))
        with (2 ^ (64 * (bBits / 64)) * 2 ^ (bBits mod 64)) by ring.
      rewrite <- Z.pow_add_r by lia. rewrite <- DM. reflexivity.
    - replace (64 * bl) with bBits in BB by lia. destruct (Z.ltb_spec (lval b) (2 ^ bBits)); [reflexivity|lia]. }
  rewrite M1, !land_masks. reflexivity.
Qed.

Lemma mod_exp_spec ct len n a bBits b : limbs len n -> limbs len a -> (0 < len)%nat -> Z.of_nat len < 2 ^ 64 ->
  0 <= bBits -> limbs (Z.to_nat (exp_len bBits)) b ->
  let '(ok, r) := mod_exp ct n a bBits b in
  limbs len r /\
  ok = (Z.odd (lval n) && (1 <? lval n) && ((lval b <? 2 ^ bBits) && (lval a <? lval n))) /\
  lval r = if ok then lval a ^ lval b mod lval n else 0.
Proof.
  intros Hn Ha HL HB Hb Hbl. unfold mod_exp. rewrite (exp_check_spec len) by trivial.
  destruct (Z.odd (lval n) && (1 <? lval n) && ((lval b <? 2 ^ bBits) && (lval a <? lval n))) eqn:E.
  - rewrite Z.eqb_refl. apply andb_true_iff in E. destruct E as [E1 E2].
    apply andb_true_iff in E1. destruct E1 as [O N1]. apply andb_true_iff in E2. destruct E2 as [B1 A1].
    apply Z.ltb_lt in N1, B1, A1.
    pose proof (mont_ctx_init_ok len n Hn HB O N1) as OK.
    pose proof (limbs_bound _ _ Hbl) as BB. 
    pose proof (exp_bits_small bBits (lval b) Hb ltac:(lia)) as EB.
    destruct ct.
    + destruct (exp_consttime_spec len _ _ OK a bBits b Ha (proj2 Hbl) Hb) as [X1 X2]. rewrite EB in X2.
      cbn [mc_n mc_mu mc_r2 mont_ctx_init] in *. split; [trivial|]. split; [reflexivity|trivial].
    + destruct (exp_vartime_spec len _ _ OK a bBits b Ha (proj2 Hbl) Hb) as [X1 X2]. rewrite EB in X2.
      cbn [mc_n mc_mu mc_r2 mont_ctx_init] in *. split; [trivial|]. split; [reflexivity|trivial].
  - change (0 =? W64 - 1) with false. assert (Ln : length n = len) by apply Hn. rewrite Ln.
    split; [apply limbs_zeros|]. split; [reflexivity|apply lval_zeros].
Qed.

Lemma mod_inv_prime_spec len n a : limbs len n -> limbs len a -> (0 < len)%nat -> Z.of_nat len < 2 ^ 64 ->
  let '(ok, r) := mod_inv_prime n a in
  limbs len r /\
  ok = (Z.odd (lval n) && (1 <? lval n) && negb (lval a =? 0) && (lval a <? lval n)) /\
  lval r = if ok then lval a ^ (lval n - 2) mod lval n else 0.
Proof.
  intros Hn Ha HL HB. unfold mod_inv_prime. cbv zeta. assert (Ln : length n = len) by apply Hn. rewrite Ln.
  rewrite (check_modulus_spec len) by trivial. rewrite (lb_lt_spec len a n) by trivial.
  rewrite (lb_eq_spec len) by (trivial; apply limbs_zeros). rewrite lval_zeros.
  replace (not64 (if lval a =? 0 then W64 - 1 else 0)) with (if negb (lval a =? 0) then W64 - 1 else 0)
    by (destruct (lval a =? 0); cbn [negb]; [now rewrite not64_ones|now rewrite not64_0]).
  rewrite !land_masks.
  destruct (Z.odd (lval n) && (1 <? lval n) && negb (lval a =? 0) && (lval a <? lval n)) eqn:E.
  - rewrite Z.eqb_refl. apply andb_true_iff in E. destruct E as [E A1].
    apply andb_true_iff in E. destruct E as [E A0]. apply andb_true_iff in E. destruct E as [O N1].
    apply Z.ltb_lt in N1, A1.
    pose proof (mont_ctx_init_ok len n Hn HB O N1) as OK.
    assert (L2 : limb 2) by (split; [lia|reflexivity]).
    destruct (sub_limb_spec len n 2 Hn L2 HL) as [S1 S2].
    assert (N3 : 3 <= lval n). { destruct (Z.eq_dec (lval n) 2) as [E2|]; [rewrite E2 in O; discriminate O|lia]. }
    pose proof (limbs_bound _ _ Hn) as Bn.
    rewrite Z.mod_small in S2 by lia.
    destruct (exp_vartime_spec len _ _ OK a (64 * Z.of_nat len) (sub_limb n 2) Ha (proj2 S1) ltac:(lia)) as [X1 X2].
    cbn [mc_n mc_mu mc_r2 mont_ctx_init] in *. split; [trivial|]. split; [reflexivity|].
    rewrite X2, S2. f_equal. f_equal. apply exp_bits_small; [lia|]. rewrite <- Wn_pow2. lia.
  - change (0 =? W64 - 1) with false.
    split; [apply limbs_zeros|]. split; [reflexivity|apply lval_zeros].
Qed.
