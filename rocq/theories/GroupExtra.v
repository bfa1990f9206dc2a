(** Further facts about group.cpp: operands outside the field, construction from
    text, the range of the random generator. *)
From Coq Require Import Znumtheory Zpow_facts Psatz ZifyBool ZifyNat.
From Verif Require Import Base GroupModel GroupSpec GroupProofs CodecModel CodecProofs HashedProofs
  ConstModel StdParams.
Open Scope Z_scope.
Ltac Zify.zify_post_hook ::= idtac.

(** ** Operands outside the field *)
Lemma add_mod_q_nocarry gp a b : 0 <= a -> 0 <= b -> a + b < W256 - 1 ->
  add_mod_q gp a b = (a + b) mod gpQ gp.
Proof.
  intros Ha Hb H. unfold add_mod_q. rewrite bn_add_nocarry by (try apply W256_pos; lia).
  unfold isMax. replace (a + b =? W256 - 1) with false by (symmetry; apply Z.eqb_neq; lia).
  reflexivity.
Qed.
Lemma sub_mod_q_noborrow gp a b : 0 <= b <= a -> a < W256 ->
  sub_mod_q gp a b = (a - b) mod gpQ gp.
Proof. intros H H'. unfold sub_mod_q. rewrite bn_sub_noborrow by lia. reflexivity. Qed.

(** ** Hexadecimal text *)
(** The number a digit string denotes. *)
Fixpoint hex_number (acc : Z) (s : bytes) : option Z :=
  match s with
  | [] => Some acc
  | c :: t => match hex_val c with Some d => hex_number (16 * acc + d) t | None => None end
  end.

Lemma hex_val_range c d : hex_val c = Some d -> 0 <= d < 16.
Proof.
  unfold hex_val. destruct (Z.leb_spec 48 c), (Z.leb_spec c 57), (Z.leb_spec 65 c), (Z.leb_spec c 70),
    (Z.leb_spec 97 c), (Z.leb_spec c 102); cbn [andb]; intros E; inversion E; lia.
Qed.
Lemma hex_val_leading c d : hex_val c = Some d -> is_leading c = (d =? 0).
Proof.
  intros H. pose proof (hex_val_range _ _ H). unfold hex_val in H.
  assert (N : forall x, (c =? x) = true -> c = x) by (intros x; apply Z.eqb_eq).
  unfold is_leading. cbn [existsb].
  destruct (Z.leb_spec 48 c), (Z.leb_spec c 57), (Z.leb_spec 65 c), (Z.leb_spec c 70),
    (Z.leb_spec 97 c), (Z.leb_spec c 102); cbn [andb] in H; inversion H; lia.
Qed.

Lemma hex_to_bytes_number_gen n : forall s acc v, (length s <= n)%nat -> Nat.even (length s) = true ->
  hex_number acc s = Some v ->
  exists b, hex_to_bytes s = Ok b /\ is_bytes b /\ (2 * length b = length s)%nat /\
    v = acc * 256 ^ Z.of_nat (length b) + be_val b.
Proof.
  induction n as [|n IH]; intros s acc v Hl He Hv.
  - destruct s; [|cbn in Hl; lia]. cbn in Hv. injection Hv as <-. exists []. cbn. repeat split; try constructor. lia.
  - destruct s as [|c1 [|c2 t]].
    + cbn in Hv. injection Hv as <-. exists []. cbn. repeat split; try constructor. lia.
    + discriminate He.
    + cbn [hex_number] in Hv. destruct (hex_val c1) as [d1|] eqn:E1; [|discriminate].
      destruct (hex_val c2) as [d2|] eqn:E2; [|discriminate].
      destruct (IH t _ v ltac:(cbn in Hl; lia) ltac:(exact He) Hv) as (b & Hb & Ib & Lb & Vb).
      exists ((16 * d1 + d2) :: b). cbn [hex_to_bytes]. unfold stoi2. rewrite E1, E2. cbn [bind].
      rewrite Hb. cbn [bind]. pose proof (hex_val_range _ _ E1). pose proof (hex_val_range _ _ E2).
      split; [reflexivity|]. split; [constructor; [unfold is_byte; lia|assumption]|].
      split; [cbn [length]; lia|].
      rewrite be_val_cons. cbn [length]. rewrite Nat2Z.inj_succ, Z.pow_succ_r by lia.
      rewrite Vb. ring.
Qed.

Lemma hex_number_zero acc s : is_leading 48 = true ->
  hex_number acc (48 :: s) = hex_number (16 * acc) s.
Proof. intros _. cbn. f_equal. lia. Qed.

Lemma drop_leading_number s v : hex_number 0 s = Some v -> v <> 0 ->
  hex_number 0 (drop_leading s) = Some v /\ drop_leading s <> [].
Proof.
  induction s as [|c s IH]; intros H Hv; cbn [drop_leading].
  - cbn in H. congruence.
  - cbn [hex_number] in H. destruct (hex_val c) as [d|] eqn:E; [|discriminate].
    rewrite (hex_val_leading _ _ E). destruct (Z.eqb_spec d 0) as [->|N].
    + apply IH; assumption.
    + split; [|discriminate]. cbn [hex_number]. rewrite E. assumption.
Qed.

(** Decoding digits: the bytes have the denoted value. *)
Lemma hex_decode_number s v : hex_number 0 s = Some v -> v <> 0 ->
  exists b, (do t <- sanitize_hex_string s; hex_to_bytes t) = Ok b /\ is_bytes b /\ be_val b = v /\
    length b = ((length (drop_leading s) + 1) / 2)%nat /\ b <> [].
Proof.
  intros H Hv. destruct (drop_leading_number s v H Hv) as [Hd Hn].
  unfold sanitize_hex_string. destruct (drop_leading s) as [|c t] eqn:E; [congruence|]. cbn [bind].
  destruct (Nat.odd (length (c :: t))) eqn:O.
  - assert (Hv' : hex_number 0 (48 :: c :: t) = Some v) by exact Hd.
    destruct (hex_to_bytes_number_gen _ (48 :: c :: t) 0 v (le_n _)) as (b & Hb & Ib & Lb & Vb);
      [change (length (48 :: c :: t)) with (S (length (c :: t))); rewrite Nat.even_succ; exact O|exact Hv'|].
    exists b. split; [exact Hb|]. split; [assumption|]. split; [lia|].
    cbn [length] in *. split.
    + apply (Nat.div_unique _ _ _ 0); lia.
    + intros ->. cbn in Lb. lia.
  - destruct (hex_to_bytes_number_gen _ (c :: t) 0 v (le_n _)
      ltac:(rewrite <- Nat.negb_odd, O; reflexivity) Hd) as (b & Hb & Ib & Lb & Vb).
    exists b. split; [exact Hb|]. split; [assumption|]. split; [lia|].
    cbn [length] in *. split.
    + apply (Nat.div_unique _ _ _ 1); lia.
    + intros ->. cbn in Lb. lia.
Qed.

Lemma from_hex_p_number gp s v u : hex_number 0 s = Some v -> v <> 0 ->
  from_hex_p gp s u = if (1024 <? length (drop_leading s))%nat then Throw OutOfRange else make_p gp 64 v u.
Proof.
  intros H Hv. destruct (hex_decode_number s v H Hv) as (b & Hb & Ib & Vb & Lb & Nb).
  assert (A : from_hex_p gp s u = do b <- (do t <- sanitize_hex_string s; hex_to_bytes t);
              bytes_to_p gp b u) by (unfold from_hex_p; destruct (sanitize_hex_string s); reflexivity).
  rewrite A, Hb. cbn [bind]. unfold bytes_to_p. rewrite Vb.
  replace (length b =? 0)%nat with false by (symmetry; apply Nat.eqb_neq; destruct b; [congruence|discriminate]).
  pose proof (Nat.div_mod (length (drop_leading s) + 1) 2 ltac:(discriminate)) as D.
  pose proof (Nat.mod_upper_bound (length (drop_leading s) + 1) 2 ltac:(discriminate)) as D'.
  rewrite <- Lb in D.
  destruct (Nat.ltb_spec 512 (length b)), (Nat.ltb_spec 1024 (length (drop_leading s))); try lia; reflexivity.
Qed.
Lemma from_hex_q_number gp s v u : hex_number 0 s = Some v -> v <> 0 ->
  from_hex_q gp s u = if (64 <? length (drop_leading s))%nat then Throw OutOfRange else make_q gp 4 v u.
Proof.
  intros H Hv. destruct (hex_decode_number s v H Hv) as (b & Hb & Ib & Vb & Lb & Nb).
  assert (A : from_hex_q gp s u = do b <- (do t <- sanitize_hex_string s; hex_to_bytes t);
              bytes_to_q gp b u) by (unfold from_hex_q; destruct (sanitize_hex_string s); reflexivity).
  rewrite A, Hb. cbn [bind]. unfold bytes_to_q. rewrite Vb.
  replace (length b =? 0)%nat with false by (symmetry; apply Nat.eqb_neq; destruct b; [congruence|discriminate]).
  pose proof (Nat.div_mod (length (drop_leading s) + 1) 2 ltac:(discriminate)) as D.
  pose proof (Nat.mod_upper_bound (length (drop_leading s) + 1) 2 ltac:(discriminate)) as D'.
  rewrite <- Lb in D.
  destruct (Nat.ltb_spec 32 (length b)), (Nat.ltb_spec 64 (length (drop_leading s))); try lia; reflexivity.
Qed.

(** ** rand_q *)
Definition Qstd : Z := gpQ std_params.
Lemma Qstd_eq : Qstd = W256 - 189. Proof. reflexivity. Qed.

Lemma masked_low low : 0 <= low < W64 ->
  0 <= Z.land low 0xFFFFFFFFFFFFFF43 <= 0xFFFFFFFFFFFFFF43.
Proof.
  intros H. split; [apply Z.land_nonneg; lia|].
  (* the cleared bits only lower the value *)
  assert (E : 0xFFFFFFFFFFFFFF43 - Z.land low 0xFFFFFFFFFFFFFF43
              = Z.ldiff 0xFFFFFFFFFFFFFF43 low).
  { rewrite Z.land_comm. rewrite (Z.sub_nocarry_ldiff _ (Z.land 0xFFFFFFFFFFFFFF43 low)).
    - apply Z.bits_inj'. intros n Hn. rewrite !Z.ldiff_spec, Z.land_spec.
      destruct (Z.testbit _ n), (Z.testbit low n); reflexivity.
    - apply Z.bits_inj'. intros n Hn. rewrite Z.ldiff_spec, Z.land_spec, Z.bits_0.
      destruct (Z.testbit _ n), (Z.testbit low n); reflexivity. }
  assert (0 <= Z.ldiff 0xFFFFFFFFFFFFFF43 low) by (apply Z.ldiff_nonneg; lia). lia.
Qed.


Lemma rand_q_value r : 0 <= r < W256 ->
  exists m, m = r / W64 * W64 + Z.land (r mod W64) 0xFFFFFFFFFFFFFF43 /\
    0 <= m <= Qstd /\ rand_q std_params r = m mod Qstd.
Proof.
  intros Hr. eexists. split; [reflexivity|].
  pose proof (Z.mod_pos_bound r W64 W64_pos) as Hm.
  pose proof (masked_low _ Hm) as HL.
  assert (Hh : 0 <= r / W64 <= 2 ^ 192 - 1).
  { split; [apply Z.div_pos; [lia|apply W64_pos]|].
    assert (r / W64 < 2 ^ 192); [|lia]. apply Z.div_lt_upper_bound; [apply W64_pos|].
    change (W64 * 2 ^ 192) with W256. lia. }
  assert (HW : W64 = 18446744073709551616) by reflexivity.
  assert (HQ : Qstd = 2 ^ 192 * 18446744073709551616 - 189) by reflexivity.
  assert (HW2 : W256 = 2 ^ 192 * 18446744073709551616) by reflexivity.
  set (low := Z.land (r mod W64) 0xFFFFFFFFFFFFFF43) in *.
  set (hi := r / W64) in *. rewrite HW.
  assert (HB : 0 <= hi * 18446744073709551616 + low <= Qstd) by lia.
  split; [assumption|].
  unfold rand_q. fold low. fold hi. rewrite HW.
  rewrite add_mod_q_nocarry by lia. rewrite Z.add_0_r. reflexivity.
Qed.

Lemma land_bits_high hi low : 0 <= low < W64 -> 0 <= hi ->
  Z.land (hi * W64 + low) 0xBC = Z.land low 0xBC.
Proof.
  intros Hl Hh.
  assert (E : Z.land (hi * W64 + low) 0xBC = Z.land ((hi * W64 + low) mod W64) 0xBC).
  { generalize (hi * W64 + low). intros x. change W64 with (2 ^ 64). rewrite <- Z.land_ones by lia.
    rewrite <- Z.land_assoc. reflexivity. }
  rewrite E, Z.add_comm, Z.mod_add by (pose proof W64_pos; lia). rewrite Z.mod_small by assumption. reflexivity.
Qed.

(** The values rand_q can return, exactly. *)
Lemma rand_q_image v :
  (exists r, 0 <= r < W256 /\ rand_q std_params r = v) <->
  0 <= v < Qstd /\ Z.land v 0xBC = 0.
Proof.
  assert (QP : 0 < Qstd) by reflexivity.
  split.
  - intros (r & Hr & <-). destruct (rand_q_value r Hr) as (m & Em & Hm & E). rewrite E.
    split; [apply Z.mod_pos_bound; assumption|].
    destruct (Z.eq_dec m Qstd) as [->|N]; [rewrite Z.mod_same by lia; reflexivity|].
    rewrite Z.mod_small by lia. rewrite Em.
    pose proof (Z.mod_pos_bound r W64 W64_pos) as Hl. pose proof (masked_low _ Hl) as HL.
    assert (HW : W64 = 18446744073709551616) by reflexivity.
    rewrite land_bits_high; [|clear - HW HL; lia|apply Z.div_pos; [lia|apply W64_pos]].
    rewrite <- Z.land_assoc. change (Z.land 0xFFFFFFFFFFFFFF43 0xBC) with 0. apply Z.land_0_r.
  - intros [Hv L]. exists v. assert (Hv' : 0 <= v < W256) by (rewrite Qstd_eq in Hv; lia).
    split; [assumption|]. destruct (rand_q_value v Hv') as (m & Em & Hm & E). rewrite E.
    assert (m = v) as ->; [|apply Z.mod_small; assumption].
    rewrite Em. 
    assert (El : Z.land (v mod W64) 0xFFFFFFFFFFFFFF43 = v mod W64).
    { assert (L' : Z.land (v mod W64) 0xBC = 0).
      { rewrite <- L. rewrite (Z.div_mod v W64) at 2 by (pose proof W64_pos; lia).
        rewrite (Z.mul_comm W64). symmetry. apply land_bits_high;
          [apply Z.mod_pos_bound, W64_pos|apply Z.div_pos; [lia|apply W64_pos]]. }
      set (l := v mod W64) in *.
      assert (Ones : Z.land l (Z.ones 64) = l).
      { rewrite Z.land_ones by lia. unfold l. apply Z.mod_mod. pose proof W64_pos; lia. }
      rewrite <- Ones at 2.
      change (Z.ones 64) with (Z.lor 0xFFFFFFFFFFFFFF43 0xBC). rewrite Z.land_lor_distr_r.
      rewrite L', Z.lor_0_r. reflexivity. }
    rewrite El. pose proof (Z.div_mod v W64 ltac:(pose proof W64_pos; lia)). lia.
Qed.
