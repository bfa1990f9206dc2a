(** The table path computes the same power as the generic path. *)
From Coq Require Import Znumtheory Zpow_facts Psatz ZifyBool ZifyNat.
From Verif Require Import Base GroupModel GroupSpec GroupProofs CodecModel CodecProofs LookupModel HashedProofs.
Open Scope Z_scope.
Ltac Zify.zify_post_hook ::= idtac.


Section Mont.
Context (n : Z) (Hn : 1 < n) (Hodd : Z.odd n = true).

Lemma two_inv : (2 * ((n + 1) / 2)) mod n = 1.
Proof.
  assert (E : exists k, n = 2 * k + 1) by (apply Zodd_ex, Zodd_bool_iff; assumption).
  destruct E as [k Ek]. replace ((n + 1) / 2) with (k + 1).
  - replace (2 * (k + 1)) with (1 + 1 * n) by lia. rewrite Z.mod_add by lia. apply Z.mod_small. lia.
  - apply Z.div_unique with 0; lia.
Qed.

Lemma mont_rinv_spec : (W4096 * mont_rinv n) mod n = 1.
Proof.
  unfold mont_rinv. rewrite powmod_spec by lia. rewrite Zmult_mod_idemp_r.
  change W4096 with (2 ^ 4096). rewrite <- Z.pow_mul_l.
  rewrite Zpower_mod by lia. rewrite two_inv. rewrite Z.pow_1_l by lia. apply Z.mod_small. lia.
Qed.

Lemma mod1 : 1 mod n = 1. Proof. apply Z.mod_small. lia. Qed.

Lemma arr1 v w R i : v * R * (w * R) * i = v * w * R * (R * i). Proof. ring. Qed.
Lemma arr2 v R i : v * R * i = v * (R * i). Proof. ring. Qed.

(** [x] is the Montgomery form of [v]. *)
Definition mform (x v : Z) : Prop := x = (v * W4096) mod n.

Lemma to_mont_form a : mform (to_mont n a) a.
Proof. reflexivity. Qed.
Lemma mont_mul_form x y v w : mform x v -> mform y w -> mform (mont_mul n x y) (v * w).
Proof.
  unfold mform, mont_mul. intros -> ->.
  rewrite <- Zmult_mod_idemp_l. rewrite <- (Zmult_mod (v * W4096)).
  rewrite Zmult_mod_idemp_l.
  rewrite arr1.
  rewrite <- Zmult_mod_idemp_r, mont_rinv_spec, Z.mul_1_r. reflexivity.
Qed.
Lemma from_mont_form x v : mform x v -> from_mont n x = v mod n.
Proof.
  unfold mform, from_mont. intros ->. rewrite Zmult_mod_idemp_l.
  rewrite arr2.
  rewrite <- Zmult_mod_idemp_r, mont_rinv_spec, Z.mul_1_r. reflexivity.
Qed.
Lemma mform_congr x v w : v mod n = w mod n -> mform x v -> mform x w.
Proof. unfold mform. intros E ->. rewrite <- Zmult_mod_idemp_l, E, Zmult_mod_idemp_l. reflexivity. Qed.

Lemma mform_eq x v w : v = w -> mform x v -> mform x w. Proof. intros ->. auto. Qed.
Lemma pow_256 b : b * b ^ Z.of_nat 255 = b ^ 256.
Proof. rewrite <- Z.pow_succ_r by lia. apply (f_equal (Z.pow b)). reflexivity. Qed.

(** Row [j] entries. *)
Lemma gen_row_spec k rb run b v :
  mform rb b -> mform run v ->
  length (fst (gen_row n k rb run)) = k /\
  (forall j, (j < k)%nat -> mform (nth j (fst (gen_row n k rb run)) 0) (v * b ^ Z.of_nat j)) /\
  mform (snd (gen_row n k rb run)) (v * b ^ Z.of_nat k).
Proof.
  intros Hb. revert run v. induction k as [|k IH]; intros run v Hv; cbn [gen_row].
  - cbn [fst snd length Z.of_nat]. split; [reflexivity|]. split; [intros; lia|].
    rewrite Z.pow_0_r, Z.mul_1_r. assumption.
  - specialize (IH (mont_mul n run rb) (v * b) (mont_mul_form _ _ _ _ Hv Hb)).
    destruct (gen_row n k rb (mont_mul n run rb)) as [r fin]. cbn [fst snd] in *.
    destruct IH as (L & IH & F). cbn [length]. split; [lia|].
    assert (S : forall j, v * b * b ^ Z.of_nat j = v * b ^ Z.of_nat (Datatypes.S j)).
    { intros j. rewrite Nat2Z.inj_succ, Z.pow_succ_r by lia. ring. }
    split.
    + intros [|j] Hj; cbn [nth].
      * cbn [Z.of_nat]. rewrite Z.pow_0_r, Z.mul_1_r. assumption.
      * rewrite <- S. apply IH. lia.
    + rewrite <- S. assumption.
Qed.

(** Row [i] of the table holds base^(256^i * (j+1)). *)
Lemma gen_rows_loop rows rb b e acc v :
  mform rb b -> mform acc v -> 0 <= e < 256 ^ Z.of_nat rows ->
  mform (table_loop n (gen_rows n rows rb rb) e acc) (v * b ^ e).
Proof.
  revert rb b e acc v. induction rows as [|k IH]; intros rb b e acc v Hb Ha He.
  - cbn [gen_rows table_loop]. change (256 ^ Z.of_nat 0) with 1 in He.
    replace e with 0 by lia. rewrite Z.pow_0_r, Z.mul_1_r. assumption.
  - cbn [gen_rows].
    pose proof (gen_row_spec 255 rb rb b b Hb Hb) as (L & R & F).
    destruct (gen_row n 255 rb rb) as [r fin]. cbn [fst snd] in *.
    cbn [table_loop].
    assert (Hd : e = 256 * (e / 256) + e mod 256) by (apply Z.div_mod; lia).
    pose proof (Z.mod_pos_bound e 256 ltac:(lia)) as Hm.
    assert (He' : 0 <= e / 256 < 256 ^ Z.of_nat k).
    { rewrite Nat2Z.inj_succ, Z.pow_succ_r in He by lia.
      split; [apply Z.div_pos; lia|apply Z.div_lt_upper_bound; lia]. }
    assert (F' : mform fin (b ^ 256)).
    { revert F. apply mform_eq, pow_256. }
    set (acc' := if e mod 256 =? 0 then acc else _).
    assert (Ha' : mform acc' (v * b ^ (e mod 256))).
    { unfold acc'. destruct (Z.eqb_spec (e mod 256) 0) as [E|E].
      - rewrite E, Z.pow_0_r, Z.mul_1_r. assumption.
      - apply mont_mul_form; [assumption|].
        assert (Hj : (Z.to_nat (e mod 256 - 1) < 255)%nat).
        { apply Nat2Z.inj_lt. rewrite Z2Nat.id; [|clear - Hm E; lia].
          change (Z.of_nat 255) with 255. clear - Hm. lia. }
        specialize (R _ Hj).
        revert R. apply mform_eq.
        rewrite Z2Nat.id by (clear - Hm E; lia). rewrite <- Z.pow_succ_r by (clear - Hm E; lia). apply (f_equal (Z.pow b)). clear. lia. }
    pose proof (IH fin (b ^ 256) (e / 256) acc' _ F' Ha' He') as H.
    revert H. apply mform_eq.
    rewrite <- Z.pow_mul_r by (clear - He'; lia). rewrite <- Z.mul_assoc. apply (f_equal (Z.mul v)).
    rewrite <- Z.pow_add_r by (clear - He' Hm; lia). apply (f_equal (Z.pow b)). clear - Hd. lia.
Qed.

Lemma table_pow_correct base e : 0 <= e < W256 ->
  table_pow n (gen_table n base) e = (base ^ e) mod n.
Proof.
  intros He. unfold table_pow, gen_table. cbn [tb_rows tb_one].
  rewrite (from_mont_form _ (1 * base ^ e)).
  - rewrite Z.mul_1_l. reflexivity.
  - apply gen_rows_loop; try apply to_mont_form. rewrite <- W256_bytes. assumption.
Qed.
End Mont.

Section Cache.
Context (gp : params) (VP : valid_params gp).

(** Every cached table belongs to the base whose hex string is its key. *)
Definition cache_ok (c : cache) : Prop :=
  forall key t, cache_find key c = Some t ->
    exists b, 0 <= b < W4096 /\ key = to_hex_p b /\ t = gen_table (gpP gp) b.

Lemma cache_ok_nil : cache_ok []. Proof. intros key t H. discriminate. Qed.

Lemma cache_get_ok c b : cache_ok c -> 0 <= b < W4096 ->
  fst (cache_get gp c (to_hex_p b) b) = gen_table (gpP gp) b /\
  cache_ok (snd (cache_get gp c (to_hex_p b) b)).
Proof.
  intros Hc Hb. unfold cache_get. destruct (cache_find (to_hex_p b) c) as [t|] eqn:E; cbn [fst snd].
  - split; [|assumption]. destruct (Hc _ _ E) as (b' & Hb' & Ek & ->).
    apply to_hex_p_inj in Ek; [subst; reflexivity|assumption..].
  - split; [reflexivity|]. intros key t H. cbn [cache_find] in H.
    destruct (bytes_eqb (to_hex_p b) key) eqn:K.
    + apply bytes_eqb_true in K. injection H as <-. exists b. auto.
    + apply Hc. assumption.
Qed.

Lemma pow_mod_p_fixed_ok c b e : cache_ok c -> 0 <= b < W4096 -> 0 <= e < W256 ->
  fst (pow_mod_p_fixed gp c b e) = (b ^ e) mod gpP gp /\
  cache_ok (snd (pow_mod_p_fixed gp c b e)).
Proof.
  intros Hc Hb He. pose proof (P_pos gp VP). unfold pow_mod_p_fixed.
  destruct (Z.eqb_spec e 0) as [->|N]; cbn [fst snd].
  - split; [|assumption]. rewrite Z.pow_0_r. symmetry. apply Z.mod_small. lia.
  - pose proof (cache_get_ok c b Hc Hb) as [H1 H2].
    destruct (cache_get gp c (to_hex_p b) b) as [t c']. cbn [fst snd] in *. subst t.
    split; [|assumption]. apply table_pow_correct; [lia|apply (vp_Podd _ VP)|assumption].
Qed.

(** Any history of requests. *)
Definition cache_run (reqs : list (Z * Z)) : cache :=
  fold_left (fun c r => snd (pow_mod_p_fixed gp c (fst r) (snd r))) reqs [].

Lemma cache_run_ok reqs :
  Forall (fun r => 0 <= fst r < W4096 /\ 0 <= snd r < W256) reqs -> cache_ok (cache_run reqs).
Proof.
  unfold cache_run. intros H. assert (H0 := cache_ok_nil). revert H H0.
  generalize (@nil (bytes * table)) as c.
  induction reqs as [|r reqs IH]; intros c H H0; cbn [fold_left]; [assumption|].
  inversion H; subst. apply IH; [assumption|]. apply pow_mod_p_fixed_ok; tauto.
Qed.
End Cache.
