(** Bytes to limbs and back. *)
From Verif Require Import Base GroupModel CodecModel CodecProofs LimbModel LimbSpec LimbWord LimbProofs LimbKara.
Open Scope Z_scope.
Ltac Zify.zify_post_hook ::= idtac.

Lemma Wn_bytes n : Wn n = 256 ^ Z.of_nat (8 * n).
Proof. rewrite Wn_pow2. change 256 with (2 ^ 8). rewrite <- Z.pow_mul_r by lia. f_equal. lia. Qed.

Lemma load64_limb l : is_bytes l -> length l = 8%nat -> limb (load64_be l).
Proof.
  intros B L. pose proof (be_val_range l B) as R. rewrite L in R. unfold limb.
  change (2 ^ 64) with (256 ^ Z.of_nat 8). exact R.
Qed.
Lemma is_bytes_firstn k l : is_bytes l -> is_bytes (firstn k l).
Proof. apply Forall_firstn. Qed.
Lemma is_bytes_skipn k l : is_bytes l -> is_bytes (skipn k l).
Proof. apply Forall_skipn. Qed.

Lemma from_bytes_blocks m : forall tmp, is_bytes tmp -> length tmp = (8 * m)%nat ->
  let r := map (fun i => load64_be (firstn 8 (skipn ((m - i - 1) * 8) tmp))) (seq 0 m) in
  limbs m r /\ lval r = be_val tmp.
Proof.
  induction m as [|m IH]; intros tmp B L.
  - destruct tmp; [|cbn in L; lia]. cbn. split; [now split|reflexivity].
  - cbv zeta. rewrite seq_S, map_app. cbn [map Nat.add].
    assert (E : map (fun i => load64_be (firstn 8 (skipn ((S m - i - 1) * 8) tmp))) (seq 0 m)
              = map (fun i => load64_be (firstn 8 (skipn ((m - i - 1) * 8) (skipn 8 tmp)))) (seq 0 m)).
    { apply map_ext_in. intros i Hi. apply in_seq in Hi. rewrite skipn_skipn. do 3 f_equal. lia. }
    rewrite E. replace ((S m - m - 1) * 8)%nat with 0%nat by lia. change (skipn 0 tmp) with tmp.
    assert (B8 : is_bytes (skipn 8 tmp)) by now apply is_bytes_skipn.
    assert (L8 : length (skipn 8 tmp) = (8 * m)%nat) by (rewrite skipn_length; lia).
    destruct (IH (skipn 8 tmp) B8 L8) as [I1 I2]. cbv zeta in *.
    set (lo := map (fun i => load64_be (firstn 8 (skipn ((m - i - 1) * 8) (skipn 8 tmp)))) (seq 0 m)) in *.
    clearbody lo.
    assert (Lf : length (firstn 8 tmp) = 8%nat) by (rewrite firstn_length; lia).
    assert (H8 : limb (load64_be (firstn 8 tmp))) by (apply load64_limb; [now apply is_bytes_firstn|trivial]).
    split. { replace (S m) with (m + 1)%nat by lia. apply limbs_app; [trivial|]. split; [reflexivity|now constructor]. }
    rewrite lval_app. pose proof (proj1 I1) as Ll. rewrite Ll, I2. cbn [lval].
    assert (T : be_val tmp = be_val (firstn 8 tmp) * 256 ^ Z.of_nat (8 * m) + be_val (skipn 8 tmp)).
    { rewrite <- (firstn_skipn 8 tmp) at 1. unfold be_val at 1. rewrite fold_left_app, be_val_acc, L8. reflexivity. }
    rewrite T, Wn_bytes. unfold load64_be, be_val. ring.
Qed.
Lemma bytes_zeros k : is_bytes (repeat 0 k).
Proof. apply Forall_forall. intros x H. apply repeat_spec in H. subst. split; [lia|reflexivity]. Qed.
Lemma be_val_pad k l : be_val (repeat 0 k ++ l) = be_val l.
Proof.
  induction k; [reflexivity|]. cbn [repeat app]. rewrite be_val_cons, IHk. ring.
Qed.

Definition bn_words (n : nat) : nat := Z.to_nat ((Z.of_nat n - 1) / 8 + 1).
Lemma bn_words_spec n : (0 < n)%nat -> (n <= 8 * bn_words n < n + 8)%nat.
Proof.
  intros H. unfold bn_words. pose proof (Z.div_mod (Z.of_nat n - 1) 8 ltac:(lia)).
  pose proof (Z.mod_pos_bound (Z.of_nat n - 1) 8 ltac:(lia)).
  assert (0 <= (Z.of_nat n - 1) / 8) by (apply Z.div_pos; lia). lia.
Qed.
Lemma bn_from_bytes_spec l : is_bytes l ->
  bn_from_bytes_be l = None /\ (l = [] \/ 4294967288 < Z.of_nat (length l)) \/
  exists r, bn_from_bytes_be l = Some r /\ limbs (bn_words (length l)) r /\ lval r = be_val l /\
            0 < Z.of_nat (length l) <= 4294967288.
Proof.
  intros B. unfold bn_from_bytes_be.
  destruct (Z.eqb_spec (Z.of_nat (length l)) 0) as [E|E].
  { left. split; [reflexivity|]. left. destruct l; [trivial|cbn [length] in E; lia]. }
  cbn [orb]. destruct (Z.leb_spec ((Z.of_nat (length l) - 1) / 8 + 1) 536870911) as [Hs|Hs]; cbn [negb].
  - right. fold (bn_words (length l)). set (m := bn_words (length l)).
    pose proof (bn_words_spec (length l) ltac:(lia)) as Hm. fold m in Hm.
    assert (Bt : is_bytes (repeat 0 (8 * m - length l) ++ l)).
    { apply Forall_app. split; [apply bytes_zeros|trivial]. }
    assert (Lt : length (repeat 0 (8 * m - length l) ++ l) = (8 * m)%nat) by (rewrite app_length, repeat_length; lia).
    destruct (from_bytes_blocks m _ Bt Lt) as [H1 H2]. eexists. split; [reflexivity|]. split; [exact H1|].
    split; [rewrite H2; apply be_val_pad|]. 
    pose proof (Z.div_mod (Z.of_nat (length l) - 1) 8 ltac:(lia)).
    pose proof (Z.mod_pos_bound (Z.of_nat (length l) - 1) 8 ltac:(lia)). lia.
  - left. split; [reflexivity|]. right.
    pose proof (Z.div_mod (Z.of_nat (length l) - 1) 8 ltac:(lia)).
    pose proof (Z.mod_pos_bound (Z.of_nat (length l) - 1) 8 ltac:(lia)). lia.
Qed.

(** ** Stores *)
Lemma store64_be_bytes v : store64_be v = be_bytes 8 v.
Proof.
  unfold store64_be. cbn [map be_bytes app]. rewrite !Z.div_div by lia.
  change (2 ^ (8 * 0)) with 1. rewrite Z.div_1_r. reflexivity.
Qed.
Lemma bn_to_bytes_app lo x : bn_to_bytes_be (lo ++ [x]) = store64_be x ++ bn_to_bytes_be lo.
Proof.
  unfold bn_to_bytes_be. rewrite app_length. cbn [length]. rewrite Nat.add_1_r.
  cbn [seq flat_map]. f_equal.
  - f_equal. unfold get. rewrite app_nth2 by lia. replace (S (length lo) - 0 - 1 - length lo)%nat with 0%nat by lia. reflexivity.
  - rewrite <- seq_shift, flat_map_concat_map, map_map, <- flat_map_concat_map.
    rewrite !flat_map_concat_map. f_equal. apply map_ext_in. intros i Hi. apply in_seq in Hi.
    f_equal. unfold get. rewrite app_nth1 by lia. reflexivity.
Qed.
Lemma bn_to_bytes_spec n b : limbs n b -> bn_to_bytes_be b = be_bytes (8 * n) (lval b).
Proof.
  intros [L F]. revert n L. induction b as [|x lo IH] using rev_ind; intros n L.
  - subst n. reflexivity.
  - apply Forall_app in F. destruct F as [Fl Fx]. inversion_clear Fx as [|? ? Hx _].
    rewrite app_length in L. cbn [length] in L. destruct n as [|n]; [lia|].
    rewrite bn_to_bytes_app, store64_be_bytes, (IH Fl n) by lia.
    assert (Ln : length lo = n) by lia.
    pose proof (lval_bound _ Fl) as Bl. rewrite Ln in Bl. rewrite limb_W in Hx.
    set (l := be_bytes 8 x ++ be_bytes (8 * n) (lval lo)).
    assert (Bb : is_bytes l) by (apply Forall_app; split; apply be_bytes_is_bytes).
    assert (Ll : length l = (8 * S n)%nat) by (unfold l; rewrite app_length, !be_bytes_length; lia).
    assert (V : be_val l = lval (lo ++ [x])).
    { unfold l, be_val. rewrite fold_left_app, be_val_acc.
      fold (be_val (be_bytes 8 x)). rewrite !be_val_bytes.
      - rewrite be_bytes_length, lval_app, Ln, Wn_bytes. cbn [lval]. ring.
      - rewrite <- Wn_bytes. exact Bl.
      - change (256 ^ Z.of_nat 8) with (2 ^ 64). exact Hx. }
    rewrite <- V, <- Ll. symmetry. now apply be_bytes_val.
Qed.
