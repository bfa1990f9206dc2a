(** The code of Sha2Model computes the functions of Sha2Spec. *)
From Verif Require Import Base CodecModel CodecProofs Sha2Model Sha2Spec.
From Coq Require Import ZifyBool.
Open Scope Z_scope.

Definition word (x : Z) : Prop := 0 <= x < 2 ^ 32.

Lemma K_code : K = k224_256.
Proof. vm_compute. reflexivity. Qed.
Lemma H0_code : H0 = h256.
Proof. vm_compute. reflexivity. Qed.

(** ** Words *)
Lemma u32_word x : word (u32 x).
Proof. apply Z.mod_pos_bound. lia. Qed.
Lemma u32_small x : 0 <= x < 2 ^ 32 -> u32 x = x.
Proof. apply Z.mod_small. Qed.
Lemma u64_small x : 0 <= x < 2 ^ 64 -> u64 x = x.
Proof. apply Z.mod_small. Qed.

Lemma lor_disjoint a b k :
  0 <= k -> 0 <= a < 2 ^ k -> Z.lor a (b * 2 ^ k) = a + b * 2 ^ k.
Proof.
  intros Hk Ha.
  assert (D : Z.land a (b * 2 ^ k) = 0).
  { apply Z.bits_inj'. intros n Hn. rewrite Z.land_spec, Z.bits_0.
    destruct (Z.lt_ge_cases n k).
    - rewrite Z.mul_pow2_bits_low by lia. apply andb_false_r.
    - replace a with (a mod 2 ^ k) by (apply Z.mod_small; lia).
      rewrite Z.mod_pow2_bits_high by lia. reflexivity. }
  rewrite <- Z.lxor_lor, <- Z.add_nocarry_lxor by exact D. reflexivity.
Qed.

Lemma rot_ok n m x :
  0 < n -> 0 < m -> n + m = 32 -> word x -> rot32 x n m = ROTR n x.
Proof.
  intros Hn Hm E Hx. unfold rot32, shr32, shl32, u32, ROTR.
  replace (32 - n) with m by lia.
  rewrite Z.shiftr_div_pow2, Z.shiftl_mul_pow2 by lia.
  assert (E2 : x * 2 ^ m mod 2 ^ 32 = (x mod 2 ^ n) * 2 ^ m).
  { replace (2 ^ 32) with (2 ^ n * 2 ^ m) by (rewrite <- Z.pow_add_r by lia; f_equal; lia).
    apply Z.mul_mod_distr_r; lia. }
  rewrite E2. apply lor_disjoint. lia.
  unfold word in Hx. replace 32 with (n + m) in Hx by lia. rewrite Z.pow_add_r in Hx by lia.
  split. apply Z.div_pos; lia.
  apply Z.div_lt_upper_bound; lia.
Qed.

Lemma shr_ok n x : 0 <= n -> shr32 x n = SHR n x.
Proof. intros. unfold shr32, SHR. apply Z.shiftr_div_pow2. lia. Qed.

Lemma not_ok x : word x -> not32 x = W32 - 1 - x.
Proof.
  intros H. unfold not32, u32, Z.lnot, word, W32 in *.
  symmetry. apply (Z.mod_unique _ _ (-1)); lia.
Qed.

Lemma plus_word l : word (plus l).
Proof. apply Z.mod_pos_bound. reflexivity. Qed.

Lemma add32_mod_l x y : add32 (u32 x) y = u32 (x + y).
Proof. unfold add32, u32. apply Z.add_mod_idemp_l. lia. Qed.

Lemma byte_bound b : is_byte b -> 0 <= b < 256. Proof. exact (fun H => H). Qed.

Lemma nth_byte l i : is_bytes l -> 0 <= nth i l 0 < 256.
Proof.
  intros H. destruct (Nat.lt_ge_cases i (length l)) as [L|L].
  - exact (proj1 (Forall_forall _ _) H _ (nth_In _ _ L)).
  - rewrite nth_overflow by exact L. lia.
Qed.

Lemma word_at_word b t : is_bytes b -> word (word_at b t).
Proof.
  intros H. unfold word_at, word.
  pose proof (nth_byte b (4 * t) H). pose proof (nth_byte b (4 * t + 1) H).
  pose proof (nth_byte b (4 * t + 2) H). pose proof (nth_byte b (4 * t + 3) H). lia.
Qed.

(** ** The message schedule *)
Lemma schedule_length b n : length (schedule b n) = n.
Proof. induction n as [|n IH]; [reflexivity|]. cbn [schedule]. rewrite app_length, IH. cbn. lia. Qed.

Lemma schedule_words b n : is_bytes b -> Forall word (schedule b n).
Proof.
  intros H. induction n as [|n IH]; [constructor|]. cbn [schedule].
  apply Forall_app. split; [exact IH|]. constructor; [|constructor].
  destruct (n <? 16)%nat; [apply word_at_word; exact H|apply plus_word].
Qed.

Lemma Forall_nth0 l i : Forall word l -> word (nth i l 0).
Proof.
  intros H. destruct (Nat.lt_ge_cases i (length l)) as [L|L].
  - exact (proj1 (Forall_forall _ _) H _ (nth_In _ _ L)).
  - rewrite nth_overflow by exact L. unfold word. lia.
Qed.

Lemma load_word_at b t :
  (4 * t + 4 <= length b)%nat -> load32_be (skipn (t * 4) b) = word_at b t.
Proof.
  intros H.
  assert (E : forall i, nth (4 * t + i) b 0 = nth i (skipn (t * 4) b) 0).
  { intros i. rewrite <- (firstn_skipn (t * 4) b) at 1.
    rewrite app_nth2; rewrite firstn_length; [f_equal|]; lia. }
  unfold word_at. replace (4 * t)%nat with (4 * t + 0)%nat at 1 by lia. rewrite !E.
  assert (L : (4 <= length (skipn (t * 4) b))%nat) by (rewrite skipn_length; lia).
  destruct (skipn (t * 4) b) as [|b0 [|b1 [|b2 [|b3 r]]]]; cbn in L; try lia.
  unfold load32_be. cbn [firstn fold_left nth]. change (2 ^ 24) with 16777216.
  change (2 ^ 16) with 65536. change (2 ^ 8) with 256. lia.
Qed.

Lemma set_nth_app i v a c : length a = i -> set_nth i v (a ++ 0 :: c) = a ++ v :: c.
Proof.
  intros <-. unfold set_nth. rewrite firstn_app, Nat.sub_diag, firstn_all. cbn [firstn].
  rewrite app_nil_r. f_equal.
  replace (S (length a)) with (length a + 1)%nat by lia.
  rewrite skipn_app. rewrite skipn_all2 by lia.
  replace (length a + 1 - length a)%nat with 1%nat by lia. reflexivity.
Qed.

Lemma sum4 a b c d : add32 (add32 (add32 a b) c) d = plus [a; b; c; d].
Proof.
  unfold add32 at 3. rewrite add32_mod_l, add32_mod_l. unfold u32, plus, W32, zsum. cbn [fold_right].
  f_equal. lia.
Qed.

Lemma ws_step_ok b n r :
  is_bytes b -> length b = 64%nat -> (n < 64)%nat ->
  ws_step b (schedule b n ++ 0 :: r) n = schedule b (S n) ++ r.
Proof.
  intros Hb Lb Hn. unfold ws_step. cbn [schedule].
  pose proof (schedule_length b n) as L.
  destruct (n <? 16)%nat eqn:E.
  - apply Nat.ltb_lt in E. rewrite set_nth_app by exact L.
    rewrite load_word_at by lia. rewrite <- app_assoc. reflexivity.
  - apply Nat.ltb_ge in E. rewrite set_nth_app by exact L.
    rewrite !app_nth1 by lia.
    pose proof (schedule_words b n Hb) as W.
    rewrite !rot_ok by (try apply Forall_nth0; try exact W; lia).
    rewrite !shr_ok by lia. rewrite sum4.
    unfold sigma0, sigma1. rewrite !Z.lxor_assoc, <- app_assoc. reflexivity.
Qed.

Lemma ws_ok b : is_bytes b -> length b = 64%nat -> computed_ws b = schedule b 64.
Proof.
  intros Hb Lb. unfold computed_ws.
  assert (G : forall n, (n <= 64)%nat ->
            fold_left (ws_step b) (seq 0 n) (repeat 0 64) = schedule b n ++ repeat 0 (64 - n)).
  { induction n as [|n IH]; intros Hn; [reflexivity|].
    rewrite seq_S, fold_left_app, IH by lia. cbn [fold_left plus Nat.add].
    replace (64 - n)%nat with (S (64 - S n)) by lia. cbn [repeat].
    apply ws_step_ok; [exact Hb|exact Lb|lia]. }
  rewrite G by lia. rewrite Nat.sub_diag. cbn [repeat]. apply app_nil_r.
Qed.

(** ** The rounds *)
Definition words8 (s : vars) : Prop := Forall word (listed s).

Lemma round_words s kw : words8 s -> words8 (round s kw).
Proof.
  destruct s as [[[[[[[a b] c] d] e] f] g] h]. unfold words8, round, listed. intros H.
  repeat match goal with H : Forall _ (_ :: _) |- _ => inversion H; clear H; subst end.
  repeat (apply Forall_cons; [first [assumption|apply plus_word]|]). apply Forall_nil.
Qed.

Lemma sha_step_ok ws s i :
  words8 s ->
  sha_step ws (listed s) i = listed (round s (nth i k224_256 0, nth i ws 0)).
Proof.
  destruct s as [[[[[[[a b] c] d] e] f] g] h]. unfold words8, listed. intros H.
  assert (Ha : word a) by exact (Forall_nth0 _ 0 H).
  assert (He : word e) by exact (Forall_nth0 _ 4 H).
  unfold sha_step, round. cbn [nth fst snd].
  generalize (nth i ws 0). generalize (nth i k224_256 0). intros k w.
  rewrite !rot_ok by (assumption || lia). rewrite not_ok by exact He.
  assert (T1 : add32 (add32 (add32 (add32 h
      (Z.lxor (ROTR 6 e) (Z.lxor (ROTR 11 e) (ROTR 25 e))))
      (Z.lxor (Z.land e f) (Z.land (W32 - 1 - e) g))) k) w
    = plus [h; Sigma1 e; Ch e f g; k; w]).
  { unfold add32 at 4. rewrite !add32_mod_l. unfold u32, plus, W32, zsum, Sigma1, Ch, W32.
    rewrite !Z.lxor_assoc. cbn [fold_right]. f_equal. lia. }
  rewrite T1.
  assert (T2 : add32 (Z.lxor (ROTR 2 a) (Z.lxor (ROTR 13 a) (ROTR 22 a)))
      (Z.lxor (Z.land a b) (Z.lxor (Z.land a c) (Z.land b c))) = plus [Sigma0 a; Maj a b c]).
  { unfold add32, u32, plus, W32, zsum, Sigma0, Maj. rewrite !Z.lxor_assoc. cbn [fold_right].
    f_equal. lia. }
  rewrite T2.
  assert (A : forall x y, add32 x y = plus [x; y]).
  { intros x y. unfold add32, u32, plus, W32, zsum. cbn [fold_right]. f_equal. lia. }
  rewrite !A. reflexivity.
Qed.

Lemma combine_seq (a b : list Z) :
  length a = length b ->
  combine a b = map (fun i => (nth i a 0, nth i b 0)) (seq 0 (length a)).
Proof.
  revert b. induction a as [|x a IH]; intros [|y b] H; cbn in H; try lia; [reflexivity|].
  cbn [combine length seq map nth]. f_equal. rewrite <- seq_shift, map_map. apply IH. lia.
Qed.

Lemma fold_left_mapped {A B C} (g : A -> B -> A) (f : C -> B) l s :
  fold_left g (map f l) s = fold_left (fun s i => g s (f i)) l s.
Proof. revert s. induction l as [|x l IH]; intros s; [reflexivity|]. cbn. apply IH. Qed.

Lemma rounds_ok ws l s :
  words8 s ->
  fold_left (sha_step ws) l (listed s)
  = listed (fold_left (fun s i => round s (nth i k224_256 0, nth i ws 0)) l s).
Proof.
  revert s. induction l as [|i l IH]; intros s H; [reflexivity|].
  cbn [fold_left]. rewrite sha_step_ok by exact H. apply IH. apply round_words. exact H.
Qed.

Definition state8 (h : list Z) : Prop := length h = 8%nat /\ Forall word h.

Lemma compress_state h b : state8 (compress h b).
Proof.
  unfold compress. destruct (fold_left round _ _) as [[[[[[[a b0] c] d] e] f] g] h'].
  split; [reflexivity|]. cbn [listed combine map].
  repeat (apply Forall_cons; [apply plus_word|]). apply Forall_nil.
Qed.

Lemma update_256_ok h b :
  state8 h -> is_bytes b -> length b = 64%nat -> update_256 h b = compress h b.
Proof.
  intros [Lh Wh] Hb Lb. unfold update_256, compress. rewrite ws_ok by assumption.
  rewrite K_code.
  rewrite (combine_seq k224_256 (schedule b 64)) by (rewrite schedule_length; reflexivity).
  change (length k224_256) with 64%nat. rewrite fold_left_mapped.
  destruct h as [|h0 [|h1 [|h2 [|h3 [|h4 [|h5 [|h6 [|h7 [|]]]]]]]]]; cbn in Lh; try lia. clear Lh.
  cbn [nth].
  change [h0; h1; h2; h3; h4; h5; h6; h7] with (listed (h0, h1, h2, h3, h4, h5, h6, h7)) in *.
  rewrite rounds_ok by exact Wh.
  destruct (fold_left (fun s i => round s (nth i k224_256 0, nth i (schedule b 64) 0)) (seq 0 64)
              (h0, h1, h2, h3, h4, h5, h6, h7)) as [[[[[[[a b0] c] d] e] f] g] h'].
  cbn [seq map nth listed combine].
  assert (A : forall x y, add32 x y = plus [y; x]).
  { intros x y. unfold add32, u32, plus, W32, zsum. cbn [fold_right]. f_equal. lia. }
  rewrite !A. reflexivity.
Qed.
