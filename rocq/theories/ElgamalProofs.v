(** Proofs about ElgamalModel.v. *)
From Coq Require Import Znumtheory Zpow_facts Permutation Psatz.
From Coq Require Import ZifyBool ZifyNat.
From Verif Require Import Base GroupModel GroupSpec GroupProofs Algebra CodecModel HashModel
  ElgamalModel.
Open Scope Z_scope.
Ltac Zify.zify_post_hook ::= Z.div_mod_to_equations.

Section Proofs.
Context (gp : params) (VP : valid_params gp).
Notation P := (gpP gp).
Notation Q := (gpQ gp).
Notation G := (gpG gp).

Lemma Q_lt_W256 : Q < W256. Proof. apply (vp_Qhi _ VP). Qed.

(** The inverse computed by x^(P-2) is an inverse for subgroup elements. *)
Lemma mod_inv_prime_sub x :
  sub gp x -> 0 <= x < P -> mod_inv_prime P x = ex gp x (-1).
Proof.
  intros Hs Hx. unfold mod_inv_prime. pose proof (Ppos gp VP). pose proof (Qpos gp VP).
  rewrite (vp_Podd _ VP).
  assert (0 < x).
  { pose proof (sub_valid gp VP x Hx Hs) as Hv. apply valid_residue_spec in Hv; [|exact VP]. lia. }
  replace (1 <? P) with true by lia. replace (0 <? x) with true by lia.
  replace (x <? P) with true by lia. cbn [andb].
  rewrite powmod_spec by lia. rewrite <- ex_nonneg by (assumption || lia).
  apply ex_congr. rewrite (vp_PQR _ VP).
  replace (Q * gpR gp + 1 - 2) with (-1 + gpR gp * Q) by lia.
  apply Z.mod_add. lia.
Qed.

Lemma mod_exp_checked_sub x e :
  sub gp x -> 0 <= x < P -> 0 <= e < W256 -> mod_exp_checked P x e = Some (ex gp x e).
Proof.
  intros Hs Hx He. unfold mod_exp_checked. pose proof (Ppos gp VP). pose proof W256_lt_W512.
  rewrite (vp_Podd _ VP). replace (1 <? P) with true by lia. replace (x <? P) with true by lia.
  cbn [andb]. rewrite (Z.mod_small e) by lia. rewrite powmod_spec by lia.
  rewrite <- ex_nonneg by (assumption || lia). reflexivity.
Qed.

(** Decryption of an arbitrary pair of subgroup elements. *)
Lemma decrypt_sub a b s :
  sub gp a -> 0 <= a < P -> 0 <= s < W256 ->
  decrypt gp {| ct_pad := a; ct_data := b |} s =
  let r := (b * ex gp a (- s)) mod P in
  if r =? 1 then 0 else if r =? G then 1 else MAX_UINT64.
Proof.
  intros Ha Hra Hs. unfold decrypt. cbn [ct_pad ct_data].
  rewrite mod_exp_checked_sub by assumption.
  rewrite mod_inv_prime_sub by (apply sub_ex || apply ex_range; assumption).
  rewrite ex_mul by assumption. replace (s * -1) with (- s) by lia. reflexivity.
Qed.

Lemma G_neq_1 : G <> 1. Proof. pose proof (vp_Grng _ VP). lia. Qed.

Lemma elgamal_encrypt_ex2 m r K :
  sub gp K -> 0 < r < W256 ->
  elgamal_encrypt gp m r K =
  Ok {| ct_pad := ex2 gp K r 0; ct_data := ex2 gp K (if m =? 1 then 1 else 0) r |}.
Proof.
  intros HK Hr. unfold elgamal_encrypt.
  replace (r =? 0) with false by lia.
  rewrite (g_pow_ex2 gp VP K) by lia. rewrite (k_pow_ex2 gp VP K HK) by lia.
  f_equal. f_equal. destruct (m =? 1); [|reflexivity].
  rewrite (G_ex2 gp VP K) at 1. rewrite mul_mod_p_ex2 by assumption.
  apply ex2_eq; lia.
Qed.

(** Key of a secret. *)
Lemma g_pow_sub s : 0 <= s < W256 -> sub gp (g_pow_p gp s).
Proof. intros Hs. unfold g_pow_p. rewrite pow_mod_p_ex by (apply sub_G || assumption; assumption).
  apply sub_ex; [assumption|apply sub_G; assumption]. Qed.

Lemma ex2_key s a b : 0 <= s < W256 ->
  ex2 gp (g_pow_p gp s) a b = ex gp G (a + s * b).
Proof.
  intros Hs. unfold ex2, g_pow_p. rewrite pow_mod_p_ex by (try apply sub_G; assumption).
  rewrite ex_mul by (try apply sub_G; assumption).
  symmetry. apply ex_add; [assumption|apply sub_G; assumption].
Qed.

Lemma ex_inj_range a : ex gp G a = 1 -> ex gp G (a + 1) = G.
Proof.
  intros H. rewrite ex_add by (try apply sub_G; assumption). rewrite H, Z.mul_1_l.
  rewrite ex_mod_idem by assumption. rewrite ex_1 by (try apply sub_G; assumption).
  apply Z.mod_small. pose proof (vp_Grng _ VP). lia.
Qed.

Lemma decrypt_encrypt m s r :
  2 <= s < Q -> 0 < r < Q -> m = 0 \/ m = 1 ->
  exists c, elgamal_encrypt gp m r (g_pow_p gp s) = Ok c /\ decrypt gp c s = m.
Proof.
  intros Hs Hr Hm. pose proof Q_lt_W256.
  assert (HK : sub gp (g_pow_p gp s)) by (apply g_pow_sub; lia).
  rewrite elgamal_encrypt_ex2 by (assumption || lia).
  eexists; split; [reflexivity|].
  rewrite decrypt_sub by (apply sub_ex2 || apply ex2_range || lia; assumption).
  rewrite ex2_ex by assumption. rewrite ex2_mul by assumption.
  cbn zeta.
  replace (ex2 gp (g_pow_p gp s) ((if m =? 1 then 1 else 0) + r * - s) (r + 0 * - s))
    with (ex gp G m).
  2:{ rewrite ex2_key by lia. f_equal.
      destruct Hm as [-> | ->]; [change (0 =? 1) with false|change (1 =? 1) with true]; cbv iota; ring. }
  destruct Hm as [-> | ->].
  - rewrite ex_0 by assumption. reflexivity.
  - rewrite ex_1 by (try apply sub_G; assumption).
    rewrite Z.mod_small by (pose proof (vp_Grng _ VP); lia).
    replace (G =? 1) with false by (pose proof G_neq_1; lia).
    rewrite Z.eqb_refl. reflexivity.
Qed.

(** The plaintext actually encrypted is 1 for m = 1 and 0 for everything else. *)
Lemma encrypt_other_is_zero m r K :
  m <> 1 -> elgamal_encrypt gp m r K = elgamal_encrypt gp 0 r K.
Proof.
  intros Hm. unfold elgamal_encrypt. replace (m =? 1) with false by lia. reflexivity.
Qed.

(** ** Accumulation *)
Definition ct_prod (l : list ciphertext) : ciphertext :=
  {| ct_pad := zprod (map ct_pad l) mod P; ct_data := zprod (map ct_data l) mod P |}.

Lemma fold_elgamal_add l acc :
  let r := fold_left (elgamal_add_step gp) l acc in
  ct_pad r = fold_left (mul_mod_p gp) (map ct_pad l) (ct_pad acc) /\
  ct_data r = fold_left (mul_mod_p gp) (map ct_data l) (ct_data acc).
Proof.
  revert acc. induction l as [|c l IH]; intros acc; cbn [fold_left map]; [split; reflexivity|].
  cbn zeta in *. destruct (IH (elgamal_add_step gp acc c)) as [H1 H2].
  rewrite H1, H2. cbn [elgamal_add_step ct_pad ct_data]. split; reflexivity.
Qed.

Lemma elgamal_add_correct l : l <> [] -> elgamal_add gp l = Ok (ct_prod l).
Proof.
  intros Hl. unfold elgamal_add. destruct l as [|c l]; [congruence|].
  destruct (fold_elgamal_add (c :: l) {| ct_pad := 1; ct_data := 1 |}) as [H1 H2].
  cbn zeta in H1, H2. cbn [ct_pad ct_data] in H1, H2.
  f_equal. destruct (fold_left _ _ _) as [a b]. cbn [ct_pad ct_data] in H1, H2.
  unfold ct_prod. f_equal.
  - rewrite H1. fold (mul_mod_p_list gp (map ct_pad (c :: l))). apply mul_mod_p_list_correct, VP.
  - rewrite H2. fold (mul_mod_p_list gp (map ct_data (c :: l))). apply mul_mod_p_list_correct, VP.
Qed.

Lemma elgamal_add_perm l l' : Permutation l l' -> elgamal_add gp l = elgamal_add gp l'.
Proof.
  intros HP. destruct l as [|c l].
  - apply Permutation_nil in HP. subst. reflexivity.
  - assert (l' <> []).
    { intros ->. apply Permutation_sym, Permutation_nil in HP. discriminate. }
    rewrite !elgamal_add_correct by (assumption || discriminate).
    unfold ct_prod. f_equal. f_equal.
    + rewrite (zprod_perm (map ct_pad (c :: l)) (map ct_pad l')) by (apply Permutation_map; assumption).
      reflexivity.
    + rewrite (zprod_perm (map ct_data (c :: l)) (map ct_data l')) by (apply Permutation_map; assumption).
      reflexivity.
Qed.

(** Ciphertexts as exponents: (message, nonce) pairs. *)
Definition enc_exp (K : Z) (mr : Z * Z) : ciphertext :=
  {| ct_pad := ex2 gp K (snd mr) 0; ct_data := ex2 gp K (fst mr) (snd mr) |}.

Lemma zprod_ex2 K l : sub gp K ->
  zprod (map (fun ab => ex2 gp K (fst ab) (snd ab)) l) mod P
  = ex2 gp K (zsum (map fst l)) (zsum (map snd l)).
Proof.
  intros HK. induction l as [|[a b] l IH]; cbn [map zprod zsum fold_right fst snd].
  - rewrite <- one_ex2 by assumption. apply one_mod_P, VP.
  - rewrite <- Zmult_mod_idemp_r. fold (zprod (map (fun ab => ex2 gp K (fst ab) (snd ab)) l)).
    rewrite IH. rewrite ex2_mul by assumption. reflexivity.
Qed.

Lemma elgamal_add_exp K l : sub gp K -> l <> [] ->
  elgamal_add gp (map (enc_exp K) l)
  = Ok (enc_exp K (zsum (map fst l), zsum (map snd l))).
Proof.
  intros HK Hl. rewrite elgamal_add_correct by (destruct l; cbn; congruence).
  unfold ct_prod, enc_exp at 3. cbn [fst snd]. rewrite !map_map. f_equal. f_equal.
  - cbn [enc_exp ct_pad].
    pose proof (zprod_ex2 K (map (fun x : Z * Z => (snd x, 0)) l) HK) as E.
    rewrite !map_map in E. cbn [fst snd] in E. rewrite E.
    apply ex2_eq; [reflexivity|]. clear. unfold zsum. induction l as [|x l IH]; cbn [map fold_right]; [reflexivity|]. rewrite IH. reflexivity.
  - cbn [enc_exp ct_data]. apply zprod_ex2, HK.
Qed.

Lemma elgamal_encrypt_exp m r K :
  sub gp K -> 0 < r < W256 -> m = 0 \/ m = 1 ->
  elgamal_encrypt gp m r K = Ok (enc_exp K (m, r)).
Proof.
  intros HK Hr Hm. rewrite elgamal_encrypt_ex2 by assumption. unfold enc_exp. cbn [fst snd].
  destruct Hm as [-> | ->]; reflexivity.
Qed.

Lemma enc_exp_nonce_mod K m r r' : r mod Q = r' mod Q -> enc_exp K (m, r) = enc_exp K (m, r').
Proof.
  intros H. unfold enc_exp. cbn [fst snd]. f_equal; apply ex2_congr; auto.
Qed.

(** Precomputed encryption. *)
Lemma encrypt_precomp_eq m r K :
  r <> 0 ->
  elgamal_encrypt gp m r K = Ok (elgamal_encrypt_precomp gp m (g_pow_p gp r) (pow_mod_p gp K r)).
Proof.
  intros Hr. unfold elgamal_encrypt. replace (r =? 0) with false by lia. reflexivity.
Qed.

End Proofs.
