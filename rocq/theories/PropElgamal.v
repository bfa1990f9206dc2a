(** Properties C15-C23: ElGamal and hashed ElGamal. *)
From Coq Require Import Znumtheory Permutation Psatz String.
From Verif Require Import Base GroupModel GroupSpec GroupProofs GroupExtra CodecModel CodecProofs
  HashModel HashProofs Algebra ElgamalModel ElgamalSpec ElgamalProofs ChaumModel ChaumProofs SoundProofs
  TallyProofs HashedProofs TestParams.
Open Scope string_scope.
Open Scope list_scope.
Open Scope Z_scope.
Ltac Zify.zify_post_hook ::= idtac.

Notation tp := test_params.

(** * C15 *)
Theorem C15_decrypt_encrypt gp m s r :
  valid_params gp -> 2 <= s < gpQ gp -> 0 < r < gpQ gp -> m = 0 \/ m = 1 ->
  exists k K c, keypair_from_secret gp s = Ok k /\ kp_secret k = Some s /\ kp_public k = Some K /\
    elgamal_encrypt gp m r K = Ok c /\ decrypt gp c s = m.
Proof.
  intros V Hs Hr Hm. destruct (decrypt_encrypt gp V m s r Hs Hr Hm) as (c & E1 & E2).
  unfold keypair_from_secret. destruct (Z.ltb_spec s 2) as [?|_]; [lia|].
  eexists _, _, c. split; [reflexivity|]. cbn. split; [reflexivity|]. split; [reflexivity|]. split; assumption.
Qed.
(** Encryption produces the textbook ciphertext, for every key in the subgroup. *)
Theorem C15_encrypt_spec gp K m r :
  valid_params gp -> spec_subgroup gp K -> 0 < r < 2 ^ 256 -> m = 0 \/ m = 1 ->
  elgamal_encrypt gp m r K = Ok (spec_enc gp K m r).
Proof. intros V. exact (encrypt_spec gp V K m r). Qed.
(** Decryption answers exactly: for a ciphertext of any value m the result is m for
    0 and 1 and the error value otherwise. *)
Theorem C15_decrypt_exact gp c s m :
  prime_params gp -> spec_subgroup gp (ct_pad c) -> 0 <= s < 2 ^ 256 -> 0 <= m < gpQ gp ->
  spec_decrypts gp c s m -> decrypt gp c s = if m <=? 1 then m else 2 ^ 64 - 1.
Proof. intros V Hp Hs Hm HD. exact (decrypt_model gp V c s Hp Hs m Hm HD). Qed.
Example C15_case :
  exists c, elgamal_encrypt tp 1 777 (g_pow_p tp 12345) = Ok c /\ decrypt tp c 12345 = 1
    /\ decrypt tp c 12346 = 2 ^ 64 - 1.
Proof. eexists. split; [vm_compute; reflexivity|]. vm_compute. repeat split. Qed.

(** * C16: false of the code *)
Theorem C16_plaintext_changed_refuted :
  exists m s r c, 0 <= m < 2 ^ 64 /\ elgamal_encrypt tp m r (g_pow_p tp s) = Ok c /\
    c <> spec_enc tp (g_pow_p tp s) m r /\ decrypt tp c s = 0 /\ m <> 0.
Proof.
  exists 2, 12345, 3. eexists. split; [split; [discriminate|reflexivity]|].
  split; [vm_compute; reflexivity|]. split.
  - intros E. apply (f_equal ct_data) in E. vm_compute in E. discriminate E.
  - split; [vm_compute; reflexivity|discriminate].
Qed.
(** What holds: 0 and 1 are encrypted faithfully (C15_encrypt_spec); every other
    value is encrypted as 0.  Missing: an error for the other values. *)
Theorem C16_other_values_partial gp m r K :
  m <> 1 -> elgamal_encrypt gp m r K = elgamal_encrypt gp 0 r K.
Proof. exact (encrypt_other_is_zero gp m r K). Qed.

(** * C17 *)
Theorem C17_homomorphic gp K (l : list (Z * Z)) :
  valid_params gp -> spec_subgroup gp K -> l <> [] ->
  Forall (fun mr => 0 <= fst mr /\ 0 <= snd mr) l ->
  elgamal_add gp (map (fun mr => spec_enc gp K (fst mr) (snd mr)) l)
  = Ok (spec_enc gp K (fold_right Z.add 0 (map fst l)) (fold_right Z.add 0 (map snd l))).
Proof. intros V. exact (add_spec gp V K l). Qed.
Theorem C17_product gp l :
  valid_params gp -> l <> [] ->
  elgamal_add gp l = Ok {| ct_pad := fold_right Z.mul 1 (map ct_pad l) mod gpP gp;
                           ct_data := fold_right Z.mul 1 (map ct_data l) mod gpP gp |}.
Proof. intros V. exact (elgamal_add_correct gp V l). Qed.
Theorem C17_order gp l l' :
  valid_params gp -> Permutation l l' -> elgamal_add gp l = elgamal_add gp l'.
Proof. intros V. exact (elgamal_add_perm gp V l l'). Qed.
Theorem C17_throws gp l : is_ok (elgamal_add gp l) = true <-> l <> [].
Proof. destruct l; cbn; split; congruence. Qed.
Example C17_case :
  let K := g_pow_p tp 12345 in
  spec_subgroup tp K /\
  elgamal_add tp [spec_enc tp K 1 3; spec_enc tp K 0 10; spec_enc tp K 1 4] = Ok (spec_enc tp K 2 17).
Proof. cbn zeta. unfold spec_subgroup. rewrite <- powmod_spec by discriminate. vm_compute. repeat split. Qed.

(** * C18 *)
(** [votes] lists for each ballot the vote for one selection and the nonce used. *)
Theorem C18_tally gp s (votes : list (Z * Z)) cs c :
  prime_params gp -> 0 <= s < 2 ^ 256 -> votes <> [] ->
  Forall (fun vr => (fst vr = 0 \/ fst vr = 1) /\ 0 < snd vr < 2 ^ 256) votes ->
  Forall2 (fun vr ci => elgamal_encrypt gp (fst vr) (snd vr) (spec_key gp s) = Ok ci) votes cs ->
  elgamal_add gp cs = Ok c ->
  let n := fold_right Z.add 0 (map fst votes) in
  spec_decrypts gp c s n /\
  (n < gpQ gp -> forall m, 0 <= m < gpQ gp -> spec_decrypts gp c s m -> m = n).
Proof.
  intros PP Hs Hne HF HE HA n. pose proof (pp_valid _ PP) as V.
  assert (HK : spec_subgroup gp (spec_key gp s)).
  { apply spec_key_subgroup; [exact V|lia]. }
  assert (Ecs : cs = map (fun mr => spec_enc gp (spec_key gp s) (fst mr) (snd mr)) votes).
  { clear Hne HA. induction HE as [|vr ci vs cs E HE IH]; [reflexivity|].
    inversion HF as [|? ? [Hv Hr] HF']; subst. cbn [map]. f_equal; [|apply IH; exact HF'].
    rewrite (encrypt_spec gp V _ _ _ HK Hr Hv) in E. symmetry. apply Ok_inj. exact E. }
  assert (HN : Forall (fun mr => 0 <= fst mr /\ 0 <= snd mr) votes).
  { eapply Forall_impl; [|exact HF]. cbn. intros a [Hv Hr]. split; [destruct Hv; lia|lia]. }
  rewrite Ecs, (add_spec gp V _ _ HK Hne HN) in HA. apply Ok_inj in HA. subst c.
  fold (zsum (map fst votes)) in n.
  assert (H0 : 0 <= n).
  { apply zsum_nonneg. apply Forall_map. eapply Forall_impl; [|exact HN]. tauto. }
  assert (H1 : 0 <= zsum (map snd votes)).
  { apply zsum_nonneg. apply Forall_map. eapply Forall_impl; [|exact HN]. tauto. }
  split.
  - apply (spec_enc_decrypts gp V); lia || assumption.
  - intros Hn m Hm HD.
    assert (E : m mod gpQ gp = n mod gpQ gp).
    { apply (decrypts_unique gp PP (spec_enc gp (spec_key gp s) n (zsum (map snd votes))) s m n).
      - cbn [ct_pad spec_enc]. apply (sub_spec_key gp V). exact H1.
      - lia.
      - lia.
      - exact H0.
      - exact HD.
      - apply (spec_enc_decrypts gp V); lia || assumption. }
    rewrite !Z.mod_small in E by lia. exact E.
Qed.
Example C18_case : (* three ballots, two votes *)
  exists c1 c2 c3 c, elgamal_encrypt tp 1 3 (g_pow_p tp 99) = Ok c1 /\
    elgamal_encrypt tp 0 4 (g_pow_p tp 99) = Ok c2 /\ elgamal_encrypt tp 1 5 (g_pow_p tp 99) = Ok c3 /\
    elgamal_add tp [c1; c2; c3] = Ok c /\
    ct_data c = mul_mod_p tp (g_pow_p tp 2) (pow_mod_p tp (ct_pad c) 99).
Proof. do 4 eexists. do 4 (split; [vm_compute; reflexivity|]). vm_compute. reflexivity. Qed.

(** * C19: false of the code *)
Theorem C19_malformed_pad_refuted :
  exists c, gpP tp <= ct_pad c < 2 ^ 4096 /\ decrypt tp c 12345 = 0.
Proof. exists {| ct_pad := gpP tp; ct_data := 5 |}. vm_compute. repeat split; discriminate. Qed.
(** What holds: for pads in the subgroup a result of 0 or 1 is a decryption and the
    only other result is the error value.  Missing: pads of P or more, reported as 0. *)
Theorem C19_decrypt_sound_partial gp c s :
  valid_params gp -> spec_subgroup gp (ct_pad c) -> 0 <= s < 2 ^ 256 ->
  (decrypt gp c s = 0 /\ spec_decrypts gp c s 0) \/
  (decrypt gp c s = 1 /\ spec_decrypts gp c s 1) \/
  decrypt gp c s = 2 ^ 64 - 1.
Proof.
  intros V [Hp Hs'] Hs. destruct c as [a b]. cbn [ct_pad] in *.
  assert (Ha : 0 <= a < gpP gp) by lia.
  pose proof (decrypt_sub gp V a b s Hs' Ha Hs) as E. cbn zeta in E.
  assert (K : forall r, (b * ex gp a (- s)) mod gpP gp = r mod gpP gp ->
              b mod gpP gp = (r * a ^ s) mod gpP gp).
  { intros r Hr. rewrite <- (Zmult_mod_idemp_r (a ^ s)).
    rewrite <- (ex_nonneg gp V a s) by (assumption || lia).
    rewrite <- Zmult_mod_idemp_l, <- Hr, Zmult_mod_idemp_l, <- Z.mul_assoc, <- Zmult_mod_idemp_r.
    rewrite (Z.mul_comm (ex gp a (- s))). rewrite (ex_neg gp V a s Hs'), Z.mul_1_r. reflexivity. }
  pose proof (vp_Grng _ V) as HG.
  destruct (Z.eqb_spec ((b * ex gp a (- s)) mod gpP gp) 1) as [E1|N1].
  - left. split; [exact E|]. unfold spec_decrypts. cbn [ct_pad ct_data]. rewrite Z.pow_0_r.
    apply K. rewrite E1. symmetry. apply Z.mod_small. clear - HG. lia.
  - destruct (Z.eqb_spec ((b * ex gp a (- s)) mod gpP gp) (gpG gp)) as [E2|N2].
    + right; left. split; [exact E|]. unfold spec_decrypts. cbn [ct_pad ct_data]. rewrite Z.pow_1_r.
      apply K. rewrite E2. symmetry. apply Z.mod_small. clear - HG. lia.
    + right; right. exact E.
Qed.

(** * C20 *)
Theorem C20_precomputed gp m r K :
  r <> 0 ->
  elgamal_encrypt gp m r K = Ok (elgamal_encrypt_precomp gp m (g_pow_p gp r) (pow_mod_p gp K r)).
Proof. exact (encrypt_precomp_eq gp m r K). Qed.
(** With the values specified as powers, not through the model's exponentiation. *)
Theorem C20_precomputed_spec gp m r K :
  valid_params gp -> 0 < r < 2 ^ 256 ->
  Ok (elgamal_encrypt_precomp gp m ((gpG gp ^ r) mod gpP gp) ((K ^ r) mod gpP gp)) = elgamal_encrypt gp m r K.
Proof.
  intros V Hr. assert (Hr' : 0 <= r < W256) by (change W256 with (2 ^ 256); lia).
  rewrite <- (g_pow_p_correct gp V r Hr'), <- (pow_mod_p_correct gp V K r Hr').
  symmetry. apply encrypt_precomp_eq. lia.
Qed.

(** * C21 *)
Theorem C21_secret_rejected gp s :
  (exists k, keypair_from_secret gp s = Ok k) <-> 2 <= s.
Proof.
  unfold keypair_from_secret. destruct (Z.ltb_spec s 2); split; intros H'.
  - destruct H' as [k E]. discriminate E.
  - lia.
  - assumption.
  - eexists. reflexivity.
Qed.
Theorem C21_nonce_rejected gp m r K :
  (exists e, elgamal_encrypt gp m r K = Throw e) <-> r = 0.
Proof.
  unfold elgamal_encrypt. destruct (Z.eqb_spec r 0); split; intros H'.
  - assumption.
  - eexists. reflexivity.
  - destruct H' as [k E]. discriminate E.
  - contradiction.
Qed.
Theorem C21_public_key gp s k :
  valid_params gp -> 0 <= s < 2 ^ 256 -> keypair_from_secret gp s = Ok k ->
  kp_secret k = Some s /\ kp_public k = Some (spec_key gp s).
Proof.
  intros V Hs. unfold keypair_from_secret. destruct (s <? 2); [discriminate|].
  intros E. apply Ok_inj in E. subst k. cbn. split; [reflexivity|]. f_equal. exact (spec_key_model gp V s Hs).
Qed.
(** Copying is false of the code: the source is left with null pointers. *)
Theorem C21_copy_leaves_source_refuted :
  exists k copy after, keypair_from_secret tp 5 = Ok k /\ keypair_copy k = (copy, after) /\
    copy = k /\ kp_secret after = None /\ kp_secret k = Some 5.
Proof. do 3 eexists. split; [vm_compute; reflexivity|]. split; [reflexivity|]. repeat split. Qed.

(** * C22 *)
Theorem C22_roundtrip_padded gp sha hmac message s nonce seed trunc c :
  valid_params gp -> 0 <= s < 2 ^ 256 -> 0 <= nonce < 2 ^ 256 ->
  hashed_encrypt gp sha hmac None message nonce (spec_key gp s) seed 510 trunc = Ok c ->
  hashed_decrypt gp sha hmac c s seed true = Ok (firstn 510 message).
Proof.
  intros V Hs Hn. rewrite <- (spec_key_model gp V s Hs).
  exact (hashed_roundtrip_padded gp V sha hmac None message s nonce seed trunc c Hs Hn I).
Qed.
Theorem C22_roundtrip_unpadded gp sha hmac message s nonce seed trunc c :
  valid_params gp -> 0 <= s < 2 ^ 256 -> 0 <= nonce < 2 ^ 256 -> message <> [] ->
  hashed_encrypt gp sha hmac None message nonce (spec_key gp s) seed 0 trunc = Ok c ->
  hashed_decrypt gp sha hmac c s seed false = Ok message.
Proof.
  intros V Hs Hn Hm. rewrite <- (spec_key_model gp V s Hs).
  exact (hashed_roundtrip_unpadded gp V sha hmac None message s nonce seed trunc c Hs Hn I Hm).
Qed.
(** The same with a precomputed triple of the right form, whatever the nonce. *)
Theorem C22_roundtrip_precomputed gp sha hmac t message s nonce seed trunc c :
  valid_params gp -> 0 <= s < 2 ^ 256 -> 0 <= nonce < 2 ^ 256 ->
  0 <= tr_exp t < 2 ^ 256 -> tr_g t = (gpG gp ^ tr_exp t) mod gpP gp ->
  tr_k t = (spec_key gp s ^ tr_exp t) mod gpP gp ->
  hashed_encrypt gp sha hmac (Some t) message nonce (spec_key gp s) seed 510 trunc = Ok c ->
  hashed_decrypt gp sha hmac c s seed true = Ok (firstn 510 message).
Proof.
  intros V Hs Hn H1 H2 H3.
  rewrite <- (pow_mod_p_correct gp V _ _ H1) in H2. rewrite <- (pow_mod_p_correct gp V _ _ H1) in H3.
  rewrite <- (spec_key_model gp V s Hs) in *.
  apply (hashed_roundtrip_padded gp V sha hmac (Some t) message s nonce seed trunc c Hs Hn).
  split; [exact H1|]. split; assumption.
Qed.
(** Encryption succeeds exactly for the messages that fit. *)
Theorem C22_encrypt_total gp sha hmac pre message nonce pk seed max_len trunc :
  max_len = 0 \/ max_len = 510 ->
  is_ok (hashed_encrypt gp sha hmac pre message nonce pk seed max_len trunc) =
  if max_len =? 0 then Z.of_nat (length message) mod 32 =? 0
  else trunc || (Z.of_nat (length message) <=? 510).
Proof. exact (hashed_encrypt_total gp sha hmac pre message nonce pk seed max_len trunc). Qed.
(** Corner case, false: the empty unpadded message encrypts but cannot be decrypted. *)
Theorem C22_empty_unpadded_refuted gp sha hmac s nonce seed :
  exists c, hashed_encrypt gp sha hmac None [] nonce (spec_key gp s) seed 0 false = Ok c /\
    hashed_decrypt gp sha hmac c s seed false = Throw InvalidArgument.
Proof. eexists. split; reflexivity. Qed.
Example C22_case :
  exists c, hashed_encrypt tp toy_sha toy_hmac None (s2b "a write-in") 777 (g_pow_p tp 12345) 9 510 false = Ok c
    /\ length (hc_data c) = 512%nat
    /\ hashed_decrypt tp toy_sha toy_hmac c 12345 9 true = Ok (s2b "a write-in").
Proof. eexists. split; [vm_compute; reflexivity|]. split; vm_compute; reflexivity. Qed.

(** * C23 *)
Theorem C23_modified_rejected gp sha hmac c c' s seed lfp lfp' out out' :
  0 <= hc_pad c < 2 ^ 4096 -> 0 <= hc_pad c' < 2 ^ 4096 ->
  hashed_decrypt gp sha hmac c s seed lfp = Ok out ->
  hashed_decrypt gp sha hmac c' s seed lfp' = Ok out' ->
  hc_mac c = hc_mac c' ->
  (hc_pad c, hc_data c) <> (hc_pad c', hc_data c') ->
  exists key key' m m', m <> m' /\ hmac key m mod 2 ^ 256 = hmac key' m' mod 2 ^ 256 /\
    (hc_pad c = hc_pad c' -> length (hc_data c) = length (hc_data c') -> key = key').
Proof. exact (hashed_mac_collision gp sha hmac c c' s seed lfp lfp' out out'). Qed.
Theorem C23_illegal_length gp sha hmac c s seed lfp :
  (length (hc_data c) mod 32 <> 0)%nat \/ hc_data c = [] ->
  hashed_decrypt gp sha hmac c s seed lfp = Throw InvalidArgument.
Proof. exact (hashed_illegal_length gp sha hmac c s seed lfp). Qed.
(** Acceptance means that the stored mac is the mac, under the key derived from pad,
    secret and seed, of exactly the stored pad and data. *)
Theorem C23_accepted_mac gp sha hmac c s seed lfp out :
  hashed_decrypt gp sha hmac c s seed lfp = Ok out ->
  exists key, hc_mac c = be_bytes 32 (hmac key (to_bytes_p (hc_pad c) ++ hc_data c) mod 2 ^ 256)
  /\ key = get_hmac hmac
             (to_bytes_q (hash_elems gp sha [HElemP (hc_pad c); HElemP (pow_mod_p gp (hc_pad c) s)]))
             (to_bytes_q seed) ((Z.of_nat (length (hc_data c) / 32) * 256) mod 2 ^ 32) 0.
Proof. intros H. exact (proj2 (proj2 (hashed_decrypt_accepts gp sha hmac c s seed lfp out H))). Qed.

Print Assumptions C15_decrypt_encrypt.
Print Assumptions C15_encrypt_spec.
Print Assumptions C15_decrypt_exact.
Print Assumptions C16_plaintext_changed_refuted.
Print Assumptions C16_other_values_partial.
Print Assumptions C17_homomorphic.
Print Assumptions C17_product.
Print Assumptions C17_order.
Print Assumptions C17_throws.
Print Assumptions C18_tally.
Print Assumptions C19_malformed_pad_refuted.
Print Assumptions C19_decrypt_sound_partial.
Print Assumptions C20_precomputed.
Print Assumptions C20_precomputed_spec.
Print Assumptions C21_secret_rejected.
Print Assumptions C21_nonce_rejected.
Print Assumptions C21_public_key.
Print Assumptions C21_copy_leaves_source_refuted.
Print Assumptions C22_roundtrip_padded.
Print Assumptions C22_roundtrip_unpadded.
Print Assumptions C22_roundtrip_precomputed.
Print Assumptions C22_encrypt_total.
Print Assumptions C22_empty_unpadded_refuted.
Print Assumptions C23_modified_rejected.
Print Assumptions C23_illegal_length.
Print Assumptions C23_accepted_mac.
