(** Hashed ElGamal: round trip and authentication. *)
From Coq Require Import Psatz ZifyBool ZifyNat.
From Verif Require Import Base GroupModel GroupSpec GroupProofs Algebra CodecModel CodecProofs
  HashModel HashProofs ElgamalModel ElgamalProofs.
Open Scope Z_scope.
Ltac Zify.zify_post_hook ::= Z.div_mod_to_equations.

Lemma Ok_inj {A} (a b : A) : Ok a = Ok b -> a = b.
Proof. congruence. Qed.

Section Hashed.
Context (gp : params) (VP : valid_params gp).
Context (sha : bytes -> Z) (hmac : bytes -> bytes -> Z).

Lemma get_hmac_length key msg len st : length (get_hmac hmac key msg len st) = 32%nat.
Proof. unfold get_hmac. apply be_bytes_length. Qed.

Lemma xor_bytes_length a b : length a = length b -> length (xor_bytes a b) = length a.
Proof.
  revert b. induction a as [|x a IH]; intros [|y b] H; cbn in *; try lia.
  rewrite IH by lia. reflexivity.
Qed.
Lemma xor_bytes_invol a b : length a = length b -> xor_bytes (xor_bytes a b) b = a.
Proof.
  revert b. induction a as [|x a IH]; intros [|y b] H; cbn [xor_bytes length] in *; try lia; [reflexivity|].
  rewrite IH by lia. rewrite Z.lxor_assoc, Z.lxor_nilpotent, Z.lxor_0_r. reflexivity.
Qed.

Lemma firstn_app_exact {A} (a b : list A) n : length a = n -> firstn n (a ++ b) = a.
Proof. intros H. rewrite firstn_app, H, Nat.sub_diag. cbn. rewrite app_nil_r. rewrite <- H. apply firstn_all. Qed.
Lemma skipn_app_exact {A} (a b : list A) n : length a = n -> skipn n (a ++ b) = b.
Proof. intros H. rewrite skipn_app, H, Nat.sub_diag. rewrite <- H, skipn_all. reflexivity. Qed.

Lemma xor_blocks_length key seed total n i data :
  length data = (32 * n)%nat -> length (xor_blocks hmac key seed total n i data) = length data.
Proof.
  revert i data. induction n as [|n IH]; intros i data H.
  - cbn. lia.
  - cbn [xor_blocks]. rewrite app_length, xor_bytes_length, IH, firstn_length, skipn_length.
    + lia.
    + rewrite skipn_length. lia.
    + rewrite firstn_length, get_hmac_length. lia.
Qed.

Lemma xor_blocks_invol key seed total n i data :
  length data = (32 * n)%nat ->
  xor_blocks hmac key seed total n i (xor_blocks hmac key seed total n i data) = data.
Proof.
  revert i data. induction n as [|n IH]; intros i data H.
  - destruct data; [reflexivity|cbn in H; lia].
  - cbn [xor_blocks].
    assert (L : length (xor_bytes (firstn 32 data) (get_hmac hmac key seed total (i + 1))) = 32%nat).
    { rewrite xor_bytes_length; rewrite firstn_length; rewrite ?get_hmac_length; lia. }
    rewrite firstn_app_exact, skipn_app_exact by assumption.
    rewrite IH by (rewrite skipn_length; lia).
    rewrite xor_bytes_invol by (rewrite firstn_length, get_hmac_length; lia).
    apply firstn_skipn.
Qed.

(** What padding does, for the two legal sizes. *)
Lemma pad_510_length message trunc p :
  pad_message message 510 trunc = Ok p -> length p = 512%nat.
Proof.
  unfold pad_message. cbn [negb Z.eqb].
  destruct (Z.ltb_spec 510 (Z.of_nat (length message))) as [Hl|Hl].
  - destruct trunc; cbn [andb]; [|discriminate]. intros E. apply Ok_inj in E; rewrite <- E in *; clear E.
    cbn [app length]. rewrite firstn_length. lia.
  - rewrite andb_false_r. intros E. apply Ok_inj in E; rewrite <- E in *; clear E. cbn [app length].
    rewrite app_length, repeat_length. lia.
Qed.

Lemma forallb_zero_repeat n : forallb (Z.eqb 0) (repeat 0 n) = true.
Proof. induction n; cbn; auto. Qed.

Lemma unpad_pad_510 message trunc p :
  pad_message message 510 trunc = Ok p -> unpad p = Ok (firstn 510 message).
Proof.
  intros H. pose proof (pad_510_length _ _ _ H) as L. revert H.
  unfold pad_message. cbn [negb Z.eqb].
  destruct (Z.ltb_spec 510 (Z.of_nat (length message))) as [Hl|Hl].
  - destruct trunc; cbn [andb]; [|discriminate]. intros E. apply Ok_inj in E; rewrite <- E in *; clear E.
    unfold unpad. rewrite L. cbn [nth app]. 
    replace (Z.of_nat 512 - 2 <? 256 * 0 + 0) with false by lia.
    replace (Z.to_nat (Z.of_nat 512 - (256 * 0 + 0))) with 512%nat by lia.
    rewrite skipn_all2 by (cbn [app length] in L; cbn [length]; lia).
    cbn [forallb]. rewrite firstn_all2 by (cbn [app length] in L; cbn [length]; lia). reflexivity.
  - rewrite andb_false_r. set (k := Z.of_nat (length message)) in *.
    replace ((510 - k) mod 65536) with (510 - k) by lia.
    intros E. apply Ok_inj in E; rewrite <- E in *; clear E. unfold unpad. rewrite L. cbn [nth app].
    replace (256 * ((510 - k) / 256) + (510 - k) mod 256) with (510 - k) by lia.
    replace (Z.of_nat 512 - 2 <? 510 - k) with false by lia.
    replace (Z.to_nat (Z.of_nat 512 - (510 - k))) with (2 + length message)%nat by lia.
    rewrite (firstn_all2 message) by lia.
    change (2 + length message)%nat with (S (S (length message))). cbn [skipn firstn].
    rewrite skipn_app_exact, firstn_app_exact by reflexivity.
    rewrite forallb_zero_repeat. reflexivity.
Qed.

Lemma bytes_eqb_refl a : bytes_eqb a a = true.
Proof. unfold bytes_eqb. destruct (list_eq_dec Z.eq_dec a a); congruence. Qed.
Lemma bytes_eqb_true a b : bytes_eqb a b = true <-> a = b.
Proof. unfold bytes_eqb. destruct (list_eq_dec Z.eq_dec a b); split; congruence. Qed.

(** The triple used (precomputed or fresh) is a power of g and of the key. *)
Lemma shared_key s r : 0 <= s < W256 -> 0 <= r < W256 ->
  pow_mod_p gp (g_pow_p gp r) s = pow_mod_p gp (g_pow_p gp s) r.
Proof.
  intros Hs Hr. rewrite !pow_mod_p_correct, !g_pow_p_correct by assumption.
  rewrite !pow_mod_base by (assumption || lia). rewrite <- !Z.pow_mul_r by lia.
  f_equal. f_equal. lia.
Qed.

Definition pre_ok (pre : option triple) (pk : Z) : Prop :=
  match pre with
  | None => True
  | Some t => 0 <= tr_exp t < W256 /\ tr_g t = g_pow_p gp (tr_exp t) /\
              tr_k t = pow_mod_p gp pk (tr_exp t)
  end.

Lemma hashed_core pre padded s nonce seed :
  0 <= s < W256 -> 0 <= nonce < W256 -> pre_ok pre (g_pow_p gp s) ->
  padded <> [] -> (length padded mod 32 = 0)%nat ->
  let '(g_to_r, k_to_r) :=
    match pre with
    | Some t => (tr_g t, tr_k t)
    | None => (g_pow_p gp nonce, pow_mod_p gp (g_pow_p gp s) nonce)
    end in
  let session := hash_elems gp sha [HElemP g_to_r; HElemP k_to_r] in
  let blocks := (length padded / 32)%nat in
  let ct := xor_blocks hmac (to_bytes_q session) (to_bytes_q seed) (total_bits blocks) blocks 0 padded in
  forall lfp, hashed_decrypt gp sha hmac
    {| hc_pad := g_to_r; hc_data := ct; hc_mac := hashed_mac hmac session seed blocks g_to_r ct |}
    s seed lfp = if lfp then unpad padded else Ok padded.
Proof.
  intros Hs Hr Hp Hne Hmod.
  assert (E : exists e, 0 <= e < W256 /\
     match pre with
     | Some t => (tr_g t, tr_k t)
     | None => (g_pow_p gp nonce, pow_mod_p gp (g_pow_p gp s) nonce)
     end = (g_pow_p gp e, pow_mod_p gp (g_pow_p gp s) e)).
  { destruct pre as [t|]; cbn [pre_ok] in Hp.
    - exists (tr_exp t). destruct Hp as (H1 & H2 & H3). rewrite H2, H3. auto.
    - exists nonce. auto. }
  destruct E as (e & He & ->). intros session blocks ct lfp.
  unfold hashed_decrypt. cbn [hc_data hc_pad hc_mac].
  assert (Hlen : length padded = (32 * blocks)%nat).
  { unfold blocks. clear - Hmod. lia. }
  assert (Lct : length ct = length padded) by (apply xor_blocks_length; assumption).
  rewrite Lct. fold blocks.
  replace (negb (length padded mod 32 =? 0)%nat || (length padded =? 0)%nat) with false.
  2:{ rewrite Hmod. destruct padded; [contradiction|reflexivity]. }
  rewrite shared_key by assumption. fold session.
  rewrite bytes_eqb_refl. cbn [negb].
  unfold ct. rewrite xor_blocks_invol by assumption. reflexivity.
Qed.

Lemma hashed_roundtrip_padded pre message s nonce seed trunc c :
  0 <= s < W256 -> 0 <= nonce < W256 -> pre_ok pre (g_pow_p gp s) ->
  hashed_encrypt gp sha hmac pre message nonce (g_pow_p gp s) seed 510 trunc = Ok c ->
  hashed_decrypt gp sha hmac c s seed true = Ok (firstn 510 message).
Proof.
  intros Hs Hr Hp H. unfold hashed_encrypt in H.
  destruct (pad_message message 510 trunc) as [padded| |] eqn:E; cbn [bind] in H; try discriminate.
  pose proof (pad_510_length _ _ _ E) as L.
  assert (Hne : padded <> []) by (intros ->; discriminate L).
  assert (Hm : (length padded mod 32 = 0)%nat) by (rewrite L; reflexivity).
  pose proof (hashed_core pre padded s nonce seed Hs Hr Hp Hne Hm) as C.
  destruct (match pre with Some t => _ | None => _ end) as [g_to_r k_to_r] in *.
  apply Ok_inj in H; rewrite <- H; clear H. rewrite C. apply (unpad_pad_510 _ _ _ E).
Qed.

Lemma hashed_roundtrip_unpadded pre message s nonce seed trunc c :
  0 <= s < W256 -> 0 <= nonce < W256 -> pre_ok pre (g_pow_p gp s) -> message <> [] ->
  hashed_encrypt gp sha hmac pre message nonce (g_pow_p gp s) seed 0 trunc = Ok c ->
  hashed_decrypt gp sha hmac c s seed false = Ok message.
Proof.
  intros Hs Hr Hp Hne H. unfold hashed_encrypt in H.
  destruct (pad_message message 0 trunc) as [padded| |] eqn:E; cbn [bind] in H; try discriminate.
  unfold pad_message in E. cbn [negb Z.eqb] in E.
  destruct (Z.eqb_spec (Z.of_nat (length message) mod 32) 0) as [Hm|]; cbn [negb] in E; [|discriminate].
  apply Ok_inj in E; rewrite <- E in *; clear E.
  assert (Hm' : (length message mod 32 = 0)%nat) by (clear - Hm; lia).
  pose proof (hashed_core pre message s nonce seed Hs Hr Hp Hne Hm') as C.
  destruct (match pre with Some t => _ | None => _ end) as [g_to_r k_to_r] in *.
  apply Ok_inj in H; rewrite <- H; clear H. apply C.
Qed.

(** Encryption succeeds exactly on messages that fit. *)
Lemma hashed_encrypt_total pre message nonce pk seed max_len trunc :
  max_len = 0 \/ max_len = 510 ->
  is_ok (hashed_encrypt gp sha hmac pre message nonce pk seed max_len trunc) =
  if max_len =? 0 then Z.of_nat (length message) mod 32 =? 0
  else trunc || (Z.of_nat (length message) <=? 510).
Proof.
  intros Hm. unfold hashed_encrypt, pad_message.
  destruct Hm as [-> | ->]; cbn [negb Z.eqb].
  - destruct (Z.of_nat (length message) mod 32 =? 0); cbn [negb bind]; [|reflexivity].
    destruct pre; reflexivity.
  - destruct (Z.ltb_spec 510 (Z.of_nat (length message))) as [H|H];
      destruct trunc; cbn [andb bind orb].
    + destruct pre; reflexivity.
    + cbn [is_ok]. symmetry. apply Z.leb_gt. lia.
    + destruct pre; reflexivity.
    + transitivity true; [destruct pre; reflexivity|]. symmetry. apply Z.leb_le. lia.
Qed.

(** ** Authentication *)
Lemma hashed_decrypt_accepts c s seed lfp out :
  hashed_decrypt gp sha hmac c s seed lfp = Ok out ->
  (length (hc_data c) mod 32 = 0)%nat /\ hc_data c <> [] /\
  exists key, hc_mac c = be_bytes 32 (hmac key (to_bytes_p (hc_pad c) ++ hc_data c) mod W256)
  /\ key = get_hmac hmac
             (to_bytes_q (hash_elems gp sha [HElemP (hc_pad c); HElemP (pow_mod_p gp (hc_pad c) s)]))
             (to_bytes_q seed) (total_bits (length (hc_data c) / 32)) 0.
Proof.
  unfold hashed_decrypt. intros H.
  destruct (Nat.eqb_spec (length (hc_data c) mod 32) 0) as [Hm|]; cbn [negb orb] in H; [|discriminate].
  destruct (Nat.eqb_spec (length (hc_data c)) 0) as [|Hz]; [discriminate|].
  destruct (bytes_eqb _ _) eqn:Em in H; cbn [negb] in H; [|discriminate].
  apply bytes_eqb_true in Em. split; [assumption|]. split.
  { intros E. rewrite E in Hz. apply Hz. reflexivity. }
  eexists. split; [|reflexivity]. rewrite Em. unfold hashed_mac, get_hmac at 1.
  cbn [Z.ltb Z.compare]. reflexivity.
Qed.

Lemma be_bytes_inj n a b : 0 <= a < 256 ^ Z.of_nat n -> 0 <= b < 256 ^ Z.of_nat n ->
  be_bytes n a = be_bytes n b -> a = b.
Proof. intros Ha Hb E. rewrite <- (be_val_bytes n a), <- (be_val_bytes n b), E by assumption. reflexivity. Qed.


Lemma hashed_mac_collision c c' s seed lfp lfp' out out' :
  0 <= hc_pad c < W4096 -> 0 <= hc_pad c' < W4096 ->
  hashed_decrypt gp sha hmac c s seed lfp = Ok out ->
  hashed_decrypt gp sha hmac c' s seed lfp' = Ok out' ->
  hc_mac c = hc_mac c' ->
  (hc_pad c, hc_data c) <> (hc_pad c', hc_data c') ->
  exists key key' m m', m <> m' /\ hmac key m mod W256 = hmac key' m' mod W256 /\
    (hc_pad c = hc_pad c' -> length (hc_data c) = length (hc_data c') -> key = key').
Proof.
  intros Hp Hp' H H' Em N.
  apply hashed_decrypt_accepts in H. apply hashed_decrypt_accepts in H'.
  destruct H as (_ & _ & key & M & Ek). destruct H' as (_ & _ & key' & M' & Ek').
  exists key, key', (to_bytes_p (hc_pad c) ++ hc_data c), (to_bytes_p (hc_pad c') ++ hc_data c').
  split; [|split].
  - intros E. apply N.
    assert (E1 : to_bytes_p (hc_pad c) = to_bytes_p (hc_pad c')).
    { apply (f_equal (firstn 512)) in E.
      rewrite !firstn_app_exact in E by apply to_bytes_p_length. assumption. }
    rewrite E1 in E. apply app_inv_head in E. rewrite E. f_equal.
    rewrite <- (to_bytes_p_val (hc_pad c)), E1, to_bytes_p_val by assumption. reflexivity.
  - rewrite M, M' in Em. pose proof W256_pos.
    apply be_bytes_inj in Em; [assumption| |]; rewrite <- W256_bytes; apply Z.mod_pos_bound; lia.
  - intros Epad El. rewrite Ek, Ek', Epad, El. reflexivity.
Qed.

Lemma hashed_illegal_length c s seed lfp :
  (length (hc_data c) mod 32 <> 0)%nat \/ hc_data c = [] ->
  hashed_decrypt gp sha hmac c s seed lfp = Throw InvalidArgument.
Proof.
  intros H. unfold hashed_decrypt.
  destruct (Nat.eqb_spec (length (hc_data c) mod 32) 0) as [Hm|]; cbn [negb orb]; [|reflexivity].
  destruct H as [H|H]; [contradiction|]. rewrite H. reflexivity.
Qed.
End Hashed.
