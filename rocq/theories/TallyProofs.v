(** ElGamal facts restated with integer powers, and recovery of tallies. *)
From Coq Require Import Znumtheory Zpow_facts Permutation Psatz ZifyBool.
From Verif Require Import Base GroupModel GroupSpec GroupProofs Algebra ElgamalModel ElgamalProofs
  SoundProofs ElgamalSpec.
Open Scope Z_scope.
Ltac Zify.zify_post_hook ::= idtac.

Section Tally.
Context (gp : params) (VP : valid_params gp).
Notation P := (gpP gp).
Notation Q := (gpQ gp).
Notation G := (gpG gp).

Lemma spec_key_model s : 0 <= s < W256 -> g_pow_p gp s = spec_key gp s.
Proof. intros Hs. apply g_pow_p_correct; assumption. Qed.

Lemma sub_spec_key s : 0 <= s -> sub gp (spec_key gp s).
Proof. intros Hs. apply sub_mod, sub_pow; [assumption|assumption|apply sub_G; assumption|assumption]. Qed.

Lemma spec_subgroup_sub x : spec_subgroup gp x -> sub gp x.
Proof. intros [_ H]. exact H. Qed.

Lemma ex2_pow_nonneg K a b : sub gp K -> 0 <= a -> 0 <= b ->
  ex2 gp K a b = (G ^ a * K ^ b) mod P.
Proof.
  intros HK Ha Hb. unfold ex2.
  rewrite !ex_nonneg by (assumption || (apply sub_G; assumption)).
  symmetry. apply Zmult_mod.
Qed.

Lemma enc_exp_spec K m r : sub gp K -> 0 <= m -> 0 <= r ->
  enc_exp gp K (m, r) = spec_enc gp K m r.
Proof.
  intros HK Hm Hr. unfold enc_exp, spec_enc. cbn [fst snd].
  rewrite !ex2_pow_nonneg by (assumption || lia). rewrite Z.pow_0_r, Z.mul_1_r. reflexivity.
Qed.

Lemma encrypt_spec K m r : spec_subgroup gp K -> 0 < r < W256 -> m = 0 \/ m = 1 ->
  elgamal_encrypt gp m r K = Ok (spec_enc gp K m r).
Proof.
  intros HK Hr Hm. rewrite elgamal_encrypt_exp by (try assumption; apply HK).
  rewrite enc_exp_spec; [reflexivity|apply HK|destruct Hm; lia|lia].
Qed.

Lemma zsum_nonneg l : Forall (fun x => 0 <= x) l -> 0 <= zsum l.
Proof. induction 1; cbn [zsum fold_right]; [lia|]. unfold zsum in IHForall. lia. Qed.

Lemma add_spec K (l : list (Z * Z)) :
  spec_subgroup gp K -> l <> [] -> Forall (fun mr => 0 <= fst mr /\ 0 <= snd mr) l ->
  elgamal_add gp (map (fun mr => spec_enc gp K (fst mr) (snd mr)) l)
  = Ok (spec_enc gp K (zsum (map fst l)) (zsum (map snd l))).
Proof.
  intros HK Hl HF.
  assert (HS : 0 <= zsum (map fst l) /\ 0 <= zsum (map snd l)).
  { split; apply zsum_nonneg; apply Forall_map; eapply Forall_impl; try eassumption; cbn; tauto. }
  rewrite <- enc_exp_spec by (apply HK || tauto).
  rewrite <- (elgamal_add_exp gp VP K l (proj2 HK) Hl). f_equal.
  apply map_ext_in. intros [m r] Hin. rewrite Forall_forall in HF. specialize (HF _ Hin).
  cbn [fst snd] in *. symmetry. apply enc_exp_spec; [apply HK|tauto|tauto].
Qed.

(** The data component of a valid encryption determines the plaintext. *)
Lemma spec_enc_decrypts s m r : 0 <= s -> 0 <= m -> 0 <= r ->
  spec_decrypts gp (spec_enc gp (spec_key gp s) m r) s m.
Proof.
  intros Hs Hm Hr. unfold spec_decrypts, spec_enc, spec_key. cbn [ct_pad ct_data].
  pose proof (Ppos gp VP).
  rewrite Z.mod_mod by lia. rewrite <- (Zmult_mod_idemp_r (_ ^ s)), <- (Zmult_mod_idemp_r (_ ^ r)).
  f_equal. f_equal. rewrite !pow_mod_base by assumption.
  rewrite <- !Z.pow_mul_r by assumption. rewrite (Z.mul_comm r s). reflexivity.
Qed.

Lemma G_pow_cancel x a b : sub gp x -> 0 <= a -> 0 <= b ->
  (G ^ a * x) mod P = (G ^ b * x) mod P -> ex gp G a = ex gp G b.
Proof.
  intros Hx Ha Hb H. rewrite (Z.mul_comm (G ^ a)), (Z.mul_comm (G ^ b)) in H.
  apply mul_cancel in H; [|assumption|assumption].
  rewrite !ex_nonneg by (assumption || (apply sub_G; assumption)). exact H.
Qed.
End Tally.

Section TallyPrime.
Context (gp : params) (PP : prime_params gp).
Let VP := pp_valid _ PP.
Notation P := (gpP gp).
Notation Q := (gpQ gp).
Notation G := (gpG gp).

Lemma decrypts_unique c s m m' : sub gp (ct_pad c) -> 0 <= s -> 0 <= m -> 0 <= m' ->
  spec_decrypts gp c s m -> spec_decrypts gp c s m' -> m mod Q = m' mod Q.
Proof.
  intros Hp Hs Hm Hm' H1 H2. unfold spec_decrypts in *. rewrite H1 in H2.
  apply (ex_G_inj gp PP). eapply (G_pow_cancel gp VP); [|eassumption..].
  apply sub_pow; [exact VP|assumption|assumption].
Qed.

Lemma decrypt_model c s : spec_subgroup gp (ct_pad c) -> 0 <= s < W256 ->
  forall m, 0 <= m < Q -> spec_decrypts gp c s m ->
  decrypt gp c s = if m <=? 1 then m else MAX_UINT64.
Proof.
  intros Hp Hs m Hm HD. destruct c as [a b]. cbn [ct_pad ct_data] in *.
  pose proof (vp_Grng _ VP) as HG. pose proof (Ppos gp VP) as HP. pose proof (vp_Qlo _ VP) as HQ.
  assert (Ha : sub gp a) by apply Hp.
  rewrite (decrypt_sub gp VP) by (try assumption; destruct Hp; lia).
  assert (E : (b * ex gp a (- s)) mod P = ex gp G m).
  { unfold spec_decrypts in HD. cbn [ct_pad ct_data] in HD.
    rewrite <- Zmult_mod_idemp_l, HD, Zmult_mod_idemp_l, <- Z.mul_assoc.
    rewrite <- Zmult_mod_idemp_r. rewrite <- (Zmult_mod_idemp_l (a ^ s)).
    rewrite <- (ex_nonneg gp VP a s Ha) by lia. rewrite (ex_neg gp VP) by assumption.
    rewrite Z.mul_1_r. symmetry. apply (ex_nonneg gp VP); [apply sub_G; exact VP|lia]. }
  rewrite E. cbn zeta.
  assert (E0 : ex gp G 0 = 1) by (apply (ex_0 gp VP)).
  assert (E1 : ex gp G 1 = G).
  { rewrite (ex_1 gp VP) by (apply sub_G; exact VP). apply Z.mod_small. lia. }
  destruct (Z.eqb_spec (ex gp G m) 1) as [H|H].
  - rewrite <- E0 in H. apply (ex_G_inj gp PP) in H. rewrite !Z.mod_small in H by lia. subst m. reflexivity.
  - destruct (Z.eqb_spec (ex gp G m) G) as [H'|H'].
    + rewrite <- E1 in H' at 2. apply (ex_G_inj gp PP) in H'. rewrite !Z.mod_small in H' by lia. subst m. reflexivity.
    + destruct (Z.leb_spec m 1); [|reflexivity].
      exfalso. assert (m = 0 \/ m = 1) as [->| ->] by lia; auto.
Qed.
End TallyPrime.

(** The public key of a secret is a canonical subgroup element. *)
Lemma spec_key_subgroup gp s : valid_params gp -> 0 <= s -> spec_subgroup gp (spec_key gp s).
Proof.
  intros VP Hs. pose proof (sub_spec_key gp VP s Hs) as HS. split; [|exact HS].
  pose proof (sub_valid gp VP (spec_key gp s)) as H. pose proof (Ppos gp VP) as HP.
  assert (R : 0 <= spec_key gp s < gpP gp) by (apply Z.mod_pos_bound; lia).
  apply (valid_sub gp VP) in H; [apply H|exact R|exact HS].
Qed.
