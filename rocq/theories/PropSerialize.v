(** Properties C54-C56 and C67: serialised objects (serialize.hpp).

    [dump] and [parse] stand for the text and binary encodings of nlohmann::json; the theorems
    hold for every pair of them in which [parse] reads what [dump] wrote ([faithful]). *)
From Coq Require Import String Permutation.
From Verif Require Import Base GroupModel GroupSpec GroupProofs CodecModel CodecProofs HashModel ElgamalModel
  ChaumModel SortModel SortProofs ManifestModel BallotModel JsonModel EncryptModel SerializeModel
  SerializeSpec SerializeProofs SerializeProofs2 SerializeProofs3 HashedProofs TestParams PropGroup PropElgamal PropManifest.
Open Scope string_scope.
Open Scope list_scope.
Open Scope Z_scope.

(** ** An encoding that meets the hypothesis *)
Fixpoint enc (j : json) : bytes :=
  match j with
  | JNull => [0]
  | JBool b => [1; Z.b2z b]
  | JNum n => [2; n]
  | JStr s => 3 :: Z.of_nat (length s) :: s
  | JArr l => 4 :: Z.of_nat (length l) :: flat_map enc l
  | JObj l => 5 :: Z.of_nat (length l)
              :: flat_map (fun kv => Z.of_nat (length (fst kv)) :: fst kv ++ enc (snd kv)) l
  end.
Fixpoint many {A} (f : bytes -> option (A * bytes)) (n : nat) (s : bytes) : option (list A * bytes) :=
  match n with
  | O => Some ([], s)
  | S n => match f s with
           | Some (x, s) => match many f n s with Some (l, s) => Some (x :: l, s) | None => None end
           | None => None
           end
  end.
Definition take (n : Z) (s : bytes) : bytes * bytes := (firstn (Z.to_nat n) s, skipn (Z.to_nat n) s).
Fixpoint dec (fuel : nat) (s : bytes) : option (json * bytes) :=
  match fuel with
  | O => None
  | S fuel =>
      match s with
      | 0 :: s => Some (JNull, s)
      | 1 :: b :: s => Some (JBool (b =? 1), s)
      | 2 :: n :: s => Some (JNum n, s)
      | 3 :: n :: s => let (a, b) := take n s in Some (JStr a, b)
      | 4 :: n :: s => match many (dec fuel) (Z.to_nat n) s with Some (l, s) => Some (JArr l, s) | None => None end
      | 5 :: n :: s =>
          match many (fun s => match s with
                               | [] => None
                               | n :: s => let (k, s) := take n s in
                                           match dec fuel s with Some (v, s) => Some ((k, v), s) | None => None end
                               end) (Z.to_nat n) s with
          | Some (l, s) => Some (JObj l, s)
          | None => None
          end
      | _ => None
      end
  end.
Fixpoint depth (j : json) : nat :=
  match j with
  | JArr l => S (fold_right (fun x n => Nat.max (depth x) n) O l)
  | JObj l => S (fold_right (fun kv n => Nat.max (depth (snd kv)) n) O l)
  | _ => 1%nat
  end.
(** The number of nested values is found in the text: its length bounds it. *)
Definition sample_dump (j : json) : outcome bytes := Ok (enc j).
Definition sample_parse (s : bytes) : outcome json :=
  match dec (S (length s)) s with Some (j, []) => Ok j | _ => Throw JsonError end.
Lemma take_app a b : take (Z.of_nat (length a)) (a ++ b) = (a, b).
Proof.
  unfold take. rewrite Nat2Z.id. f_equal.
  - rewrite firstn_app, Nat.sub_diag, firstn_O, app_nil_r. apply firstn_all.
  - rewrite skipn_app, Nat.sub_diag, skipn_all. reflexivity.
Qed.
Lemma many_flat {A} (f : bytes -> option (A * bytes)) (g : A -> bytes) l t :
  (forall x, In x l -> forall t, f (g x ++ t) = Some (x, t)) -> many f (length l) (flat_map g l ++ t) = Some (l, t).
Proof.
  revert t. induction l as [|x l IH]; intros t H; [reflexivity|]. cbn [length many flat_map].
  rewrite <- app_assoc, (H x) by now left. rewrite IH; [reflexivity|]. intros y Hy. apply H. now right.
Qed.
Lemma depth_arr x l : In x l -> (depth x < depth (JArr l))%nat.
Proof.
  cbn [depth]. induction l as [|y l IH]; [intros []|]. intros [-> | H]; cbn [fold_right]; [lia|]. specialize (IH H). lia.
Qed.
Lemma depth_obj kv l : In kv l -> (depth (snd kv) < depth (JObj l))%nat.
Proof.
  cbn [depth]. induction l as [|y l IH]; [intros []|]. intros [-> | H]; cbn [fold_right]; [lia|]. specialize (IH H). lia.
Qed.
Lemma dec_enc : forall n j t, (depth j <= n)%nat -> dec n (enc j ++ t) = Some (j, t).
Proof.
  induction n as [|n IH]; intros j t H.
  - exfalso. destruct j; cbn [depth] in H; lia.
  - destruct j as [|b|z|s|l|l].
    + reflexivity.
    + destruct b; reflexivity.
    + reflexivity.
    + cbn [enc app dec]. rewrite take_app. reflexivity.
    + cbn [enc app dec]. rewrite Nat2Z.id, (many_flat (dec n) enc l t); [reflexivity|].
      intros x Hx t'. apply IH. pose proof (depth_arr x l Hx). lia.
    + cbn [enc app dec]. rewrite Nat2Z.id.
      rewrite (many_flat _ (fun kv => Z.of_nat (length (fst kv)) :: fst kv ++ enc (snd kv)) l t); [reflexivity|].
      intros [k v] Hx t'. cbn [fst snd app]. rewrite <- app_assoc, take_app.
      rewrite IH; [reflexivity|]. pose proof (depth_obj (k, v) l Hx). cbn [snd] in *. lia.
Qed.
Lemma flat_map_len {A} (g : A -> bytes) (d : A -> nat) l :
  (forall x, In x l -> (d x <= length (g x))%nat) ->
  (fold_right (fun x n => Nat.max (d x) n) O l <= length (flat_map g l))%nat.
Proof.
  induction l as [|x l IH]; intros H; [cbn; lia|]. cbn [fold_right flat_map]. rewrite app_length.
  pose proof (H x (or_introl eq_refl)). assert (forall y, In y l -> (d y <= length (g y))%nat) as Hy by (intros y Hy; apply H; now right).
  specialize (IH Hy). lia.
Qed.
Lemma depth_length : forall n j, (depth j <= n)%nat -> (depth j <= length (enc j))%nat.
Proof.
  induction n as [|n IH]; intros j H; [destruct j; cbn [depth] in *; lia|].
  destruct j as [|b|z|s|l|l]; try (cbn; lia).
  - cbn [depth enc length]. enough (fold_right (fun x n => Nat.max (depth x) n) O l <= length (flat_map enc l))%nat by lia.
    apply flat_map_len. intros x Hx. apply IH. pose proof (depth_arr x l Hx). lia.
  - cbn [depth enc length].
    enough (fold_right (fun kv n => Nat.max (depth (snd kv)) n) O l
      <= length (flat_map (fun kv => Z.of_nat (length (fst kv)) :: fst kv ++ enc (snd kv)) l))%nat by lia.
    apply (flat_map_len _ (fun kv => depth (snd kv))). intros x Hx. cbv beta. cbn [length]. rewrite app_length.
    assert (depth (snd x) <= length (enc (snd x)))%nat by (apply IH; pose proof (depth_obj x l Hx); lia).
    change (@snd (list Z) json x) with (@snd bytes json x). lia.
Qed.
Lemma sample_faithful : faithful sample_dump sample_parse.
Proof.
  intros j s E. apply Ok_eq in E. subst s. unfold sample_parse.
  rewrite <- (app_nil_r (enc j)) at 2. rewrite dec_enc; [reflexivity|].
  pose proof (depth_length (depth j) j (le_n _)). lia.
Qed.

(** Reading what was written *)
Lemma read_written {A} dump parse (f : A -> outcome json) (g : json -> outcome A) a s j :
  faithful dump parse -> f a = Ok j -> to_text dump f a = Ok s -> of_text parse g s = g j.
Proof.
  intros F E H. unfold to_text in H. rewrite E in H. cbn [bind] in H. unfold of_text.
  rewrite (F _ _ H). reflexivity.
Qed.
Lemma written {A} dump (f : A -> outcome json) a s : to_text dump f a = Ok s -> exists j, f a = Ok j /\ dump j = Ok s.
Proof. unfold to_text. destruct (f a) as [j| |]; cbn [bind]; [|discriminate..]. intros H. exists j. split; [reflexivity|exact H]. Qed.

(** ** Sample ballot *)
Definition sel1 (n : Z) : cselection :=
  {| cs_id := s2b "sel"; cs_seq := 9 - n; cs_desc := 10; cs_ct := {| ct_pad := 4; ct_data := 5 |};
     cs_placeholder := false; cs_nonce := Some n; cs_hash := 12;
     cs_proof := Some {| dp_a0 := 1; dp_b0 := 2; dp_a1 := 3; dp_b1 := 4; dp_c0 := 5; dp_c1 := 6; dp_c := 7; dp_v0 := 8; dp_v1 := 9 |} |}.
Definition con1 (n : Z) (mac : bytes) : ccontest :=
  {| cc_id := s2b "contest"; cc_seq := 1; cc_desc := 6; cc_selections := [sel1 n; sel1 (n - 1)];
     cc_nonce := Some (n + 1); cc_acc := {| ct_pad := 16; ct_data := 25 |}; cc_hash := 13;
     cc_proof := Some {| cp_a := 4; cp_b := 5; cp_c := 6; cp_v := 7; cp_const := 1 |};
     cc_hashed := Some {| hc_pad := 4; hc_data := [7; 8; 9]; hc_mac := mac |} |}.
Definition bal1 (n : Z) (mac : bytes) : cballot :=
  {| cb_id := s2b "ballot"; cb_style := s2b "style"; cb_manifest := 3; cb_seed := 4;
     cb_contests := [con1 n mac]; cb_code := 5; cb_timestamp := 6; cb_nonce := Some (n + 2); cb_hash := 7 |}.

(** * C54 *)
(** No member of the document, at any depth, is called "nonce" ... *)
Theorem C54_no_member b j : cballot_to_json false b = Ok j -> ~ has_member (s2b "nonce") j.
Proof. exact (cballot_no_nonce b j). Qed.
Theorem C54_submitted_no_member b j : sballot_to_json b = Ok j -> ~ has_member (s2b "nonce") j.
Proof. exact (sballot_no_nonce b j). Qed.
(** ... and the text does not depend on the nonces in any way: ballots that differ in nothing
    else have the same text, or fail in the same way. *)
Theorem C54_noninterference dump b b' : forget_nonces b = forget_nonces b' ->
  to_text dump (cballot_to_json false) b = to_text dump (cballot_to_json false) b'.
Proof. intros H. unfold to_text. rewrite <- (cballot_forget b), <- (cballot_forget b'), H. reflexivity. Qed.
Theorem C54_submitted_noninterference dump b b' :
  forget_nonces (sb_ballot b) = forget_nonces (sb_ballot b') -> sb_state b = sb_state b' ->
  to_text dump sballot_to_json b = to_text dump sballot_to_json b'.
Proof.
  intros H S. unfold to_text, sballot_to_json.
  rewrite <- (cballot_forget (sb_ballot b)), <- (cballot_forget (sb_ballot b')), H, S. reflexivity.
Qed.
(** Whoever reads the text gets zeroes in the place of all nonces. *)
Theorem C54_read_nonces gp dump parse b s b' : faithful dump parse -> stored_ballot b = true ->
  to_text dump (cballot_to_json false) b = Ok s -> of_text parse (cballot_of_json gp) s = Ok b' ->
  Forall (fun n => n = Some 0) (all_nonces b').
Proof.
  intros F St W R. destruct (written _ _ _ _ W) as [j [J _]].
  rewrite (read_written _ _ _ _ _ _ _ F J W), (cballot_back gp false b j J St) in R.
  destruct (legible_ballot gp false b); [|discriminate]. apply Ok_eq in R. subst b'.
  unfold all_nonces. cbn [bal_read cb_nonce nonce_read cb_contests]. constructor; [reflexivity|].
  apply Forall_forall. intros n Hn. apply in_flat_map in Hn. destruct Hn as [c [Hc Hn]].
  apply in_map_iff in Hc. destruct Hc as [c0 [<- _]]. cbn [con_read cc_nonce nonce_read cc_selections] in Hn.
  destruct Hn as [<- | Hn]; [reflexivity|]. rewrite map_map in Hn. apply in_map_iff in Hn.
  destruct Hn as [x [<- _]]. reflexivity.
Qed.
(** Two ballots with different nonces: one text without nonces, two texts with them. *)
Example C54_case : exists s,
  all_nonces (bal1 7 [1]) <> all_nonces (bal1 8 [1]) /\
  forget_nonces (bal1 7 [1]) <> bal1 7 [1] /\
  to_text sample_dump (cballot_to_json false) (bal1 7 [1]) = Ok s /\
  is_ok (of_text sample_parse (cballot_of_json tp) s) = true /\
  to_text sample_dump (cballot_to_json true) (bal1 7 [1]) <> Ok s.
Proof.
  eexists. split; [discriminate|]. split; [discriminate|]. split; [vm_compute; reflexivity|].
  split; [vm_compute; reflexivity|]. vm_compute. discriminate.
Qed.

(** * C55 *)
Definition votes_fit (b : pballot) : Prop :=
  forall c s, In c (pb_contests b) -> In s (pc_selections c) -> 0 <= ps_vote s < 2 ^ 64.
Theorem C55_plaintext dump parse b s : faithful dump parse -> votes_fit b ->
  to_text dump (fun b => Ok (pballot_to_json b)) b = Ok s -> of_text parse pballot_of_json s = Ok b.
Proof.
  intros F H W. rewrite (read_written _ _ _ _ _ _ _ F eq_refl W). apply pballot_back.
  apply forallb_forall. intros c Hc. apply forallb_forall. intros x Hx.
  specialize (H c x Hc Hx). unfold u64. lia.
Qed.
(** Documents of other programs: truth values count as votes of 0 and 1, negative numbers as
    numbers modulo 2^64, texts and everything else are refused. *)
Definition selection_doc (id : bytes) (v : json) : json := JObj [(s2b "object_id", JStr id); (s2b "vote", v)].
Theorem C55_foreign_votes id v s : pselection_of_json (selection_doc id v) = Ok s <->
  s = {| ps_id := id; ps_vote := ps_vote s; ps_placeholder := false; ps_writein := [] |} /\
  ((exists n, v = JNum n /\ 0 <= ps_vote s < 2 ^ 64 /\ exists k, n = ps_vote s + k * 2 ^ 64) \/
   (v = JBool true /\ ps_vote s = 1) \/ (v = JBool false /\ ps_vote s = 0)).
Proof.
  assert (D : forall o, pselection_of_json (selection_doc id v) = o ->
    o = match v with
        | JNum n => Ok {| ps_id := id; ps_vote := n mod 2 ^ 64; ps_placeholder := false; ps_writein := [] |}
        | JBool b => Ok {| ps_id := id; ps_vote := Z.b2z b; ps_placeholder := false; ps_writein := [] |}
        | _ => Throw JsonError
        end).
  { intros o <-. change (2 ^ 64) with W64. destruct v; reflexivity. }
  rewrite (D _ eq_refl). clear D. destruct v as [|b|n|x|l|l]; (split; [intros H; try discriminate H|intros [HS HX]]).
  all: try (destruct HX as [(k & HX & _)|[[HX _]|[HX _]]]; discriminate HX).
  - apply Ok_inj in H. subst s. cbn [ps_vote]. split; [reflexivity|]. right. destruct b; [left|right]; split; reflexivity.
  - rewrite HS. destruct HX as [(k & HX & _)|[[HX HV]|[HX HV]]]; [discriminate HX| |]; injection HX as ->; rewrite HV; reflexivity.
  - apply Ok_inj in H. subst s. cbn [ps_vote]. split; [reflexivity|]. left. exists n. split; [reflexivity|].
    split; [apply Z.mod_pos_bound; reflexivity|]. exists (n / 2 ^ 64). rewrite (Z.div_mod n (2 ^ 64)) at 1; [ring|discriminate].
  - rewrite HS. destruct HX as [(k & HX & HB & q & HQ)|[[HX _]|[HX _]]]; try discriminate HX. injection HX as <-.
    rewrite HQ, Z.mod_add by discriminate. rewrite Z.mod_small by exact HB. reflexivity.
Qed.
Example C55_foreign_case :
  pselection_of_json (selection_doc (s2b "s-x") (JNum (-1))) =
    Ok {| ps_id := s2b "s-x"; ps_vote := 2 ^ 64 - 1; ps_placeholder := false; ps_writein := [] |} /\
  pselection_of_json (selection_doc (s2b "s-x") (JBool true)) =
    Ok {| ps_id := s2b "s-x"; ps_vote := 1; ps_placeholder := false; ps_writein := [] |}.
Proof. split; vm_compute; reflexivity. Qed.
Theorem C55_device dump parse d s : faithful dump parse ->
  0 <= dv_device d < 2 ^ 64 -> 0 <= dv_session d < 2 ^ 64 -> 0 <= dv_launch d < 2 ^ 64 ->
  to_text dump (fun d => Ok (device_to_json d)) d = Ok s -> of_text parse device_of_json s = Ok d.
Proof.
  intros F H1 H2 H3 W. rewrite (read_written _ _ _ _ _ _ _ F eq_refl W). apply device_back. unfold u64.
  rewrite !andb_true_iff, !Z.leb_le, !Z.ltb_lt. tauto.
Qed.
(** Contexts: everything is restored, the extended data (an unordered map) up to its order,
    unless an element is zero or above its modulus. *)
Theorem C55_context gp dump parse x s : faithful dump parse ->
  stored_context (fc_context x) (fc_max_ballots x) = true -> NoDup (map fst (fc_extended x)) ->
  to_text dump (fun x => Ok (context_to_json x)) x = Ok s ->
  exists l, Permutation (fc_extended x) l /\
  of_text parse (context_of_json gp) s =
  if legible_context gp (fc_context x)
  then Ok {| fc_context := fc_context x; fc_overvotes := fc_overvotes x; fc_max_ballots := fc_max_ballots x;
             fc_extended := l |}
  else Throw OutOfRange.
Proof.
  intros F St N W. destruct (context_back gp x St N) as [l [P R]]. exists l. split; [exact P|].
  rewrite (read_written _ _ _ _ _ _ _ F eq_refl W). exact R.
Qed.
(** Ballots can be written exactly if no pointer is null ... *)
Theorem C55_ciphertext_written wn b :
  (exists j, cballot_to_json wn b = Ok j) <-> complete_ballot wn b = true.
Proof.
  pose proof (cballot_writes wn b) as W. destruct (complete_ballot wn b); split; try tauto.
  - intros [j J]. rewrite J in W. discriminate.
  - discriminate.
Qed.
(** ... and read back exactly if every element is neither zero nor above its modulus and the
    extended data is not all zero; then every field is restored, the lists in sequence
    order, nonces that were not written as zero, and extended data without leading zeroes. *)
Theorem C55_ciphertext gp dump parse wn b s : faithful dump parse -> stored_ballot b = true ->
  to_text dump (cballot_to_json wn) b = Ok s ->
  if legible_ballot gp wn b
  then exists b', of_text parse (cballot_of_json gp) s = Ok b' /\ ballot_read wn b b'
  else of_text parse (cballot_of_json gp) s = Throw OutOfRange.
Proof.
  intros F St W. destruct (written _ _ _ _ W) as [j [J _]].
  rewrite (read_written _ _ _ _ _ _ _ F J W), (cballot_back gp wn b j J St).
  destruct (legible_ballot gp wn b); [|reflexivity]. exists (bal_read wn b). split; [reflexivity|apply bal_read_ok].
Qed.
(** The whole ballot is restored if it is in sequence order and has no leading zero bytes. *)
Theorem C55_ciphertext_exact gp dump parse b s : faithful dump parse -> stored_ballot b = true ->
  tidy_ballot b -> legible_ballot gp true b = true ->
  to_text dump (cballot_to_json true) b = Ok s -> of_text parse (cballot_of_json gp) s = Ok b.
Proof.
  intros F St T L W. destruct (written _ _ _ _ W) as [j [J _]].
  rewrite (read_written _ _ _ _ _ _ _ F J W), (cballot_back gp true b j J St), L, (bal_read_id b T). reflexivity.
Qed.
Theorem C55_submitted gp dump parse b s : faithful dump parse -> stored_ballot (sb_ballot b) = true ->
  to_text dump sballot_to_json b = Ok s ->
  if legible_ballot gp false (sb_ballot b)
  then exists b', of_text parse (sballot_of_json gp) s = Ok b'
       /\ ballot_read false (sb_ballot b) (sb_ballot b') /\ sb_state b' = sb_state b
  else of_text parse (sballot_of_json gp) s = Throw OutOfRange.
Proof.
  intros F St W. destruct (written _ _ _ _ W) as [j [J _]].
  pose proof (sballot_writes b) as C. destruct (complete_ballot false (sb_ballot b)) eqn:Ec; [|rewrite J in C; discriminate].
  rewrite (read_written _ _ _ _ _ _ _ F J W), (sballot_back gp b j J St Ec).
  destruct (legible_ballot gp false (sb_ballot b)); [|reflexivity].
  eexists. split; [reflexivity|]. split; [apply bal_read_ok|reflexivity].
Qed.
(** Compact ballots: id, style and votes are restored if there are any votes; the write-ins
    come back as the texts of the JSON strings that hold them. *)
Theorem C55_compact_partial dump parse jdump c s : faithful dump parse -> forallb u64 (cpt_votes c) = true ->
  to_text dump (fun c => Ok (compact_plain_to_json c)) c = Ok s ->
  of_text parse (compact_plain_of_json jdump) s =
  do ws <- mapM jdump (map JStr (cpt_writeins c));
  match cpt_votes c with
  | [] => Throw JsonError
  | vs => Ok {| cpt_id := cpt_id c; cpt_style := cpt_style c; cpt_votes := vs; cpt_writeins := ws |}
  end.
Proof. intros F H W. rewrite (read_written _ _ _ _ _ _ _ F eq_refl W). exact (compact_plain_back jdump c H). Qed.
(** A string is never the text of the JSON string that holds it (which has quotes), so no
    compressed ballot at all survives. *)
Theorem C55_compact_refuted dump parse jdump b s : faithful dump parse ->
  (forall w t, jdump (JStr w) = Ok t -> t <> w) -> votes_fit b ->
  to_text dump (fun c => Ok (compact_plain_to_json c)) (compress_plain b) = Ok s ->
  of_text parse (compact_plain_of_json jdump) s <> Ok (compress_plain b).
Proof.
  intros F Q H W. rewrite (C55_compact_partial dump parse jdump (compress_plain b) s F); [| |exact W].
  - unfold compress_plain at 1 2. cbn [cpt_writeins cpt_votes].
    destruct (flat_map pc_selections (pb_contests b)) as [|x l] eqn:E; [discriminate|]. cbn [map mapM].
    destruct (jdump (JStr (ps_writein x))) as [t| |] eqn:Ej; cbn [bind]; [|discriminate..].
    destruct (mapM jdump (map JStr (map ps_writein l))); cbn [bind]; [|discriminate..].
    intros R. unfold compress_plain in R. rewrite E in R. injection R as R _. exact (Q _ _ Ej R).
  - apply forallb_forall. intros v Hv. unfold compress_plain in Hv. cbn [cpt_votes] in Hv.
    apply in_map_iff in Hv. destruct Hv as [x [<- Hx]]. apply in_flat_map in Hx. destruct Hx as [c [Hc Hx]].
    specialize (H c x Hc Hx). unfold u64. lia.
Qed.
Theorem C55_compact_ciphertext gp dump parse jdump c s : faithful dump parse ->
  in_q (cct_seed c) && in_q (cct_code c) && in_q (cct_nonce c) && u64 (cct_timestamp c) = true ->
  to_text dump (fun c => Ok (compact_cipher_to_json c)) c = Ok s ->
  of_text parse (compact_cipher_of_json gp jdump) s =
  do p <- compact_plain_of_json jdump (compact_plain_to_json (cct_plain c));
  if legible_q gp (cct_seed c) && legible_q gp (cct_code c) && legible_q gp (cct_nonce c)
  then Ok {| cct_plain := p; cct_state := cct_state c; cct_seed := cct_seed c; cct_code := cct_code c;
             cct_timestamp := cct_timestamp c; cct_nonce := cct_nonce c |}
  else Throw OutOfRange.
Proof. intros F H W. rewrite (read_written _ _ _ _ _ _ _ F eq_refl W). exact (compact_cipher_back gp jdump c H). Qed.

(** A ballot read from a document without nonces has zero nonces; written with nonces it can
    never be read again. *)
Lemma sorted_forallb {A} (key : A -> Z) f l : forallb f (sort_by key l) = forallb f l.
Proof. symmetry. apply forallb_perm, sort_perm. Qed.
Lemma octets_trim l : octets l = true -> octets (trim l) = true.
Proof.
  induction l as [|b t IH]; [reflexivity|]. cbn [trim]. destruct (b =? 0); [|tauto].
  intros H. apply IH. unfold octets in *. cbn [forallb] in H. apply andb_true_iff in H. apply H.
Qed.
Lemma forallb_map {A B} (g : A -> B) f l : forallb f (map g l) = forallb (fun x => f (g x)) l.
Proof. induction l as [|x l IH]; [reflexivity|]. cbn. rewrite IH. reflexivity. Qed.
Lemma forallb_imp {A} (f g : A -> bool) l : (forall x, f x = true -> g x = true) -> forallb f l = true -> forallb g l = true.
Proof. intros H. rewrite !forallb_forall. intros F x Hx. apply H, F, Hx. Qed.
Lemma stored_read b : stored_ballot b = true -> stored_ballot (bal_read false b) = true.
Proof.
  unfold stored_ballot. cbn [bal_read cb_manifest cb_seed cb_contests cb_code cb_timestamp cb_nonce nonce_read cb_hash].
  rewrite !andb_true_iff. intros [[[[[[H1 H2] H3] H4] H5] H6] H7].
  repeat split; try assumption. rewrite forallb_map. unfold cb_sorted. rewrite sorted_forallb.
  revert H3. apply forallb_imp. clear. intros c. unfold stored_contest.
  cbn [con_read cc_seq cc_desc cc_selections cc_nonce nonce_read cc_acc cc_hash cc_proof cc_hashed].
  rewrite !andb_true_iff. intros [[[[[[[H1 H2] H3] H4] H5] H6] H7] H8].
  repeat split; try assumption.
  - rewrite forallb_map. unfold cc_sorted. rewrite sorted_forallb.
    revert H3. apply forallb_imp. clear. intros x. unfold stored_selection.
    cbn [sel_read cs_seq cs_desc cs_ct cs_nonce nonce_read cs_hash cs_proof].
    rewrite !andb_true_iff. intros [[[[[H1 H2] H3] H4] H5] H6]. repeat split; assumption.
  - destruct (cc_hashed c) as [h|]; [|reflexivity]. cbn [option_map opt] in *. unfold stored_hashed in *.
    cbn [trim_hashed hc_pad hc_data hc_mac]. rewrite !andb_true_iff in *. destruct H8 as [[A B] C].
    repeat split; [exact A|apply octets_trim, B|apply octets_trim, C].
Qed.
Lemma complete_read b : complete_ballot false b = true -> complete_ballot true (bal_read false b) = true.
Proof.
  unfold complete_ballot. cbn [bal_read cb_contests cb_nonce nonce_read has negb orb]. rewrite !andb_true_r.
  rewrite forallb_map. unfold cb_sorted. rewrite sorted_forallb. apply forallb_imp. intros c. unfold complete_contest.
  cbn [con_read cc_selections cc_nonce nonce_read cc_proof cc_hashed has negb orb]. rewrite !andb_true_r, !andb_true_iff.
  intros [[H1 H2] H3]. repeat split; [|exact H2|destruct (cc_hashed c); [reflexivity|discriminate]].
  rewrite forallb_map. unfold cc_sorted. rewrite sorted_forallb. revert H1. apply forallb_imp. intros x.
  unfold complete_selection. cbn [sel_read cs_nonce nonce_read cs_proof has negb orb]. rewrite !andb_true_r. tauto.
Qed.
Theorem C55_zero_nonce_refuted gp dump parse b s : faithful dump parse -> stored_ballot b = true ->
  legible_ballot gp false b = true -> to_text dump (cballot_to_json false) b = Ok s ->
  exists b', of_text parse (cballot_of_json gp) s = Ok b' /\
  (exists j, cballot_to_json true b' = Ok j) /\
  forall s', to_text dump (cballot_to_json true) b' = Ok s' ->
             of_text parse (cballot_of_json gp) s' = Throw OutOfRange.
Proof.
  intros F St L W. destruct (written _ _ _ _ W) as [j [J _]].
  pose proof (cballot_writes false b) as C. destruct (complete_ballot false b) eqn:Ec; [|rewrite J in C; discriminate].
  exists (bal_read false b).
  rewrite (read_written _ _ _ _ _ _ _ F J W), (cballot_back gp false b j J St), L. split; [reflexivity|].
  pose proof (cballot_writes true (bal_read false b)) as C'. rewrite (complete_read b Ec) in C'. split; [exact C'|].
  intros s' W'. destruct (written _ _ _ _ W') as [j' [J' _]].
  rewrite (read_written _ _ _ _ _ _ _ F J' W'), (cballot_back gp true _ j' J' (stored_read b St)).
  replace (legible_ballot gp true (bal_read false b)) with false; [reflexivity|].
  symmetry. unfold legible_ballot, legible_nonce. cbn [bal_read cb_nonce nonce_read opt negb orb].
  unfold legible_q at 4. cbn [Z.ltb Z.compare andb]. rewrite ?andb_false_r. reflexivity.
Qed.
(** Elements that are zero are written but not read: a ballot with a zero challenge. *)
Definition zero_ballot : cballot :=
  {| cb_id := s2b "ballot"; cb_style := s2b "style"; cb_manifest := 3; cb_seed := 4;
     cb_contests := [con1 7 [1]]; cb_code := 0; cb_timestamp := 6; cb_nonce := Some 9; cb_hash := 7 |}.
Theorem C55_zero_element_refuted : exists s,
  stored_ballot zero_ballot = true /\ to_text sample_dump (cballot_to_json true) zero_ballot = Ok s /\
  of_text sample_parse (cballot_of_json tp) s = Throw OutOfRange.
Proof. eexists. split; [vm_compute; reflexivity|]. split; [vm_compute; reflexivity|]. vm_compute. reflexivity. Qed.

(** The four constants can be read from the members of their document. *)
Theorem C55_constants gp dump parse s : faithful dump parse -> valid_params gp ->
  to_text dump (fun gp => Ok (constants_to_json gp)) gp = Ok s ->
  let member k := of_text parse (fun j => do t <- gs j k; from_hex_p gp t false) s in
  member "large_prime" = Ok (gpP gp) /\ member "generator" = Ok (gpG gp) /\ member "cofactor" = Ok (gpR gp) /\
  of_text parse (fun j => do t <- gs j "small_prime"; from_hex_q gp t false) s = Ok (gpQ gp).
Proof.
  intros F V W. unfold to_text in W. cbn [bind] in W. cbv zeta. unfold of_text. rewrite (F _ _ W), !bind_Ok.
  pose proof (vp_Grng _ V) as HG. pose proof (vp_Phi gp V) as HP. pose proof (vp_Qhi gp V) as HQ.
  pose proof (vp_PQR gp V) as HR. pose proof (vp_Qlo gp V) as HQ0.
  assert (R : 0 < gpR gp <= gpP gp) by nia.
  change W4096 with (2 ^ 4096) in HP. change W256 with (2 ^ 256) in HQ.
  assert (X : forall x, 0 < x <= gpP gp -> from_hex_p gp (to_hex_p x) false = Ok x).
  { intros x Hx. apply C09_hex_roundtrip_p_partial; lia. }
  unfold constants_to_json. repeat split.
  - etransitivity; [|apply (X (gpP gp)); lia]. reflexivity.
  - etransitivity; [|apply (X (gpG gp)); lia]. reflexivity.
  - etransitivity; [|apply (X (gpR gp)); lia]. reflexivity.
  - etransitivity; [|apply (C09_hex_roundtrip_q_partial gp (gpQ gp) false); lia]. reflexivity.
Qed.
Example C55_case : exists s,
  stored_ballot (bal1 7 [1]) = true /\ legible_ballot tp true (bal1 7 [1]) = true /\ tidy_ballot (bal1 7 [1]) /\
  to_text sample_dump (cballot_to_json true) (bal1 7 [1]) = Ok s /\
  of_text sample_parse (cballot_of_json tp) s = Ok (bal1 7 [1]).
Proof.
  assert (T : tidy_ballot (bal1 7 [1])).
  { split; [repeat constructor|]. constructor; [|constructor]. split.
    - unfold ascending. repeat constructor; cbn; lia.
    - intros h Hh. injection Hh as <-. split; discriminate. }
  eexists. split; [vm_compute; reflexivity|]. split; [vm_compute; reflexivity|]. split; [exact T|].
  split; [vm_compute; reflexivity|].
  eapply (C55_ciphertext_exact tp sample_dump sample_parse); [exact sample_faithful|vm_compute; reflexivity|exact T|vm_compute; reflexivity|].
  vm_compute. reflexivity.
Qed.
Example C55_plain_case : exists s,
  let b := {| pb_id := s2b "b"; pb_style := []; pb_contests :=
               [{| pc_id := s2b "c"; pc_selections :=
                   [{| ps_id := s2b "s"; ps_vote := 1; ps_placeholder := false; ps_writein := s2b "A. Name" |}] |};
                {| pc_id := s2b "d"; pc_selections := [] |}] |} in
  votes_fit b /\ to_text sample_dump (fun b => Ok (pballot_to_json b)) b = Ok s /\
  of_text sample_parse pballot_of_json s = Ok b.
Proof.
  eexists. cbv zeta. split.
  - intros c x [<- | [<- | []]] Hx; cbn in Hx; [destruct Hx as [<- | []]; cbn; lia|destruct Hx].
  - split; [vm_compute; reflexivity|]. vm_compute. reflexivity.
Qed.

(** * C56 *)
(** Exactly the ciphertexts whose data and mac begin with a non-zero byte are restored. *)
Theorem C56_exact gp dump parse h s : faithful dump parse -> stored_hashed h = true ->
  to_text dump (fun h => Ok (hashed_to_json h)) h = Ok s ->
  (of_text parse (hashed_of_json gp) s = Ok h <->
   0 < hc_pad h <= gpP gp /\ hd 0 (hc_data h) <> 0 /\ hd 0 (hc_mac h) <> 0).
Proof.
  intros F St W. rewrite (read_written _ _ _ _ _ _ _ F eq_refl W), (hashed_back gp h St).
  assert (T : forall l, some_bit l = true /\ trim l = l <-> hd 0 l <> 0).
  { intros l. split.
    - intros [S E]. destruct l as [|b t]; [discriminate|]. cbn [hd]. intros ->. cbn [trim Z.eqb] in E.
      assert (L : (length (trim t) <= length t)%nat) by (clear; rewrite trim_strip; apply strip0_length).
      rewrite E in L. cbn in L. lia.
    - destruct l as [|b t]; [intros H; now elim H|]. cbn [hd]. intros H. unfold some_bit. cbn [existsb trim].
      destruct (Z.eqb_spec b 0); [contradiction|]. split; reflexivity. }
  unfold legible_hashed, legible_p, trim_hashed. destruct h as [p d m]. cbn [hc_pad hc_data hc_mac] in *.
  rewrite <- !T. split.
  - destruct ((0 <? p) && (p <=? gpP gp) && some_bit d && some_bit m) eqn:E; [|discriminate].
    rewrite !andb_true_iff in E. destruct E as [[[E1 E2] E3] E4]. intros R. injection R as R1 R2. repeat split; lia || assumption.
  - intros [P [[D1 D2] [M1 M2]]]. rewrite D1, M1, D2, M2, !andb_true_r.
    replace ((0 <? p) && (p <=? gpP gp)) with true by (symmetry; rewrite andb_true_iff; lia). reflexivity.
Qed.
(** The others lose their leading zeroes, or cannot be read if nothing is left. *)
Theorem C56_trimmed gp dump parse h s : faithful dump parse -> stored_hashed h = true ->
  to_text dump (fun h => Ok (hashed_to_json h)) h = Ok s ->
  of_text parse (hashed_of_json gp) s =
  if legible_hashed gp h then Ok (trim_hashed h) else Throw OutOfRange.
Proof. intros F St W. rewrite (read_written _ _ _ _ _ _ _ F eq_refl W). exact (hashed_back gp h St). Qed.
Lemma trim_length l : (length (trim l) <= length l)%nat.
Proof. rewrite trim_strip. apply strip0_length. Qed.
(** A ciphertext that decrypts and whose mac begins with a zero byte no longer decrypts after it
    was written and read, for any secret and seed. *)
Theorem C56_mac_refuted gp sha hmac dump parse h s k seed lfp out h' : faithful dump parse ->
  stored_hashed h = true -> hashed_decrypt gp sha hmac h k seed lfp = Ok out -> hd 1 (hc_mac h) = 0 ->
  to_text dump (fun h => Ok (hashed_to_json h)) h = Ok s -> of_text parse (hashed_of_json gp) s = Ok h' ->
  forall k' seed' lfp' out', hashed_decrypt gp sha hmac h' k' seed' lfp' <> Ok out'.
Proof.
  intros F St D Hz W R k' seed' lfp' out' D'. rewrite (C56_trimmed gp dump parse h s F St W) in R.
  destruct (legible_hashed gp h); [|discriminate]. apply Ok_eq in R. subst h'.
  destruct (C23_accepted_mac gp sha hmac _ _ _ _ _ D) as [key [M _]].
  destruct (C23_accepted_mac gp sha hmac _ _ _ _ _ D') as [key' [M' _]].
  apply (f_equal (@length Z)) in M, M'. rewrite be_bytes_length in M, M'. cbn [trim_hashed hc_mac] in M'.
  destruct (hc_mac h) as [|b t]; [discriminate|]. cbn [hd] in Hz. subst b. cbn [trim Z.eqb] in M'.
  pose proof (trim_length t). cbn [length] in M. lia.
Qed.
(** Whatever was lost, what is read decrypts only if the HMAC collides. *)
Theorem C56_lost gp sha hmac dump parse h s k seed lfp out h' lfp' out' : faithful dump parse ->
  stored_hashed h = true -> hashed_decrypt gp sha hmac h k seed lfp = Ok out ->
  to_text dump (fun h => Ok (hashed_to_json h)) h = Ok s -> of_text parse (hashed_of_json gp) s = Ok h' ->
  h' <> h -> hashed_decrypt gp sha hmac h' k seed lfp' = Ok out' ->
  exists key key' m m', m <> m' /\ hmac key m mod 2 ^ 256 = hmac key' m' mod 2 ^ 256.
Proof.
  intros F St D W R N D'. pose proof R as R0. rewrite (C56_trimmed gp dump parse h s F St W) in R.
  destruct (legible_hashed gp h); [|discriminate]. apply Ok_eq in R. subst h'.
  assert (P : 0 <= hc_pad h < 2 ^ 4096).
  { unfold stored_hashed, in_p in St. rewrite !andb_true_iff in St. destruct St as [[[A B] _] _].
    apply Z.leb_le in A. apply Z.ltb_lt in B. split; assumption. }
  destruct (hd 1 (hc_mac h)) eqn:Hz.
  - exfalso. exact (C56_mac_refuted gp sha hmac dump parse h s k seed lfp out _ F St D Hz W R0 _ _ _ _ D').
  - assert (M : trim (hc_mac h) = hc_mac h) by (apply trim_id; rewrite Hz; discriminate).
    destruct (C23_modified_rejected gp sha hmac h (trim_hashed h) k seed lfp lfp' out out' P P D D') as (a & b & m & m' & X & Y & _).
    + cbn [trim_hashed hc_mac]. symmetry. exact M.
    + cbn [trim_hashed hc_pad hc_data]. intros E. injection E as E. apply N. unfold trim_hashed. rewrite M, <- E.
      destruct h; reflexivity.
    + exists a, b, m, m'. split; assumption.
  - assert (M : trim (hc_mac h) = hc_mac h) by (apply trim_id; rewrite Hz; discriminate).
    destruct (C23_modified_rejected gp sha hmac h (trim_hashed h) k seed lfp lfp' out out' P P D D') as (a & b & m & m' & X & Y & _).
    + cbn [trim_hashed hc_mac]. symmetry. exact M.
    + cbn [trim_hashed hc_pad hc_data]. intros E. injection E as E. apply N. unfold trim_hashed. rewrite M, <- E.
      destruct h; reflexivity.
    + exists a, b, m, m'. split; assumption.
Qed.
(** An encrypted message of 32 bytes whose mac begins with a zero byte. *)
Definition zero_hmac (_ m : bytes) : Z := 2 ^ 240 + Z.of_nat (length m).
Definition lost_ct : outcome hashed_ct :=
  hashed_encrypt tp toy_sha zero_hmac None (repeat 65 32) 777 (g_pow_p tp 12345) 9 0 false.
Theorem C56_refuted : exists h s h',
  lost_ct = Ok h /\ hashed_decrypt tp toy_sha zero_hmac h 12345 9 false = Ok (repeat 65 32) /\
  stored_hashed h = true /\ to_text sample_dump (fun h => Ok (hashed_to_json h)) h = Ok s /\
  of_text sample_parse (hashed_of_json tp) s = Ok h' /\
  length (hc_mac h) = 32%nat /\ length (hc_mac h') = 31%nat /\
  hashed_decrypt tp toy_sha zero_hmac h' 12345 9 false = Throw RuntimeError.
Proof.
  eexists. eexists. eexists. split; [vm_compute; reflexivity|]. split; [vm_compute; reflexivity|].
  split; [vm_compute; reflexivity|]. split; [vm_compute; reflexivity|]. split; [vm_compute; reflexivity|].
  split; [reflexivity|]. split; [reflexivity|]. vm_compute. reflexivity.
Qed.
Example C56_case : exists s,
  let h := {| hc_pad := 4; hc_data := [7; 0; 9]; hc_mac := [1; 0] |} in
  stored_hashed h = true /\ to_text sample_dump (fun h => Ok (hashed_to_json h)) h = Ok s /\
  of_text sample_parse (hashed_of_json tp) s = Ok h.
Proof. eexists. cbv zeta. split; [reflexivity|]. split; [vm_compute; reflexivity|]. vm_compute. reflexivity. Qed.

(** * C67 *)
(** Manifests: what is read back, for every manifest with machine numbers and dates that the
    date functions can restore. *)
Theorem C67_manifest dump parse fmt scan m s : faithful dump parse -> manifest_in_range m = true ->
  (forall t, t = mf_start m \/ t = mf_end m -> scan (fmt (Z.quot t 1000000000)) = Z.quot t 1000000000) ->
  to_text dump (fun m => Ok (manifest_to_json fmt m)) m = Ok s ->
  exists m', of_text parse (manifest_of_json scan) s = Ok m' /\ manifest_read m m' /\
  (settled m -> forall gp sha, manifest_hash gp sha fmt m' = manifest_hash gp sha fmt m).
Proof.
  intros F R S W. exists (manifest_back_value m).
  rewrite (read_written _ _ _ _ _ _ _ F eq_refl W), (manifest_back fmt scan m R) by (apply S; tauto).
  split; [reflexivity|]. split; [apply manifest_back_read|]. intros H gp sha. now apply manifest_back_hash.
Qed.
(** The hash does not survive if contests are not listed in sequence order: the sample
    manifest, in which the order is otherwise irrelevant. *)
Definition scan_sample (b : bytes) : Z := fold_left (fun a d => a * 10 + (d - 48)) b 0.
Definition settled_sample : manifest := set_contests sample
  [contest2; {| cd_id := s2b "mayor"; cd_district := s2b "u1"; cd_seq := 2; cd_variation := VV_one_of_m;
     cd_elected := 1; cd_allowed := 1; cd_name := s2b "Mayor"; cd_title := Some (txt "Mayor");
     cd_subtitle := Some (txt "Town"); cd_selections := [sel "s-a" "ann" 3; sel "s-b" "bob" 4];
     cd_primary := [] |}].
Definition changed (m : manifest) : Prop := exists s m' h h',
  manifest_valid m = true /\ manifest_in_range m = true /\
  to_text sample_dump (fun m => Ok (manifest_to_json iso_sample m)) m = Ok s /\
  of_text sample_parse (manifest_of_json scan_sample) s = Ok m' /\
  manifest_hash tp toy_sha iso_sample m = Ok h /\ manifest_hash tp toy_sha iso_sample m' = Ok h' /\ h <> h'.
Ltac changes := do 4 eexists; split; [vm_compute; reflexivity|]; split; [vm_compute; reflexivity|];
  split; [vm_compute; reflexivity|]; split; [vm_compute; reflexivity|]; split; [vm_compute; reflexivity|];
  split; [vm_compute; reflexivity|]; discriminate.
Theorem C67_order_refuted : changed sample.
Proof. changes. Qed.
(** Nor with a number of allowed votes of zero (which validation accepts) ... *)
Theorem C67_allowed_refuted : changed (set_contests settled_sample
  [{| cd_id := s2b "board"; cd_district := s2b "u2"; cd_seq := 1; cd_variation := VV_n_of_m;
     cd_elected := 2; cd_allowed := 0; cd_name := s2b "Board"; cd_title := None;
     cd_subtitle := None; cd_selections := [sel "s-x" "xia" 1; sel "s-y" "yan" 2; sel "s-z" "zed" 3];
     cd_primary := [] |}]).
Proof. changes. Qed.
(** ... with a party without a name ... *)
Definition set_parties (m : manifest) (l : list party) : manifest :=
  {| mf_scope := mf_scope m; mf_type := mf_type m; mf_start := mf_start m; mf_end := mf_end m;
     mf_units := mf_units m; mf_parties := l; mf_candidates := mf_candidates m;
     mf_contests := mf_contests m; mf_styles := mf_styles m; mf_name := mf_name m; mf_contact := mf_contact m |}.
Definition set_units (m : manifest) (l : list gp_unit) : manifest :=
  {| mf_scope := mf_scope m; mf_type := mf_type m; mf_start := mf_start m; mf_end := mf_end m;
     mf_units := l; mf_parties := mf_parties m; mf_candidates := mf_candidates m;
     mf_contests := mf_contests m; mf_styles := mf_styles m; mf_name := mf_name m; mf_contact := mf_contact m |}.
Theorem C67_party_refuted : changed (set_parties settled_sample
  [{| pa_id := s2b "party"; pa_name := None; pa_abbrev := []; pa_color := []; pa_logo := [] |}]).
Proof. changes. Qed.
(** ... or with a unit whose contact information has no entry. *)
Theorem C67_contact_refuted : changed (set_units settled_sample
  [{| gu_id := s2b "u1"; gu_name := s2b "unit"; gu_type := RU_county; gu_contact := Some empty_contact |}; unit_of "u2"]).
Proof. changes. Qed.
(** Internal manifests: with a contest that has a title the document cannot be read at all ... *)
Theorem C67_titled_refuted gp dump parse m s : faithful dump parse -> internal_in_range m = true ->
  untitled m = false -> to_text dump (fun m => Ok (internal_to_json m)) m = Ok s ->
  of_text parse (internal_of_json gp) s = Throw JsonError.
Proof.
  intros F R U W. rewrite (read_written _ _ _ _ _ _ _ F eq_refl W), (internal_back gp m R), U. reflexivity.
Qed.
(** ... without titles it is restored up to the numbers of allowed votes, which are computed
    again. *)
Theorem C67_internal gp dump parse m s : faithful dump parse -> internal_in_range m = true ->
  untitled m = true -> to_text dump (fun m => Ok (internal_to_json m)) m = Ok s ->
  if (0 <? im_hash m) && (im_hash m <=? gpQ gp)
  then exists m', of_text parse (internal_of_json gp) s = Ok m' /\ internal_read m m'
  else of_text parse (internal_of_json gp) s = Throw OutOfRange.
Proof.
  intros F R U W. rewrite (read_written _ _ _ _ _ _ _ F eq_refl W), (internal_back gp m R), U.
  change ((0 <? im_hash m) && (im_hash m <=? gpQ gp)) with (legible_q gp (im_hash m)).
  destruct (legible_q gp (im_hash m)); [|reflexivity]. eexists. split; [reflexivity|]. apply internal_back_read.
Qed.
Example C67_case : settled settled_sample /\ manifest_in_range settled_sample = true /\
  manifest_valid settled_sample = true /\
  exists s m', to_text sample_dump (fun m => Ok (manifest_to_json iso_sample m)) settled_sample = Ok s /\
  of_text sample_parse (manifest_of_json scan_sample) s = Ok m' /\
  manifest_hash tp toy_sha iso_sample m' = manifest_hash tp toy_sha iso_sample settled_sample.
Proof.
  split.
  { unfold settled. cbn. split; [unfold ascending; repeat constructor; cbn; lia|].
    split; [repeat constructor; cbn; try lia; discriminate|].
    split; [repeat constructor; discriminate|]. split; [constructor|]. intros H. now elim H. }
  split; [reflexivity|]. split; [reflexivity|].
  eexists. eexists. split; [vm_compute; reflexivity|]. split; [vm_compute; reflexivity|]. vm_compute. reflexivity.
Qed.

(** Cases for the remaining theorems *)
Definition sample_ctx : full_context :=
  {| fc_context := {| el_guardians := 5; el_quorum := 3; el_pk := 4; el_commitment := 6; el_manifest := 7;
                      el_base := 8; el_ext := 9 |};
     fc_overvotes := true; fc_max_ballots := 1000; fc_extended := [(s2b "a", s2b "x"); (s2b "b", s2b "y")] |}.
Example C55_context_case : exists s,
  stored_context (fc_context sample_ctx) (fc_max_ballots sample_ctx) = true /\
  legible_context tp (fc_context sample_ctx) = true /\ NoDup (map fst (fc_extended sample_ctx)) /\
  to_text sample_dump (fun x => Ok (context_to_json x)) sample_ctx = Ok s /\
  of_text sample_parse (context_of_json tp) s = Ok sample_ctx.
Proof.
  eexists. split; [reflexivity|]. split; [reflexivity|]. split.
  - constructor; [intros [H | []]; discriminate|]. constructor; [intros []|constructor].
  - split; [vm_compute; reflexivity|]. vm_compute. reflexivity.
Qed.
Example C55_submitted_case : exists s b',
  let b := {| sb_ballot := bal1 7 [1]; sb_state := BS_cast |} in
  to_text sample_dump sballot_to_json b = Ok s /\ of_text sample_parse (sballot_of_json tp) s = Ok b' /\
  sb_state b' = BS_cast /\ cb_code (sb_ballot b') = 5 /\ cb_nonce (sb_ballot b') = Some 0.
Proof.
  eexists. eexists. cbv zeta. split; [vm_compute; reflexivity|]. split; [vm_compute; reflexivity|]. repeat split.
Qed.
(** dump of a JSON string without characters to escape *)
Definition quoted (j : json) : outcome bytes :=
  match j with JStr s => Ok (34 :: s ++ [34]) | _ => Throw JsonError end.
Lemma quoted_differs w t : quoted (JStr w) = Ok t -> t <> w.
Proof.
  intros E H. apply Ok_eq in E. subst t. apply (f_equal (@length Z)) in H. cbn [length] in H.
  rewrite app_length in H. cbn [length] in H. lia.
Qed.
Example C55_compact_case : exists s c',
  let c := {| cpt_id := s2b "b"; cpt_style := s2b "s"; cpt_votes := [1; 0]; cpt_writeins := [s2b "A"; []] |} in
  to_text sample_dump (fun c => Ok (compact_plain_to_json c)) c = Ok s /\
  of_text sample_parse (compact_plain_of_json quoted) s = Ok c' /\
  cpt_votes c' = [1; 0] /\ cpt_writeins c' = [[34; 65; 34]; [34; 34]].
Proof.
  eexists. eexists. cbv zeta. split; [vm_compute; reflexivity|]. split; [vm_compute; reflexivity|]. split; reflexivity.
Qed.
Definition internal_sample (l : list contest) : internal_manifest :=
  {| im_units := mf_units sample; im_candidates := mf_candidates sample;
     im_contests := map (fun c => {| cw_base := c; cw_placeholders := placeholders_of c |}) l;
     im_styles := mf_styles sample; im_hash := 77 |}.
Example C67_internal_case : exists s s' m',
  untitled (internal_sample [contest2]) = true /\ untitled (internal_sample [contest1; contest2]) = false /\
  internal_in_range (internal_sample [contest1; contest2]) = true /\
  to_text sample_dump (fun m => Ok (internal_to_json m)) (internal_sample [contest2]) = Ok s /\
  of_text sample_parse (internal_of_json tp) s = Ok m' /\
  map cw_placeholders (im_contests m') = [placeholders_of contest2] /\
  to_text sample_dump (fun m => Ok (internal_to_json m)) (internal_sample [contest1; contest2]) = Ok s' /\
  of_text sample_parse (internal_of_json tp) s' = Throw JsonError.
Proof.
  eexists. eexists. eexists. split; [reflexivity|]. split; [reflexivity|]. split; [reflexivity|].
  split; [vm_compute; reflexivity|]. split; [vm_compute; reflexivity|]. split; [vm_compute; reflexivity|].
  split; [vm_compute; reflexivity|]. vm_compute. reflexivity.
Qed.

Print Assumptions C54_no_member.
Print Assumptions C54_submitted_no_member.
Print Assumptions C54_noninterference.
Print Assumptions C54_submitted_noninterference.
Print Assumptions C54_read_nonces.
Print Assumptions C55_plaintext.
Print Assumptions C55_foreign_votes.
Print Assumptions C55_device.
Print Assumptions C55_context.
Print Assumptions C55_ciphertext_written.
Print Assumptions C55_ciphertext.
Print Assumptions C55_ciphertext_exact.
Print Assumptions C55_submitted.
Print Assumptions C55_compact_partial.
Print Assumptions C55_compact_refuted.
Print Assumptions C55_compact_ciphertext.
Print Assumptions C55_zero_nonce_refuted.
Print Assumptions C55_zero_element_refuted.
Print Assumptions C55_constants.
Print Assumptions C56_exact.
Print Assumptions C56_trimmed.
Print Assumptions C56_mac_refuted.
Print Assumptions C56_lost.
Print Assumptions C56_refuted.
Print Assumptions C67_manifest.
Print Assumptions C67_order_refuted.
Print Assumptions C67_allowed_refuted.
Print Assumptions C67_party_refuted.
Print Assumptions C67_contact_refuted.
Print Assumptions C67_titled_refuted.
Print Assumptions C67_internal.
