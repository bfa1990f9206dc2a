(** Hash encoding and nonces. *)
From Coq Require Import Psatz ZifyBool ZifyNat.
From Verif Require Import Base GroupModel GroupSpec GroupProofs CodecModel CodecProofs HashModel.
Open Scope Z_scope.
Ltac Zify.zify_post_hook ::= Z.div_mod_to_equations.
Global Opaque to_hex_p to_hex_q to_bytes_p to_bytes_q.

(** ** Decimal strings *)
Definition dec_val (l : bytes) : Z := fold_left (fun acc c => acc * 10 + (c - 48)) l 0.
Definition is_decchar (c : Z) : Prop := 48 <= c <= 57.

Lemma dec_val_acc l acc :
  fold_left (fun acc c => acc * 10 + (c - 48)) l acc = acc * 10 ^ Z.of_nat (length l) + dec_val l.
Proof.
  unfold dec_val. revert acc. induction l as [|x l IH]; intros acc.
  - cbn. lia.
  - cbn [fold_left length]. rewrite IH, (IH (0 * 10 + (x - 48))).
    rewrite Nat2Z.inj_succ, Z.pow_succ_r by lia. ring.
Qed.
Lemma dec_loop_val fuel n acc : 0 <= n < 10 ^ Z.of_nat fuel ->
  dec_val (dec_loop fuel n acc) = n * 10 ^ Z.of_nat (length acc) + dec_val acc.
Proof.
  revert n acc. induction fuel as [|f IH]; intros n acc Hn.
  - change (10 ^ Z.of_nat 0) with 1 in Hn. assert (n = 0) by lia. subst. cbn [dec_loop]. lia.
  - rewrite Nat2Z.inj_succ, Z.pow_succ_r in Hn by lia. cbn [dec_loop].
    assert (E : dec_val (48 + n mod 10 :: acc) = (n mod 10) * 10 ^ Z.of_nat (length acc) + dec_val acc).
    { unfold dec_val at 1. cbn [fold_left]. rewrite dec_val_acc. f_equal. f_equal. lia. }
    assert (D : n = 10 * (n / 10) + n mod 10) by (apply Z.div_mod; lia).
    destruct (Z.eqb_spec (n / 10) 0) as [E0|N0].
    + rewrite E. rewrite E0 in D. replace (n mod 10) with n by lia. reflexivity.
    + rewrite IH by lia. cbn [length]. rewrite E, Nat2Z.inj_succ, Z.pow_succ_r by lia.
      rewrite D at 3. ring.
Qed.
Lemma to_string_u64_inj a b : 0 <= a < W64 -> 0 <= b < W64 ->
  to_string_u64 a = to_string_u64 b -> a = b.
Proof.
  intros Ha Hb E. assert (HW : W64 < 10 ^ Z.of_nat 20) by reflexivity.
  apply (f_equal dec_val) in E. unfold to_string_u64 in E.
  rewrite !dec_loop_val in E by lia. cbn in E. lia.
Qed.
Lemma dec_loop_chars fuel n acc : 0 <= n -> Forall is_decchar acc ->
  Forall is_decchar (dec_loop fuel n acc).
Proof.
  revert n acc. induction fuel as [|f IH]; intros n acc Hn Ha; cbn [dec_loop]; [assumption|].
  assert (H : Forall is_decchar (48 + n mod 10 :: acc)).
  { constructor; [|assumption]. unfold is_decchar. lia. }
  destruct (n / 10 =? 0); [assumption|]. apply IH; [lia|assumption].
Qed.
Lemma dec_loop_nonempty fuel n acc : acc <> [] -> dec_loop fuel n acc <> [].
Proof.
  revert n acc. induction fuel as [|f IH]; intros n acc Ha; cbn [dec_loop]; [assumption|].
  destruct (n / 10 =? 0); [discriminate|]. apply IH. discriminate.
Qed.

(** ** Splitting at delimiters *)
Definition delim_free (s : bytes) : Prop := ~ In delim s.

Lemma split_delim s s' t t' : delim_free s -> delim_free s' ->
  s ++ delim :: t = s' ++ delim :: t' -> s = s' /\ t = t'.
Proof.
  revert s'. induction s as [|c s IH]; intros [|c' s'] Hs Hs' E; cbn [app] in E.
  - injection E as E. auto.
  - injection E as E1 E2. exfalso. apply Hs'. left. auto.
  - injection E as E1 E2. exfalso. apply Hs. left. auto.
  - injection E as E1 E2. subst c'.
    destruct (IH s') as [-> ->]; auto.
    + intros H. apply Hs. right. assumption.
    + intros H. apply Hs'. right. assumption.
Qed.

Lemma joined_inj l l' : Forall delim_free l -> Forall delim_free l' ->
  flat_map (fun s => s ++ [delim]) l = flat_map (fun s => s ++ [delim]) l' -> l = l'.
Proof.
  intros H. revert l'. induction H as [|s l Hs Hl IH]; intros [|s' l'] H' E; cbn [flat_map] in E.
  - reflexivity.
  - exfalso. destruct s'; discriminate.
  - exfalso. destruct s; discriminate.
  - inversion H' as [|? ? Hs' Hl']; subst. rewrite <- !app_assoc in E. cbn [app] in E.
    apply split_delim in E; [|assumption..]. destruct E as [-> E].
    rewrite (IH l') by assumption. reflexivity.
Qed.

Lemma hexchars_delim_free s : Forall is_hexchar s -> delim_free s.
Proof.
  intros H Hin. rewrite Forall_forall in H. apply H in Hin. unfold is_hexchar, delim in Hin. lia.
Qed.
Lemma decchars_delim_free s : Forall is_decchar s -> delim_free s.
Proof.
  intros H Hin. rewrite Forall_forall in H. apply H in Hin. unfold is_decchar, delim in Hin. lia.
Qed.

Section Hash.
Context (gp : params) (VP : valid_params gp) (sha : bytes -> Z).

(** Items whose encoding contains no delimiter: everything except strings that
    contain one. *)
Definition item_clean (i : hitem) : Prop :=
  match i with
  | HU64 n => 0 <= n
  | HStr s => delim_free s
  | HBytes b => is_bytes b
  | _ => True
  end.

Lemma to_hex_q_delim_free v : delim_free (to_hex_q v).
Proof. apply hexchars_delim_free. rewrite to_hex_q_eq. apply bytes_to_hex_chars, to_bytes_q_bytes. Qed.
Lemma to_hex_p_delim_free v : delim_free (to_hex_p v).
Proof. apply hexchars_delim_free. rewrite to_hex_p_eq. apply bytes_to_hex_chars, to_bytes_p_bytes. Qed.
Lemma null_delim_free : delim_free null_string.
Proof. intros H. cbn in H. unfold delim in H. lia. Qed.

Lemma hash_string_delim_free i : item_clean i -> delim_free (hash_string gp sha i).
Proof.
  destruct i as [|h|v|v|n|s|b|l]; cbn [hash_string item_clean]; intros Hc.
  - apply null_delim_free.
  - apply to_hex_q_delim_free.
  - apply to_hex_p_delim_free.
  - apply to_hex_q_delim_free.
  - destruct (n =? 0); [apply null_delim_free|]. apply decchars_delim_free.
    apply dec_loop_chars; [assumption|constructor].
  - destruct s; [apply null_delim_free|assumption].
  - apply hexchars_delim_free, bytes_to_hex_chars. assumption.
  - destruct l; [apply null_delim_free|apply to_hex_q_delim_free].
Qed.

(** The hashed byte string determines the sequence of encoded items. *)
Lemma hash_message_inj l l' :
  Forall item_clean l -> Forall item_clean l' -> l <> [] -> l' <> [] ->
  hash_message gp sha l = hash_message gp sha l' ->
  map (hash_string gp sha) l = map (hash_string gp sha) l'.
Proof.
  intros H H' N N' E. unfold hash_message in E. injection E as E.
  destruct l as [|x l]; [contradiction|]. destruct l' as [|x' l']; [contradiction|].
  apply joined_inj.
  - apply Forall_map. revert H. apply Forall_impl. intros i. apply hash_string_delim_free.
  - apply Forall_map. revert H'. apply Forall_impl. intros i. apply hash_string_delim_free.
  - assert (F : forall k, flat_map (fun s => s ++ [delim]) (map (hash_string gp sha) k)
                 = flat_map (fun x => hash_string gp sha x ++ [delim]) k).
    { induction k as [|y k IH]; [reflexivity|]. cbn [map flat_map]. rewrite IH. reflexivity. }
    rewrite !F. exact E.
Qed.

(** Same-typed scalar items with the same encoding are equal. *)
Definition scalar_ok (i : hitem) : Prop :=
  match i with
  | HElemP v => 0 <= v < W4096
  | HElemQ v => 0 <= v < W256
  | HHash v => 0 <= v < W256
  | HU64 n => 0 <= n < W64
  | HStr s => s <> [] /\ s <> null_string /\ delim_free s
  | _ => False
  end.
Definition same_kind (i j : hitem) : Prop :=
  match i, j with
  | HElemP _, HElemP _ | HElemQ _, HElemQ _ | HHash _, HHash _ | HU64 _, HU64 _
  | HStr _, HStr _ => True
  | _, _ => False
  end.

Lemma null_not_dec n : 0 <= n -> to_string_u64 n <> null_string.
Proof.
  intros Hn E. assert (H : Forall is_decchar (to_string_u64 n)) by (apply dec_loop_chars; [assumption|constructor]).
  rewrite E in H. inversion H as [|? ? H1 _]. unfold is_decchar in H1. lia.
Qed.

Lemma hash_string_inj i j : scalar_ok i -> scalar_ok j -> same_kind i j ->
  hash_string gp sha i = hash_string gp sha j -> i = j.
Proof.
  destruct i as [|h|v|v|n|s|b|l], j as [|h'|v'|v'|n'|s'|b'|l']; cbn [scalar_ok same_kind];
    intros Hi Hj K E; try contradiction; cbn [hash_string] in E.
  - f_equal. apply to_hex_q_inj; assumption.
  - f_equal. apply to_hex_p_inj; assumption.
  - f_equal. apply to_hex_q_inj; assumption.
  - f_equal. destruct (Z.eqb_spec n 0) as [->|Hn], (Z.eqb_spec n' 0) as [->|Hn'].
    + reflexivity.
    + symmetry in E. apply null_not_dec in E; [contradiction|lia].
    + apply null_not_dec in E; [contradiction|lia].
    + apply to_string_u64_inj; assumption.
  - destruct s; [tauto|]. destruct s'; [tauto|]. congruence.
Qed.

Lemma scalar_clean i : scalar_ok i -> item_clean i.
Proof. destruct i; cbn; intros H; tauto || lia. Qed.

(** Sequences of scalars of the same shape never share a hashed byte string. *)
Lemma hash_message_scalar_inj l l' :
  Forall scalar_ok l -> Forall scalar_ok l' -> Forall2 same_kind l l' -> l <> [] ->
  hash_message gp sha l = hash_message gp sha l' -> l = l'.
Proof.
  intros H H' K N E.
  assert (N' : l' <> []) by (destruct K; [contradiction|discriminate]).
  apply hash_message_inj in E; try assumption.
  2,3: eapply Forall_impl; [|eassumption]; apply scalar_clean.
  clear N N'. revert H H' E. induction K as [|i j l l' Kij K IH]; intros H H' E; [reflexivity|].
  cbn [map] in E. injection E as E1 E2. inversion H; inversion H'; subst.
  f_equal; [apply hash_string_inj; assumption|apply IH; assumption].
Qed.

(** The final reduction: the digest modulo Q, except for the all-ones digest. *)
Lemma hash_elems_digest l :
  sha (hash_message gp sha l) mod W256 <> W256 - 1 ->
  hash_elems gp sha l = (sha (hash_message gp sha l) mod W256) mod gpQ gp.
Proof.
  intros N. unfold hash_elems, hash_close.
  set (d := sha _ mod W256) in *.
  assert (Hd : 0 <= d < W256) by (apply Z.mod_pos_bound, W256_pos). clearbody d.
  unfold add_mod_q. rewrite bn_add_nocarry by lia. rewrite Z.add_0_r.
  unfold isMax. replace (d =? W256 - 1) with false by lia. reflexivity.
Qed.

(** ** Nonces *)
Inductive nop := NGet (i : Z) | NGetHdr (i : Z) (h : bytes) | NNext | NRange (start count : Z).

Definition nstep (n : nonces) (o : nop) : list Z * nonces :=
  match o with
  | NGet i => let '(v, n') := nonces_get gp sha n i in ([v], n')
  | NGetHdr i h => let '(v, n') := nonces_get_hdr gp sha n i h in ([v], n')
  | NNext => let '(v, n') := nonces_next gp sha n in ([v], n')
  | NRange s c => nonces_range gp sha n s c
  end.
Definition nrun (n : nonces) (l : list nop) : nonces :=
  fold_left (fun n o => snd (nstep n o)) l n.

Lemma nonces_loop_spec k i n :
  fst (nonces_loop gp sha k i n) =
    map (fun j => hash_elems gp sha [HElemQ (nseed n); HU64 (i + Z.of_nat j)]) (seq 0 k)
  /\ nseed (snd (nonces_loop gp sha k i n)) = nseed n.
Proof.
  revert i n. induction k as [|k IH]; intros i n; [cbn; auto|].
  cbn [nonces_loop]. unfold nonces_get.
  destruct (IH (i + 1) {| nseed := nseed n; nnext := (i + 1) mod W64 |}) as [H1 H2].
  destruct (nonces_loop gp sha k (i + 1) _) as [vs n2]. cbn [fst snd nseed] in *.
  split; [|assumption]. cbn [seq map]. f_equal.
  - do 3 f_equal. f_equal. cbn. lia.
  - rewrite H1, <- seq_shift, map_map. apply map_ext. intros j. do 3 f_equal. f_equal. lia.
Qed.

Lemma nstep_seed n o : nseed (snd (nstep n o)) = nseed n.
Proof. destruct o; cbn [nstep]; try reflexivity. unfold nonces_range. apply nonces_loop_spec. Qed.
Lemma nrun_seed l n : nseed (nrun n l) = nseed n.
Proof.
  unfold nrun. revert n. induction l as [|o l IH]; intros n; [reflexivity|].
  cbn [fold_left]. rewrite IH. apply nstep_seed.
Qed.

Lemma nonces_history n l i :
  fst (nonces_get gp sha (nrun n l) i) = fst (nonces_get gp sha n i).
Proof. unfold nonces_get. cbn [fst]. rewrite nrun_seed. reflexivity. Qed.

(** [k] calls of next() on a fresh object. *)
Fixpoint next_seq (k : nat) (n : nonces) : list Z :=
  match k with
  | O => []
  | S k' => let '(v, n') := nonces_next gp sha n in v :: next_seq k' n'
  end.
Lemma next_seq_spec k n : 0 <= nnext n -> nnext n + Z.of_nat k <= W64 ->
  next_seq k n = map (fun j => fst (nonces_get gp sha n (nnext n + Z.of_nat j))) (seq 0 k).
Proof.
  revert n. induction k as [|k IH]; intros n Hn Hk; [reflexivity|].
  cbn [next_seq]. unfold nonces_next. unfold nonces_get at 1.
  cbn [seq map]. f_equal.
  - unfold nonces_get. cbn [fst]. do 3 f_equal. f_equal. cbn. lia.
  - destruct k as [|k]; [reflexivity|].
    rewrite IH; cbn [nnext]; rewrite Z.mod_small by lia; try lia.
    rewrite <- seq_shift, map_map. apply map_ext. intros j. unfold nonces_get. cbn [fst nseed].
    do 3 f_equal. f_equal. lia.
Qed.

Lemma nonces_range_spec n start count :
  0 <= start -> 0 <= count -> start + count < W64 ->
  fst (nonces_range gp sha n start count) =
    map (fun j => fst (nonces_get gp sha n (start + Z.of_nat j))) (seq 0 (Z.to_nat count)).
Proof.
  intros Hs Hc Hb. unfold nonces_range. rewrite Z.mod_small by lia.
  replace (start + count - start) with count by lia.
  rewrite (proj1 (nonces_loop_spec _ _ _)). reflexivity.
Qed.

(** Distinct indices present distinct byte strings to the hash. *)
Lemma nonce_messages_distinct s i j :
  0 <= s < W256 -> 0 <= i < W64 -> 0 <= j < W64 -> i <> j ->
  hash_message gp sha [HElemQ s; HU64 i] <> hash_message gp sha [HElemQ s; HU64 j].
Proof.
  intros Hs Hi Hj N E. apply hash_message_scalar_inj in E.
  - congruence.
  - repeat constructor; cbn; lia.
  - repeat constructor; cbn; lia.
  - repeat constructor.
  - discriminate.
Qed.

End Hash.
