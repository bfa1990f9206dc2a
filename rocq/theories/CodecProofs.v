(** Byte and hex codecs: round trips, injectivity, character set. *)
From Coq Require Import Psatz ZifyBool ZifyNat.
From Verif Require Import Base GroupModel GroupSpec GroupProofs CodecModel.
Open Scope Z_scope.
Ltac Zify.zify_post_hook ::= Z.div_mod_to_equations.

Lemma be_bytes_length n v : length (be_bytes n v) = n.
Proof.
  revert v; induction n as [|n IH]; intros v; cbn [be_bytes]; [reflexivity|].
  rewrite app_length, IH. cbn [length]. lia.
Qed.
Lemma be_bytes_is_bytes n v : is_bytes (be_bytes n v).
Proof.
  revert v; induction n as [|n IH]; intros v; cbn [be_bytes]; [constructor|].
  apply Forall_app. split; [apply IH|]. constructor; [|constructor].
  unfold is_byte. lia.
Qed.

Lemma be_val_app l x : be_val (l ++ [x]) = be_val l * 256 + x.
Proof. unfold be_val. rewrite fold_left_app. reflexivity. Qed.

Lemma be_val_acc l acc :
  fold_left (fun acc b => acc * 256 + b) l acc = acc * 256 ^ Z.of_nat (length l) + be_val l.
Proof.
  unfold be_val. revert acc. induction l as [|x l IH]; intros acc.
  - cbn. lia.
  - cbn [fold_left length]. rewrite IH, (IH (0 * 256 + x)).
    rewrite Nat2Z.inj_succ, Z.pow_succ_r by lia. ring.
Qed.
Lemma be_val_cons x l : be_val (x :: l) = x * 256 ^ Z.of_nat (length l) + be_val l.
Proof. unfold be_val at 1. cbn [fold_left]. rewrite be_val_acc. ring. Qed.

Lemma be_val_range l : is_bytes l -> 0 <= be_val l < 256 ^ Z.of_nat (length l).
Proof.
  intros H. induction H as [|x l Hx Hl IH]; [cbn; lia|].
  rewrite be_val_cons. cbn [length]. rewrite Nat2Z.inj_succ, Z.pow_succ_r by lia.
  unfold is_byte in Hx. nia.
Qed.

Lemma be_val_bytes n v : 0 <= v < 256 ^ Z.of_nat n -> be_val (be_bytes n v) = v.
Proof.
  revert v; induction n as [|n IH]; intros v Hv; cbn [be_bytes].
  - cbn in *. lia.
  - rewrite be_val_app, IH.
    + lia.
    + rewrite Nat2Z.inj_succ, Z.pow_succ_r in Hv by lia. lia.
Qed.

Lemma be_bytes_val l : is_bytes l -> be_bytes (length l) (be_val l) = l.
Proof.
  intros H. induction l as [|x l IH] using rev_ind; [reflexivity|].
  apply Forall_app in H. destruct H as [Hl Hx]. inversion Hx as [|? ? Hb _]; subst.
  rewrite app_length. cbn [length]. rewrite Nat.add_1_r. cbn [be_bytes].
  rewrite be_val_app. unfold is_byte in Hb.
  replace ((be_val l * 256 + x) / 256) with (be_val l) by lia.
  replace ((be_val l * 256 + x) mod 256) with x by lia.
  rewrite IH by assumption. reflexivity.
Qed.

(** ** Hex digits *)
Definition is_hexchar (c : Z) : Prop := 48 <= c <= 57 \/ 65 <= c <= 70.

Lemma hex_digit_char d : 0 <= d < 16 -> is_hexchar (hex_digit d).
Proof. unfold hex_digit, is_hexchar. intros H. destruct (Z.ltb_spec d 10); lia. Qed.

Lemma hex_val_digit d : 0 <= d < 16 -> hex_val (hex_digit d) = Some d.
Proof.
  intros H. unfold hex_val, hex_digit.
  destruct (Z.ltb_spec d 10).
  - replace ((48 <=? 48 + d) && (48 + d <=? 57)) with true by lia. f_equal. lia.
  - replace ((48 <=? 55 + d) && (55 + d <=? 57)) with false by lia.
    replace ((65 <=? 55 + d) && (55 + d <=? 70)) with true by lia. f_equal. lia.
Qed.
Lemma hex_digit_leading d : 0 <= d < 16 -> is_leading (hex_digit d) = (d =? 0).
Proof.
  intros H. unfold is_leading, hex_digit. cbn [existsb].
  destruct (Z.ltb_spec d 10); lia.
Qed.
Lemma is_byte_digits b : is_byte b -> 0 <= b / 16 < 16 /\ 0 <= b mod 16 < 16.
Proof. unfold is_byte. lia. Qed.

Lemma hex_to_bytes_hex l : is_bytes l -> hex_to_bytes (flat_map hex_byte l) = Ok l.
Proof.
  intros H. induction H as [|b l Hb Hl IH]; [reflexivity|].
  cbn [flat_map hex_byte app hex_to_bytes].
  destruct (is_byte_digits b Hb) as [H1 H2].
  unfold stoi2. rewrite !hex_val_digit by assumption. cbn [bind].
  rewrite IH. cbn [bind]. do 2 f_equal. lia.
Qed.

Lemma flat_map_hex_even l : Nat.odd (length (flat_map hex_byte l)) = false.
Proof. induction l as [|b l IH]; [reflexivity|]. cbn [flat_map hex_byte app length]. exact IH. Qed.

Lemma bytes_to_hex_seen l : bytes_to_hex_loop true l = (true, flat_map hex_byte l).
Proof. induction l as [|b l IH]; [reflexivity|]. cbn [bytes_to_hex_loop orb]. rewrite IH. reflexivity. Qed.

(** Leading zero bytes are dropped; what remains starts with a non-zero byte. *)
Fixpoint strip0 (l : bytes) : bytes :=
  match l with
  | [] => []
  | b :: t => if b =? 0 then strip0 t else l
  end.

Lemma bytes_to_hex_strip l :
  bytes_to_hex l = match strip0 l with [] => [48; 48] | t => flat_map hex_byte t end.
Proof.
  unfold bytes_to_hex. induction l as [|b l IH]; [reflexivity|].
  cbn [bytes_to_hex_loop strip0]. destruct (Z.eqb_spec b 0) as [->|Hb]; cbn [orb negb].
  - destruct (bytes_to_hex_loop false l) as [fl s]. exact IH.
  - rewrite bytes_to_hex_seen. reflexivity.
Qed.

Lemma strip0_val l : be_val (strip0 l) = be_val l.
Proof.
  induction l as [|b l IH]; [reflexivity|]. cbn [strip0].
  destruct (Z.eqb_spec b 0) as [->|]; [|reflexivity].
  rewrite IH, be_val_cons. lia.
Qed.
Lemma strip0_bytes l : is_bytes l -> is_bytes (strip0 l).
Proof.
  intros H. induction H as [|b l Hb Hl IH]; [constructor|]. cbn [strip0].
  destruct (b =? 0); [assumption|constructor; assumption].
Qed.
Lemma strip0_length l : (length (strip0 l) <= length l)%nat.
Proof. induction l as [|b l IH]; [cbn; lia|]. cbn [strip0]. destruct (b =? 0); cbn [length] in *; lia. Qed.
Lemma strip0_nil l : strip0 l = [] -> be_val l = 0.
Proof. intros H. rewrite <- strip0_val, H. reflexivity. Qed.
Lemma strip0_head l b t : strip0 l = b :: t -> b <> 0.
Proof.
  induction l as [|x l IH]; [discriminate|]. cbn [strip0].
  destruct (Z.eqb_spec x 0); [assumption|]. intros E. congruence.
Qed.

Lemma sanitize_hex b t : is_bytes (b :: t) -> b <> 0 ->
  sanitize_hex_string (flat_map hex_byte (b :: t)) = Ok (flat_map hex_byte (b :: t)).
Proof.
  intros H Hb. inversion H as [|? ? Hbb _]; subst.
  destruct (is_byte_digits b Hbb) as [H1 H2].
  unfold sanitize_hex_string. cbn [flat_map hex_byte app drop_leading].
  rewrite !hex_digit_leading by assumption.
  destruct (Z.eqb_spec (b / 16) 0) as [E|E].
  - destruct (Z.eqb_spec (b mod 16) 0) as [E'|E']; [lia|].
    replace (Nat.odd (length (hex_digit (b mod 16) :: flat_map hex_byte t))) with true.
    + rewrite E. reflexivity.
    + cbn [length]. rewrite Nat.odd_succ, <- Nat.negb_odd, flat_map_hex_even. reflexivity.
  - replace (Nat.odd (length (hex_digit (b / 16) :: hex_digit (b mod 16) :: flat_map hex_byte t)))
      with false; [reflexivity|].
    symmetry. apply (flat_map_hex_even (b :: t)).
Qed.

Lemma hex_decode l : is_bytes l -> be_val l <> 0 ->
  (do t <- sanitize_hex_string (bytes_to_hex l); hex_to_bytes t) = Ok (strip0 l).
Proof.
  intros H Hv. rewrite bytes_to_hex_strip.
  destruct (strip0 l) as [|b t] eqn:E.
  - apply strip0_nil in E. contradiction.
  - pose proof (strip0_head _ _ _ E) as Hb. pose proof (strip0_bytes l H) as HB. rewrite E in HB.
    rewrite sanitize_hex by assumption. cbn [bind]. apply hex_to_bytes_hex. assumption.
Qed.

Lemma bind_assoc {A B C} (x : outcome A) (f : A -> outcome B) (g : B -> outcome C) :
  bind (bind x f) g = bind x (fun a => bind (f a) g).
Proof. destruct x; reflexivity. Qed.

Lemma pow256 n : 256 ^ Z.of_nat n = 2 ^ (8 * Z.of_nat n).
Proof. rewrite Z.pow_mul_r by lia. reflexivity. Qed.
Lemma W4096_bytes : W4096 = 256 ^ Z.of_nat 512. Proof. rewrite pow256. reflexivity. Qed.
Lemma W256_bytes : W256 = 256 ^ Z.of_nat 32. Proof. rewrite pow256. reflexivity. Qed.

Section Elements.
Context (gp : params).

Lemma to_bytes_p_val v : 0 <= v < W4096 -> be_val (to_bytes_p v) = v.
Proof. intros H. apply be_val_bytes. rewrite <- W4096_bytes. assumption. Qed.
Lemma to_bytes_q_val v : 0 <= v < W256 -> be_val (to_bytes_q v) = v.
Proof. intros H. apply be_val_bytes. rewrite <- W256_bytes. assumption. Qed.

Lemma to_hex_p_eq v : to_hex_p v = bytes_to_hex (to_bytes_p v).
Proof. reflexivity. Qed.
Lemma to_hex_q_eq v : to_hex_q v = bytes_to_hex (to_bytes_q v).
Proof. reflexivity. Qed.
Lemma to_bytes_p_length v : length (to_bytes_p v) = 512%nat. Proof. unfold to_bytes_p. apply be_bytes_length. Qed.
Lemma to_bytes_q_length v : length (to_bytes_q v) = 32%nat. Proof. unfold to_bytes_q. apply be_bytes_length. Qed.
Lemma to_bytes_p_bytes v : is_bytes (to_bytes_p v). Proof. unfold to_bytes_p. apply be_bytes_is_bytes. Qed.
Lemma to_bytes_q_bytes v : is_bytes (to_bytes_q v). Proof. unfold to_bytes_q. apply be_bytes_is_bytes. Qed.
Lemma bytes_to_p_to_bytes v u : 0 <= v < W4096 ->
  bytes_to_p gp (to_bytes_p v) u = make_p gp 64 v u.
Proof.
  intros H. unfold bytes_to_p. unfold to_bytes_p at 1 2. rewrite be_bytes_length.
  cbn [Nat.ltb Nat.leb Nat.eqb]. rewrite to_bytes_p_val by assumption. reflexivity.
Qed.
Lemma bytes_to_q_to_bytes v u : 0 <= v < W256 ->
  bytes_to_q gp (to_bytes_q v) u = make_q gp 4 v u.
Proof.
  intros H. unfold bytes_to_q. unfold to_bytes_q at 1 2. rewrite be_bytes_length.
  cbn [Nat.ltb Nat.leb Nat.eqb]. rewrite to_bytes_q_val by assumption. reflexivity.
Qed.

Lemma from_to_hex_p v u : 0 < v < W4096 -> from_hex_p gp (to_hex_p v) u = make_p gp 64 v u.
Proof.
  intros H. unfold from_hex_p. rewrite <- bind_assoc. unfold to_hex_p.
  rewrite hex_decode; [|apply to_bytes_p_bytes|rewrite to_bytes_p_val; lia].
  cbn [bind]. unfold bytes_to_p.
  pose proof (strip0_length (to_bytes_p v)) as Hl. unfold to_bytes_p in Hl at 2.
  rewrite be_bytes_length in Hl.
  replace (512 <? length (strip0 (to_bytes_p v)))%nat with false by lia.
  destruct (strip0 (to_bytes_p v)) as [|b t] eqn:E.
  { apply strip0_nil in E. rewrite to_bytes_p_val in E by lia. lia. }
  cbn [length Nat.eqb]. rewrite <- E, strip0_val, to_bytes_p_val by lia. reflexivity.
Qed.
Lemma from_to_hex_q v u : 0 < v < W256 -> from_hex_q gp (to_hex_q v) u = make_q gp 4 v u.
Proof.
  intros H. unfold from_hex_q. rewrite <- bind_assoc. unfold to_hex_q.
  rewrite hex_decode; [|apply to_bytes_q_bytes|rewrite to_bytes_q_val; lia].
  cbn [bind]. unfold bytes_to_q.
  pose proof (strip0_length (to_bytes_q v)) as Hl. unfold to_bytes_q in Hl at 2.
  rewrite be_bytes_length in Hl.
  replace (32 <? length (strip0 (to_bytes_q v)))%nat with false by lia.
  destruct (strip0 (to_bytes_q v)) as [|b t] eqn:E.
  { apply strip0_nil in E. rewrite to_bytes_q_val in E by lia. lia. }
  cbn [length Nat.eqb]. rewrite <- E, strip0_val, to_bytes_q_val by lia. reflexivity.
Qed.

(** ** Injectivity *)
Lemma bytes_to_hex_inj l l' : is_bytes l -> is_bytes l' ->
  bytes_to_hex l = bytes_to_hex l' -> be_val l = be_val l'.
Proof.
  intros H H' E.
  destruct (Z.eq_dec (be_val l) 0) as [N|N]; destruct (Z.eq_dec (be_val l') 0) as [N'|N'].
  - congruence.
  - exfalso. pose proof (hex_decode l' H' N') as D. rewrite <- E in D.
    rewrite bytes_to_hex_strip in D. destruct (strip0 l) as [|b t] eqn:S.
    + discriminate D.
    + pose proof (strip0_head _ _ _ S). pose proof (strip0_bytes l H) as B. rewrite S in B.
      pose proof (strip0_val l) as V. rewrite S, N, be_val_cons in V.
      inversion B as [|? ? Hb Ht]; subst. pose proof (be_val_range t Ht).
      unfold is_byte in Hb. assert (0 < 256 ^ Z.of_nat (length t)) by (apply Z.pow_pos_nonneg; lia). nia.
  - exfalso. pose proof (hex_decode l H N) as D. rewrite E in D.
    rewrite bytes_to_hex_strip in D. destruct (strip0 l') as [|b t] eqn:S.
    + discriminate D.
    + pose proof (strip0_head _ _ _ S). pose proof (strip0_bytes l' H') as B. rewrite S in B.
      pose proof (strip0_val l') as V. rewrite S, N', be_val_cons in V.
      inversion B as [|? ? Hb Ht]; subst. pose proof (be_val_range t Ht).
      unfold is_byte in Hb. assert (0 < 256 ^ Z.of_nat (length t)) by (apply Z.pow_pos_nonneg; lia). nia.
  - pose proof (hex_decode l H N) as D. rewrite E, hex_decode in D by assumption.
    injection D as D. rewrite <- strip0_val, <- D, strip0_val. reflexivity.
Qed.

Lemma to_hex_p_inj a b : 0 <= a < W4096 -> 0 <= b < W4096 -> to_hex_p a = to_hex_p b -> a = b.
Proof.
  intros Ha Hb E. rewrite !to_hex_p_eq in E.
  apply bytes_to_hex_inj in E; [|apply to_bytes_p_bytes..].
  rewrite !to_bytes_p_val in E by assumption. assumption.
Qed.
Lemma to_hex_q_inj a b : 0 <= a < W256 -> 0 <= b < W256 -> to_hex_q a = to_hex_q b -> a = b.
Proof.
  intros Ha Hb E. rewrite !to_hex_q_eq in E.
  apply bytes_to_hex_inj in E; [|apply to_bytes_q_bytes..].
  rewrite !to_bytes_q_val in E by assumption. assumption.
Qed.

(** Every character of a hex string is an upper case hex digit. *)
Lemma flat_map_hexchars t : is_bytes t -> Forall is_hexchar (flat_map hex_byte t).
Proof.
  intros H. induction H as [|x l Hx Hl IH]; cbn [flat_map hex_byte app]; [constructor|].
  destruct (is_byte_digits x Hx). 
  constructor; [apply hex_digit_char; assumption|].
  constructor; [apply hex_digit_char; assumption|assumption].
Qed.
Lemma bytes_to_hex_chars l : is_bytes l -> Forall is_hexchar (bytes_to_hex l).
Proof.
  intros H. rewrite bytes_to_hex_strip. pose proof (strip0_bytes l H) as B.
  destruct (strip0 l) as [|b t].
  - repeat constructor; unfold is_hexchar; lia.
  - apply flat_map_hexchars. assumption.
Qed.
Lemma bytes_to_hex_nonempty l : bytes_to_hex l <> [].
Proof. rewrite bytes_to_hex_strip. destruct (strip0 l); discriminate. Qed.

End Elements.
