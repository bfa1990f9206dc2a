(** The model's hash function follows the format of HashSpec.v. *)
From Coq Require Import String.
From Verif Require Import Base GroupModel GroupSpec GroupProofs CodecModel CodecProofs HashModel HashProofs HashSpec.
Open Scope list_scope.
Open Scope Z_scope.
Ltac Zify.zify_post_hook ::= idtac.

(** ** Digits *)
Lemma hexchar_eq d : 0 <= d < 16 -> sp_hexchar d = hex_digit d.
Proof.
  intros Hd. assert (forallb (fun d => sp_hexchar d =? hex_digit d) (map Z.of_nat (seq 0 16)) = true) as A by (vm_compute; reflexivity).
  rewrite forallb_forall in A. apply Z.eqb_eq, A. replace d with (Z.of_nat (Z.to_nat d)) by lia.
  apply in_map, in_seq. lia.
Qed.
Lemma octet_eq b : is_byte b -> sp_octet b = hex_byte b.
Proof. intros H. destruct (is_byte_digits b H). unfold sp_octet, hex_byte. now rewrite !hexchar_eq. Qed.

Lemma strip0_app_ne l x : strip0 l <> [] -> strip0 (l ++ [x]) = strip0 l ++ [x].
Proof.
  induction l as [|y l IH]; [contradiction|]. cbn [strip0 app]. destruct (y =? 0); [exact IH|reflexivity].
Qed.
Lemma strip0_app_e l x : strip0 l = [] -> strip0 (l ++ [x]) = strip0 [x].
Proof.
  induction l as [|y l IH]; [reflexivity|]. cbn [strip0 app]. destruct (y =? 0); [exact IH|discriminate].
Qed.
Lemma strip0_pos n v : 0 < v < 256 ^ Z.of_nat n -> strip0 (be_bytes n v) <> [].
Proof. intros H E. apply strip0_nil in E. rewrite be_val_bytes in E; lia. Qed.
Lemma be_bytes_0 n : strip0 (be_bytes n 0) = [].
Proof.
  induction n as [|n IH]; [reflexivity|]. cbn [be_bytes]. change (0 / 256) with 0.
  rewrite strip0_app_e by exact IH. reflexivity.
Qed.
Lemma digits_strip n : forall v, 0 < v < 256 ^ Z.of_nat n -> sp_digits 256 n v = strip0 (be_bytes n v).
Proof.
  induction n as [|n IH]; intros v Hv; [cbn in Hv; lia|]. cbn [sp_digits be_bytes].
  rewrite Nat2Z.inj_succ, Z.pow_succ_r in Hv by lia.
  pose proof (Z.div_mod v 256 ltac:(lia)) as D. pose proof (Z.mod_pos_bound v 256 ltac:(lia)) as B.
  destruct (Z.ltb_spec v 256) as [L|L].
  - rewrite (Z.div_small v 256), (Z.mod_small v 256) by lia. rewrite strip0_app_e by apply be_bytes_0.
    cbn [strip0]. destruct (Z.eqb_spec v 0); [lia|reflexivity].
  - assert (R : 0 < v / 256 < 256 ^ Z.of_nat n).
    { split; [apply Z.div_str_pos; lia|]. apply Z.div_lt_upper_bound; lia. }
    rewrite IH by exact R. rewrite strip0_app_ne; [reflexivity|]. now apply strip0_pos.
Qed.
Lemma sp_hex_eq n v : (0 < n)%nat -> 0 <= v < 256 ^ Z.of_nat n -> sp_hex n v = bytes_to_hex (be_bytes n v).
Proof.
  intros Hn Hv. rewrite bytes_to_hex_strip. unfold sp_hex.
  destruct (Z.eq_dec v 0) as [->|N].
  - rewrite be_bytes_0. destruct n; [lia|]. vm_compute. reflexivity.
  - rewrite digits_strip by lia. destruct (strip0 (be_bytes n v)) as [|b t] eqn:E.
    { exfalso. eapply strip0_pos; [|exact E]. lia. }
    assert (B : is_bytes (b :: t)) by (rewrite <- E; apply strip0_bytes, be_bytes_is_bytes).
    clear - B. induction B as [|x l Hx _ IH]; [reflexivity|]. cbn [flat_map]. now rewrite octet_eq, IH.
Qed.
Lemma sp_hex_bytes b : b <> [] -> is_bytes b -> sp_hex (length b) (be_val b) = bytes_to_hex b.
Proof.
  intros N B. rewrite sp_hex_eq; [|destruct b; [contradiction|cbn; lia]|now apply be_val_range].
  now rewrite be_bytes_val.
Qed.

Lemma decchar_eq d : 0 <= d < 10 -> nth (Z.to_nat d) (s2b "0123456789") 0 = 48 + d.
Proof.
  intros Hd. assert (forallb (fun d => nth (Z.to_nat d) (s2b "0123456789") 0 =? 48 + d) (map Z.of_nat (seq 0 10)) = true) as A by (vm_compute; reflexivity).
  rewrite forallb_forall in A. apply Z.eqb_eq, A. replace d with (Z.of_nat (Z.to_nat d)) by lia.
  apply in_map, in_seq. lia.
Qed.
Lemma dec_loop_eq fuel : forall n acc, 0 <= n < 10 ^ Z.of_nat fuel ->
  dec_loop fuel n acc = match fuel with O => acc | _ => map (fun d => nth (Z.to_nat d) (s2b "0123456789") 0) (sp_digits 10 fuel n) ++ acc end.
Proof.
  induction fuel as [|f IH]; intros n acc Hn; [reflexivity|]. cbn [dec_loop sp_digits].
  rewrite Nat2Z.inj_succ, Z.pow_succ_r in Hn by lia.
  pose proof (Z.div_mod n 10 ltac:(lia)) as D. pose proof (Z.mod_pos_bound n 10 ltac:(lia)) as B.
  destruct (Z.ltb_spec n 10) as [L|L].
  - rewrite (Z.div_small n 10), (Z.mod_small n 10) by lia. cbn [Z.eqb map app]. now rewrite decchar_eq by lia.
  - assert (R : 0 < n / 10 < 10 ^ Z.of_nat f).
    { split; [apply Z.div_str_pos; lia|]. apply Z.div_lt_upper_bound; lia. }
    destruct (Z.eqb_spec (n / 10) 0); [lia|]. rewrite IH by lia.
    destruct f; [cbn in R; lia|]. rewrite map_app, <- app_assoc. cbn [map app]. now rewrite decchar_eq by lia.
Qed.
Lemma sp_decimal_eq n : 0 <= n < 2 ^ 64 -> sp_decimal n = to_string_u64 n.
Proof.
  intros Hn. unfold to_string_u64, sp_decimal. rewrite dec_loop_eq, app_nil_r; [reflexivity|].
  split; [lia|]. apply Z.lt_trans with (2 ^ 64); [lia|reflexivity].
Qed.

Lemma W256_eq : W256 = 2 ^ 256. Proof. reflexivity. Qed.
Lemma W4096_eq : W4096 = 2 ^ 4096. Proof. reflexivity. Qed.
Lemma pow_32 : 256 ^ Z.of_nat 32 = 2 ^ 256. Proof. vm_compute. reflexivity. Qed.
Lemma pow_512 : 256 ^ Z.of_nat 512 = 2 ^ 4096. Proof. vm_compute. reflexivity. Qed.
Section Hex.
Local Transparent to_hex_q to_hex_p to_bytes_q to_bytes_p.
Lemma sp_hex_q v : 0 <= v < 2 ^ 256 -> sp_hex 32 v = to_hex_q v.
Proof. intros H. rewrite <- pow_32 in H. unfold to_hex_q, to_bytes_q. apply sp_hex_eq; [lia|exact H]. Qed.
Lemma sp_hex_p v : 0 <= v < 2 ^ 4096 -> sp_hex 512 v = to_hex_p v.
Proof. intros H. rewrite <- pow_512 in H. unfold to_hex_p, to_bytes_p. apply sp_hex_eq; [lia|exact H]. Qed.
End Hex.

(** ** Items *)
Fixpoint fld (i : hitem) : field :=
  match i with
  | HNull => Absent
  | HHash h => ModQ h
  | HElemP v => ModP v
  | HElemQ v => ModQ v
  | HU64 n => Number n
  | HStr s => Text s
  | HBytes b => Octets b
  | HVec l => Seq (map fld l)
  end.
Fixpoint item_ok (i : hitem) : Prop :=
  match i with
  | HNull | HStr _ => True
  | HHash v | HElemQ v => 0 <= v < 2 ^ 256
  | HElemP v => 0 <= v < 2 ^ 4096
  | HU64 n => 0 <= n < 2 ^ 64
  | HBytes b => b <> [] /\ is_bytes b
  | HVec l => fold_right (fun x P => item_ok x /\ P) True l
  end.
Definition items_ok (l : list hitem) : Prop := fold_right (fun x P => item_ok x /\ P) True l.
Lemma items_ok_Forall l : items_ok l <-> Forall item_ok l.
Proof.
  induction l as [|x l IH]; cbn; [split; auto|]. split.
  - intros [A B]. constructor; [trivial|now apply IH].
  - intros F. inversion_clear F. split; [trivial|now apply IH].
Qed.

Section Eq.
Context (gp : params) (VP : valid_params gp) (sha : bytes -> Z).

Lemma hash_close_reduce x : hash_close gp sha x = sp_reduce (gpQ gp) (sha x mod 2 ^ 256).
Proof.
  unfold hash_close, sp_reduce. change W256 with (2 ^ 256).
  pose proof (Z.mod_pos_bound (sha x) (2 ^ 256) ltac:(reflexivity)) as B.
  set (d := sha x mod 2 ^ 256) in *. clearbody d. change (2 ^ 256) with W256 in *.
  pose proof (vp_Qlo _ VP). pose proof (vp_Qhi _ VP). pose proof (vp_Qoff _ VP) as QO.
  unfold add_mod_q. rewrite bn_add_nocarry by lia. rewrite Z.add_0_r. unfold isMax.
  destruct (Z.eqb_spec d (W256 - 1)) as [E|E]; cbn [orb andb Z.ltb Z.compare]; [|reflexivity].
  subst d. replace (gpQ gp <? 0) with false by (symmetry; apply Z.ltb_ge; lia). rewrite orb_false_r.
  destruct (Z.ltb_spec (gpQ gp) (W256 - 1)) as [L|L].
  - unfold bn_add. cbn [fst]. rewrite QO. f_equal. generalize dependent (gpQ gp). intros q Hq1 Hq2 _ Hq.
    pose proof W256_pos. rewrite Z.add_0_l, (Z.mod_small (W256 - q) W256) by lia.
    rewrite (Z.mod_small (W256 - q + 1) W256) by lia.
    symmetry. apply Z.mod_unique with 1; lia.
  - assert (gpQ gp = W256 - 1) as Eq by lia. unfold bn_add. cbn [fst]. rewrite QO, Eq.
    pose proof W256_pos. replace (W256 - 1 + (W256 - (W256 - 1))) with W256 by lia.
    rewrite !Z.mod_same by lia. apply Z.mod_0_l. lia.
Qed.
Lemma hash_close_range x : 0 <= hash_close gp sha x < 2 ^ 256.
Proof.
  rewrite hash_close_reduce. pose proof (vp_Qlo _ VP). pose proof (vp_Qhi _ VP) as B. unfold sp_reduce.
  change (2 ^ 256) with W256 in *.
  destruct (_ && _); (split; [apply Z.mod_pos_bound; lia|]); (apply Z.lt_trans with (gpQ gp); [apply Z.mod_pos_bound|]; lia).
Qed.
Lemma text_fld : forall i, item_ok i -> sp_text (gpQ gp) sha (fld i) = hash_string gp sha i.
Proof.
  fix IH 1. intros [|h|v|v|n|s|b|l] OK; cbn [fld sp_text hash_string item_ok] in *.
  - reflexivity.
  - now apply sp_hex_q.
  - now apply sp_hex_p.
  - now apply sp_hex_q.
  - destruct (n =? 0); [reflexivity|now apply sp_decimal_eq].
  - destruct s; [reflexivity|]. now destruct (list_eq_dec _ _ _).
  - now apply sp_hex_bytes.
  - assert (A : flat_map (fun t => t ++ bar) (map (sp_text (gpQ gp) sha) (map fld l)) =
                flat_map (fun x => hash_string gp sha x ++ [delim]) l).
    { induction l as [|x l IHl]; [reflexivity|]. destruct OK as [O1 O2]. cbn [map flat_map].
      rewrite IHl by exact O2. rewrite IH by exact O1. reflexivity. }
    destruct l as [|x l]; [reflexivity|].
    change (map fld (x :: l)) with (fld x :: map fld l) at 1. cbn iota.
    unfold sp_close, sp_join. rewrite A. change (bar ++ ?y) with (delim :: y).
    rewrite <- hash_close_reduce. apply sp_hex_q, hash_close_range.
Qed.
Theorem hash_format l : l <> [] -> items_ok l -> hash_elems gp sha l = H (gpQ gp) sha (map fld l).
Proof.
  intros N OK. apply items_ok_Forall in OK. unfold hash_elems, hash_message, H, sp_close, sp_join. rewrite hash_close_reduce.
  replace (match l with [] => [HNull] | _ => l end) with l by (now destruct l).
  do 3 f_equal. change (bar ++ ?y) with (delim :: y). f_equal. clear N.
  induction OK as [|x l Hx _ IH]; [reflexivity|]. cbn [map flat_map].
  rewrite IH, text_fld by exact Hx. reflexivity.
Qed.
Theorem hash_format_nil : hash_elems gp sha [] = H (gpQ gp) sha [Absent].
Proof. change (hash_elems gp sha []) with (hash_elems gp sha [HNull]). apply hash_format; [discriminate|now cbn]. Qed.
End Eq.
