(** Lemmas about FacadeModel.v. *)
From Coq Require Import ZArith List Bool Lia Permutation ZifyBool.
From Verif Require Import Base GroupModel CodecModel BallotModel ContextModel ManifestModel SerializeModel
  CollModel CollSpec CollProofs PropList FacadeModel FacadeSpec.
Import ListNotations.
Local Open Scope Z_scope.

(** ** Texts *)
Lemma strncpy_zeroes n : strncpy n [] = repeat 0 n.
Proof. induction n as [|n IH]; [reflexivity|]. cbn. rewrite IH. reflexivity. Qed.
Lemma strncpy_length n : forall s, length (strncpy n s) = n.
Proof.
  induction n as [|n IH]; intros s; [reflexivity|]. cbn [strncpy].
  destruct s as [|c t]; [|destruct (c =? 0)]; cbn [length]; rewrite IH; reflexivity.
Qed.
Lemma read_copy n : forall s t, visible s t -> (length s < n)%nat -> read_text (strncpy n (c_str s)) = Ok t.
Proof.
  induction n as [|n IH]; intros s t [NZ V] H; [lia|].
  destruct t as [|c t].
  - destruct V as [->|[rest ->]]; reflexivity.
  - destruct s as [|c' s]; [destruct V as [V|[? V]]; discriminate V|].
    assert (c' = c /\ visible s t) as [-> V'].
    { destruct V as [V|[rest V]]; injection V as -> V; (split; [reflexivity|]); (split; [intros X; apply NZ; right; exact X|]).
      - left. exact V.
      - right. exists rest. exact V. }
    cbn [c_str app strncpy]. destruct (Z.eqb_spec c 0) as [->|Hc]; [exfalso; apply NZ; left; reflexivity|].
    cbn [read_text]. destruct (Z.eqb_spec c 0) as [|_]; [contradiction|].
    change (s ++ [0]) with (c_str s). rewrite (IH s t V'); [reflexivity|cbn [length] in H; lia].
Qed.
Lemma strncpy_shape n : forall s t, visible s t -> (length s < n)%nat ->
  strncpy n (c_str s) = t ++ repeat 0 (n - length t)%nat.
Proof.
  induction n as [|n IH]; intros s t [NZ V] H; [lia|].
  destruct t as [|c t].
  - destruct V as [->|[rest ->]]; cbn; rewrite strncpy_zeroes; reflexivity.
  - destruct s as [|c' s]; [destruct V as [V|[? V]]; discriminate V|].
    assert (c' = c /\ visible s t) as [-> V'].
    { destruct V as [V|[rest V]]; injection V as -> V; (split; [reflexivity|]); (split; [intros X; apply NZ; right; exact X|]).
      - left. exact V.
      - right. exists rest. exact V. }
    cbn [c_str app strncpy]. destruct (Z.eqb_spec c 0) as [->|Hc]; [exfalso; apply NZ; left; reflexivity|].
    change (s ++ [0]) with (c_str s). rewrite (IH s t V'); [reflexivity|cbn [length] in H; lia].
Qed.
Lemma visible_exists s : exists t, visible s t.
Proof.
  induction s as [|c s [t [N V]]].
  - exists []. split; [intros []|left; reflexivity].
  - destruct (Z.eqb_spec c 0) as [->|H].
    + exists []. split; [intros []|right; exists s; reflexivity].
    + exists (c :: t). split; [intros [X|X]; [congruence|exact (N X)]|].
      destruct V as [->|[r ->]]; [left; reflexivity|right; exists r; reflexivity].
Qed.
Lemma read_c_str s : forall t, visible s t -> read_text (c_str s) = Ok t.
Proof.
  induction s as [|c s IH]; intros t [NZ V].
  - destruct V as [<-|[rest V]]; [reflexivity|]. destruct t; discriminate V.
  - cbn [c_str app read_text]. change (s ++ [0]) with (c_str s).
    destruct t as [|c' t].
    + destruct V as [V|[rest V]]; [discriminate V|]. injection V as -> _. reflexivity.
    + assert (c = c' /\ visible s t) as [-> V'].
      { destruct V as [V|[rest V]]; injection V as -> V; (split; [reflexivity|]); (split; [intros X; apply NZ; right; exact X|]).
        - left. exact V.
        - right. exists rest. exact V. }
      destruct (Z.eqb_spec c' 0) as [->|_]; [exfalso; apply NZ; left; reflexivity|].
      rewrite (IH t V'). reflexivity.
Qed.
Lemma visible_unique s t t' : visible s t -> visible s t' -> t = t'.
Proof.
  intros V V'. apply read_c_str in V. apply read_c_str in V'. rewrite V in V'. injection V' as ->. reflexivity.
Qed.
Lemma visible_id s : no_zero s -> visible s s.
Proof. intros H. split; [exact H|left; reflexivity]. Qed.
Lemma shown_visible s t : visible s t -> shown s = Some t.
Proof. intros V. unfold shown. rewrite (read_c_str s t V). reflexivity. Qed.

(** ** Maps *)
Lemma bytes_eqb_eq a b : bytes_eqb a b = true <-> a = b.
Proof. unfold bytes_eqb. destruct (list_eq_dec Z.eq_dec a b); split; intros; congruence. Qed.
Lemma bytes_eqb_neq a b : bytes_eqb a b = false <-> a <> b.
Proof. unfold bytes_eqb. destruct (list_eq_dec Z.eq_dec a b); split; intros; congruence. Qed.
Definition set_all (m l : list (bytes * bytes)) : list (bytes * bytes) :=
  fold_left (fun m e => map_set m (fst e) (snd e)) l m.

Lemma map_set_in m k v x y : In (x, y) (map_set m k v) <-> (x = k /\ y = v) \/ (x <> k /\ In (x, y) m).
Proof.
  unfold map_set. destruct (existsb (fun e => bytes_eqb (fst e) k) m) eqn:E.
  - apply existsb_exists in E. destruct E as ([k' v'] & Hin & Hk). apply bytes_eqb_eq in Hk. cbn in Hk. subst k'.
    rewrite in_map_iff. split.
    + intros ([a b] & H & HI). cbn [fst] in H. destruct (bytes_eqb a k) eqn:K.
      * injection H as <- <-. left. split; reflexivity.
      * injection H as -> ->. right. apply bytes_eqb_neq in K. split; assumption.
    + intros [[-> ->]|[N HI]].
      * exists (k, v'). cbn [fst]. replace (bytes_eqb k k) with true by (symmetry; apply bytes_eqb_eq; reflexivity).
        split; [reflexivity|exact Hin].
      * exists (x, y). cbn [fst]. apply bytes_eqb_neq in N. rewrite N. split; [reflexivity|exact HI].
  - rewrite in_app_iff. cbn [In]. split.
    + intros [H|[H|[]]]; [|injection H as <- <-; left; split; reflexivity].
      right. split; [|exact H]. intros ->.
      assert (X : existsb (fun e => bytes_eqb (fst e) k) m = true).
      { apply existsb_exists. exists (k, y). split; [exact H|apply bytes_eqb_eq; reflexivity]. }
      congruence.
    + intros [[-> ->]|[_ H]]; [right; left; reflexivity|left; exact H].
Qed.
Lemma map_set_keys m k v :
  map fst (map_set m k v) = if existsb (fun e => bytes_eqb (fst e) k) m then map fst m else map fst m ++ [k].
Proof.
  unfold map_set. destruct (existsb (fun e => bytes_eqb (fst e) k) m).
  - rewrite map_map. apply map_ext. intros [a b]. cbn [fst]. destruct (bytes_eqb a k) eqn:K; [|reflexivity].
    apply bytes_eqb_eq in K. symmetry. exact K.
  - rewrite map_app. reflexivity.
Qed.
Lemma map_set_nodup m k v : NoDup (map fst m) -> NoDup (map fst (map_set m k v)).
Proof.
  intros N. rewrite map_set_keys. destruct (existsb (fun e => bytes_eqb (fst e) k) m) eqn:E; [exact N|].
  apply NoDup_app_intro; [exact N|constructor; [intros []|constructor]|].
  intros x H [<-|[]]. apply in_map_iff in H. destruct H as ([a b] & <- & HI).
  assert (X : existsb (fun e => bytes_eqb (fst e) a) m = true).
  { apply existsb_exists. exists (a, b). split; [exact HI|apply bytes_eqb_eq; reflexivity]. }
  cbn [fst] in E. congruence.
Qed.
Lemma last_snoc l k v x y : last_of (l ++ [(k, v)]) x y <-> (x = k /\ y = v) \/ (x <> k /\ last_of l x y).
Proof.
  split.
  - intros (a & b & E & H). destruct b as [|e b _] using rev_ind.
    + apply app_inj_tail in E. destruct E as [_ E]. injection E as <- <-. left. split; reflexivity.
    + rewrite app_comm_cons, app_assoc in E. apply app_inj_tail in E. destruct E as [E <-].
      right. split; [intros ->; apply (H v), in_or_app; right; left; reflexivity|].
      exists a, b. split; [exact E|]. intros v' I. apply (H v'), in_or_app. left. exact I.
  - intros [[-> ->]|[N (a & b & -> & H)]].
    + exists l, []. split; [reflexivity|]. intros v' [].
    + exists a, (b ++ [(k, v)]). split; [rewrite <- app_assoc; reflexivity|].
      intros v' I. apply in_app_or in I. destruct I as [I|[I|[]]]; [exact (H v' I)|congruence].
Qed.
Lemma set_all_last l : last_values l (set_all [] l).
Proof.
  induction l as [|[k v] l [N H]] using rev_ind.
  - split; [constructor|]. intros k v. split; [intros []|]. intros (a & b & E & _). destruct a; discriminate E.
  - unfold set_all. rewrite fold_left_app. cbn [fold_left fst snd]. fold (set_all [] l). split; [apply map_set_nodup, N|].
    intros x y. rewrite map_set_in, last_snoc, H. reflexivity.
Qed.
Lemma last_in l k v : last_of l k v -> In (k, v) l.
Proof. intros (a & b & -> & _). apply in_elt. Qed.
Lemma in_last l k v : NoDup (map fst l) -> In (k, v) l -> last_of l k v.
Proof.
  intros N I. apply in_split in I. destruct I as (a & b & ->). exists a, b. split; [reflexivity|].
  intros v' H. rewrite map_app in N. cbn [map fst] in N. apply NoDup_remove_2 in N. apply N, in_or_app. right.
  apply in_map_iff. exists (k, v'). split; [reflexivity|exact H].
Qed.
Lemma last_values_distinct l m : NoDup (map fst l) -> last_values l m -> Permutation l m.
Proof.
  intros N [M H]. apply NoDup_Permutation; [exact (NoDup_map_inv _ _ N)|exact (NoDup_map_inv _ _ M)|].
  intros [k v]. rewrite H. split; [apply in_last, N|apply last_in].
Qed.

(** ** Reading lists *)
Lemma changed_trans w w1 w2 h x y : changed w w1 h x -> changed w1 w2 h y -> changed w w2 h y.
Proof. intros A B z. rewrite B, A. destruct (z =? h)%nat; reflexivity. Qed.

Lemma read_loop_ok B m w N h l : inv B m w N -> w h = Some (map both l) ->
  forall n i acc, (i + n = length l)%nat ->
  read_loop n m (Some h) (Z.of_nat i) acc = Ok (Some (set_all acc (skipn i l))).
Proof.
  intros I W. assert (C : list_get_count m (Some h) = Ok (Z.of_nat (length l))).
  { unfold list_get_count. rewrite (load_live _ _ _ _ _ _ I W). cbn [bind lcount]. rewrite map_length. reflexivity. }
  induction n as [|n IH]; intros i acc E; cbn [read_loop]; rewrite C; cbn [bind].
  - replace (Z.of_nat i <? Z.of_nat (length l)) with false by lia.
    rewrite skipn_all2 by lia. reflexivity.
  - replace (Z.of_nat i <? Z.of_nat (length l)) with true by lia.
    pose proof (element_ok _ _ _ _ _ _ (Z.of_nat i) I W) as G. rewrite map_length, Nat2Z.id, nth_error_map in G.
    replace (Z.of_nat i <? Z.of_nat (length l)) with true in G by lia.
    destruct (nth_error l i) as [[k v]|] eqn:L; [|apply nth_error_None in L; lia].
    cbn [option_map both fst snd] in G. destruct G as (p & q & G1 & _ & G3 & G4).
    rewrite G1. cbn [bind]. rewrite G3, G4. cbn [bind to_string].
    replace (Z.of_nat i + 1) with (Z.of_nat (S i)) by lia. rewrite IH by lia.
    apply nth_error_split in L. destruct L as (a & b & -> & La). subst i.
    replace (skipn (length a) (a ++ (k, v) :: b)) with ((k, v) :: b).
    2: { rewrite skipn_app, skipn_all, Nat.sub_diag. reflexivity. }
    replace (skipn (S (length a)) (a ++ (k, v) :: b)) with b.
    2: { rewrite skipn_app, skipn_all2 by lia. replace (S (length a) - length a)%nat with 1%nat by lia. reflexivity. }
    reflexivity.
Qed.
Lemma read_list_ok B m w N h l : inv B m w N -> w h = Some (map both l) ->
  read_list m (Some h) = Ok (Some (set_all [] l)).
Proof.
  intros I W. unfold read_list, list_get_count. rewrite (load_live _ _ _ _ _ _ I W). cbn [bind lcount].
  rewrite map_length, Nat2Z.id. exact (read_loop_ok _ _ _ _ _ _ I W (length l) 0%nat [] eq_refl).
Qed.

(** ** Writing lists *)
(** The entries of which a copy could be kept. *)
Fixpoint kept (i : nat) (l : list (bytes * bytes)) (oks : nat -> bool * bool * bool) : elements :=
  match l with
  | [] => []
  | (k, v) :: t =>
      let '(a, b, c) := oks i in
      (if a : bool then [(copy (shown k) b, copy (shown v) c)] else []) ++ kept (S i) t oks
  end.
Lemma shown_some s : exists t, visible s t /\ shown s = Some t.
Proof. destruct (visible_exists s) as [t V]. exists t. split; [exact V|apply shown_visible, V]. Qed.
Lemma append_loop_ok oks l : forall B m w N h l0 i, inv B m w N -> w h = Some l0 -> 0 <= B ->
  B + Z.of_nat (length l) <= 2 ^ 64 - 1 ->
  exists m' N' w', append_loop m (Some h) l i oks = Ok m' /\
    changed w w' h (Some (l0 ++ kept i l oks)) /\ inv (B + Z.of_nat (length l)) m' w' N'.
Proof.
  induction l as [|[k v] l IH]; intros B m w N h l0 i I W HB HL; cbn [append_loop kept].
  - exists m, N, w. split; [reflexivity|]. cbn [length]. rewrite app_nil_r, Z.add_0_r. split; [|exact I].
    intros y. destruct (Nat.eqb_spec y h) as [->|_]; [exact W|reflexivity].
  - destruct (oks i) as [[a b] c]. cbn [length] in HL.
    destruct (shown_some k) as (k' & _ & ->). destruct (shown_some v) as (v' & _ & ->).
    destruct a.
    + destruct (append_ok B m w N h l0 k' v' b c I W) as (m1 & N1 & w1 & E & C1 & I1); [lia|].
      rewrite E. cbn [bind].
      assert (W1 : w1 h = Some (l0 ++ [(copy (Some k') b, copy (Some v') c)])).
      { rewrite C1, Nat.eqb_refl. reflexivity. }
      destruct (IH (B + 1) m1 w1 N1 h _ (S i) I1 W1) as (m' & N' & w' & E' & C' & I'); [lia|lia|].
      exists m', N', w'. split; [exact E'|]. split.
      * rewrite app_assoc. exact (changed_trans _ _ _ _ _ _ C1 C').
      * replace (B + Z.of_nat (length ((k, v) :: l))) with (B + 1 + Z.of_nat (length l)) by (cbn [length]; lia). exact I'.
    + cbn [list_append bind].
      assert (I1 : inv (B + 1) m w N) by (apply (inv_same B (B + 1) m w w N); [lia|intros y; reflexivity|exact I]).
      destruct (IH (B + 1) m w N h _ (S i) I1 W) as (m' & N' & w' & E' & C' & I'); [lia|lia|].
      exists m', N', w'. split; [exact E'|]. split; [exact C'|].
      replace (B + Z.of_nat (length ((k, v) :: l))) with (B + 1 + Z.of_nat (length l)) by (cbn [length]; lia). exact I'.
Qed.
Lemma get_extended_ok B m w N l oks : inv B m w N -> 0 <= B -> B + Z.of_nat (length l) <= 2 ^ 64 - 1 ->
  exists m' h N' w', c_get_extended m l true oks = Ok (m', Success, Some h) /\ w h = None /\
    changed w w' h (Some (kept 0 l oks)) /\ inv (B + Z.of_nat (length l)) m' w' N'.
Proof.
  intros I HB HL. destruct (new_ok _ _ _ _ I HB) as (m1 & N1 & w1 & h & E & Wh & C & I1).
  assert (W1 : w1 h = Some []) by (rewrite C, Nat.eqb_refl; reflexivity).
  destruct (append_loop_ok oks l B m1 w1 N1 h [] 0%nat I1 W1 HB HL) as (m' & N' & w' & E' & C' & I').
  exists m', h, N', w'. unfold c_get_extended. rewrite E, E'. cbn [bind].
  split; [reflexivity|]. split; [exact Wh|]. split; [exact (changed_trans _ _ _ _ _ _ C C')|exact I'].
Qed.
Lemma kept_all l : forall i, exists l', kept i l (fun _ => (true, true, true)) = map both l' /\
  Forall2 (fun e e' => visible (fst e) (fst e') /\ visible (snd e) (snd e')) l l'.
Proof.
  induction l as [|[k v] l IH]; intros i; cbn [kept].
  - exists []. split; [reflexivity|constructor].
  - destruct (IH (S i)) as (l' & E & F). destruct (shown_some k) as (k' & Vk & ->). destruct (shown_some v) as (v' & Vv & ->).
    exists ((k', v') :: l'). cbn [copy app map both fst snd]. rewrite E. split; [reflexivity|].
    constructor; [split; assumption|exact F].
Qed.
Lemma continues_inv B m w N room : inv B m w N -> 0 <= B -> B + room <= 2 ^ 64 - 1 -> continues m w room.
Proof.
  intros I HB HR later HL. pose proof (history_from later B m w N I HB ltac:(lia)) as H.
  destruct (do_calls m later) as [[m' ans]|e|]; [|exact H|exact H].
  destruct H as (w' & N' & H & _). exists w'. exact H.
Qed.
