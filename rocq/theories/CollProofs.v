(** Invariant of the linked lists: every live list is a doubly linked chain in its
    own part of the memory, and nothing else is allocated. *)
From Verif Require Import Base CollModel CollSpec.
From Coq Require Import ZifyBool Lia.
Open Scope Z_scope.

Definition entry := (nat * ptr * ptr)%type.
Definition optl (p : ptr) : list nat := match p with None => [] | Some a => [a] end.
Definition foot1 (e : entry) : list nat := let '(a, k, v) := e in a :: optl k ++ optl v.
Definition foot (h : nat) (ns : list entry) : list nat := h :: flat_map foot1 ns.
Definition addr (e : entry) : nat := fst (fst e).
Definition firstp (ns : list entry) (q : ptr) : ptr :=
  match ns with [] => q | e :: _ => Some (addr e) end.
Definition lastp (p : ptr) (ns : list entry) : ptr :=
  match rev ns with [] => p | e :: _ => Some (addr e) end.
Fixpoint seg (m : memory) (p : ptr) (ns : list entry) (q : ptr) : Prop :=
  match ns with
  | [] => True
  | (a, k, v) :: t =>
      cells m a = Some (CNode {| nkey := k; nvalue := v; nprev := p; nnext := firstp t q |})
      /\ seg m (Some a) t q
  end.
Definition holds (m : memory) (e : entry) (x : option bytes * option bytes) : Prop :=
  let '(_, k, v) := e in load_str m k = Ok (fst x) /\ load_str m v = Ok (snd x).
Definition rep (m : memory) (h : nat) (l : elements) (ns : list entry) : Prop :=
  cells m h = Some (CList {| lcount := Z.of_nat (length l); lhead := firstp ns None; ltail := lastp None ns |})
  /\ seg m None ns None /\ Forall2 (holds m) ns l.

Record inv (B : Z) (m : memory) (w : world) (N : nat -> list entry) : Prop := {
  inv_brk : forall a, (brk m <= a)%nat -> cells m a = None;
  inv_rep : forall h l, w h = Some l -> rep m h l (N h) /\ NoDup (foot h (N h)) /\ Z.of_nat (length l) <= B;
  inv_disj : forall h1 h2 a, w h1 <> None -> w h2 <> None ->
     In a (foot h1 (N h1)) -> In a (foot h2 (N h2)) -> h1 = h2;
  inv_all : forall a, cells m a <> None -> exists h, w h <> None /\ In a (foot h (N h)) }.

Lemma upd_eq f a c : upd f a c a = c.
Proof. unfold upd. rewrite Nat.eqb_refl. reflexivity. Qed.
Lemma upd_neq f a c x : x <> a -> upd f a c x = f x.
Proof. intros H. unfold upd. apply Nat.eqb_neq in H. rewrite H. reflexivity. Qed.

Lemma lastp_snoc p ns e : lastp p (ns ++ [e]) = Some (addr e).
Proof. unfold lastp. rewrite rev_app_distr. reflexivity. Qed.
Lemma lastp_cons p e ns : lastp p (e :: ns) = lastp (Some (addr e)) ns.
Proof.
  unfold lastp. cbn [rev]. destruct (rev ns) as [|x r]; reflexivity.
Qed.
Lemma firstp_app ns1 ns2 q : firstp (ns1 ++ ns2) q = firstp ns1 (firstp ns2 q).
Proof. destruct ns1; reflexivity. Qed.
Lemma seg_app m p ns1 ns2 q :
  seg m p (ns1 ++ ns2) q <-> seg m p ns1 (firstp ns2 q) /\ seg m (lastp p ns1) ns2 q.
Proof.
  revert p. induction ns1 as [|[[a k] v] ns1 IH]; intros p.
  - cbn. unfold lastp. cbn. tauto.
  - cbn [seg app]. rewrite IH, firstp_app, lastp_cons. cbn [addr fst]. tauto.
Qed.
Lemma seg_frame m m' p ns q :
  (forall e, In e ns -> cells m' (addr e) = cells m (addr e)) -> seg m p ns q -> seg m' p ns q.
Proof.
  revert p. induction ns as [|[[a k] v] ns IH]; intros p F H; [exact I|].
  destruct H as [H1 H2]. split.
  - change a with (addr (a, k, v)) at 1. rewrite F by (left; reflexivity). exact H1.
  - apply IH; [|exact H2]. intros e He. apply F. right. exact He.
Qed.
Lemma in_foot1 h ns e x : In e ns -> In x (foot1 e) -> In x (foot h ns).
Proof. intros H1 H2. right. apply in_flat_map. exists e. split; assumption. Qed.
Lemma addr_foot1 e : In (addr e) (foot1 e).
Proof. destruct e as [[a k] v]. left. reflexivity. Qed.
Lemma load_str_frame m m' p x :
  (forall a, p = Some a -> cells m' a = cells m a) -> load_str m p = Ok x -> load_str m' p = Ok x.
Proof. destruct p as [a|]; [|tauto]. intros F. cbn. rewrite (F a eq_refl). tauto. Qed.
Lemma holds_frame m m' e x :
  (forall a, In a (foot1 e) -> cells m' a = cells m a) -> holds m e x -> holds m' e x.
Proof.
  destruct e as [[a k] v]. intros F [H1 H2].
  split; (eapply load_str_frame; [|eassumption]); intros b ->; apply F; right;
    apply in_or_app; [left|right]; left; reflexivity.
Qed.
Lemma Forall2_impl_in {A B} (P Q : A -> B -> Prop) l1 l2 :
  (forall x y, In x l1 -> P x y -> Q x y) -> Forall2 P l1 l2 -> Forall2 Q l1 l2.
Proof.
  intros H F. induction F as [|x y l1 l2 H1 _ IH]; constructor.
  - apply H; [left; reflexivity|assumption].
  - apply IH. intros a b Ha. apply H. right. assumption.
Qed.
Lemma rep_frame m m' h l ns :
  (forall a, In a (foot h ns) -> cells m' a = cells m a) -> rep m h l ns -> rep m' h l ns.
Proof.
  intros F (H1 & H2 & H3). split; [|split].
  - rewrite F by (left; reflexivity). exact H1.
  - eapply seg_frame; [|exact H2]. intros e He. apply F. apply (in_foot1 h ns e); [exact He|apply addr_foot1].
  - eapply Forall2_impl_in; [|exact H3]. intros e x He. apply holds_frame.
    intros a Ha. apply F. apply (in_foot1 h ns e); assumption.
Qed.
Lemma seg_in m p ns q e : seg m p ns q -> In e ns -> cells m (addr e) <> None.
Proof.
  revert p. induction ns as [|[[a k] v] ns IH]; intros p H [].
  - subst e. destruct H as [H _]. cbn. rewrite H. discriminate.
  - destruct H as [_ H]. eapply IH; eassumption.
Qed.
Lemma Forall2_in_l {A B} (P : A -> B -> Prop) l1 l2 x :
  Forall2 P l1 l2 -> In x l1 -> exists y, P x y.
Proof.
  intros F. induction F as [|a b l1 l2 H _ IH]; intros []; [subst; eauto|auto].
Qed.
Lemma rep_alloc m h l ns a : rep m h l ns -> In a (foot h ns) -> cells m a <> None.
Proof.
  intros (H1 & H2 & H3) [<-|H]; [rewrite H1; discriminate|].
  apply in_flat_map in H. destruct H as (e & He & Ha).
  destruct (Forall2_in_l _ _ _ _ H3 He) as ([x y] & Hh).
  pose proof (seg_in _ _ _ _ _ H2 He) as Hs.
  destruct e as [[b k] v]. destruct Ha as [<-|Ha]; [exact Hs|]. destruct Hh as [Hk Hv].
  apply in_app_or in Ha. destruct Ha as [Ha|Ha].
  - destruct k as [k|]; [|destruct Ha]. destruct Ha as [<-|[]].
    cbn in Hk. destruct (cells m k); [discriminate|discriminate].
  - destruct v as [v|]; [|destruct Ha]. destruct Ha as [<-|[]].
    cbn in Hv. destruct (cells m v); [discriminate|discriminate].
Qed.
Lemma Forall2_len {A B} (P : A -> B -> Prop) l1 l2 : Forall2 P l1 l2 -> length l1 = length l2.
Proof. induction 1; cbn; congruence. Qed.

Lemma foot_brk B m w N h a : inv B m w N -> w h <> None -> In a (foot h (N h)) -> (a < brk m)%nat.
Proof.
  intros I Hw Ha. destruct (w h) as [l|] eqn:E; [|congruence].
  destruct (inv_rep _ _ _ _ I h l E) as (R & _).
  pose proof (rep_alloc _ _ _ _ _ R Ha) as H.
  destruct (Nat.lt_ge_cases a (brk m)) as [L|L]; [exact L|].
  exfalso. apply H. apply (inv_brk _ _ _ _ I). exact L.
Qed.

(** Replacing one list and its part of the memory. *)
Lemma inv_update B B' m w N m' w' h l' ns' :
  inv B m w N -> w h <> None -> B <= B' -> Z.of_nat (length l') <= B' ->
  (brk m <= brk m')%nat ->
  (forall a, (brk m' <= a)%nat -> cells m' a = None) ->
  (forall a, ~ In a (foot h (N h)) -> (a < brk m)%nat -> cells m' a = cells m a) ->
  rep m' h l' ns' -> NoDup (foot h ns') ->
  (forall a, In a (foot h ns') -> In a (foot h (N h)) \/ (brk m <= a)%nat) ->
  (forall a, In a (foot h (N h)) \/ (brk m <= a)%nat -> cells m' a <> None -> In a (foot h ns')) ->
  changed w w' h (Some l') ->
  inv B' m' w' (fun x => if (x =? h)%nat then ns' else N x).
Proof.
  intros I Hw HB HB' Hbrk Hf Ho R ND F1 F2 C.
  assert (W : forall x, x <> h -> w' x = w x).
  { intros x Hx. rewrite C. apply Nat.eqb_neq in Hx. rewrite Hx. reflexivity. }
  assert (Wh : w' h = Some l') by (rewrite C, Nat.eqb_refl; reflexivity).
  split.
  - exact Hf.
  - intros x l E. destruct (Nat.eq_dec x h) as [->|Hx].
    + rewrite Nat.eqb_refl. rewrite Wh in E. injection E as <-. split; [exact R|split; [exact ND|exact HB']].
    + rewrite (proj2 (Nat.eqb_neq _ _) Hx). rewrite W in E by exact Hx.
      destruct (inv_rep _ _ _ _ I x l E) as (R1 & ND1 & L1). split; [|split; [exact ND1|lia]].
      eapply rep_frame; [|exact R1]. intros a Ha.
      assert (Hxn : w x <> None) by congruence.
      apply Ho.
      * intros Hin. apply Hx. exact (inv_disj _ _ _ _ I x h a Hxn Hw Ha Hin).
      * exact (foot_brk _ _ _ _ _ _ I Hxn Ha).
  - assert (D : forall x a, x <> h -> w x <> None -> In a (foot x (N x)) -> In a (foot h ns') -> False).
    { intros x a Hx Hxn Ha Hb. destruct (F1 a Hb) as [Hc|Hc].
      - apply Hx. exact (inv_disj _ _ _ _ I x h a Hxn Hw Ha Hc).
      - pose proof (foot_brk _ _ _ _ _ _ I Hxn Ha). lia. }
    intros h1 h2 a W1 W2. destruct (Nat.eq_dec h1 h) as [->|N1]; destruct (Nat.eq_dec h2 h) as [->|N2].
    + reflexivity.
    + rewrite Nat.eqb_refl, (proj2 (Nat.eqb_neq _ _) N2). rewrite W in W2 by exact N2.
      intros Ha Hb. exfalso. exact (D h2 a N2 W2 Hb Ha).
    + rewrite Nat.eqb_refl, (proj2 (Nat.eqb_neq _ _) N1). rewrite W in W1 by exact N1.
      intros Ha Hb. exfalso. exact (D h1 a N1 W1 Ha Hb).
    + rewrite (proj2 (Nat.eqb_neq _ _) N1), (proj2 (Nat.eqb_neq _ _) N2).
      rewrite W in W1 by exact N1. rewrite W in W2 by exact N2. apply (inv_disj _ _ _ _ I); assumption.
  - intros a Ha.
    destruct (in_dec Nat.eq_dec a (foot h (N h))) as [Hin|Hin].
    { exists h. rewrite Nat.eqb_refl, Wh. split; [discriminate|]. apply F2; [left; exact Hin|exact Ha]. }
    destruct (Nat.lt_ge_cases a (brk m)) as [L|L].
    + rewrite (Ho a Hin L) in Ha. destruct (inv_all _ _ _ _ I a Ha) as (x & Hx & Hxa).
      exists x. destruct (Nat.eq_dec x h) as [->|Hxh]; [contradiction|].
      rewrite (proj2 (Nat.eqb_neq _ _) Hxh), W by exact Hxh. split; assumption.
    + exists h. rewrite Nat.eqb_refl, Wh. split; [discriminate|]. apply F2; [right; exact L|exact Ha].
Qed.

Lemma inv_same B B' m w w' N : B <= B' -> same_world w w' -> inv B m w N -> inv B' m w' N.
Proof.
  intros HB S I. split.
  - apply (inv_brk _ _ _ _ I).
  - intros h l E. rewrite S in E. destruct (inv_rep _ _ _ _ I h l E) as (R & ND & L).
    split; [exact R|split; [exact ND|lia]].
  - intros h1 h2 a. rewrite !S. apply (inv_disj _ _ _ _ I).
  - intros a Ha. destruct (inv_all _ _ _ _ I a Ha) as (h & H). exists h. rewrite S. exact H.
Qed.

(** Where [w h] is live. *)
Lemma load_live B m w N h l : inv B m w N -> w h = Some l ->
  load_list m (Some h) = Ok (h, {| lcount := Z.of_nat (length l); lhead := firstp (N h) None;
                                   ltail := lastp None (N h) |}).
Proof.
  intros I E. destruct (inv_rep _ _ _ _ I h l E) as ((R & _) & _). cbn. rewrite R. reflexivity.
Qed.
Lemma load_dead B m w N h : inv B m w N -> w h = None -> load_list m (Some h) = UB.
Proof.
  intros I E. cbn. destruct (cells m h) as [c|] eqn:C; [|reflexivity].
  destruct (inv_all _ _ _ _ I h) as (x & Hx & Hin); [rewrite C; discriminate|].
  destruct (w x) as [l|] eqn:Ex; [|congruence].
  destruct (inv_rep _ _ _ _ I x l Ex) as ((R1 & R2 & R3) & ND & _).
  destruct Hin as [->|Hin]; [congruence|].
  apply in_flat_map in Hin. destruct Hin as ([[a k] v] & He & Ha).
  destruct (Forall2_in_l _ _ _ _ R3 He) as ([y z] & Hk & Hv).
  destruct Ha as [<-|Ha].
  - clear - R2 He C. cbn [seg] in R2. revert R2. generalize (@None nat) at 1. 
    induction (N x) as [|[[a' k'] v'] ns IH]; intros p R; [destruct He|].
    destruct R as [R1 R2]. destruct He as [He|He].
    + injection He as -> _ _. rewrite R1 in C. injection C as <-. reflexivity.
    + exact (IH He _ R2).
  - apply in_app_or in Ha. destruct Ha as [Ha|Ha].
    + destruct k as [k|]; [|destruct Ha]. destruct Ha as [->|[]]. cbn in Hk. rewrite C in Hk.
      destruct c; try discriminate. reflexivity.
    + destruct v as [v|]; [|destruct Ha]. destruct Ha as [->|[]]. cbn in Hv. rewrite C in Hv.
      destruct c; try discriminate. reflexivity.
Qed.

Lemma strdup_ok m s ok :
  exists m' p, strdup m (Some s) ok = Ok (m', p) /\
    (forall x, (x < brk m)%nat -> cells m' x = cells m x) /\ (brk m <= brk m')%nat /\
    (forall x, (brk m' <= x)%nat -> cells m' x = cells m x) /\
    load_str m' p = Ok (copy (Some s) ok) /\
    (forall x, (brk m <= x < brk m')%nat <-> In x (optl p)) /\ NoDup (optl p).
Proof.
  unfold strdup. destruct ok; cbn [alloc].
  - do 2 eexists. split; [reflexivity|]. cbn [cells brk optl load_str].
    split; [intros x Hx; apply upd_neq; lia|]. split; [lia|].
    split; [intros x Hx; apply upd_neq; lia|]. rewrite upd_eq. split; [reflexivity|].
    split; [intros x; cbn; split; [left; lia|intros [<-|[]]; lia]|].
    constructor; [intros []|constructor].
  - do 2 eexists. split; [reflexivity|].
    split; [reflexivity|]. split; [lia|]. split; [reflexivity|]. split; [reflexivity|].
    split; [intros x; cbn; lia|constructor].
Qed.

Lemma NoDup_app_intro {A} (l1 l2 : list A) :
  NoDup l1 -> NoDup l2 -> (forall x, In x l1 -> In x l2 -> False) -> NoDup (l1 ++ l2).
Proof.
  intros H1 H2 D. induction H1 as [|x l1 Hx _ IH]; [exact H2|]. cbn. constructor.
  - intros H. apply in_app_or in H. destruct H as [H|H]; [contradiction|].
    apply (D x); [left; reflexivity|exact H].
  - apply IH. intros y Hy. apply D. right. exact Hy.
Qed.
Lemma NoDup_app_elim {A} (l1 l2 : list A) :
  NoDup (l1 ++ l2) -> NoDup l1 /\ NoDup l2 /\ (forall x, In x l1 -> In x l2 -> False).
Proof.
  induction l1 as [|x l1 IH]; intros H.
  - split; [constructor|split; [exact H|intros y []]].
  - inversion_clear H as [|? ? Hn H']. destruct (IH H') as (H1 & H2 & D). split; [|split; [exact H2|]].
    + constructor; [|exact H1]. intros Hx. apply Hn. apply in_or_app. left. exact Hx.
    + intros y [->|Hy] Hy2; [apply Hn; apply in_or_app; right; exact Hy2|exact (D y Hy Hy2)].
Qed.
Lemma foot_snoc h ns e : foot h (ns ++ [e]) = foot h ns ++ foot1 e.
Proof. unfold foot. rewrite flat_map_app. cbn. rewrite app_nil_r. reflexivity. Qed.
Lemma addr_in_foot (h : nat) ns e : In e ns -> In (addr e) (flat_map foot1 ns).
Proof. intros H. apply in_flat_map. exists e. split; [exact H|apply addr_foot1]. Qed.
Lemma Forall2_snoc {A B} (P : A -> B -> Prop) l1 l2 x y :
  Forall2 P l1 l2 -> P x y -> Forall2 P (l1 ++ [x]) (l2 ++ [y]).
Proof. intros H1 H2. apply Forall2_app; [exact H1|constructor; [exact H2|constructor]]. Qed.

Lemma append_ok B m w N h l key value ok_k ok_v :
  inv B m w N -> w h = Some l -> B < 2 ^ 64 - 1 ->
  exists m' N' w', list_append m (Some h) (Some key) (Some value) true ok_k ok_v = Ok (m', Success) /\
    changed w w' h (Some (l ++ [(copy (Some key) ok_k, copy (Some value) ok_v)])) /\
    inv (B + 1) m' w' N'.
Proof.
  intros I E HB. pose proof (load_live _ _ _ _ _ _ I E) as LL.
  destruct (inv_rep _ _ _ _ I h l E) as ((R1 & R2 & R3) & ND & LB).
  assert (Hw : w h <> None) by congruence.
  assert (FB : forall x, In x (foot h (N h)) -> (x < brk m)%nat) by (intros x; apply (foot_brk _ _ _ _ _ _ I Hw)).
  assert (Hh : (h < brk m)%nat) by (apply FB; left; reflexivity).
  unfold list_append. cbn [alloc]. cbv zeta beta iota.
  set (a := brk m). set (nd := CNode {| nkey := None; nvalue := None; nprev := None; nnext := None |}).
  set (m1 := {| cells := upd (cells m) a (Some nd); brk := S a |}).
  destruct (strdup_ok m1 key ok_k) as (m2 & k & E2 & A2 & B2 & C2 & L2 & D2 & N2). rewrite E2. cbn [bind].
  destruct (strdup_ok m2 value ok_v) as (m3 & v & E3 & A3 & B3 & C3 & L3 & D3 & N3). rewrite E3. cbn [bind].
  assert (Bm1 : brk m1 = S a) by reflexivity.
  assert (Old : forall x, (x < a)%nat -> cells m3 x = cells m x).
  { intros x Hx. rewrite A3, A2 by lia. apply upd_neq. lia. }
  assert (New : forall x, (brk m3 <= x)%nat -> cells m3 x = None).
  { intros x Hx. rewrite C3, C2 by lia. unfold m1. cbn [cells]. rewrite upd_neq by lia.
    apply (inv_brk _ _ _ _ I). unfold a in *. lia. }
  assert (Lk : load_str m3 k = Ok (copy (Some key) ok_k)).
  { eapply load_str_frame; [|exact L2]. intros x ->. apply A3. apply D2. left. reflexivity. }
  assert (Hl : cells m3 h = cells m h) by (apply Old; exact Hh).
  cbn [load_list] in LL |- *. rewrite Hl. rewrite R1. cbn [bind ltail lhead lcount].
  set (hd := {| lcount := (Z.of_nat (length l) + 1) mod 2 ^ 64;
                lhead := match firstp (N h) None with None => Some a | _ => firstp (N h) None end;
                ltail := Some a |}).
  assert (Hhd : hd = {| lcount := Z.of_nat (length (l ++ [(copy (Some key) ok_k, copy (Some value) ok_v)]));
                        lhead := firstp (N h ++ [(a, k, v)]) None;
                        ltail := lastp None (N h ++ [(a, k, v)]) |}).
  { unfold hd. f_equal.
    - rewrite app_length. cbn [length]. rewrite Z.mod_small by lia. lia.
    - rewrite firstp_app. destruct (N h); reflexivity.
    - rewrite lastp_snoc. reflexivity. }
  assert (ND1 : NoDup (foot1 (a, k, v))).
  { cbn [foot1]. constructor.
    - intros H. apply in_app_or in H. destruct H as [H|H]; [apply D2 in H|apply D3 in H]; lia.
    - apply NoDup_app_intro; [exact N2|exact N3|]. intros x Hx Hy. apply D2 in Hx. apply D3 in Hy. lia. }
  assert (F1 : forall x, In x (foot1 (a, k, v)) <-> (a <= x < brk m3)%nat).
  { intros x. cbn [foot1 In]. rewrite in_app_iff, <- D2, <- D3. lia. }
  (* the last node before, if any *)
  assert (Step : exists m4,
    (match lastp None (N h) with
     | None => Ok (store m3 a (CNode {| nkey := k; nvalue := v; nprev := None; nnext := None |}))
     | Some _ =>
         do (t, n) <- load_node (store m3 a (CNode {| nkey := k; nvalue := v; nprev := lastp None (N h); nnext := None |}))
                        (lastp None (N h));
         Ok (store (store m3 a (CNode {| nkey := k; nvalue := v; nprev := lastp None (N h); nnext := None |})) t
                (CNode {| nkey := nkey n; nvalue := nvalue n; nprev := nprev n; nnext := Some a |}))
     end) = Ok m4 /\ brk m4 = brk m3 /\
    cells m4 a = Some (CNode {| nkey := k; nvalue := v; nprev := lastp None (N h); nnext := None |}) /\
    (forall x, x <> a -> lastp None (N h) <> Some x -> cells m4 x = cells m3 x) /\
    seg m4 None (N h) (Some a)).
  { clear hd Hhd LL. destruct (N h) as [|e0 ns0'] eqn:EN.
    - eexists. split; [reflexivity|]. split; [reflexivity|]. cbn [store cells]. rewrite upd_eq.
      split; [reflexivity|]. split; [|exact Logic.I].
      intros x Hx _. apply upd_neq. exact Hx.
    - destruct (exists_last (l := e0 :: ns0')) as (ns0 & [[t kt] vt] & EL); [discriminate|].
      rewrite EL in *. clear EL e0 ns0'.
      rewrite lastp_snoc. cbn [addr fst].
      apply seg_app in R2. destruct R2 as [S1 S2]. cbn [seg firstp] in S2. destruct S2 as [S2 _].
      assert (Ht : (t < a)%nat).
      { apply FB. rewrite foot_snoc. apply in_or_app. right. left. reflexivity. }
      cbn [load_node store cells]. rewrite upd_neq by lia. rewrite (Old t Ht), S2. cbn [bind nkey nvalue nprev].
      eexists. split; [reflexivity|]. split; [reflexivity|]. cbn [store cells].
      split; [rewrite upd_neq by lia; apply upd_eq|]. split.
      + intros x Hx Hx2. rewrite upd_neq by congruence. apply upd_neq. exact Hx.
      + apply seg_app. cbn [firstp addr fst]. split.
        * eapply seg_frame; [|exact S1]. intros e He. cbn [store cells].
          assert (Hin : In (addr e) (flat_map foot1 ns0)) by (apply addr_in_foot; [exact h|exact He]).
          rewrite foot_snoc in ND. apply NoDup_app_elim in ND. destruct ND as (_ & _ & D).
          rewrite upd_neq by (intros Heq; apply (D t); [right; rewrite <- Heq; exact Hin|left; reflexivity]).
          assert (Hb : (addr e < a)%nat).
          { apply FB. rewrite foot_snoc. apply in_or_app. left. right. exact Hin. }
          rewrite upd_neq by lia. apply Old. exact Hb.
        * cbn [seg store cells firstp]. split; [apply upd_eq|exact Logic.I]. }
  destruct Step as (m4 & E4 & B4 & Na & O4 & S4). rewrite E4. cbn [bind].
  assert (Lh : forall x, lastp None (N h) = Some x -> In x (flat_map foot1 (N h))).
  { intros x Hx. destruct (N h) as [|e0 ns0'] eqn:EN; [discriminate|].
    destruct (exists_last (l := e0 :: ns0')) as (ns0 & e & EL); [discriminate|]. rewrite EL in Hx |- *.
    rewrite lastp_snoc in Hx. injection Hx as <-. apply addr_in_foot; [exact h|].
    apply in_or_app. right. left. reflexivity. }
  inversion_clear ND as [|? ? Hnh ND'].
  exists (store m4 h (CList hd)), (fun x => if (x =? h)%nat then N h ++ [(a, k, v)] else N x),
    (fun y => if (y =? h)%nat then Some (l ++ [(copy (Some key) ok_k, copy (Some value) ok_v)]) else w y).
  split; [reflexivity|]. split; [intros y; reflexivity|].
  apply (inv_update B (B + 1) m w N _ _ h (l ++ [(copy (Some key) ok_k, copy (Some value) ok_v)]) (N h ++ [(a, k, v)])); try assumption; try lia.
  - rewrite app_length. cbn [length]. lia.
  - cbn [store brk]. unfold a in *. lia.
  - intros x Hx. cbn [store cells brk] in *. rewrite upd_neq by lia.
    rewrite O4; [apply New; lia|lia|]. intros H. apply Lh in H.
    assert (x < brk m)%nat by (apply FB; right; exact H). unfold a in *. lia.
  - intros x Hx Hb. cbn [store cells]. rewrite upd_neq by (intros ->; apply Hx; left; reflexivity).
    rewrite O4; [apply Old; exact Hb|unfold a; lia|].
    intros H. apply Lh in H. apply Hx. right. exact H.
  - split; [|split].
    + cbn [store cells]. rewrite upd_eq, Hhd. reflexivity.
    + apply seg_app. cbn [firstp addr fst seg]. split; [|split; [|exact Logic.I]].
      * eapply seg_frame; [|exact S4]. intros e He. cbn [store cells]. apply upd_neq.
        intros Heq. apply Hnh. pose proof (addr_in_foot h _ _ He) as Hi. rewrite Heq in Hi. exact Hi.
      * cbn [store cells]. rewrite upd_neq by lia. exact Na.
    + assert (SF : forall x c, cells m3 x = Some (CStr c) -> (x = h -> False) ->
               cells (store m4 h (CList hd)) x = cells m3 x).
      { intros x c Hx Hxh. cbn [store cells]. rewrite upd_neq by exact Hxh. apply O4.
        - intros ->. rewrite A3, A2 in Hx by lia. unfold m1 in Hx. cbn [cells] in Hx. rewrite upd_eq in Hx.
          discriminate.
        - intros Hl'. destruct (N h) as [|e0 ns0'] eqn:EN; [discriminate|].
          destruct (exists_last (l := e0 :: ns0')) as (ns0 & [[t kt] vt] & EL); [discriminate|].
          rewrite EL in *. rewrite lastp_snoc in Hl'. injection Hl' as <-. cbn [addr fst] in *.
          apply seg_app in R2. destruct R2 as [_ [R2 _]]. rewrite Old in Hx; [congruence|].
          apply FB. rewrite foot_snoc. apply in_or_app. right. left. reflexivity. }
      assert (LS : forall p s, load_str m3 p = Ok s -> (p = Some h -> False) ->
               load_str (store m4 h (CList hd)) p = Ok s).
      { intros [x|] s Hs Hp; [|exact Hs]. cbn [load_str] in *.
        destruct (cells m3 x) as [[| |c]|] eqn:Ex; try discriminate.
        rewrite (SF x c Ex), Ex; [exact Hs|]. intros ->. apply Hp. reflexivity. }
      apply Forall2_snoc.
      * eapply Forall2_impl_in; [|exact R3]. intros e x He Hx.
        assert (Hx3 : holds m3 e x).
        { eapply holds_frame; [|exact Hx]. intros y Hy. apply Old. apply FB. right.
          apply in_flat_map. exists e. split; assumption. }
        destruct e as [[b kb] vb]. destruct Hx3 as [K1 K2].
        split; apply LS; try assumption; intros ->; apply Hnh; apply in_flat_map;
          (eexists; split; [exact He|]); right; apply in_or_app; [left|right]; left; reflexivity.
      * split; apply LS; try assumption; intros ->.
        -- assert (a <= h < brk m3)%nat; [|lia]. apply F1. right. apply in_or_app. left. left. reflexivity.
        -- assert (a <= h < brk m3)%nat; [|lia]. apply F1. right. apply in_or_app. right. left. reflexivity.
  - rewrite foot_snoc. apply NoDup_app_intro; [constructor; assumption|exact ND1|].
    intros x Hx Hy. apply FB in Hx. apply F1 in Hy. unfold a in *. lia.
  - intros x Hx. rewrite foot_snoc in Hx. apply in_app_or in Hx. destruct Hx as [Hx|Hx]; [left; exact Hx|].
    right. apply F1 in Hx. unfold a in *. lia.
  - intros x Hx Hc. rewrite foot_snoc. apply in_or_app. destruct Hx as [Hx|Hx]; [left; exact Hx|].
    right. apply F1. split; [exact Hx|]. destruct (Nat.lt_ge_cases x (brk m3)) as [L|L]; [exact L|].
    exfalso. apply Hc. cbn [store cells]. rewrite upd_neq by lia.
    rewrite O4; [apply New; exact L|lia|]. intros H. apply Lh in H.
    assert (x < brk m)%nat by (apply FB; right; exact H). unfold a in *. lia.
  - intros y. reflexivity.
Qed.

Definition drop (m : memory) (p : ptr) : memory :=
  match p with None => m | Some a => {| cells := upd (cells m) a None; brk := brk m |} end.
Lemma release_ok m p : (forall x, In x (optl p) -> cells m x <> None) -> release_cell m p = Ok (drop m p).
Proof.
  intros H. destruct p as [a|]; [|reflexivity]. cbn. specialize (H a (or_introl eq_refl)).
  destruct (cells m a); [reflexivity|congruence].
Qed.
Lemma drop_in m p x : In x (optl p) -> cells (drop m p) x = None.
Proof. destruct p as [a|]; [|intros []]. intros [->|[]]. apply upd_eq. Qed.
Lemma drop_out m p x : ~ In x (optl p) -> cells (drop m p) x = cells m x.
Proof. destruct p as [a|]; [|reflexivity]. intros H. apply upd_neq. intros ->. apply H. left. reflexivity. Qed.
Lemma drop_brk m p : brk (drop m p) = brk m.
Proof. destruct p; reflexivity. Qed.

Lemma delete_last_ok B m w N h l :
  inv B m w N -> w h = Some l -> B < 2 ^ 64 ->
  exists m' N' w', list_delete_last m (Some h) = Ok (m', Success) /\
    changed w w' h (Some (removelast l)) /\ inv B m' w' N'.
Proof.
  intros I E HB. pose proof (load_live _ _ _ _ _ _ I E) as LL.
  destruct (inv_rep _ _ _ _ I h l E) as ((R1 & R2 & R3) & ND & LB).
  assert (Hw : w h <> None) by congruence.
  assert (FB : forall x, In x (foot h (N h)) -> (x < brk m)%nat) by (intros x; apply (foot_brk _ _ _ _ _ _ I Hw)).
  assert (AL : forall x, In x (foot h (N h)) -> cells m x <> None)
    by (intros x; apply (rep_alloc m h l); split; [exact R1|split; assumption]).
  unfold list_delete_last. rewrite LL. cbn [bind ltail lhead lcount].
  destruct (N h) as [|e0' nsx] eqn:EN.
  { inversion R3; subst l. cbn [lastp rev].
    exists m, N, w. split; [reflexivity|]. split; [|exact I].
    intros y. destruct (Nat.eqb_spec y h) as [->|]; [exact E|reflexivity]. }
  destruct (exists_last (l := e0' :: nsx)) as (ns0 & [[a k] v] & EL); [discriminate|].
  rewrite EL in *. clear EL e0' nsx.
  apply Forall2_app_inv_l in R3. destruct R3 as (l0 & l1 & R3 & R4 & ->).
  inversion R4 as [|? x ? l1' Hx R5]; subst. inversion R5; subst. clear R4 R5.
  rewrite removelast_last. rewrite lastp_snoc. cbn [addr fst].
  apply seg_app in R2. destruct R2 as [S1 [S2 _]]. cbn [firstp addr fst] in S1, S2.
  rewrite foot_snoc in ND, FB, AL. pose proof ND as ND0.
  apply NoDup_app_elim in ND. destruct ND as (ND1 & ND2 & D).
  assert (Hah : a <> h) by (intros ->; apply (D h); left; reflexivity).
  cbn [load_node]. rewrite S2. cbn [bind nprev].
  assert (Hd : (if ptr_eqb (firstp (ns0 ++ [(a, k, v)]) None) (Some a) then None
                else firstp (ns0 ++ [(a, k, v)]) None) = firstp ns0 None).
  { destruct ns0 as [|e ns0]; cbn [firstp app addr fst ptr_eqb].
    - rewrite Nat.eqb_refl. reflexivity.
    - destruct (Nat.eqb_spec (addr e) a) as [Ha|]; [|reflexivity]. exfalso.
      apply (D a); [|left; reflexivity]. right. rewrite <- Ha. apply addr_in_foot; [exact h|left; reflexivity]. }
  assert (Lh : forall x, lastp None ns0 = Some x -> In x (flat_map foot1 ns0)).
  { intros y Hy. destruct ns0 as [|e1 ns1]; [discriminate|].
    destruct (exists_last (l := e1 :: ns1)) as (ns2 & e & EL); [discriminate|]. rewrite EL in Hy |- *.
    rewrite lastp_snoc in Hy. injection Hy as <-. apply addr_in_foot; [exact h|].
    apply in_or_app. right. left. reflexivity. }
  inversion_clear ND1 as [|? ? Hnh ND1'].
  assert (Step : exists m1,
    (match lastp None ns0 with
     | None => Ok m
     | Some _ => do (t, n') <- load_node m (lastp None ns0);
                 Ok (store m t (CNode {| nkey := nkey n'; nvalue := nvalue n';
                                         nprev := nprev n'; nnext := None |}))
     end) = Ok m1 /\ brk m1 = brk m /\
    (forall x, lastp None ns0 <> Some x -> cells m1 x = cells m x) /\
    (forall x s, cells m x = Some (CStr s) -> cells m1 x = cells m x) /\
    seg m1 None ns0 None).
  { clear Hd FB AL D LL. destruct ns0 as [|e1 ns1].
    - exists m. repeat split.
    - destruct (exists_last (l := e1 :: ns1)) as (ns2 & [[t kt] vt] & EL); [discriminate|].
      rewrite EL in *. clear EL. rewrite lastp_snoc in *. cbn [addr fst] in *.
      apply seg_app in S1. destruct S1 as [T1 [T2 _]]. cbn [firstp addr fst] in T1, T2.
      cbn [load_node]. rewrite T2. cbn [bind nkey nvalue nprev].
      eexists. split; [reflexivity|]. split; [reflexivity|].
      split; [intros y Hy; cbn [store cells]; apply upd_neq; congruence|].
      split; [intros y s Hy; cbn [store cells]; apply upd_neq; congruence|].
      apply seg_app. cbn [firstp addr fst]. split.
      + eapply seg_frame; [|exact T1]. intros e He. cbn [store cells]. apply upd_neq. intros Heq.
        rewrite flat_map_app in ND1'. apply NoDup_app_elim in ND1'. destruct ND1' as (_ & _ & D).
        apply (D t); [rewrite <- Heq; apply addr_in_foot; [exact h|exact He]|left; reflexivity].
      + cbn [seg store cells firstp]. split; [apply upd_eq|exact Logic.I]. }
  destruct Step as (m1 & E1 & B1 & O1 & O1s & S1'). rewrite E1. cbn [bind].
  match goal with |- context [if ptr_eqb ?p ?q then ?x else ?y] =>
    replace (if ptr_eqb p q then x else y) with (firstp ns0 None) by (symmetry; exact Hd) end.
  set (hd := {| lcount := (Z.of_nat (length (l0 ++ [x])) - 1) mod 2 ^ 64; lhead := firstp ns0 None;
                ltail := lastp None ns0 |}).
  assert (Hhd : hd = {| lcount := Z.of_nat (length l0); lhead := firstp ns0 None; ltail := lastp None ns0 |}).
  { unfold hd. f_equal. rewrite app_length in *. cbn [length] in *. rewrite Z.mod_small; lia. }
  set (m2 := store m1 h (CList hd)).
  assert (Fe : forall y, In y (foot1 (a, k, v)) -> cells m2 y = cells m y).
  { intros y Hy. unfold m2. cbn [store cells]. rewrite upd_neq.
    - apply O1. intros H. apply Lh in H. apply (D y); [right; exact H|exact Hy].
    - intros ->. apply (D h); [left; reflexivity|exact Hy]. }
  cbn [load_node]. rewrite (Fe a) by (left; reflexivity). rewrite S2. cbn [bind nkey nvalue].
  cbn [foot1] in ND2. inversion_clear ND2 as [|? ? Ha ND3]. apply NoDup_app_elim in ND3.
  destruct ND3 as (_ & _ & Dkv).
  assert (AL2 : forall y, In y (foot1 (a, k, v)) -> cells m2 y <> None).
  { intros y Hy. rewrite (Fe y Hy). apply AL. apply in_or_app. right. exact Hy. }
  rewrite (release_ok m2 k) by (intros y Hy; apply AL2; right; apply in_or_app; left; exact Hy).
  cbn [bind].
  rewrite (release_ok (drop m2 k) v).
  2:{ intros y Hy. rewrite drop_out by (intros H; exact (Dkv y H Hy)).
      apply AL2. right. apply in_or_app. right. exact Hy. }
  cbn [bind].
  assert (Hak : ~ In a (optl k)) by (intros H; apply Ha; apply in_or_app; left; exact H).
  assert (Hav : ~ In a (optl v)) by (intros H; apply Ha; apply in_or_app; right; exact H).
  rewrite (release_ok (drop (drop m2 k) v) (Some a)).
  2:{ intros y [<-|[]]. rewrite !drop_out by assumption. apply AL2. left. reflexivity. }
  cbn [bind].
  set (m5 := drop (drop (drop m2 k) v) (Some a)).
  assert (C5in : forall y, In y (foot1 (a, k, v)) -> cells m5 y = None).
  { intros y Hy. unfold m5. destruct (in_dec Nat.eq_dec y (optl (Some a))) as [H|H]; [apply drop_in; exact H|].
    rewrite drop_out by exact H. destruct (in_dec Nat.eq_dec y (optl v)) as [H1|H1]; [apply drop_in; exact H1|].
    rewrite drop_out by exact H1. destruct (in_dec Nat.eq_dec y (optl k)) as [H2|H2]; [apply drop_in; exact H2|].
    exfalso. destruct Hy as [->|Hy]; [apply H; left; reflexivity|]. apply in_app_or in Hy. tauto. }
  assert (C5out : forall y, ~ In y (foot1 (a, k, v)) -> cells m5 y = cells m2 y).
  { intros y Hy. unfold m5. rewrite !drop_out; [reflexivity| | |];
      intros H; apply Hy; [right; apply in_or_app; left|right; apply in_or_app; right|left]; try exact H.
    destruct H as [->|[]]. reflexivity. }
  exists m5, (fun y => if (y =? h)%nat then ns0 else N y), (fun y => if (y =? h)%nat then Some l0 else w y).
  split; [reflexivity|]. split; [intros y; reflexivity|].
  assert (Out0 : forall y, In y (foot h ns0) -> cells m5 y = cells m2 y).
  { intros y Hy. apply C5out. intros H. exact (D y Hy H). }
  assert (FN : foot h (N h) = foot h ns0 ++ foot1 (a, k, v)) by (rewrite EN, foot_snoc; reflexivity).
  assert (Bm5 : brk m5 = brk m).
  { unfold m5. rewrite !drop_brk. unfold m2. cbn [store brk]. exact B1. }
  apply (inv_update B B m w N _ _ h l0 ns0); try assumption; try lia.
  - rewrite app_length in LB. lia.
  - intros y Hy. rewrite Bm5 in Hy. rewrite C5out.
    2:{ intros H. assert (y < brk m)%nat by (apply FB; apply in_or_app; right; exact H). lia. }
    unfold m2. cbn [store cells]. rewrite upd_neq.
    2:{ intros ->. assert (h < brk m)%nat by (apply FB; left; reflexivity). lia. }
    rewrite O1; [apply (inv_brk _ _ _ _ I); exact Hy|]. intros H. apply Lh in H.
    assert (y < brk m)%nat by (apply FB; apply in_or_app; left; right; exact H). lia.
  - intros y Hy _. rewrite FN in Hy. rewrite C5out by (intros H; apply Hy; apply in_or_app; right; exact H).
    unfold m2. cbn [store cells]. rewrite upd_neq by (intros ->; apply Hy; left; reflexivity).
    apply O1. intros H. apply Lh in H. apply Hy. apply in_or_app. left. right. exact H.
  - split; [|split].
    + rewrite Out0 by (left; reflexivity). unfold m2. cbn [store cells]. rewrite upd_eq, Hhd. reflexivity.
    + eapply seg_frame; [|exact S1']. intros e He.
      pose proof (addr_in_foot h _ _ He) as Hi.
      rewrite Out0 by (right; exact Hi). unfold m2. cbn [store cells]. apply upd_neq.
      intros Heq. apply Hnh. rewrite Heq in Hi. exact Hi.
    + eapply Forall2_impl_in; [|exact R3]. intros [[b kb] vb] y He [K1 K2].
      assert (LS : forall p s, load_str m p = Ok s -> (forall z, In z (optl p) -> In z (flat_map foot1 ns0)) ->
                load_str m5 p = Ok s).
      { intros [z|] s Hs Hz; [|exact Hs]. specialize (Hz z (or_introl eq_refl)). cbn [load_str] in *.
        rewrite Out0 by (right; exact Hz). unfold m2. cbn [store cells].
        rewrite upd_neq by (intros ->; contradiction).
        destruct (cells m z) as [[| |c]|] eqn:Ez; try discriminate. rewrite (O1s z c Ez), Ez. exact Hs. }
      split; apply LS; try assumption; intros z Hz; apply in_flat_map; (eexists; split; [exact He|]);
        right; apply in_or_app; [left|right]; exact Hz.
  - constructor; assumption.
  - intros y Hy. left. rewrite FN. apply in_or_app. left. exact Hy.
  - intros y Hy Hc. rewrite FN in Hy. destruct Hy as [Hy|Hy].
    + apply in_app_or in Hy. destruct Hy as [Hy|Hy]; [exact Hy|]. exfalso. apply Hc. apply C5in. exact Hy.
    + exfalso. apply Hc. rewrite C5out.
      2:{ intros H. assert (y < brk m)%nat by (apply FB; apply in_or_app; right; exact H). lia. }
      unfold m2. cbn [store cells]. rewrite upd_neq.
      2:{ intros ->. assert (h < brk m)%nat by (apply FB; left; reflexivity). lia. }
      rewrite O1; [apply (inv_brk _ _ _ _ I); exact Hy|]. intros H. apply Lh in H.
      assert (y < brk m)%nat by (apply FB; apply in_or_app; left; right; exact H). lia.
  - intros y. reflexivity.
Qed.

Lemma free_loop_ok n : forall B m w N h l,
  inv B m w N -> w h = Some l -> B < 2 ^ 64 -> (length l <= n)%nat ->
  exists m' N' w', free_loop n m (Some h) = Ok m' /\ changed w w' h (Some []) /\ inv B m' w' N'.
Proof.
  induction n as [|n IH]; intros B m w N h l I E HB Hn;
    pose proof (load_live _ _ _ _ _ _ I E) as LL; cbn [free_loop]; rewrite LL; cbn [bind lcount].
  - destruct l as [|x l]; [|cbn in Hn; lia]. cbn [length Z.of_nat Z.ltb Z.compare].
    exists m, N, w. split; [reflexivity|]. split; [|exact I].
    intros y. destruct (Nat.eqb_spec y h) as [->|]; [exact E|reflexivity].
  - destruct (0 <? Z.of_nat (length l)) eqn:El.
    + destruct (delete_last_ok _ _ _ _ _ _ I E HB) as (m1 & N1 & w1 & E1 & C1 & I1).
      rewrite E1. cbn [bind].
      assert (Ew : w1 h = Some (removelast l)) by (rewrite C1, Nat.eqb_refl; reflexivity).
      destruct (IH B m1 w1 N1 h (removelast l) I1 Ew HB) as (m2 & N2 & w2 & E2 & C2 & I2).
      { destruct (exists_last (l := l)) as (l0 & x & ->); [intros ->; discriminate|].
        rewrite removelast_last. rewrite app_length in Hn. cbn in Hn. lia. }
      exists m2, N2, w2. split; [exact E2|]. split; [|exact I2].
      intros y. rewrite C2, C1. destruct (y =? h)%nat; reflexivity.
    + destruct l as [|x l]; [|cbn [length] in El; lia].
      exists m, N, w. split; [reflexivity|]. split; [|exact I].
      intros y. destruct (Nat.eqb_spec y h) as [->|]; [exact E|reflexivity].
Qed.

Lemma free_ok B m w N h l :
  inv B m w N -> w h = Some l -> B < 2 ^ 64 ->
  exists m' N' w', list_free m (Some h) = Ok (m', Success) /\ changed w w' h None /\ inv B m' w' N'.
Proof.
  intros I E HB. unfold list_free. rewrite (load_live _ _ _ _ _ _ I E). cbn [bind lcount].
  destruct (free_loop_ok (Z.to_nat (Z.of_nat (length l))) B m w N h l I E HB) as (m1 & N1 & w1 & E1 & C1 & I1);
    [lia|]. rewrite E1. cbn [bind].
  assert (Ew : w1 h = Some []) by (rewrite C1, Nat.eqb_refl; reflexivity).
  destruct (inv_rep _ _ _ _ I1 h [] Ew) as ((R1 & _ & R3) & _). inversion R3 as [EN|]; subst.
  cbn [release_cell]. rewrite R1. cbn [bind].
  exists {| cells := upd (cells m1) h None; brk := brk m1 |}, N1, (fun y => if (y =? h)%nat then None else w1 y).
  split; [reflexivity|]. split.
  { intros y. rewrite C1. destruct (y =? h)%nat; reflexivity. }
  assert (Hh : w1 h <> None) by congruence.
  assert (Fh : forall x a, x <> h -> w1 x <> None -> In a (foot x (N1 x)) -> a <> h).
  { intros x a Hx Hxn Ha ->. apply Hx. apply (inv_disj _ _ _ _ I1 x h h Hxn Hh Ha). left. reflexivity. }
  split; cbn [cells brk].
  - intros a Ha. unfold upd. destruct (a =? h)%nat; [reflexivity|apply (inv_brk _ _ _ _ I1); exact Ha].
  - intros x l' Ex. destruct (Nat.eqb_spec x h) as [|Hx]; [discriminate|].
    destruct (inv_rep _ _ _ _ I1 x l' Ex) as (R & ND & L). split; [|split; assumption].
    eapply rep_frame; [|exact R]. intros a Ha. apply upd_neq. apply (Fh x); [exact Hx|congruence|exact Ha].
  - intros h1 h2 a. destruct (Nat.eqb_spec h1 h); [congruence|]. destruct (Nat.eqb_spec h2 h); [congruence|].
    apply (inv_disj _ _ _ _ I1).
  - intros a Ha. unfold upd in Ha. destruct (Nat.eqb_spec a h) as [|Hah]; [congruence|].
    destruct (inv_all _ _ _ _ I1 a Ha) as (x & Hx & Hin). exists x.
    destruct (Nat.eqb_spec x h) as [->|Hxh]; [|split; assumption].
    rewrite <- EN in Hin. destruct Hin as [->|[]]. congruence.
Qed.

Lemma new_ok B m w N :
  inv B m w N -> 0 <= B ->
  exists m' N' w' h, list_new m true = (m', Success, Some h) /\ w h = None /\
    changed w w' h (Some []) /\ inv B m' w' N'.
Proof.
  intros I HB. unfold list_new. cbn [alloc]. set (h := brk m).
  assert (Wh : w h = None).
  { destruct (w h) as [l|] eqn:E; [|reflexivity]. exfalso.
    assert (h < brk m)%nat; [|unfold h in *; lia].
    apply (foot_brk _ _ _ _ h h I); [congruence|left; reflexivity]. }
  do 2 eexists. exists (fun y => if (y =? h)%nat then Some [] else w y), h.
  split; [reflexivity|]. split; [exact Wh|]. split; [intros y; reflexivity|].
  instantiate (1 := fun y => if (y =? h)%nat then [] else N y).
  assert (Fh : forall x a, w x <> None -> In a (foot x (N x)) -> a <> h).
  { intros x a Hx Ha ->. pose proof (foot_brk _ _ _ _ _ _ I Hx Ha). unfold h in *. lia. }
  split; cbn [cells brk].
  - intros a Ha. rewrite upd_neq by lia. apply (inv_brk _ _ _ _ I). unfold h in *. lia.
  - intros x l E. destruct (Nat.eqb_spec x h) as [->|Hx].
    + injection E as <-. split; [|split; [constructor; [intros []|constructor]|exact HB]].
      split; [cbn [cells]; apply upd_eq|split; [exact Logic.I|constructor]].
    + destruct (inv_rep _ _ _ _ I x l E) as (R & ND & L). split; [|split; assumption].
      eapply rep_frame; [|exact R]. intros a Ha. apply upd_neq. apply (Fh x); [congruence|exact Ha].
  - intros h1 h2 a W1 W2 F1 F2.
    destruct (Nat.eqb_spec h1 h) as [->|N1]; destruct (Nat.eqb_spec h2 h) as [->|N2].
    + reflexivity.
    + destruct F1 as [F1|[]]. exfalso. exact (Fh h2 a W2 F2 (eq_sym F1)).
    + destruct F2 as [F2|[]]. exfalso. exact (Fh h1 a W1 F1 (eq_sym F2)).
    + exact (inv_disj _ _ _ _ I h1 h2 a W1 W2 F1 F2).
  - intros a Ha. destruct (Nat.eq_dec a h) as [Hah|Hah].
    + exists h. rewrite Nat.eqb_refl. split; [discriminate|left; symmetry; exact Hah].
    + rewrite upd_neq in Ha by exact Hah. destruct (inv_all _ _ _ _ I a Ha) as (x & Hx & Hin). exists x.
      destruct (Nat.eqb_spec x h) as [->|]; [congruence|split; assumption].
Qed.

Lemma walk_ok m i : forall p ns q, seg m p ns q -> (i < length ns)%nat ->
  exists a k v pr nx, nth_error ns i = Some (a, k, v) /\ walk i m (firstp ns q) = Ok (Some a) /\
    cells m a = Some (CNode {| nkey := k; nvalue := v; nprev := pr; nnext := nx |}).
Proof.
  induction i as [|i IH]; intros p ns q S Hi; destruct ns as [|[[a k] v] ns]; cbn in Hi; try lia.
  - destruct S as [S _]. exists a, k, v, p, (firstp ns q). repeat split. exact S.
  - destruct S as [S1 S2]. cbn [walk firstp addr fst load_node]. rewrite S1. cbn [bind nnext].
    destruct (IH _ _ _ S2 ltac:(lia)) as (a' & k' & v' & pr & nx & H1 & H2 & H3).
    exists a', k', v', pr, nx. repeat split; assumption.
Qed.
Lemma Forall2_nth {A B} (P : A -> B -> Prop) l1 l2 i x :
  Forall2 P l1 l2 -> nth_error l1 i = Some x -> exists y, nth_error l2 i = Some y /\ P x y.
Proof.
  intros F. revert i. induction F as [|a b l1 l2 H _ IH]; intros i E; [destruct i; discriminate|].
  destruct i as [|i]; [|exact (IH i E)]. injection E as ->. exists b. split; [reflexivity|exact H].
Qed.
Lemma element_ok B m w N h l i :
  inv B m w N -> w h = Some l ->
  match (if i <? Z.of_nat (length l) then nth_error l (Z.to_nat i) else None) with
  | None => list_get_element_at m (Some h) i = Ok (OutOfRangeStatus, None) /\
            list_get_value_at m (Some h) i = Ok (OutOfRangeStatus, None)
  | Some (x, y) => exists k v,
       list_get_element_at m (Some h) i = Ok (Success, Some (k, v)) /\
       list_get_value_at m (Some h) i = Ok (Success, Some v) /\
       load_str m k = Ok x /\ load_str m v = Ok y
  end.
Proof.
  intros I E. unfold list_get_element_at, list_get_value_at. rewrite (load_live _ _ _ _ _ _ I E).
  destruct (inv_rep _ _ _ _ I h l E) as ((R1 & R2 & R3) & _). cbn [bind lcount lhead].
  pose proof (Forall2_len _ _ _ R3) as LN.
  destruct (i <? Z.of_nat (length l)) eqn:Ei.
  - replace ((Z.of_nat (length l) =? 0) || (Z.of_nat (length l) <=? i)) with (negb (0 <? Z.of_nat (length l))) by lia.
    destruct l as [|x0 l'].
    { cbn [length]. destruct (Z.to_nat i); cbn; split; reflexivity. }
    cbn [length]. replace (negb (0 <? Z.of_nat (S (length l')))) with false by lia.
    destruct (walk_ok m (Z.to_nat i) None (N h) None R2) as (a & k & v & pr & nx & H1 & H2 & H3).
    { cbn [length] in *. lia. }
    destruct (Forall2_nth _ _ _ _ _ R3 H1) as ([x y] & Hn & Hk & Hv). rewrite Hn.
    exists k, v. rewrite H2. cbn [bind load_node]. rewrite H3. cbn [bind nkey nvalue].
    repeat split; assumption.
  - replace ((Z.of_nat (length l) =? 0) || (Z.of_nat (length l) <=? i)) with true by lia.
    split; reflexivity.
Qed.
