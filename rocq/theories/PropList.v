(** Property C71: the C interface's lists behave as sequences over every history of calls. *)
From Verif Require Import Base CollModel CollSpec CollProofs.
From Coq Require Import ZifyBool Lia.
Open Scope Z_scope.

Lemma live_dec w h : {live w h} + {~ live w h}.
Proof.
  destruct h as [a|]; cbn; [|right; tauto].
  destruct (w a); [left; discriminate|right; intros H; apply H; reflexivity].
Qed.
Lemma some_dec {A} (x : option A) : {x <> None} + {~ x <> None}.
Proof. destruct x; [left; discriminate|right; intros H; apply H; reflexivity]. Qed.
Lemma permitted_dec w c : {permitted w c} + {~ permitted w c}.
Proof.
  destruct c as [ok|h|h k v ok ok_k ok_v|h|h|h i|h i]; cbn; try apply live_dec.
  - left. exact I.
  - destruct h; [|left; left; reflexivity]. destruct (live_dec w (Some n)) as [L|L]; [left; right; exact L|].
    right. intros [|]; [discriminate|contradiction].
  - destruct ok; [|left; discriminate].
    destruct (live_dec w h) as [L|L]; [|right; intros H; apply L; apply H; reflexivity].
    destruct (some_dec k) as [K|K]; [|right; intros H; apply K; apply H; reflexivity].
    destruct (some_dec v) as [V|V]; [|right; intros H; apply V; apply H; reflexivity].
    left. tauto.
Qed.

Lemma call_ok B m w N c :
  inv B m w N -> 0 <= B < 2 ^ 64 - 1 -> permitted w c ->
  exists m' a w' N', do_call m c = Ok (m', a) /\ effect w c a w' /\ inv (B + 1) m' w' N'.
Proof.
  intros I HB P. assert (HB' : B <= B + 1) by lia.
  destruct c as [ok|h|h k v ok ok_k ok_v|h|h|h i|h i]; cbn [permitted] in P; cbn [do_call effect].
  - destruct ok.
    + destruct (new_ok _ _ _ _ I) as (m' & N' & w' & h & E & Wh & C & I'); [lia|]. rewrite E.
      eexists _, _, w', N'. split; [reflexivity|]. split; [exists h; repeat split; assumption|].
      apply (inv_same B (B + 1) m' w' w' N' HB'); [intros y; reflexivity|exact I'].
    + eexists _, _, w, N. split; [reflexivity|]. split; [split; [reflexivity|intros y; reflexivity]|].
      apply (inv_same B (B + 1) m w w N HB'); [intros y; reflexivity|exact I].
  - destruct h as [h|].
    + destruct P as [P|P]; [discriminate|]. cbn in P. destruct (w h) as [l|] eqn:E; [|congruence].
      destruct (free_ok _ _ _ _ _ _ I E) as (m' & N' & w' & E' & C & I'); [lia|]. rewrite E'.
      eexists _, _, w', N'. split; [reflexivity|]. split; [split; [reflexivity|exact C]|].
      apply (inv_same B (B + 1) m' w' w' N' HB'); [intros y; reflexivity|exact I'].
    + eexists _, _, w, N. split; [reflexivity|]. split; [split; [reflexivity|intros y; reflexivity]|].
      apply (inv_same B (B + 1) m w w N HB'); [intros y; reflexivity|exact I].
  - destruct ok.
    + destruct (P eq_refl) as (L & K & V). destruct h as [h|]; [|destruct L]. cbn in L.
      destruct (w h) as [l|] eqn:E; [|congruence]. destruct k as [k|]; [|congruence]. destruct v as [v|]; [|congruence].
      destruct (append_ok B m w N h l k v ok_k ok_v I E) as (m' & N' & w' & E' & C & I'); [lia|]. rewrite E'.
      eexists _, _, w', N'. split; [reflexivity|]. split; [exists l; repeat split; assumption|exact I'].
    + eexists _, _, w, N. split; [reflexivity|]. split.
      { destruct h; split; try reflexivity; intros y; reflexivity. }
      apply (inv_same B (B + 1) m w w N HB'); [intros y; reflexivity|exact I].
  - destruct h as [h|]; [|destruct P]. cbn in P. destruct (w h) as [l|] eqn:E; [|congruence].
    destruct (delete_last_ok _ _ _ _ _ _ I E) as (m' & N' & w' & E' & C & I'); [lia|]. rewrite E'.
    eexists _, _, w', N'. split; [reflexivity|]. split; [exists l; repeat split; assumption|].
    apply (inv_same B (B + 1) m' w' w' N' HB'); [intros y; reflexivity|exact I'].
  - destruct h as [h|]; [|destruct P]. cbn in P. destruct (w h) as [l|] eqn:E; [|congruence].
    unfold list_get_count. rewrite (load_live _ _ _ _ _ _ I E). cbn [bind lcount].
    eexists _, _, w, N. split; [reflexivity|]. split; [exists l; split; [reflexivity|split; [reflexivity|intros y; reflexivity]]|].
    apply (inv_same B (B + 1) m w w N HB'); [intros y; reflexivity|exact I].
  - destruct h as [h|]; [|destruct P]. cbn in P. destruct (w h) as [l|] eqn:E; [|congruence].
    pose proof (element_ok _ _ _ _ _ _ i I E) as G.
    assert (IS : inv (B + 1) m w N) by (apply (inv_same B (B + 1) m w w N HB'); [intros y; reflexivity|exact I]).
    destruct (if i <? Z.of_nat (length l) then nth_error l (Z.to_nat i) else None) as [[x y]|] eqn:G1.
    + destruct G as (k & v & G2 & _ & G3 & G4). rewrite G2. cbn [bind]. rewrite G3, G4. cbn [bind].
      eexists _, _, w, N. split; [reflexivity|]. split; [|exact IS]. exists l. rewrite G1.
      split; [reflexivity|split; [intros z; reflexivity|reflexivity]].
    + destruct G as [G2 _]. rewrite G2. cbn [bind].
      eexists _, _, w, N. split; [reflexivity|]. split; [|exact IS]. exists l. rewrite G1.
      split; [reflexivity|split; [intros z; reflexivity|reflexivity]].
  - destruct h as [h|]; [|destruct P]. cbn in P. destruct (w h) as [l|] eqn:E; [|congruence].
    pose proof (element_ok _ _ _ _ _ _ i I E) as G.
    assert (IS : inv (B + 1) m w N) by (apply (inv_same B (B + 1) m w w N HB'); [intros y; reflexivity|exact I]).
    destruct (if i <? Z.of_nat (length l) then nth_error l (Z.to_nat i) else None) as [[x y]|] eqn:G1.
    + destruct G as (k & v & _ & G2 & G3 & G4). rewrite G2. cbn [bind]. rewrite G4. cbn [bind].
      eexists _, _, w, N. split; [reflexivity|]. split; [|exact IS]. exists l. rewrite G1.
      split; [reflexivity|split; [intros z; reflexivity|reflexivity]].
    + destruct G as [_ G2]. rewrite G2. cbn [bind].
      eexists _, _, w, N. split; [reflexivity|]. split; [|exact IS]. exists l. rewrite G1.
      split; [reflexivity|split; [intros z; reflexivity|reflexivity]].
Qed.

Lemma dead_handle B m w N h : inv B m w N -> ~ live w h -> load_list m h = UB.
Proof.
  intros I L. destruct h as [h|]; [|reflexivity]. apply (load_dead _ _ _ _ _ I).
  cbn in L. destruct (w h); [exfalso; apply L; discriminate|reflexivity].
Qed.
Lemma not_list B m w N h : inv B m w N -> ~ live w h ->
  forall m', (forall x, (x < brk m)%nat -> cells m' x = cells m x) ->
  (forall x c, (brk m <= x)%nat -> cells m' x = Some (CList c) -> False) -> load_list m' h = UB.
Proof.
  intros I L m' H1 H2. pose proof (dead_handle _ _ _ _ _ I L) as D. destruct h as [h|]; [|reflexivity].
  cbn in *. destruct (Nat.lt_ge_cases h (brk m)) as [Hb|Hb]; [rewrite H1 by exact Hb; exact D|].
  destruct (cells m' h) as [[| |]|] eqn:E; try reflexivity. exfalso. exact (H2 h h0 Hb E).
Qed.
Lemma call_bad B m w N c : inv B m w N -> ~ permitted w c -> do_call m c = UB.
Proof.
  intros I P.
  destruct c as [ok|h|h k v ok ok_k ok_v|h|h|h i|h i]; cbn [permitted] in P; cbn [do_call].
  - tauto.
  - destruct h as [h|]; [|tauto]. unfold list_free.
    rewrite (dead_handle _ _ _ _ _ I) by tauto. reflexivity.
  - destruct ok; [|exfalso; apply P; discriminate].
    unfold list_append. cbn [alloc]. cbv zeta beta iota.
    set (m1 := {| cells := _; brk := S (brk m) |}).
    destruct k as [k|]; [|reflexivity].
    destruct (strdup_ok m1 k ok_k) as (m2 & p & E2 & A2 & B2 & C2 & L2 & D2 & _). rewrite E2. cbn [bind].
    destruct v as [v|]; [|reflexivity].
    destruct (strdup_ok m2 v ok_v) as (m3 & q & E3 & A3 & B3 & C3 & L3 & D3 & _). rewrite E3. cbn [bind].
    assert (Bm1 : brk m1 = S (brk m)) by reflexivity.
    rewrite (not_list _ _ _ _ h I).
    + reflexivity.
    + intros L. apply P. intros _. split; [exact L|split; discriminate].
    + intros x Hx. rewrite A3, A2 by lia. apply upd_neq. lia.
    + intros x c Hx Hc.
      destruct (Nat.lt_ge_cases x (brk m2)) as [X2|X2].
      * rewrite A3 in Hc by exact X2. destruct (Nat.eq_dec x (brk m)) as [->|Xa].
        -- rewrite A2 in Hc by lia. unfold m1 in Hc. cbn [cells] in Hc. rewrite upd_eq in Hc. discriminate.
        -- assert (Hin : In x (optl p)) by (apply D2; lia). destruct p as [p|]; [|destruct Hin].
           destruct Hin as [->|[]]. cbn in L2. rewrite Hc in L2. discriminate.
      * destruct (Nat.lt_ge_cases x (brk m3)) as [X3|X3].
        -- assert (Hin : In x (optl q)) by (apply D3; lia). destruct q as [q|]; [|destruct Hin].
           destruct Hin as [->|[]]. cbn in L3. rewrite Hc in L3. discriminate.
        -- rewrite C3, C2 in Hc by lia. unfold m1 in Hc. cbn [cells] in Hc. rewrite upd_neq in Hc by lia.
           rewrite (inv_brk _ _ _ _ I) in Hc by lia. discriminate.
  - unfold list_delete_last. rewrite (dead_handle _ _ _ _ _ I P). reflexivity.
  - unfold list_get_count. rewrite (dead_handle _ _ _ _ _ I P). reflexivity.
  - unfold list_get_element_at. rewrite (dead_handle _ _ _ _ _ I P). reflexivity.
  - unfold list_get_value_at. rewrite (dead_handle _ _ _ _ _ I P). reflexivity.
Qed.

Lemma history_from l : forall B m w N,
  inv B m w N -> 0 <= B -> B + Z.of_nat (length l) < 2 ^ 64 - 1 ->
  match do_calls m l with
  | Ok (m', ans) => exists w' N', history w l ans w' /\ inv (B + Z.of_nat (length l)) m' w' N'
  | Throw _ => False
  | UB => exists pre c post ans w', l = pre ++ c :: post /\ history w pre ans w' /\ ~ permitted w' c
  end.
Proof.
  induction l as [|c l IH]; intros B m w N I HB HL; cbn [do_calls].
  - exists w, N. split; [intros y; reflexivity|]. replace (B + _) with B by (cbn; lia). exact I.
  - cbn [length] in HL. destruct (permitted_dec w c) as [P|P].
    + destruct (call_ok B m w N c I) as (m1 & a & w1 & N1 & E & F & I1); [lia|exact P|].
      rewrite E. cbn [bind]. specialize (IH (B + 1) m1 w1 N1 I1 ltac:(lia) ltac:(lia)).
      destruct (do_calls m1 l) as [[m2 ans]|e|]; cbn [bind].
      * destruct IH as (w' & N' & H & I'). exists w', N'. split.
        -- cbn [history]. split; [exact P|]. exists w1. split; assumption.
        -- replace (B + Z.of_nat (length (c :: l))) with (B + 1 + Z.of_nat (length l)) by (cbn [length]; lia).
           exact I'.
      * exact IH.
      * destruct IH as (pre & c' & post & ans & w' & E1 & H & NP).
        exists (c :: pre), c', post, (a :: ans), w'. split; [rewrite E1; reflexivity|].
        split; [|exact NP]. cbn [history]. split; [exact P|]. exists w1. split; assumption.
    + rewrite (call_bad _ _ _ _ _ I P). cbn [bind]. exists [], c, l, [], w.
      split; [reflexivity|]. split; [intros y; reflexivity|exact P].
Qed.
Lemma inv_empty : inv 0 empty_memory nothing (fun _ => []).
Proof.
  split; cbn; [reflexivity|intros h l; discriminate|intros h1 h2 a H; exfalso; apply H; reflexivity|intros a H; exfalso; apply H; reflexivity].
Qed.

(** Every history of calls, on any number of lists, is answered as if each handle
    named a sequence of pairs; undefined behaviour occurs only where the client
    uses a handle that names no list, or a null string. *)
Theorem C71_history l :
  Z.of_nat (length l) < 2 ^ 64 - 1 ->
  match do_calls empty_memory l with
  | Ok (_, ans) => exists w', history nothing l ans w'
  | Throw _ => False
  | UB => exists pre c post ans w',
            l = pre ++ c :: post /\ history nothing pre ans w' /\ ~ permitted w' c
  end.
Proof.
  intros HL. pose proof (history_from l 0 _ _ _ inv_empty ltac:(lia) ltac:(lia)) as H.
  destruct (do_calls empty_memory l) as [[m ans]|e|]; [|exact H|exact H].
  destruct H as (w' & N' & H & _). exists w'. exact H.
Qed.

(** When every list has been freed, no memory is left allocated. *)
Theorem C71_no_leak l m ans :
  Z.of_nat (length l) < 2 ^ 64 - 1 -> do_calls empty_memory l = Ok (m, ans) ->
  exists w', history nothing l ans w' /\ ((forall h, w' h = None) -> forall a, cells m a = None).
Proof.
  intros HL E. pose proof (history_from l 0 _ _ _ inv_empty ltac:(lia) ltac:(lia)) as H.
  rewrite E in H. destruct H as (w' & N' & H & I'). exists w'. split; [exact H|].
  intros Hn a. destruct (cells m a) as [c|] eqn:Ea; [|reflexivity].
  destruct (inv_all _ _ _ _ I' a) as (h & Hh & _); [congruence|]. specialize (Hn h). congruence.
Qed.

(** append reports success although a string could not be copied; the element then
    has no key. *)
Theorem C71_append_refuted :
  exists l ans w, do_calls empty_memory l = Ok (w, ans) /\
    nth_error l 1 = Some (Append (Some 0%nat) (Some [107]) (Some [118]) true false true) /\
    nth_error ans 1 = Some (Done Success) /\ nth_error ans 2 = Some (Element None (Some [118])).
Proof.
  exists [New true; Append (Some 0%nat) (Some [107]) (Some [118]) true false true; ElementAt (Some 0%nat) 0].
  do 2 eexists. split; [vm_compute; reflexivity|]. repeat split.
Qed.

Example C71_case :
  match do_calls empty_memory
    [New true; Append (Some 0%nat) (Some [1]) (Some [2]) true true true; New true;
     Append (Some 0%nat) (Some [3]) (Some [4]) true true true;
     Append (Some 4%nat) (Some [5]) (Some [6]) true true true;
     ElementAt (Some 0%nat) 1; DeleteLast (Some 0%nat); ElementAt (Some 0%nat) 1; ValueAt (Some 4%nat) 0;
     GetCount (Some 0%nat); Free (Some 0%nat); Free (Some 4%nat)] with
  | Ok (m, ans) => ans = [Handle Success (Some 0%nat); Done Success; Handle Success (Some 4%nat); Done Success;
      Done Success; Element (Some [3]) (Some [4]); Done Success; Done OutOfRangeStatus; Value (Some [6]);
      Count 1; Done Success; Done Success]
      /\ map (cells m) (seq 0 (brk m)) = repeat None (brk m)
  | _ => False
  end.
Proof. vm_compute. split; reflexivity. Qed.

Print Assumptions C71_history.
Print Assumptions C71_no_leak.
Print Assumptions C71_append_refuted.
