(** C82-C84: values that cross the C interface. *)
From Coq Require Import ZArith List Bool Lia Permutation ZifyBool String.
From Verif Require Import Base GroupModel GroupSpec CodecModel BallotModel ContextModel ManifestModel JsonModel SerializeModel
  SerializeSpec HashedProofs FormatSpec DateModel DateSpec DateProofs
  PropGroup PropBallot PropFormat PropSerialize PropDate PropManifest TestParams
  CollModel CollSpec CollProofs PropList FacadeModel FacadeSpec FacadeProofs.
Import ListNotations.
Local Open Scope list_scope.
Local Open Scope Z_scope.
Local Notation length := List.length.

(** * C82 *)
(** Whatever calls on lists came before, contexts made from a list of strings hold the last
    value of each key, and the configuration given or the default one, and the hashes of
    the specification. *)
Theorem C82_made calls m answers gp sha n q pk c mh over max :
  Z.of_nat (length calls) < 2 ^ 64 - 1 -> do_calls empty_memory calls = Ok (m, answers) ->
  valid_params gp -> 0 <= n < 2 ^ 64 -> 0 <= q < 2 ^ 64 -> 0 <= c <= gpQ gp -> 0 <= mh <= gpQ gp ->
  exists w, history nothing calls answers w /\
  exists x, context_for gp sha n q pk c mh x /\
  c_make gp sha n q pk c mh = Ok (Success, Some
    {| fc_context := x; fc_overvotes := true; fc_max_ballots := 1000000; fc_extended := [] |}) /\
  c_make_configured gp sha n q pk c mh (over, max) = Ok (Success, Some
    {| fc_context := x; fc_overvotes := over; fc_max_ballots := max; fc_extended := [] |}) /\
  forall h l, w h = Some (map both l) -> exists ext, last_values l ext /\
  c_make_extended gp sha m n q pk c mh (Some h) = Ok (Success, Some
    {| fc_context := x; fc_overvotes := true; fc_max_ballots := 1000000; fc_extended := ext |}) /\
  c_make_both gp sha m n q pk c mh (over, max) (Some h) = Ok (Success, Some
    {| fc_context := x; fc_overvotes := over; fc_max_ballots := max; fc_extended := ext |}).
Proof.
  intros HL E V Hn Hq Hc Hm. pose proof (history_from calls 0 _ _ _ inv_empty ltac:(lia) ltac:(lia)) as H.
  rewrite E in H. destruct H as (w & N & H & I). exists w. split; [exact H|].
  exists (context_make gp sha n q pk c mh).
  assert (B : 0 <= c < 2 ^ 256 /\ 0 <= mh < 2 ^ 256) by (pose proof (vp_Qhi gp V) as X; change W256 with (2 ^ 256) in X; lia).
  split.
  { destruct (C65_context gp sha n q pk c mh V Hn Hq (proj1 B) (proj2 B)) as [A1 A2].
    unfold context_for. cbv zeta in *. rewrite A1, A2. repeat split; reflexivity. }
  assert (M : forall cfg ext, make_cloned gp sha n q pk c mh cfg ext =
    Ok (full (context_make gp sha n q pk c mh) cfg ext)).
  { intros cfg ext. unfold make_cloned, clone_p, clone_q, make_p, make_q. cbn [Nat.ltb Nat.leb negb andb bind].
    replace (gpQ gp <? c) with false by lia. replace (gpQ gp <? mh) with false by lia. reflexivity. }
  unfold c_make, c_make_configured. rewrite !M. split; [reflexivity|]. split; [reflexivity|].
  intros h l W. exists (set_all [] l). split; [apply set_all_last|].
  unfold c_make_extended, c_make_both. rewrite (read_list_ok _ _ _ _ _ _ I W). cbn [bind]. rewrite !M.
  split; reflexivity.
Qed.
(** A hash above q is refused, whichever function is called, as a failed allocation and without
    a context. *)
Theorem C82_refused calls m answers gp sha n q pk c mh cfg :
  Z.of_nat (length calls) < 2 ^ 64 - 1 -> do_calls empty_memory calls = Ok (m, answers) ->
  gpQ gp < c \/ gpQ gp < mh ->
  exists w, history nothing calls answers w /\
  c_make gp sha n q pk c mh = Ok (BadAllocStatus, None) /\
  c_make_configured gp sha n q pk c mh cfg = Ok (BadAllocStatus, None) /\
  forall h l, w h = Some (map both l) ->
  c_make_extended gp sha m n q pk c mh (Some h) = Ok (BadAllocStatus, None) /\
  c_make_both gp sha m n q pk c mh cfg (Some h) = Ok (BadAllocStatus, None).
Proof.
  intros HL E Big. pose proof (history_from calls 0 _ _ _ inv_empty ltac:(lia) ltac:(lia)) as H.
  rewrite E in H. destruct H as (w & N & H & I). exists w. split; [exact H|].
  assert (M : forall cfg ext, make_cloned gp sha n q pk c mh cfg ext = Throw OutOfRange).
  { intros cfg' ext. unfold make_cloned, clone_p, clone_q, make_p, make_q. cbn [Nat.ltb Nat.leb negb andb bind].
    destruct (Z.ltb_spec (gpQ gp) c); [reflexivity|]. destruct (Z.ltb_spec (gpQ gp) mh); [reflexivity|lia]. }
  unfold c_make, c_make_configured. rewrite !M. split; [reflexivity|]. split; [reflexivity|].
  intros h l W. unfold c_make_extended, c_make_both. rewrite (read_list_ok _ _ _ _ _ _ I W). cbn [bind]. rewrite !M.
  split; reflexivity.
Qed.
(** Reading extended data back, in whatever order the map iterates: a new list with every entry,
    each text up to its first zero byte; all other lists stay as they were and
    everything done with lists afterwards goes as it should. *)
Theorem C82_read calls m answers x entries :
  Z.of_nat (length calls) + Z.of_nat (length entries) < 2 ^ 64 - 1 ->
  do_calls empty_memory calls = Ok (m, answers) -> Permutation (fc_extended x) entries ->
  exists w, history nothing calls answers w /\
  exists m' h w' l, c_get_extended m entries true (fun _ => (true, true, true)) = Ok (m', Success, Some h) /\
  w h = None /\ changed w w' h (Some (map both l)) /\
  Forall2 (fun e e' => visible (fst e) (fst e') /\ visible (snd e) (snd e')) entries l /\
  continues m' w' (2 ^ 64 - 1 - Z.of_nat (length calls) - Z.of_nat (length entries)).
Proof.
  intros HL E _. pose proof (history_from calls 0 _ _ _ inv_empty ltac:(lia) ltac:(lia)) as H.
  rewrite E in H. destruct H as (w & N & H & I). exists w. split; [exact H|].
  destruct (get_extended_ok _ _ _ _ entries (fun _ => (true, true, true)) I) as (m' & h & N' & w' & E' & Wh & C & I'); [lia|lia|].
  destruct (kept_all entries 0%nat) as (l & K & F). rewrite K in C.
  exists m', h, w', l. split; [exact E'|]. split; [exact Wh|]. split; [exact C|]. split; [exact F|].
  apply (continues_inv _ _ _ _ _ I'); lia.
Qed.
(** Without memory for the list itself: reported, no list, and nothing changed. *)
Theorem C82_read_refused m entries oks : c_get_extended m entries false oks = Ok (m, BadAllocStatus, None).
Proof. reflexivity. Qed.
(** So a list with distinct keys passes through a context unchanged, up to order. *)
Theorem C82_round_trip calls m answers gp sha n q pk c mh cfg :
  do_calls empty_memory calls = Ok (m, answers) -> c <= gpQ gp -> mh <= gpQ gp ->
  Z.of_nat (length calls) < 2 ^ 64 - 1 ->
  exists w, history nothing calls answers w /\
  forall h l, w h = Some (map both l) -> Z.of_nat (length calls) + Z.of_nat (length l) < 2 ^ 64 - 1 ->
  NoDup (map fst l) -> (forall k v, In (k, v) l -> no_zero k /\ no_zero v) ->
  exists x, c_make_both gp sha m n q pk c mh cfg (Some h) = Ok (Success, Some x) /\
  forall entries, Permutation (fc_extended x) entries ->
  exists m' h' w', c_get_extended m entries true (fun _ => (true, true, true)) = Ok (m', Success, Some h') /\
  w h' = None /\ changed w w' h' (Some (map both entries)) /\ Permutation l entries.
Proof.
  intros E Hc Hm HL. pose proof (history_from calls 0 _ _ _ inv_empty ltac:(lia) ltac:(lia)) as H.
  rewrite E in H. destruct H as (w & N & H & I). exists w. split; [exact H|].
  intros h l W Room ND NZ.
  assert (M : forall cfg ext, make_cloned gp sha n q pk c mh cfg ext =
    Ok (full (context_make gp sha n q pk c mh) cfg ext)).
  { intros cfg' ext. unfold make_cloned, clone_p, clone_q, make_p, make_q. cbn [Nat.ltb Nat.leb negb andb bind].
    replace (gpQ gp <? c) with false by lia. replace (gpQ gp <? mh) with false by lia. reflexivity. }
  eexists. split.
  { unfold c_make_both. rewrite (read_list_ok _ _ _ _ _ _ I W). cbn [bind]. rewrite M. reflexivity. }
  cbn [full fc_extended]. intros entries P.
  pose proof (last_values_distinct l _ ND (set_all_last l)) as P'.
  pose proof (perm_trans P' P) as PE. pose proof (Permutation_length PE) as LE.
  destruct (get_extended_ok _ _ _ _ entries (fun _ => (true, true, true)) I) as (m' & h' & N' & w' & E' & Wh & C & I'); [lia|lia|].
  destruct (kept_all entries 0%nat) as (l' & K & F). rewrite K in C.
  assert (l' = entries).
  { assert (NZ' : forall e, In e entries -> no_zero (fst e) /\ no_zero (snd e)).
    { intros [k v] X. apply (NZ k v). apply (Permutation_in _ (Permutation_sym PE) X). }
    clear - F NZ'. induction F as [|[k v] [k' v'] l l' [V1 V2] F IH]; [reflexivity|].
    destruct (NZ' (k, v) (or_introl eq_refl)) as [Z1 Z2]. cbn [fst snd] in *.
    rewrite (visible_unique k _ _ V1 (visible_id k Z1)), (visible_unique v _ _ V2 (visible_id v Z2)).
    rewrite IH; [reflexivity|]. intros e X. apply NZ'. right. exact X. }
  subst l'. exists m', h', w'. split; [exact E'|]. split; [exact Wh|]. split; [exact C|exact PE].
Qed.
(** Hexadecimal arguments: the same context as from the elements. *)
Theorem C82_hex gp sha n q pk c mh :
  0 < pk < 2 ^ 4096 -> pk <= gpP gp -> 0 < c < 2 ^ 256 -> c <= gpQ gp -> 0 < mh < 2 ^ 256 -> mh <= gpQ gp ->
  c_make_hex gp sha n q (to_hex_p pk) (to_hex_q c) (to_hex_q mh) = c_make gp sha n q pk c mh.
Proof.
  intros. unfold c_make_hex, c_make. rewrite C57_hex_partial by assumption. cbn [bind].
  unfold make_cloned, clone_p, clone_q, make_p, make_q. cbn [Nat.ltb Nat.leb negb andb bind].
  replace (gpQ gp <? c) with false by lia. replace (gpQ gp <? mh) with false by lia. reflexivity.
Qed.
(** The function that takes hexadecimal arguments and extended data reads the list and makes the
    context without it. *)
Theorem C82_hex_dropped_refuted calls m answers gp sha n q pk c mh :
  Z.of_nat (length calls) < 2 ^ 64 - 1 -> do_calls empty_memory calls = Ok (m, answers) ->
  exists w, history nothing calls answers w /\ forall h l, w h = Some (map both l) ->
  c_make_hex_extended gp sha m n q pk c mh (Some h) = c_make_hex gp sha n q pk c mh /\
  forall s x, c_make_hex_extended gp sha m n q pk c mh (Some h) = Ok (s, Some x) -> fc_extended x = [].
Proof.
  intros HL E. pose proof (history_from calls 0 _ _ _ inv_empty ltac:(lia) ltac:(lia)) as H.
  rewrite E in H. destruct H as (w & N & H & I). exists w. split; [exact H|].
  intros h l W. unfold c_make_hex_extended. rewrite (read_list_ok _ _ _ _ _ _ I W). cbn [bind].
  split; [reflexivity|]. intros s x. unfold c_make_hex.
  destruct (context_make_hex gp sha n q pk c mh); cbn [bind wrap]; intros X; try discriminate X.
  injection X as _ <-. reflexivity.
Qed.
Definition one_entry : list call := [New true; Append (Some 0%nat) (Some (s2b "county")) (Some (s2b "7")) true true true].
Definition memory_of (calls : list call) : memory :=
  match do_calls empty_memory calls with Ok (m, _) => m | _ => empty_memory end.
Theorem C82_hex_refuted : exists x,
  c_make_hex_extended test_params toy_sha (memory_of one_entry) 3 2 (to_hex_p 5) (to_hex_q 6) (to_hex_q 7) (Some 0%nat)
    = Ok (Success, Some x) /\ fc_extended x = [] /\
  match do_call (memory_of one_entry) (GetCount (Some 0%nat)) with Ok (_, a) => a = Count 1 | _ => False end.
Proof. eexists. split; [vm_compute; reflexivity|]. split; vm_compute; reflexivity. Qed.
(** A failed allocation while extended data is read back is not reported: the entry is
    missing, or has no key. *)
Theorem C82_allocation_refuted : exists m1 h1 m2 h2,
  let entries := [(s2b "a", s2b "1"); (s2b "b", s2b "2")] in
  c_get_extended empty_memory entries true (fun i => match i with 0%nat => (false, true, true) | _ => (true, true, true) end)
    = Ok (m1, Success, Some h1) /\
  c_get_extended empty_memory entries true (fun i => match i with 0%nat => (true, false, true) | _ => (true, true, true) end)
    = Ok (m2, Success, Some h2) /\
  match do_calls m1 [GetCount (Some h1); ElementAt (Some h1) 0], do_calls m2 [GetCount (Some h2); ElementAt (Some h2) 0] with
  | Ok (_, a1), Ok (_, a2) => a1 = [Count 1; Element (Some (s2b "b")) (Some (s2b "2"))] /\
                              a2 = [Count 2; Element None (Some (s2b "1"))]
  | _, _ => False
  end.
Proof. do 4 eexists. cbv zeta. split; [vm_compute; reflexivity|]. split; [vm_compute; reflexivity|]. vm_compute. split; reflexivity. Qed.
(** A list with such an element crashes the functions that read it. *)
Theorem C82_null_refuted : exists calls m answers,
  do_calls empty_memory calls = Ok (m, answers) /\ ~ In (Done BadAllocStatus) answers /\
  c_make_extended test_params toy_sha m 3 2 5 6 7 (Some 0%nat) = UB.
Proof.
  exists [New true; Append (Some 0%nat) (Some [107]) (Some [118]) true false true].
  do 2 eexists. split; [vm_compute; reflexivity|]. split; [|vm_compute; reflexivity].
  intros [H|[H|[]]]; discriminate H.
Qed.
(** Keys that differ only after a zero byte, as a document can hold them, become equal. *)
Theorem C82_zero_refuted : exists entries m h,
  NoDup (map fst entries) /\
  c_get_extended empty_memory entries true (fun _ => (true, true, true)) = Ok (m, Success, Some h) /\
  match do_calls m [ElementAt (Some h) 0; ElementAt (Some h) 1] with
  | Ok (_, a) => a = [Element (Some [107]) (Some [1]); Element (Some [107]) (Some [2])]
  | _ => False
  end.
Proof.
  exists [([107; 0; 1], [1]); ([107; 0; 2], [2])]. do 2 eexists.
  split; [repeat constructor; cbn; intuition discriminate|]. split; vm_compute; reflexivity.
Qed.
(** "Must be less than number_of_guardians" (election.h:112) is not checked. *)
Theorem C82_quorum_refuted : exists n q x, n < q /\
  c_make test_params toy_sha n q 5 6 7 = Ok (Success, Some x) /\ el_quorum (fc_context x) = q.
Proof. exists 2, 3. eexists. split; [lia|]. split; vm_compute; reflexivity. Qed.

(** The lists, a context from one with a repeated key, and the entries read back. *)
Definition three_entries : list call :=
  [New true; Append (Some 0%nat) (Some (s2b "a")) (Some (s2b "1")) true true true;
   Append (Some 0%nat) (Some (s2b "b")) (Some (s2b "2")) true true true;
   Append (Some 0%nat) (Some (s2b "a")) (Some (s2b "3")) true true true].
Example C82_case : exists x,
  c_make_both test_params toy_sha (memory_of three_entries) 3 2 5 6 7 (false, 50) (Some 0%nat) = Ok (Success, Some x) /\
  fc_overvotes x = false /\ fc_max_ballots x = 50 /\ fc_extended x = [(s2b "a", s2b "3"); (s2b "b", s2b "2")] /\
  match c_get_extended (memory_of three_entries) (fc_extended x) true (fun _ => (true, true, true)) with
  | Ok (m, s, Some h) =>
      match do_calls m [GetCount (Some 0%nat); GetCount (Some h); ElementAt (Some h) 1; ElementAt (Some 0%nat) 2] with
      | Ok (_, a) => a = [Count 3; Count 2; Element (Some (s2b "b")) (Some (s2b "2")); Element (Some (s2b "a")) (Some (s2b "3"))]
      | _ => False
      end
  | _ => False
  end.
Proof. eexists. split; [vm_compute; reflexivity|]. vm_compute. repeat split; reflexivity. Qed.

(** * C83 *)
Lemma signed64_ms x t : milliseconds x t -> signed64 x = t.
Proof.
  intros (Hx & Ht & E). unfold signed64. apply Z.mod_divide in E; [|lia]. destruct E as [k E].
  change (2 ^ 64) with (2 * 2 ^ 63) in *. destruct (Z.ltb_spec x (2 ^ 63)); nia.
Qed.
Lemma clock_div den : clock den -> exists k, den = 1000 * k /\ den / 1000 = k /\ 0 < k.
Proof.
  intros [-> | [-> | ->]]; eexists; (split; [|split; [vm_compute; reflexivity|vm_compute; reflexivity]]); reflexivity.
Qed.
(** A manifest is made exactly if the clock can hold its dates, and then holds these instants. *)
Theorem C83_made den x s e s' e' : clock den -> milliseconds s s' -> milliseconds e e' ->
  ((exists m, c_manifest_new den x s e = Ok m) <->
   (time_point (s' * (den / 1000)) /\ time_point (e' * (den / 1000)))) /\
  (forall m, c_manifest_new den x s e = Ok m ->
     1000 * mf_start m = s' * den /\ 1000 * mf_end m = e' * den /\
     mf_scope m = mf_scope x /\ mf_contests m = mf_contests x /\ mf_styles m = mf_styles x).
Proof.
  intros D S E. destruct (clock_div den D) as (k & -> & K & Hk). unfold c_manifest_new, date_in, time_point.
  rewrite (signed64_ms _ _ S), (signed64_ms _ _ E), K. split.
  - split.
    + intros [m H].
      destruct (Z.leb_spec (- 2 ^ 63) (s' * k)), (Z.ltb_spec (s' * k) (2 ^ 63)); cbn [andb bind] in H; try discriminate H.
      destruct (Z.leb_spec (- 2 ^ 63) (e' * k)), (Z.ltb_spec (e' * k) (2 ^ 63)); cbn [andb bind] in H; try discriminate H.
      lia.
    + intros [A B]. replace ((- 2 ^ 63 <=? s' * k) && (s' * k <? 2 ^ 63)) with true by lia.
      replace ((- 2 ^ 63 <=? e' * k) && (e' * k <? 2 ^ 63)) with true by lia. eexists. reflexivity.
  - intros m H. destruct ((- 2 ^ 63 <=? s' * k) && (s' * k <? 2 ^ 63)); [|discriminate H].
    destruct ((- 2 ^ 63 <=? e' * k) && (e' * k <? 2 ^ 63)); [|discriminate H].
    cbn [bind] in H. injection H as <-. cbn [mf_start mf_end mf_scope mf_contests mf_styles]. split; [ring|]. split; [ring|]. split; [reflexivity|]. split; reflexivity.
Qed.
(** What is read back is not the milliseconds given but whole seconds. *)
Theorem C83_seconds_partial den x s e s' e' m : clock den -> milliseconds s s' -> milliseconds e e' ->
  c_manifest_new den x s e = Ok m ->
  c_start_date den m = Z.quot s' 1000 mod 2 ^ 64 /\ c_end_date den m = Z.quot e' 1000 mod 2 ^ 64.
Proof.
  intros D S E H. destruct (proj2 (C83_made den x s e s' e' D S E) m H) as (A & B & _).
  destruct (clock_div den D) as (k & -> & K & Hk). unfold c_start_date, c_end_date, date_out.
  assert (A' : mf_start m = s' * k) by nia. assert (B' : mf_end m = e' * k) by nia. rewrite A', B', !Z.mul_1_r.
  rewrite !(Z.mul_comm 1000 k), !(Z.mul_comm _ k), !Z.quot_mul_cancel_l by lia. split; reflexivity.
Qed.
(** So no date but the beginning of 1970 is read back as it was given. *)
Theorem C83_dates_refuted den x s e m : clock den -> 0 <= s < 2 ^ 63 -> 0 <= e < 2 ^ 63 ->
  c_manifest_new den x s e = Ok m -> (c_start_date den m = s <-> s = 0) /\ (c_end_date den m = e <-> e = 0).
Proof.
  intros D S E H.
  assert (MS : forall z, 0 <= z < 2 ^ 63 -> milliseconds z z).
  { intros z Hz. unfold milliseconds. rewrite Z.sub_diag. change (2 ^ 64) with (2 * 2 ^ 63). repeat split; try lia; apply Z.mod_0_l; lia. }
  destruct (C83_seconds_partial den x s e s e m D (MS s S) (MS e E) H) as [A B]. rewrite A, B.
  assert (Q : forall z, 0 <= z < 2 ^ 63 -> (Z.quot z 1000 mod 2 ^ 64 = z <-> z = 0)).
  { intros z Hz. rewrite Z.quot_div_nonneg by lia. pose proof (Z.div_mod z 1000 ltac:(lia)). pose proof (Z.mod_pos_bound z 1000 ltac:(lia)).
    rewrite Z.mod_small by (change (2 ^ 64) with (2 * 2 ^ 63); split; [apply Z.div_pos; lia|apply Z.div_lt_upper_bound; lia]).
    lia. }
  split; apply Q; assumption.
Qed.
(** Documents are right: with the clock of libstdc++, the text in a document is the date and time in
    Greenwich of the milliseconds given, without their fraction of a second; and the
    manifest read from it answers as the one written. *)
Theorem C83_document x s e s' e' m : milliseconds s s' -> milliseconds e e' ->
  c_manifest_new 1000000000 x s e = Ok m ->
  (exists d h mi sec, instant d h mi sec 0 (Z.quot s' 1000) /\
     jidx (manifest_to_json fmt_date m) (s2b "start_date") = Ok (JStr (local_text d h mi sec ++ s2b "Z"))) /\
  (exists d h mi sec, instant d h mi sec 0 (Z.quot e' 1000) /\
     jidx (manifest_to_json fmt_date m) (s2b "end_date") = Ok (JStr (local_text d h mi sec ++ s2b "Z"))) /\
  forall dump parse t, faithful dump parse -> forallb contest_u64 (mf_contests x) = true ->
  to_text dump (fun m => Ok (manifest_to_json fmt_date m)) m = Ok t ->
  exists m', of_text parse (manifest_of_json scan_date) t = Ok m' /\
    c_start_date 1000000000 m' = c_start_date 1000000000 m /\ c_end_date 1000000000 m' = c_end_date 1000000000 m.
Proof.
  intros S E H. assert (D : clock 1000000000) by (left; reflexivity).
  destruct (C83_made _ x s e s' e' D S E) as [X1 X2]. destruct (X2 m H) as (A & B & _ & CC & _).
  destruct (proj1 X1 (ex_intro _ m H)) as [TS TE]. change (1000000000 / 1000) with 1000000 in *.
  assert (A' : mf_start m = s' * 1000000) by lia. assert (B' : mf_end m = e' * 1000000) by lia.
  rewrite <- A' in TS. rewrite <- B' in TE.
  assert (Q : forall z, Z.quot (z * 1000000) 1000000000 = Z.quot z 1000).
  { intros z. change 1000000000 with (1000 * 1000000). apply Z.quot_mul_cancel_r; lia. }
  split; [|split].
  - destruct (C73_written _ TS) as (d & h & mi & sec & I & T). exists d, h, mi, sec. rewrite A', Q in I.
    split; [exact I|]. rewrite <- T. unfold manifest_to_json. destruct (mf_name m), (mf_contact m); reflexivity.
  - destruct (C73_written _ TE) as (d & h & mi & sec & I & T). exists d, h, mi, sec. rewrite B', Q in I.
    split; [exact I|]. rewrite <- T. unfold manifest_to_json. destruct (mf_name m), (mf_contact m); reflexivity.
  - intros dump parse t F U W.
    assert (R : manifest_in_range m = true).
    { unfold manifest_in_range, ticks. rewrite CC, U. unfold time_point in TS, TE. lia. }
    destruct (C67_manifest dump parse fmt_date scan_date m t F R) as (m' & O & MR & _); [|exact W|].
    { intros t0 [-> | ->]; apply scan_fmt; assumption. }
    exists m'. split; [exact O|]. destruct MR as (_ & _ & M1 & M2 & _).
    unfold c_start_date, c_end_date, date_out. rewrite M1, M2, !Z.mul_1_r, !Z.quot_mul by lia. split; reflexivity.
Qed.
(** 4 February 2021, 13:30:10.5: in the document as it should be, read back as a moment of
    January 1970 if taken as the milliseconds it was given in. *)
Example C83_case : exists m,
  c_manifest_new 1000000000 sample 1612445410500 1612531810500 = Ok m /\
  jidx (manifest_to_json fmt_date m) (s2b "start_date") = Ok (JStr (s2b "2021-02-04T13:30:10Z")) /\
  c_start_date 1000000000 m = 1612445410 /\
  exists m', c_manifest_new 1000000000 sample (c_start_date 1000000000 m) (c_end_date 1000000000 m) = Ok m' /\
  jidx (manifest_to_json fmt_date m') (s2b "start_date") = Ok (JStr (s2b "1970-01-19T15:54:05Z")).
Proof.
  eexists. split; [vm_compute; reflexivity|]. split; [vm_compute; reflexivity|]. split; [vm_compute; reflexivity|].
  eexists. split; [vm_compute; reflexivity|]. vm_compute. reflexivity.
Qed.

(** * C84 *)
(** Texts handed out by the library: an array of the size reported, which shows the text up to
    its first zero byte and then only zeroes; so the client sees the text exactly if it has none. *)
Theorem C84_text s buffer size : text_out s true = Ok (buffer, size) ->
  size = Z.of_nat (length s) + 1 /\ size = Z.of_nat (length buffer) /\
  exists t, visible s t /\ text_in (Some buffer) = Ok t /\ (t = s <-> no_zero s) /\
    exists zeroes, buffer = t ++ zeroes /\ Forall (fun b => b = 0) zeroes.
Proof.
  unfold text_out. intros H. apply Ok_inj in H. symmetry in H.
  pose proof (f_equal fst H) as Hb. pose proof (f_equal snd H) as Hs. cbn [fst snd] in Hb, Hs. subst buffer size.
  rewrite strncpy_length. split; [lia|]. split; [reflexivity|].
  destruct (visible_exists s) as [t V]. exists t. split; [exact V|]. cbn [text_in].
  rewrite (read_copy _ s t V) by lia. split; [reflexivity|]. split; [split|].
  - intros ->. exact (proj1 V).
  - intros NZ. exact (visible_unique s _ _ V (visible_id s NZ)).
  - rewrite (strncpy_shape _ s t V) by lia. eexists. split; [reflexivity|]. apply Forall_forall.
    intros b Hb. apply repeat_spec in Hb. exact Hb.
Qed.
(** Byte arrays pass unchanged both ways; a size beyond the array is undefined. *)
Theorem C84_bytes l : exists size, bytes_out l true = Ok (l, size) /\ size = Z.of_nat (length l) /\
  bytes_in l size = Ok l /\ (forall n, 0 <= n <= size -> exists rest, bytes_in l n = Ok (firstn (Z.to_nat n) l) /\ l = firstn (Z.to_nat n) l ++ rest) /\
  (forall n, size < n -> bytes_in l n = UB).
Proof.
  exists (Z.of_nat (length l)). split; [reflexivity|]. split; [reflexivity|]. unfold bytes_in. split.
  { rewrite Z.leb_refl, Nat2Z.id, firstn_all. reflexivity. }
  split.
  - intros n Hn. exists (skipn (Z.to_nat n) l). replace (n <=? Z.of_nat (length l)) with true by lia.
    split; [reflexivity|]. symmetry. apply firstn_skipn.
  - intros n Hn. replace (n <=? Z.of_nat (length l)) with false by lia. reflexivity.
Qed.
(** Documents without zero bytes written by the C interface are read by it as the library reads them. *)
Theorem C84_document {A} dump parse (f : A -> outcome json) (g : json -> outcome A) x j s :
  faithful dump parse -> f x = Ok j -> dump j = Ok s -> no_zero s ->
  exists buffer size, c_to_json dump f x true = Ok (Success, Some (buffer, size)) /\
  size = Z.of_nat (length buffer) /\ c_from_json parse g (Some buffer) = wrap (g j).
Proof.
  intros F E D NZ. unfold c_to_json, c_from_json, to_text, text_out. rewrite E. cbn [bind]. rewrite D. cbn [bind wrap].
  do 2 eexists. split; [reflexivity|]. split; [rewrite strncpy_length; reflexivity|].
  cbn [text_in]. rewrite (read_copy _ s s (visible_id s NZ)) by lia. cbn [bind]. unfold of_text. rewrite (F _ _ D). reflexivity.
Qed.
(** Ballots of voters made by C calls hold the texts shown and the votes given, and come back
    from their documents; they have no write-ins. *)
Theorem C84_ballot dump parse id style cs b s :
  faithful dump parse ->
  c_ballot_new (Some (c_str id)) (Some (c_str style)) cs = Ok b -> no_zero id -> no_zero style -> votes_fit b ->
  dump (pballot_to_json b) = Ok s -> no_zero s ->
  pb_id b = id /\ pb_style b = style /\ pb_contests b = cs /\
  exists buffer size, c_to_json dump (fun b => Ok (pballot_to_json b)) b true = Ok (Success, Some (buffer, size)) /\
  c_from_json parse pballot_of_json (Some buffer) = Ok (Success, Some b).
Proof.
  intros F H N1 N2 V D NZ. unfold c_ballot_new in H. cbn [text_in] in H.
  rewrite (read_c_str id id (visible_id id N1)), (read_c_str style style (visible_id style N2)) in H. cbn [bind] in H.
  injection H as <-. cbn [pb_id pb_style pb_contests]. split; [reflexivity|]. split; [reflexivity|]. split; [reflexivity|].
  destruct (C84_document dump parse (fun b => Ok (pballot_to_json b)) pballot_of_json _ _ s F eq_refl D NZ) as (buffer & size & A & _ & B).
  exists buffer, size. split; [exact A|]. rewrite B.
  pose proof (C55_plaintext dump parse _ s F V D) as R. unfold of_text in R. rewrite (F _ _ D) in R. cbn [bind] in R.
  rewrite R. reflexivity.
Qed.
Theorem C84_parts id vote ph l : no_zero id ->
  c_selection_new (Some (c_str id)) vote ph = Ok {| ps_id := id; ps_vote := vote; ps_placeholder := ph; ps_writein := [] |} /\
  c_contest_new (Some (c_str id)) l = Ok {| pc_id := id; pc_selections := l |}.
Proof.
  intros N. unfold c_selection_new, c_contest_new. cbn [text_in]. rewrite (read_c_str id id (visible_id id N)).
  split; reflexivity.
Qed.
(** Texts with a zero byte are cut, though the size says otherwise. *)
Theorem C84_zero_refuted : exists s buffer size,
  text_out s true = Ok (buffer, size) /\ text_in (Some buffer) = Ok [97] /\ s = [97; 0; 98] /\ size = 4.
Proof. do 3 eexists. split; [|split; [|split; reflexivity]]; vm_compute; reflexivity. Qed.
(** A failed allocation of a text is not reported but undefined, that of a byte array is reported. *)
Theorem C84_allocation_refuted s l : text_out s false = UB /\ wrap (bytes_out l false) = Ok (BadAllocStatus, None).
Proof. split; reflexivity. Qed.
(** The length of extended data need not be that of its value. *)
Theorem C84_extended_refuted : exists value n d,
  c_extended_new (Some (c_str value)) n = Ok d /\ xd_value d = value /\ xd_length d = n /\ n <> Z.of_nat (length value).
Proof. exists (s2b "abc"), 99. eexists. split; [vm_compute; reflexivity|]. split; [vm_compute; reflexivity|]. split; [reflexivity|]. vm_compute. discriminate. Qed.

(** A ballot made, written and read through the C interface, with a writer that escapes zeroes. *)
Definition lifted_dump (j : json) : outcome bytes := do s <- sample_dump j; Ok (map (fun b => b + 1) s).
Definition lowered_parse (s : bytes) : outcome json := sample_parse (map (fun b => b - 1) s).
Lemma lifted_faithful : faithful lifted_dump lowered_parse.
Proof.
  intros j s E. unfold lifted_dump in E. destruct (sample_dump j) as [t| |] eqn:D; cbn [bind] in E; try discriminate E.
  injection E as <-. unfold lowered_parse. rewrite map_map.
  rewrite (map_ext _ (fun b => b)) by (intros; lia). rewrite map_id. exact (sample_faithful j t D).
Qed.
Definition c_ballot : outcome pballot :=
  do a <- c_selection_new (Some (c_str (s2b "s-a"))) 1 false;
  do b <- c_selection_new (Some (c_str (s2b "s-b"))) 0 false;
  do c <- c_contest_new (Some (c_str (s2b "mayor"))) [a; b];
  c_ballot_new (Some (c_str (s2b "ballot-1"))) (Some (c_str (s2b "full"))) [c].
Example C84_case : exists b buffer size,
  c_ballot = Ok b /\ c_to_json lifted_dump (fun b => Ok (pballot_to_json b)) b true = Ok (Success, Some (buffer, size)) /\
  c_from_json lowered_parse pballot_of_json (Some buffer) = Ok (Success, Some b) /\
  existsb (Z.eqb 0) (removelast buffer) = false /\
  map ps_vote (concat (map pc_selections (pb_contests b))) = [1; 0].
Proof.
  do 3 eexists. split; [vm_compute; reflexivity|]. split; [vm_compute; reflexivity|]. split; [vm_compute; reflexivity|].
  split; vm_compute; reflexivity.
Qed.

Print Assumptions C82_made.
Print Assumptions C82_refused.
Print Assumptions C82_read.
Print Assumptions C82_round_trip.
Print Assumptions C82_hex.
Print Assumptions C82_hex_dropped_refuted.
Print Assumptions C82_hex_refuted.
Print Assumptions C82_allocation_refuted.
Print Assumptions C82_null_refuted.
Print Assumptions C82_zero_refuted.
Print Assumptions C82_quorum_refuted.
Print Assumptions C83_made.
Print Assumptions C83_seconds_partial.
Print Assumptions C83_dates_refuted.
Print Assumptions C83_document.
Print Assumptions C84_text.
Print Assumptions C84_bytes.
Print Assumptions C84_document.
Print Assumptions C84_ballot.
Print Assumptions C84_parts.
Print Assumptions C84_zero_refuted.
Print Assumptions C84_allocation_refuted.
Print Assumptions C84_extended_refuted.
Print Assumptions C82_read_refused.
