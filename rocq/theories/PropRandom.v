(** Property C70: the random generator is the HMAC_DRBG of SP 800-90A. *)
From Verif Require Import Base ConstModel StdParams GroupModel GroupSpec GroupProofs GroupExtra CodecModel CodecProofs
  Sha2Model Sha2Spec Sha2Proofs Sha2Proofs2 Sha2Hash DrbgModel DrbgSpec DrbgProofs TestParams.
From Coq Require Import ZifyBool.
Open Scope Z_scope.

(** The answers the standard prescribes for a sequence of calls. *)
Fixpoint answers (s : working) (l : list request) : list (option bytes) :=
  match l with
  | [] => []
  | Gen output addl :: t =>
      match Generate s (length output) addl with
      | None => None :: answers s t
      | Some (o, s') => Some o :: answers s' t
      end
  | Res entropy addl :: t => answers (Reseed s entropy addl) t
  end.
Definition fair (r : request) : Prop :=
  match r with
  | Gen output addl => is_bytes addl /\ Z.of_nat (length addl) + 33 < 2 ^ 32
                       /\ Z.of_nat (length output) < 2 ^ 32
  | Res entropy addl => is_bytes entropy /\ is_bytes addl /\
                        Z.of_nat (length entropy) + Z.of_nat (length addl) + 33 < 2 ^ 32
  end.

Lemma run_ok l st s : same st s -> Forall fair l -> drbg_run st l = Ok (answers s l).
Proof.
  revert st s. induction l as [|r l IH]; intros st s H F; [reflexivity|].
  inversion_clear F as [|? ? Fr Fl]. destruct r as [output addl|entropy addl]; cbn [drbg_run answers].
  - destruct Fr as (B & L1 & L2).
    pose proof (generate_ok st s output addl H B L1 L2) as G.
    destruct (Generate s (length output) addl) as [[o s']|].
    + destruct G as (st' & E & H' & _). rewrite E. cbn [bind].
      rewrite (IH st' s' H' Fl). reflexivity.
    + rewrite G. cbn [bind]. rewrite (IH st s H Fl). reflexivity.
  - destruct Fr as (B1 & B2 & L).
    destruct (reseed_ok st s entropy addl H B1 B2 L) as (st' & E & H'). rewrite E. cbn [bind].
    apply IH; assumption.
Qed.

(** Whatever was done with a state before, after instantiation every sequence of
    generate and reseed calls is answered as the standard says. *)
Theorem C70_history st entropy nonce pers l :
  is_bytes entropy -> is_bytes nonce -> is_bytes pers ->
  Z.of_nat (length entropy) + Z.of_nat (length nonce) + Z.of_nat (length pers) + 33 < 2 ^ 32 ->
  Forall fair l ->
  exists st', drbg_instantiate st entropy nonce pers = Ok st' /\
              drbg_run st' l = Ok (answers (Instantiate entropy nonce pers) l).
Proof.
  intros B1 B2 B3 L F.
  destruct (instantiate_ok st entropy nonce pers B1 B2 B3 L) as (st' & E & H).
  exists st'. split; [exact E|]. apply run_ok; assumption.
Qed.

(** Each answered request has the number of bytes asked for. *)
Theorem C70_lengths l s i o addl :
  nth_error l i = Some (Gen o addl) ->
  (forall e a, ~ In (Res e a) l) ->
  match nth_error (answers s l) i with
  | Some (Some r) => length r = length o /\ is_bytes r
  | Some None => True
  | None => False
  end.
Proof.
  revert s i. induction l as [|r l IH]; intros s i E N; [destruct i; discriminate|].
  destruct r as [o' a'|e a]; [|exfalso; apply (N e a); left; reflexivity].
  assert (N' : forall e a, ~ In (Res e a) l) by (intros e a H; apply (N e a); right; exact H).
  cbn [answers]. destruct (Generate s (length o') a') as [[r s']|] eqn:G.
  - destruct i as [|i]; [|exact (IH s' i E N')]. cbn in E. injection E as -> ->.
    cbn [nth_error]. unfold Generate in G. destruct (reseed_counter s >? 1024); [discriminate|].
    destruct (match addl with [] => _ | _ => _ end) as [k0 v0].
    destruct (Update addl k0 _) as [k1 v1]. injection G as <- _. split.
    + rewrite firstn_length, (concat_blocks _ (chain_blocks _ _ _)), chain_length.
      unfold blocks. pose proof (Nat.div_mod (length o + 31) 32 ltac:(lia)).
      pose proof (Nat.mod_upper_bound (length o + 31) 32 ltac:(lia)). lia.
    + apply is_bytes_firstn. pose proof (chain_blocks (blocks (length o)) k0 v0) as HB.
      induction HB as [|x y Hx _ IHB]; [constructor|]. cbn [concat].
      apply Forall_app. split; [exact (proj2 Hx)|exact IHB].
  - destruct i as [|i]; [exact I|exact (IH s i E N')].
Qed.

(** Without reseeding, exactly the first 1024 requests after instantiation are answered. *)
Theorem C70_exhaustion entropy nonce pers l i :
  (forall e a, ~ In (Res e a) l) -> (i < length l)%nat ->
  (exists r, nth_error (answers (Instantiate entropy nonce pers) l) i = Some r /\
             (r <> None <-> (i < 1024)%nat)).
Proof.
  intros N Hi.
  assert (G : forall l s i, (forall e a, ~ In (Res e a) l) -> (i < length l)%nat -> 1 <= reseed_counter s <= 1025 ->
    exists r, nth_error (answers s l) i = Some r /\
              (r <> None <-> (Z.of_nat i + reseed_counter s <= 1024))).
  { clear. induction l as [|r l IH]; intros s i N Hi Hc; [cbn in Hi; lia|].
    destruct r as [o a|e a]; [|exfalso; apply (N e a); left; reflexivity].
    assert (N' : forall e a, ~ In (Res e a) l) by (intros e' a' H; apply (N e' a'); right; exact H).
    cbn [answers length] in *. unfold Generate.
    destruct (reseed_counter s >? 1024) eqn:E.
    - destruct i as [|i].
      + exists None. split; [reflexivity|]. split; [congruence|lia].
      + cbn [nth_error]. destruct (IH s i N') as (r & E1 & E2); [lia|lia|].
        exists r. split; [exact E1|]. rewrite E2. lia.
    - destruct (match a with [] => _ | _ => _ end) as [k0 v0].
      destruct (Update a k0 _) as [k1 v1].
      destruct i as [|i].
      + eexists. split; [reflexivity|]. split; [intros _; lia|discriminate].
      + cbn [nth_error].
        match goal with |- context [answers ?s' l] => destruct (IH s' i N') as (r & E1 & E2) end;
          [lia|cbn [reseed_counter]; lia|].
        exists r. split; [exact E1|]. rewrite E2. cbn [reseed_counter]. lia. }
  destruct (G l (Instantiate entropy nonce pers) i N Hi) as (r & E1 & E2).
  - unfold Instantiate. destruct (Update _ _ _). cbn [reseed_counter]. lia.
  - exists r. split; [exact E1|]. rewrite E2.
    unfold Instantiate. destruct (Update _ _ _). cbn [reseed_counter]. lia.
Qed.

(** Random::getBytes: for every size in bytes, every draw of the operating system of the
    sizes it asks for and every clock text, exactly [size] bytes of one fresh generator;
    what the output array held before does not matter. *)
Theorem C70_get_bytes size entropy nonce input time garbage :
  Z.of_nat (length entropy) = 2 * size -> Z.of_nat (length nonce) = size ->
  Z.of_nat (length input) = size -> Z.of_nat (length garbage) = size ->
  Z.of_nat (length time) < 65536 -> 0 <= size < 65536 ->
  is_bytes entropy -> is_bytes nonce -> is_bytes input -> is_bytes time ->
  exists out s',
    random_bytes (Some entropy) (Some nonce) (Some input) time garbage size = Ok out /\
    Generate (Instantiate entropy nonce time) (Z.to_nat size) input = Some (out, s') /\
    Z.of_nat (length out) = size /\ is_bytes out.
Proof.
  intros Le Ln Li Lg Lt Hs Be Bn Bi Bt. unfold random_bytes.
  destruct (instantiate_ok drbg_create entropy nonce time Be Bn Bt) as (st & E & H); [lia|].
  rewrite E. cbn [bind].
  pose proof (generate_ok st _ garbage input H Bi ltac:(lia) ltac:(lia)) as G.
  replace (length garbage) with (Z.to_nat size) in G by lia.
  replace (Z.of_nat (Z.to_nat size)) with size in G by lia.
  destruct (Generate (Instantiate entropy nonce time) (Z.to_nat size) input) as [[out s']|] eqn:EG.
  - destruct G as (st' & E2 & _ & L & B). rewrite E2. cbn [bind]. exists out, s'.
    split; [|split; [reflexivity|split; [lia|exact B]]].
    rewrite <- (app_nil_r out) at 1. apply slice_app0. lia.
  - exfalso. unfold Generate in EG.
    assert (E1 : reseed_counter (Instantiate entropy nonce time) = 1)
      by (unfold Instantiate; destruct (Update (entropy ++ nonce ++ time) _ _); reflexivity).
    rewrite E1 in EG. change (1 >? 1024) with false in EG. cbv iota in EG. destruct (match input with [] => _ | _ => _ end) as [k0 v0].
    destruct (Update input k0 _). discriminate.
Qed.
(** A failing operating system is reported, never a short or predictable answer. *)
Theorem C70_failure e n i time garbage size :
  is_bytes time -> Z.of_nat (length time) < 65536 ->
  (forall x, e = Some x -> is_bytes x /\ Z.of_nat (length x) < 2 ^ 20) ->
  (forall x, n = Some x -> is_bytes x /\ Z.of_nat (length x) < 2 ^ 20) ->
  e = None \/ n = None \/ i = None ->
  random_bytes e n i time garbage size = Throw BadAlloc.
Proof.
  intros Bt Lt He Hn H. unfold random_bytes.
  destruct e as [e|]; [|reflexivity]. destruct n as [n|]; [|reflexivity].
  destruct H as [H|[H|H]]; try discriminate. subst i.
  destruct (He e eq_refl) as [B1 L1]. destruct (Hn n eq_refl) as [B2 L2].
  destruct (instantiate_ok drbg_create e n time B1 B2 Bt) as (st & E & _); [lia|].
  rewrite E. reflexivity.
Qed.
(** The exponents of rand_q: the first 32 bytes of the default 256, masked, reduced; always
    canonical. *)
Theorem C70_rand_q entropy nonce input time garbage :
  Z.of_nat (length entropy) = 512 -> Z.of_nat (length nonce) = 256 ->
  Z.of_nat (length input) = 256 -> Z.of_nat (length garbage) = 256 ->
  Z.of_nat (length time) < 65536 ->
  is_bytes entropy -> is_bytes nonce -> is_bytes input -> is_bytes time ->
  exists out,
    random_bytes (Some entropy) (Some nonce) (Some input) time garbage 256 = Ok out /\
    firstn 32 out = HMAC256 (fst (Update input (Key (Instantiate entropy nonce time)) (V (Instantiate entropy nonce time))))
                            (snd (Update input (Key (Instantiate entropy nonce time)) (V (Instantiate entropy nonce time)))) /\
    0 <= rand_q std_params (be_val (firstn 32 out)) < Qstd.
Proof.
  intros Le Ln Li Lg Lt Be Bn Bi Bt.
  destruct (C70_get_bytes 256 entropy nonce input time garbage) as (out & s' & E & G & L & B);
    try assumption; try lia.
  exists out. split; [exact E|]. split.
  - unfold Generate in G.
    destruct (reseed_counter (Instantiate entropy nonce time) >? 1024); [discriminate|].
    destruct input as [|i0 input']; [cbn in Li; lia|]. set (input := i0 :: input') in *.
    destruct (Update input (Key (Instantiate entropy nonce time)) (V (Instantiate entropy nonce time)))
      as [k0 v0]. cbn [fst snd].
    destruct (Update input k0 _) as [k1 v1].
    assert (EO : out = firstn (Z.to_nat 256) (concat (chain (blocks (Z.to_nat 256)) k0 v0)))
      by congruence.
    rewrite EO. change (blocks (Z.to_nat 256)) with 8%nat. rewrite firstn_firstn.
    change (Nat.min 32 (Z.to_nat 256)) with 32%nat.
    cbn [chain concat]. rewrite firstn_app.
    rewrite (HMAC256_length k0 v0), Nat.sub_diag. change (firstn 0 _) with (@nil Z).
    rewrite firstn_all2 by (rewrite HMAC256_length; lia). apply app_nil_r.
  - assert (R : 0 <= be_val (firstn 32 out) < W256).
    2:{ destruct (rand_q_value _ R) as (m & _ & _ & ->). apply Z.mod_pos_bound. reflexivity. }
    pose proof (be_val_range (firstn 32 out) (is_bytes_firstn 32 out B)) as R.
    rewrite firstn_length in R. replace (Nat.min 32 (length out)) with 32%nat in R by lia.
    rewrite W256_bytes. exact R.
Qed.
Lemma repeat_bytes b n : 0 <= b < 256 -> is_bytes (repeat b n).
Proof. intros H. apply Forall_forall. intros x Hx. apply repeat_spec in Hx. subst x. exact H. Qed.
Example C70_case :
  exists st', drbg_instantiate drbg_create (repeat 7 32) (repeat 9 16) [1; 2] = Ok st' /\
    drbg_run st' [Gen (repeat 0 40) []; Res (repeat 5 32) [4]; Gen (repeat 3 64) [6]]
    = Ok (answers (Instantiate (repeat 7 32) (repeat 9 16) [1; 2])
            [Gen (repeat 0 40) []; Res (repeat 5 32) [4]; Gen (repeat 3 64) [6]]).
Proof.
  apply C70_history; try (apply repeat_bytes; lia); [repeat constructor; lia|reflexivity|].
  repeat (apply Forall_cons; [cbn; repeat split; try lia; try (repeat constructor; lia)|]).
  apply Forall_nil.
Qed.
Example C70_case_get_bytes :
  exists out, random_bytes (Some (repeat 7 512)) (Some (repeat 8 256)) (Some (repeat 9 256))
                [49; 50] (repeat 255 256) 256 = Ok out /\
              0 <= rand_q std_params (be_val (firstn 32 out)) < Qstd.
Proof.
  destruct (C70_rand_q (repeat 7 512) (repeat 8 256) (repeat 9 256) [49; 50] (repeat 255 256))
    as (out & E & _ & R); try (rewrite repeat_length; reflexivity); try (apply repeat_bytes; lia);
    [reflexivity|repeat constructor; lia|].
  exists out. split; [exact E|exact R].
Qed.

Print Assumptions C70_history.
Print Assumptions C70_lengths.
Print Assumptions C70_exhaustion.
Print Assumptions C70_get_bytes.
Print Assumptions C70_failure.
Print Assumptions C70_rand_q.
