(** The generator's code computes HMAC_DRBG. *)
From Verif Require Import Base CodecModel Sha2Model Sha2Spec Sha2Proofs Sha2Proofs2 Sha2Hash
  DrbgModel DrbgSpec.
From Coq Require Import ZifyBool.
Open Scope Z_scope.
Local Opaque HMAC256 hmac_compute.

Definition block32 (b : bytes) : Prop := length b = 32%nat /\ is_bytes b.

Lemma hmac_block key m : block32 (HMAC256 key m).
Proof. split; [apply HMAC256_length|apply HMAC256_bytes]. Qed.

Lemma hmac32 k m len :
  block32 k -> is_bytes m -> len = Z.of_nat (length m) -> len < 2 ^ 32 ->
  hmac_compute k 32 m len = Ok (HMAC256 k m).
Proof.
  intros [Lk Bk] Bm -> L. replace 32 with (Z.of_nat (length k)) by lia.
  apply hmac_compute_ok; try assumption. lia.
Qed.

Lemma update_input_ok v data tag :
  length v = 32%nat -> Z.of_nat (length data) + 33 < 2 ^ 32 ->
  update_input v data (Z.of_nat (length data)) tag
  = Ok (v ++ [tag] ++ data, Z.of_nat (length (v ++ [tag] ++ data))).
Proof.
  intros Lv Ld. unfold update_input. rewrite u32_small by lia.
  replace (Z.to_nat (33 + Z.of_nat (length data))) with (33 + length data)%nat by lia.
  rewrite (repeat_split 0 (33 + length data) 32) by lia.
  rewrite blit_app0 by (rewrite repeat_length; lia). cbn [bind].
  replace (33 + length data - 32)%nat with (S (length data)) by lia. cbn [repeat].
  assert (I2 : (if Z.of_nat (length data) =? 0 then @Ok bytes (v ++ 0 :: repeat 0 (length data))
                else do d <- slice 0 (Z.of_nat (length data)) data;
                     blit 33 d (v ++ 0 :: repeat 0 (length data)))
               = @Ok bytes (v ++ 0 :: data)).
  { destruct data as [|d0 data']; [reflexivity|]. set (data := d0 :: data') in *.
    replace (Z.of_nat (length data) =? 0) with false by (unfold data; cbn [length]; lia).
    rewrite <- (app_nil_r data) at 2. rewrite slice_app0 by reflexivity. cbn [bind].
    replace (v ++ 0 :: repeat 0 (length data)) with ((v ++ [0]) ++ repeat 0 (length data) ++ [])
      by (rewrite app_nil_r, <- app_assoc; reflexivity).
    rewrite blit_app; [|rewrite app_length; cbn [length]; lia|apply repeat_length].
    rewrite app_nil_r, <- app_assoc. reflexivity. }
  rewrite I2. cbn [bind].
  change (v ++ 0 :: data) with (v ++ [0] ++ data).
  rewrite blit_app by (lia || reflexivity). cbn [bind].
  f_equal. f_equal. rewrite !app_length. cbn [length]. lia.
Qed.

Lemma half_update_ok k v data tag :
  block32 k -> block32 v -> is_bytes data -> 0 <= tag < 256 ->
  Z.of_nat (length data) + 33 < 2 ^ 32 ->
  half_update k v data (Z.of_nat (length data)) tag
  = Ok (HMAC256 k (v ++ [tag] ++ data), HMAC256 (HMAC256 k (v ++ [tag] ++ data)) v).
Proof.
  intros Hk Hv Bd Ht Ld. unfold half_update. destruct Hv as [Lv Bv].
  rewrite update_input_ok by assumption. cbn [bind].
  rewrite hmac32; [|exact Hk| |reflexivity|].
  - cbn [bind]. rewrite hmac32; [reflexivity|apply hmac_block|exact Bv|lia|lia].
  - apply Forall_app; split; [exact Bv|]. apply Forall_cons; [exact Ht|exact Bd].
  - rewrite !app_length. cbn [length]. lia.
Qed.

Lemma Update_blocks data k v :
  block32 (fst (Update data k v)) /\ block32 (snd (Update data k v)).
Proof. unfold Update. destruct data; split; apply hmac_block. Qed.

Lemma drbg_update_ok k v data :
  block32 k -> block32 v -> is_bytes data -> Z.of_nat (length data) + 33 < 2 ^ 32 ->
  drbg_update k v data (Z.of_nat (length data)) = Ok (Update data k v).
Proof.
  intros Hk Hv Bd Ld. unfold drbg_update, Update.
  rewrite half_update_ok by (assumption || lia). cbn [bind].
  destruct data as [|d0 data']; [reflexivity|]. set (data := d0 :: data') in *.
  replace (Z.of_nat (length data) =? 0) with false by (unfold data; cbn [length]; lia).
  apply half_update_ok; try assumption; try apply hmac_block. lia.
Qed.

Definition same (st : drbg) (s : working) : Prop :=
  dk st = Key s /\ dv st = V s /\ dctr st = reseed_counter s /\
  block32 (dk st) /\ block32 (dv st) /\ 1 <= dctr st <= 1025.

Lemma instantiate_ok st entropy nonce pers :
  is_bytes entropy -> is_bytes nonce -> is_bytes pers ->
  Z.of_nat (length entropy) + Z.of_nat (length nonce) + Z.of_nat (length pers) + 33 < 2 ^ 32 ->
  exists st', drbg_instantiate st entropy nonce pers = Ok st'
              /\ same st' (Instantiate entropy nonce pers).
Proof.
  intros Be Bn Bp L. unfold drbg_instantiate. rewrite u32_small by lia.
  set (N := (length entropy + length nonce + length pers)%nat).
  replace (Z.to_nat _) with N by lia.
  rewrite (repeat_split 0 N (length entropy)) by lia.
  rewrite blit_app0 by apply repeat_length. cbn [bind].
  rewrite (repeat_split 0 (N - length entropy) (length nonce)) by lia.
  rewrite blit_app by (reflexivity || apply repeat_length). cbn [bind].
  replace (N - length entropy - length nonce)%nat with (length pers) by lia.
  rewrite app_assoc.
  rewrite <- (app_nil_r (repeat 0 (length pers))).
  rewrite blit_app; [|rewrite app_length; lia|apply repeat_length]. cbn [bind].
  rewrite app_nil_r, <- app_assoc.
  set (m := entropy ++ nonce ++ pers).
  assert (Lm : length m = N) by (unfold m; rewrite !app_length; lia).
  replace (Z.of_nat (length entropy) + Z.of_nat (length nonce) + Z.of_nat (length pers))
    with (Z.of_nat (length m)) by lia.
  assert (Bm : is_bytes m) by (unfold m; repeat (apply Forall_app; split); assumption).
  rewrite drbg_update_ok;
    [|split; [apply repeat_length|apply repeat0_bytes]|split; [apply repeat_length|]|exact Bm|lia].
  2:{ apply Forall_forall. intros x Hx. apply repeat_spec in Hx. subst. unfold is_byte. lia. }
  unfold Instantiate. fold m.
  pose proof (Update_blocks m (repeat 0 32) (repeat 1 32)) as [B1 B2].
  destruct (Update m (repeat 0 32) (repeat 1 32)) as [k v]. cbn [fst snd] in *. cbn [bind].
  eexists. split; [reflexivity|]. unfold same. cbn. repeat split; try apply B1; try apply B2; lia.
Qed.

Lemma reseed_ok st s entropy addl :
  same st s -> is_bytes entropy -> is_bytes addl ->
  Z.of_nat (length entropy) + Z.of_nat (length addl) + 33 < 2 ^ 32 ->
  exists st', drbg_reseed st entropy addl = Ok st' /\ same st' (Reseed s entropy addl).
Proof.
  intros (Ek & Ev & Ec & Hk & Hv & _) Be Ba L. unfold drbg_reseed. rewrite u32_small by lia.
  set (N := (length entropy + length addl)%nat).
  replace (Z.to_nat _) with N by lia.
  rewrite (repeat_split 0 N (length entropy)) by lia.
  rewrite blit_app0 by apply repeat_length. cbn [bind].
  replace (N - length entropy)%nat with (length addl) by lia.
  rewrite <- (app_nil_r (repeat 0 (length addl))).
  rewrite blit_app by (reflexivity || apply repeat_length). cbn [bind]. rewrite app_nil_r.
  set (m := entropy ++ addl).
  assert (Lm : length m = N) by (unfold m; rewrite !app_length; lia).
  replace (Z.of_nat (length entropy) + Z.of_nat (length addl)) with (Z.of_nat (length m)) by lia.
  assert (Bm : is_bytes m) by (unfold m; repeat (apply Forall_app; split); assumption).
  rewrite drbg_update_ok; [|exact Hk|exact Hv|exact Bm|lia].
  unfold Reseed. fold m. rewrite <- Ek, <- Ev.
  pose proof (Update_blocks m (dk st) (dv st)) as [B1 B2].
  destruct (Update m (dk st) (dv st)) as [k v]. cbn [fst snd] in *. cbn [bind].
  eexists. split; [reflexivity|]. unfold same. cbn. repeat split; try apply B1; try apply B2; lia.
Qed.

(** ** The output loop *)
Lemma chain_blocks n k v : Forall block32 (chain n k v).
Proof.
  revert v. induction n as [|n IH]; intros v; [constructor|]. cbn [chain].
  constructor; [apply hmac_block|apply IH].
Qed.
Lemma chain_length n k v : length (chain n k v) = n.
Proof. revert v. induction n as [|n IH]; intros v; [reflexivity|]. cbn. rewrite IH. reflexivity. Qed.
Lemma concat_blocks l : Forall block32 l -> length (concat l) = (32 * length l)%nat.
Proof.
  induction l as [|x l IH]; intros H; [reflexivity|]. inversion_clear H as [|? ? Hx H'].
  cbn [concat length]. rewrite app_length, IH by exact H'. destruct Hx. lia.
Qed.
Lemma last_default {A} (l : list A) d d' : l <> [] -> last l d = last l d'.
Proof.
  induction l as [|x l IH]; intros N; [congruence|]. destruct l as [|y l]; [reflexivity|].
  change (last (x :: y :: l) d) with (last (y :: l) d).
  change (last (x :: y :: l) d') with (last (y :: l) d'). apply IH. discriminate.
Qed.
Lemma last_chain n k v : block32 v -> block32 (last (chain n k v) v).
Proof.
  revert v. induction n as [|n IH]; intros v H; [exact H|]. cbn [chain].
  destruct n as [|n]; [apply hmac_block|].
  set (v' := HMAC256 k v).
  change (block32 (last (chain (S n) k v') v)).
  rewrite (last_default _ v v') by (cbn; discriminate). apply IH. apply hmac_block.
Qed.
Lemma chain_S n k v : chain (S n) k v = chain n k v ++ [HMAC256 k (last (chain n k v) v)].
Proof.
  revert v. induction n as [|n IH]; intros v; [reflexivity|].
  change (chain (S (S n)) k v) with (HMAC256 k v :: chain (S n) k (HMAC256 k v)).
  rewrite IH. cbn [app].
  change (chain (S n) k v) with (HMAC256 k v :: chain n k (HMAC256 k v)). cbn [app].
  do 4 f_equal. destruct n as [|n]; [reflexivity|].
  change (last (HMAC256 k v :: chain (S n) k (HMAC256 k v)) v)
    with (last (chain (S n) k (HMAC256 k v)) v).
  apply last_default. cbn. discriminate.
Qed.

Lemma skipn_skipn_add {A} a b (l : list A) : skipn a (skipn b l) = skipn (b + a) l.
Proof.
  revert l. induction b as [|b IH]; intros l; [reflexivity|]. destruct l; [now destruct a|].
  cbn [skipn Nat.add]. apply IH.
Qed.

Lemma blocks_loop_ok n i k v done rest :
  block32 k -> block32 v -> Z.of_nat (length done) = i * 32 -> (32 * n <= length rest)%nat ->
  drbg_blocks n i k v (done ++ rest)
  = Ok (last (chain n k v) v, done ++ concat (chain n k v) ++ skipn (32 * n) rest).
Proof.
  revert i v done rest. induction n as [|n IH]; intros i v dn rest Hk Hv Ld Lr; [reflexivity|].
  cbn [drbg_blocks]. pose proof (hmac_block k v) as Hv'.
  rewrite hmac32; [|exact Hk|exact (proj2 Hv)|destruct Hv; lia|lia]. cbn [bind].
  rewrite <- (firstn_skipn 32 rest) at 1.
  rewrite blit_app; [|lia|rewrite firstn_length, (proj1 Hv'); lia]. cbn [bind].
  rewrite app_assoc. rewrite IH; [|exact Hk|exact Hv'| |rewrite skipn_length; lia].
  - cbn [chain concat]. f_equal. f_equal.
    + destruct n as [|n]; [reflexivity|].
      change (last (HMAC256 k v :: chain (S n) k (HMAC256 k v)) v)
        with (last (chain (S n) k (HMAC256 k v)) v).
      apply last_default. cbn. discriminate.
    + rewrite <- !app_assoc. do 3 f_equal.
      rewrite skipn_skipn_add. f_equal. lia.
  - rewrite app_length, (proj1 Hv'). lia.
Qed.

Lemma generate_ok st s out addl :
  same st s -> is_bytes addl -> Z.of_nat (length addl) + 33 < 2 ^ 32 ->
  Z.of_nat (length out) < 2 ^ 32 ->
  match Generate s (length out) addl with
  | None => drbg_generate st out (Z.of_nat (length out)) addl = Ok None
  | Some (o, s') => exists st', drbg_generate st out (Z.of_nat (length out)) addl = Ok (Some (o, st'))
                                /\ same st' s' /\ length o = length out /\ is_bytes o
  end.
Proof.
  intros (Ek & Ev & Ec & Hk & Hv & Hc) Ba La Lo. unfold Generate, drbg_generate, reseed_interval.
  rewrite Ec. destruct (reseed_counter s >? 1024) eqn:Er; [reflexivity|].
  assert (K0 : exists k0 v0,
     (if 0 <? Z.of_nat (length addl) then drbg_update (dk st) (dv st) addl (Z.of_nat (length addl))
      else Ok (dk st, dv st)) = Ok (k0, v0)
     /\ match addl with [] => (Key s, V s) | _ => Update addl (Key s) (V s) end = (k0, v0)
     /\ block32 k0 /\ block32 v0).
  { destruct addl as [|a0 addl']; [exists (dk st), (dv st); rewrite Ek, Ev in *; auto|].
    set (addl := a0 :: addl') in *.
    replace (0 <? Z.of_nat (length addl)) with true by (unfold addl; cbn [length]; lia).
    rewrite drbg_update_ok by assumption. rewrite <- Ek, <- Ev.
    pose proof (Update_blocks addl (dk st) (dv st)) as [B1 B2].
    destruct (Update addl (dk st) (dv st)) as [k v]. exists k, v. cbn [fst snd] in *. auto. }
  destruct K0 as (k0 & v0 & E0 & S0 & Hk0 & Hv0). rewrite E0, S0. cbn [bind]. clear E0 S0.
  set (n := length out) in *. set (q := (n / 32)%nat).
  pose proof (Nat.div_mod n 32 ltac:(lia)) as DM. fold q in DM.
  pose proof (Nat.mod_upper_bound n 32 ltac:(lia)) as MB.
  assert (Eq : Z.of_nat n / 32 = Z.of_nat q) by (unfold q; rewrite Nat2Z.inj_div; reflexivity).
  rewrite Eq, Nat2Z.id.
  pose proof (blocks_loop_ok q 0 k0 v0 [] out Hk0 Hv0 eq_refl) as BL.
  cbn [app] in BL. rewrite BL by (fold n; lia). clear BL. cbn [bind].
  rewrite u32_small by lia.
  assert (Hlast : block32 (last (chain q k0 v0) v0)) by (apply last_chain; exact Hv0).
  pose proof (concat_blocks _ (chain_blocks q k0 v0)) as LC. rewrite chain_length in LC.
  assert (OUT : exists v2 out2,
     (if Z.of_nat q * 32 <? Z.of_nat n
      then do v' <- hmac_compute k0 32 (last (chain q k0 v0) v0) 32;
           do part <- slice 0 (Z.of_nat n - Z.of_nat q * 32) v';
           do o <- blit (Z.of_nat q * 32) part (concat (chain q k0 v0) ++ skipn (32 * q) out);
           Ok (v', o)
      else Ok (last (chain q k0 v0) v0, concat (chain q k0 v0) ++ skipn (32 * q) out))
     = Ok (v2, out2)
     /\ v2 = last (chain (blocks n) k0 v0) v0
     /\ out2 = firstn n (concat (chain (blocks n) k0 v0)) /\ block32 v2).
  { destruct (Z.ltb_spec (Z.of_nat q * 32) (Z.of_nat n)) as [Hr|Hr].
    - assert (EB : blocks n = S q).
      { unfold blocks. symmetry. apply (Nat.div_unique _ 32 _ (n mod 32 - 1)); lia. }
      rewrite hmac32; [|exact Hk0|exact (proj2 Hlast)|destruct Hlast; lia|lia]. cbn [bind].
      set (v' := HMAC256 k0 (last (chain q k0 v0) v0)).
      assert (Hv' : block32 v') by apply hmac_block.
      set (r := (n - 32 * q)%nat).
      assert (SL : slice 0 (Z.of_nat n - Z.of_nat q * 32) v' = Ok (firstn r v')).
      { rewrite <- (firstn_skipn r v') at 1. apply slice_app0.
        rewrite firstn_length, (proj1 Hv'). lia. }
      rewrite SL. cbn [bind].
      rewrite <- (app_nil_r (skipn (32 * q) out)).
      rewrite blit_app;
        [|lia|rewrite skipn_length, firstn_length, (proj1 Hv'); fold n; lia].
      cbn [bind]. eexists v', _. split; [reflexivity|].
      rewrite EB, chain_S. fold v'.
      split; [rewrite last_last; reflexivity|]. split; [|exact Hv'].
      rewrite concat_app. cbn [concat]. rewrite !app_nil_r.
      rewrite firstn_app, LC. rewrite (firstn_all2 (concat (chain q k0 v0))) by lia. reflexivity.
    - assert (En : n = (32 * q)%nat) by lia.
      assert (EB : blocks n = q).
      { unfold blocks. symmetry. apply (Nat.div_unique _ 32 _ 31); lia. }
      eexists _, _. split; [reflexivity|]. rewrite EB. split; [reflexivity|]. split; [|exact Hlast].
      rewrite firstn_all2 by lia. rewrite skipn_all2 by (fold n; lia). apply app_nil_r. }
  destruct OUT as (v2 & out2 & E2 & Ev2 & Eo2 & Hv2). 
  match goal with |- context [if Z.of_nat q * 32 <? Z.of_nat n then ?a else ?b] =>
    replace (if Z.of_nat q * 32 <? Z.of_nat n then a else b) with (Ok (v2, out2)) by (symmetry; exact E2)
  end. cbn [bind]. clear E2.
  rewrite drbg_update_ok by assumption. rewrite <- Ev2.
  pose proof (Update_blocks addl k0 v2) as [B1 B2].
  destruct (Update addl k0 v2) as [k3 v3]. cbn [fst snd] in *. cbn [bind].
  eexists. split; [rewrite <- Eo2; reflexivity|].
  split; [|split].
  - unfold same. cbn. rewrite u32_small by lia. repeat split; try apply B1; try apply B2; lia.
  - rewrite firstn_length, (concat_blocks _ (chain_blocks _ k0 v0)), chain_length.
    unfold blocks. pose proof (Nat.div_mod (n + 31) 32 ltac:(lia)).
    pose proof (Nat.mod_upper_bound (n + 31) 32 ltac:(lia)). lia.
  - apply is_bytes_firstn. pose proof (chain_blocks (blocks n) k0 v0) as HB.
    generalize dependent (chain (blocks n) k0 v0). intros l _ _ HB.
    induction HB as [|x l Hx _ IH]; [constructor|]. cbn [concat].
    apply Forall_app. split; [exact (proj2 Hx)|exact IH].
Qed.
