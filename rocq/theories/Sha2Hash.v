(** hash.cpp and hmac.cpp on top of the SHA-256 code: what the parameters [sha]
    and [hmac] of the other files stand for. *)
From Verif Require Import Base GroupModel GroupProofs CodecModel CodecProofs HashModel HashProofs
  Sha2Model Sha2Spec Sha2Proofs Sha2Proofs2.
From Coq Require Import ZifyBool.
Open Scope Z_scope.

(** The digests as big-endian numbers. *)
Definition sha_num (m : bytes) : Z := be_val (SHA256 m).
Definition hmac_num (key m : bytes) : Z := be_val (HMAC256 key m).

(** Items that fit the 32-bit lengths of the code: strings shorter than 2^32
    bytes, vectors of fewer than 2^28 elements. *)
Fixpoint fits (i : hitem) : Prop :=
  match i with
  | HStr s => is_bytes s /\ Z.of_nat (length s) < 2 ^ 32
  | HBytes b => is_bytes b /\ 2 * Z.of_nat (length b) < 2 ^ 32
  | HU64 n => 0 <= n
  | HVec l => Z.of_nat (length l) < 2 ^ 28 /\
              (fix all (l : list hitem) : Prop :=
                 match l with [] => True | x :: t => fits x /\ all t end) l
  | _ => True
  end.

Lemma fits_vec l : fits (HVec l) -> Z.of_nat (length l) < 2 ^ 28 /\ Forall fits l.
Proof.
  cbn [fits]. intros [L H]. split; [exact L|]. clear L. induction l as [|x l IH]; [constructor|].
  destruct H as [H1 H2]. constructor; [exact H1|apply IH; exact H2].
Qed.

Definition small_text (s : bytes) : Prop := is_bytes s /\ Z.of_nat (length s) < 2 ^ 32.

Lemma push_bytes_ok m s x :
  holds m s -> small_text x -> Z.of_nat (length (m ++ x)) < 2 ^ 61 ->
  exists s', push_bytes s x = Ok s' /\ holds (m ++ x) s'.
Proof.
  intros H [Hx Lx] L. unfold push_bytes. rewrite u32_small by lia.
  destruct (stream_update_ok m s x [] H Hx) as (s' & E & H'); try assumption; [constructor|].
  rewrite app_nil_r in E. exists s'. split; assumption.
Qed.

Lemma bar_small : small_text [124].
Proof. split; [|cbn; lia]. apply Forall_cons; [unfold is_byte; lia|apply Forall_nil]. Qed.

Lemma push_update_ok m s x :
  holds m s -> small_text x -> Z.of_nat (length m) + Z.of_nat (length x) + 1 < 2 ^ 61 ->
  exists s', push_hash_update_c s x = Ok s' /\ holds (m ++ x ++ [124]) s'.
Proof.
  intros H Hx L. unfold push_hash_update_c.
  destruct (push_bytes_ok m s x H Hx) as (s1 & E1 & H1); [rewrite app_length; lia|].
  rewrite E1. cbn [bind].
  destruct (push_bytes_ok (m ++ x) s1 [124] H1 bar_small) as (s2 & E2 & H2).
  { rewrite !app_length. cbn [length]. lia. }
  exists s2. split; [exact E2|]. rewrite app_assoc. exact H2.
Qed.

Lemma open_ok : exists s, hash_open_c = Ok s /\ holds [124] s.
Proof.
  unfold hash_open_c.
  destruct (push_bytes_ok [] create_in_256 [124]) as (s & E & H).
  - apply holds_nil; [apply repeat_length|apply repeat0_bytes].
  - exact bar_small.
  - cbn. lia.
  - exists s. split; [exact E|exact H].
Qed.

Lemma pushes_ok l m s :
  holds m s -> Forall small_text l ->
  Z.of_nat (length m) + Z.of_nat (length l) * (2 ^ 32 + 1) < 2 ^ 61 ->
  exists s', foldM push_hash_update_c l s = Ok s' /\ holds (m ++ flat_map (fun x => x ++ [124]) l) s'.
Proof.
  revert m s. induction l as [|x l IH]; intros m s H HF L.
  - exists s. split; [reflexivity|]. cbn [flat_map]. rewrite app_nil_r. exact H.
  - inversion_clear HF as [|? ? Hx HF']. cbn [foldM flat_map length] in *.
    rewrite Nat2Z.inj_succ in L.
    assert (Lx : Z.of_nat (length x) < 2 ^ 32) by exact (proj2 Hx).
    destruct (push_update_ok m s x H Hx) as (s1 & E1 & H1); [nia|].
    rewrite E1. cbn [bind].
    destruct (IH (m ++ x ++ [124]) s1 H1 HF') as (s2 & E2 & H2).
    { rewrite !app_length. cbn [length]. nia. }
    exists s2. split; [exact E2|]. rewrite app_assoc. exact H2.
Qed.

Lemma hex_small l : is_bytes l -> 2 * Z.of_nat (length l) < 2 ^ 32 -> small_text (bytes_to_hex l).
Proof.
  intros H L. split.
  - eapply Forall_impl; [|exact (bytes_to_hex_chars l H)].
    intros c Hc. unfold is_hexchar, is_byte in *. lia.
  - rewrite bytes_to_hex_strip. pose proof (strip0_length l) as S.
    destruct (strip0 l) as [|b t] eqn:E; [cbn; lia|].
    assert (G : forall k, length (flat_map hex_byte k) = (2 * length k)%nat).
    { induction k as [|y k IH]; [reflexivity|]. cbn [flat_map]. rewrite app_length, IH.
      cbn [hex_byte length]. lia. }
    rewrite G. lia.
Qed.

Lemma dec_small n fuel acc :
  small_text acc -> 0 <= n -> Z.of_nat fuel + Z.of_nat (length acc) < 2 ^ 32 ->
  small_text (dec_loop fuel n acc).
Proof.
  revert n acc. induction fuel as [|f IH]; intros n acc H Hn L; [exact H|].
  cbn [dec_loop].
  assert (H' : small_text ((48 + n mod 10) :: acc)).
  { split.
    - apply Forall_cons; [|exact (proj1 H)].
      pose proof (Z.mod_pos_bound n 10 ltac:(lia)). unfold is_byte. lia.
    - cbn [length]. lia. }
  destruct (n / 10 =? 0); [exact H'|].
  apply IH; [exact H'|apply Z.div_pos; lia|cbn [length]; lia].
Qed.

Lemma null_small : small_text null_string.
Proof.
  split; [|cbn; lia]. unfold null_string.
  repeat (apply Forall_cons; [unfold is_byte; lia|]). apply Forall_nil.
Qed.

Section Code.
Context (gp : params).

Lemma hash_string_small sha i : fits i -> small_text (hash_string gp sha i).
Proof.
  destruct i as [|h|v|v|n|s|b|l]; intros H; cbn [hash_string].
  - exact null_small.
  - rewrite to_hex_q_eq. apply hex_small; [apply to_bytes_q_bytes|rewrite to_bytes_q_length; lia].
  - rewrite to_hex_p_eq. apply hex_small; [apply to_bytes_p_bytes|rewrite to_bytes_p_length; lia].
  - rewrite to_hex_q_eq. apply hex_small; [apply to_bytes_q_bytes|rewrite to_bytes_q_length; lia].
  - destruct (n =? 0); [exact null_small|]. unfold to_string_u64. apply dec_small.
    + split; [constructor|cbn; lia].
    + exact H.
    + cbn. lia.
  - destruct s; [exact null_small|exact H].
  - destruct H as [B L]. apply hex_small; assumption.
  - destruct l; [exact null_small|].
    rewrite to_hex_q_eq. apply hex_small; [apply to_bytes_q_bytes|rewrite to_bytes_q_length; lia].
Qed.

Lemma sha_num_range m : 0 <= sha_num m < W256.
Proof.
  rewrite W256_bytes. unfold sha_num. pose proof (be_val_range _ (SHA256_bytes m)) as R.
  rewrite SHA256_length in R. exact R.
Qed.

Lemma close_ok m : close_c gp (SHA256 m) = hash_close gp sha_num m.
Proof.
  unfold close_c, hash_close. rewrite Z.mod_small by apply sha_num_range. reflexivity.
Qed.

(** The loop over the items, given that each item's text is as specified. *)
Lemma items_ok l m s :
  Forall (fun x => hash_string_c gp x = Ok (hash_string gp sha_num x)) l ->
  holds m s -> Forall fits l ->
  Z.of_nat (length m) + Z.of_nat (length l) * (2 ^ 32 + 1) < 2 ^ 61 ->
  exists s',
    foldM (fun s x => do str <- hash_string_c gp x; push_hash_update_c s str) l s = Ok s'
    /\ holds (m ++ flat_map (fun x => hash_string gp sha_num x ++ [delim]) l) s'.
Proof.
  intros HT H HF L.
  destruct (pushes_ok (map (hash_string gp sha_num) l) m s H) as (s' & E & H').
  { apply Forall_forall. intros y Hy. apply in_map_iff in Hy. destruct Hy as (x & <- & Hx).
    apply hash_string_small. exact (proj1 (Forall_forall _ _) HF x Hx). }
  { rewrite map_length. exact L. }
  exists s'. split.
  - rewrite <- E. clear E H H' HF L. revert s. induction l as [|x l IH]; intros s; [reflexivity|].
    inversion_clear HT as [|? ? Hx HT']. cbn [foldM map]. rewrite Hx. cbn [bind].
    destruct (push_hash_update_c s (hash_string gp sha_num x)); cbn [bind]; [apply IH; exact HT'|reflexivity|reflexivity].
  - replace (flat_map (fun x => hash_string gp sha_num x ++ [delim]) l)
      with (flat_map (fun x => x ++ [124]) (map (hash_string gp sha_num) l)); [exact H'|].
    clear. induction l as [|x l IH]; [reflexivity|]. cbn [map flat_map]. rewrite IH. reflexivity.
Qed.

Lemma go_foldM l s :
  (fix go (l : list hitem) (s : sstate) : outcome sstate :=
     match l with
     | [] => Ok s
     | x :: t => do str <- hash_string_c gp x; do s' <- push_hash_update_c s str; go t s'
     end) l s
  = foldM (fun s x => do str <- hash_string_c gp x; push_hash_update_c s str) l s.
Proof.
  revert s. induction l as [|x l IH]; intros s; [reflexivity|]. cbn [foldM].
  destruct (hash_string_c gp x); cbn [bind]; [|reflexivity|reflexivity].
  destruct (push_hash_update_c s a); cbn [bind]; [apply IH|reflexivity|reflexivity].
Qed.

Fixpoint height (i : hitem) : nat :=
  match i with
  | HVec l => S ((fix mx (l : list hitem) : nat :=
                    match l with [] => O | x :: t => Nat.max (height x) (mx t) end) l)
  | _ => O
  end.
Lemma height_in l x : In x l -> (height x < height (HVec l))%nat.
Proof.
  induction l as [|y l IH]; intros H; [destruct H|]. cbn [height] in *.
  destruct H as [->|H]; [lia|]. specialize (IH H). lia.
Qed.

Lemma hash_string_c_ok i : fits i -> hash_string_c gp i = Ok (hash_string gp sha_num i).
Proof.
  remember (height i) as h eqn:Eh. revert i Eh.
  induction h as [h IH] using lt_wf_ind. intros i Eh HF.
  destruct i as [|v|v|v|n|s|b|l]; try reflexivity.
  destruct l as [|x l]; [reflexivity|].
  destruct (fits_vec _ HF) as [LV FV].
  set (l' := x :: l) in *.
  assert (HT : Forall (fun x => hash_string_c gp x = Ok (hash_string gp sha_num x)) l').
  { apply Forall_forall. intros y Hy. apply (IH (height y)).
    - rewrite Eh. apply height_in. exact Hy.
    - reflexivity.
    - exact (proj1 (Forall_forall _ _) FV y Hy). }
  destruct open_ok as (s0 & E0 & H0').
  destruct (items_ok l' [124] s0 HT H0' FV) as (s1 & E1 & H1).
  { cbn [length]. nia. }
  assert (LM : Z.of_nat (length ([124] ++ flat_map (fun x => hash_string gp sha_num x ++ [delim]) l')) < 2 ^ 61).
  { rewrite app_length. cbn [length].
    assert (G : forall k, Forall fits k ->
       Z.of_nat (length (flat_map (fun x => hash_string gp sha_num x ++ [delim]) k))
       <= Z.of_nat (length k) * (2 ^ 32 + 1)).
    { induction k as [|y k IHk]; intros Fk; [cbn; lia|]. inversion_clear Fk as [|? ? Fy Fk'].
      specialize (IHk Fk'). pose proof (proj2 (hash_string_small sha_num y Fy)) as Ly.
      cbn [flat_map]. rewrite !app_length. cbn [length]. rewrite !Nat2Z.inj_add, Nat2Z.inj_succ.
      change (Z.of_nat 1) with 1. lia. }
    specialize (G l' FV). lia. }
  change ((do s0 <- hash_open_c;
          do s1 <- (fix go (l : list hitem) (s : sstate) : outcome sstate :=
                      match l with
                      | [] => Ok s
                      | x :: t => do str <- hash_string_c gp x;
                                  do s' <- push_hash_update_c s str; go t s'
                      end) l' s0;
          do d <- stream_finish s1;
          Ok (to_hex_q (close_c gp d))) = Ok (hash_string gp sha_num (HVec l'))).
  rewrite E0. cbn [bind]. rewrite go_foldM, E1. cbn [bind].
  rewrite (stream_finish_ok _ _ H1 LM). cbn [bind]. rewrite close_ok. reflexivity.
Qed.

Lemma hash_elems_c_ok l :
  Forall fits l -> Z.of_nat (length l) < 2 ^ 28 ->
  hash_elems_c gp l = Ok (hash_elems gp sha_num l).
Proof.
  intros HF L. unfold hash_elems_c, hash_elems, hash_message.
  set (l' := match l with [] => [HNull] | _ => l end).
  assert (F' : Forall fits l') by (destruct l; [constructor; [exact I|constructor]|exact HF]).
  assert (L' : Z.of_nat (length l') < 2 ^ 28) by (destruct l; [cbn; lia|exact L]).
  clearbody l'. clear l HF L.
  assert (HT : Forall (fun x => hash_string_c gp x = Ok (hash_string gp sha_num x)) l').
  { apply Forall_forall. intros y Hy. apply hash_string_c_ok. exact (proj1 (Forall_forall _ _) F' y Hy). }
  destruct open_ok as (s0 & E0 & H0'). rewrite E0. cbn [bind].
  destruct (items_ok l' [124] s0 HT H0' F') as (s1 & E1 & H1); [cbn [length]; nia|].
  rewrite E1. cbn [bind].
  rewrite (stream_finish_ok _ _ H1).
  - cbn [bind]. rewrite close_ok. reflexivity.
  - rewrite app_length. cbn [length].
    assert (G : forall k, Forall fits k ->
       Z.of_nat (length (flat_map (fun x => hash_string gp sha_num x ++ [delim]) k))
       <= Z.of_nat (length k) * (2 ^ 32 + 1)).
    { induction k as [|y k IHk]; intros Fk; [cbn; lia|]. inversion_clear Fk as [|? ? Fy Fk'].
      specialize (IHk Fk'). pose proof (proj2 (hash_string_small sha_num y Fy)) as Ly.
      cbn [flat_map]. rewrite !app_length. cbn [length]. rewrite !Nat2Z.inj_add, Nat2Z.inj_succ.
      change (Z.of_nat 1) with 1. lia. }
    specialize (G l' F'). lia.
Qed.
End Code.

(** ** hmac.cpp *)
Lemma hmac_call_ok key data :
  key <> [] -> data <> [] -> small_text key -> small_text data ->
  hmac_call key data = Ok (HMAC256 key data).
Proof.
  intros Nk Nd [Bk Lk] [Bd Ld]. unfold hmac_call.
  destruct key as [|k0 key]; [contradiction|]. destruct data as [|d0 data]; [contradiction|].
  rewrite !u32_small by lia. apply hmac_compute_ok; assumption.
Qed.

Lemma HMAC256_length key m : length (HMAC256 key m) = 32%nat.
Proof. apply SHA256_length. Qed.
Lemma HMAC256_bytes key m : is_bytes (HMAC256 key m).
Proof. apply SHA256_bytes. Qed.

Lemma le4_bytes v : is_bytes (le4 v).
Proof.
  unfold le4. repeat (apply Forall_cons; [apply Z.mod_pos_bound; lia|]). apply Forall_nil.
Qed.

Lemma get_hmac_c_ok key message len start :
  key <> [] -> message <> [] \/ 0 < len -> small_text key -> is_bytes message ->
  Z.of_nat (length message) + 8 < 2 ^ 32 ->
  get_hmac_c key message len start = Ok (get_hmac hmac_num key message len start).
Proof.
  intros Nk Nm Sk Bm Lm. unfold get_hmac_c, get_hmac.
  set (data := if 0 <? len then le4 start ++ message ++ le4 len else message).
  rewrite hmac_call_ok.
  - f_equal. unfold hmac_num. rewrite Z.mod_small.
    + rewrite <- (HMAC256_length key data). symmetry. apply be_bytes_val. apply HMAC256_bytes.
    + rewrite W256_bytes. pose proof (be_val_range _ (HMAC256_bytes key data)) as R.
      rewrite HMAC256_length in R. exact R.
  - exact Nk.
  - unfold data. destruct (0 <? len) eqn:E; [discriminate|]. destruct Nm; [assumption|lia].
  - exact Sk.
  - unfold data. destruct (0 <? len).
    + split.
      * apply Forall_app; split; [apply le4_bytes|]. apply Forall_app; split; [exact Bm|apply le4_bytes].
      * rewrite !app_length. cbn [length le4]. lia.
    + split; [exact Bm|lia].
Qed.
