(** Properties C68 and C69: the SHA-256 and HMAC code is SHA-256 and HMAC. *)
From Coq Require Import String.
From Verif Require Import Base GroupModel GroupSpec CodecModel CodecProofs HashModel
  Sha2Model Sha2Spec Sha2Proofs Sha2Proofs2 Sha2Hash TestParams.
Open Scope string_scope.
Open Scope list_scope.
Open Scope Z_scope.
Notation tp := test_params.

(** * C68 *)
(** However a message is cut into updates, the digest is the SHA-256 of the whole. *)
Theorem C68_streaming chunks :
  Forall is_bytes chunks -> Forall (fun b => Z.of_nat (length b) < 2 ^ 32) chunks ->
  Z.of_nat (length (concat chunks)) < 2 ^ 61 ->
  exists s, foldM (fun s b => stream_update s b (Z.of_nat (length b))) chunks create_in_256 = Ok s
            /\ stream_finish s = Ok (SHA256 (concat chunks)).
Proof.
  intros HB HL L.
  destruct (stream_chunks_ok chunks [] create_in_256) as (s & E & H); try assumption.
  { apply holds_nil; [apply repeat_length|apply repeat0_bytes]. }
  exists s. split; [exact E|]. exact (stream_finish_ok _ _ H L).
Qed.
(** Asking for a digest changes nothing: the updates may go on after it.  After
    init_256 the state starts afresh, whatever was hashed before. *)
Theorem C68_reuse before chunks :
  Forall is_bytes (before ++ chunks) ->
  Forall (fun b => Z.of_nat (length b) < 2 ^ 32) (before ++ chunks) ->
  Z.of_nat (length (concat (before ++ chunks))) < 2 ^ 61 ->
  exists s0 s,
    foldM (fun s b => stream_update s b (Z.of_nat (length b))) before create_in_256 = Ok s0
    /\ foldM (fun s b => stream_update s b (Z.of_nat (length b))) chunks (init_256 s0) = Ok s
    /\ stream_finish s = Ok (SHA256 (concat chunks)).
Proof.
  intros HB HL L. apply Forall_app in HB, HL. destruct HB as [B1 B2], HL as [L1 L2].
  rewrite concat_app, app_length in L.
  destruct (stream_chunks_ok before [] create_in_256) as (s0 & E0 & H0'); try assumption.
  { apply holds_nil; [apply repeat_length|apply repeat0_bytes]. }
  { cbn [app]. lia. }
  destruct H0' as (n & c & t & z & Em & _ & _ & _ & Es & Ls & _ & Hm & Hz).
  destruct (stream_chunks_ok chunks [] (init_256 s0)) as (s & E & H); try assumption.
  { apply holds_nil; [exact Ls|]. rewrite Es. apply Forall_app. split; [|exact Hz].
    rewrite Em in Hm. apply Forall_app in Hm.
    exact (proj2 Hm). }
  { cbn [app]. lia. }
  exists s0, s. split; [exact E0|]. split; [exact E|].
  apply (stream_finish_ok _ _ H). cbn [app]. lia.
Qed.
(** The one-call function agrees, for every length it can be given. *)
Theorem C68_one_shot m :
  is_bytes m -> Z.of_nat (length m) < 2 ^ 32 -> hash_256 m (Z.of_nat (length m)) = Ok (SHA256 m).
Proof. apply hash_256_ok. Qed.
Theorem C68_digest m : length (SHA256 m) = 32%nat /\ is_bytes (SHA256 m).
Proof. split; [apply SHA256_length|apply SHA256_bytes]. Qed.
(** The library's hash of a list of items, nested to any depth, is the model's
    [hash_elems] with SHA-256 for its parameter. *)
Theorem C68_hash_elems gp l :
  Forall fits l -> Z.of_nat (length l) < 2 ^ 28 ->
  hash_elems_c gp l = Ok (hash_elems gp sha_num l).
Proof. apply hash_elems_c_ok. Qed.
(** A string of 2^32 bytes or more is cut to its length modulo 2^32: *)
Theorem C68_long gp b :
  is_bytes b -> 0 < Z.of_nat (length b) mod 2 ^ 32 ->
  hash_elems_c gp [HStr b]
  = Ok (hash_elems gp sha_num [HStr (firstn (Z.to_nat (Z.of_nat (length b) mod 2 ^ 32)) b)]).
Proof.
  intros Hb Hr. set (r := Z.of_nat (length b) mod 2 ^ 32) in *.
  assert (R : r < 2 ^ 32) by (apply Z.mod_pos_bound; lia).
  assert (Rb : r <= Z.of_nat (length b)) by (apply Z.mod_le; lia).
  set (x := firstn (Z.to_nat r) b).
  assert (Lx : Z.of_nat (length x) = r) by (unfold x; rewrite firstn_length; lia).
  assert (Bx : is_bytes x) by (apply is_bytes_firstn; exact Hb).
  assert (Nb : b <> []) by (intros E; rewrite E in Rb; cbn [length] in Rb; lia).
  assert (Nx : x <> []) by (intros Ex; rewrite Ex in Lx; cbn in Lx; lia).
  unfold hash_elems_c. destruct open_ok as (s0 & E0 & H0'). rewrite E0. cbn [bind foldM].
  replace (hash_string_c gp (HStr b)) with (Ok b) by (destruct b; [congruence|reflexivity]).
  cbn [bind]. unfold push_hash_update_c.
  destruct (stream_update_ok [124] s0 x (skipn (Z.to_nat r) b) H0' Bx) as (s1 & E1 & H1).
  { apply is_bytes_skipn. exact Hb. } { rewrite app_length. cbn [length]. lia. } { lia. }
  unfold x in E1 at 1. rewrite firstn_skipn, Lx in E1.
  unfold push_bytes at 1. change (u32 (Z.of_nat (length b))) with r. rewrite E1. cbn [bind].
  destruct (push_bytes_ok ([124] ++ x) s1 [124] H1 bar_small) as (s2 & E2 & H2).
  { rewrite !app_length. cbn [length]. lia. }
  rewrite E2. cbn [bind]. rewrite (stream_finish_ok _ _ H2).
  2:{ rewrite !app_length. cbn [length]. lia. }
  cbn [bind]. rewrite close_ok. unfold hash_elems, hash_message.
  cbn [flat_map hash_string].
  destruct x; [congruence|]. rewrite app_nil_r. reflexivity.
Qed.
(** so two different strings always have the same hash. *)
Theorem C68_long_refuted :
  exists a b, a <> b /\ is_bytes a /\ is_bytes b /\
    forall gp, hash_elems_c gp [HStr a] = hash_elems_c gp [HStr b].
Proof.
  set (N := Z.to_nat (2 ^ 32 + 1)).
  assert (EN : Z.of_nat N = 2 ^ 32 + 1) by (unfold N; rewrite Z2Nat.id; lia).
  assert (L : length (repeat 65 N) = N) by apply repeat_length.
  assert (B : is_bytes (repeat 65 N)).
  { apply Forall_forall. intros x Hx. apply repeat_spec in Hx. subst. unfold is_byte. lia. }
  assert (M : Z.of_nat (length (repeat 65 N)) mod 2 ^ 32 = 1) by (rewrite L, EN; reflexivity).
  assert (F : firstn 1 (repeat 65 N) = [65]).
  { destruct N; [lia|]. reflexivity. }
  clearbody N. exists (repeat 65 N), [65].
  assert (N1 : repeat 65 N <> [65]) by (intros E; rewrite E in L; cbn in L; lia).
  split; [exact N1|]. split; [exact B|].
  split; [apply Forall_cons; [unfold is_byte; lia|apply Forall_nil]|].
  intros gp. rewrite C68_long by (exact B || lia). rewrite M. change (Z.to_nat 1) with 1%nat.
  rewrite F. symmetry. apply C68_hash_elems; [|cbn; lia].
  apply Forall_cons; [|apply Forall_nil]. split; [|cbn; lia].
  apply Forall_cons; [unfold is_byte; lia|apply Forall_nil].
Qed.
(** The test vector of FIPS 180-4 for "abc", in three updates one of which is empty. *)
Example C68_case :
  (do s <- foldM (fun s b => stream_update s b (Z.of_nat (length b)))
             [s2b "a"; []; s2b "bc"] create_in_256;
   stream_finish s)
  = Ok [0xba;0x78;0x16;0xbf;0x8f;0x01;0xcf;0xea;0x41;0x41;0x40;0xde;0x5d;0xae;0x22;0x23;
        0xb0;0x03;0x61;0xa3;0x96;0x17;0x7a;0x9c;0xb4;0x10;0xff;0x61;0xf2;0x00;0x15;0xad]
  /\ Forall fits [HStr (s2b "a"); HVec [HU64 3; HVec [HNull]]].
Proof.
  split; [vm_compute; reflexivity|].
  repeat (apply Forall_cons || apply Forall_nil); cbn; repeat split; try lia.
  repeat (apply Forall_cons || apply Forall_nil); unfold is_byte; lia.
Qed.

(** * C69 *)
Theorem C69_hmac key data :
  is_bytes key -> is_bytes data ->
  Z.of_nat (length key) < 2 ^ 32 -> Z.of_nat (length data) < 2 ^ 32 ->
  hmac_compute key (Z.of_nat (length key)) data (Z.of_nat (length data)) = Ok (HMAC256 key data).
Proof. apply hmac_compute_ok. Qed.
(** The library's function is the model's [get_hmac] with this HMAC for its parameter,
    and its value is the HMAC of the counter, the message and the length. *)
Theorem C69_get_hmac key message len start :
  key <> [] -> message <> [] \/ 0 < len ->
  is_bytes key -> is_bytes message ->
  Z.of_nat (length key) < 2 ^ 32 -> Z.of_nat (length message) + 8 < 2 ^ 32 ->
  get_hmac_c key message len start = Ok (get_hmac hmac_num key message len start) /\
  get_hmac_c key message len start
  = Ok (HMAC256 key (if 0 <? len then le4 start ++ message ++ le4 len else message)).
Proof.
  intros Nk Nm Bk Bm Lk Lm. split.
  - apply get_hmac_c_ok; try assumption. split; assumption.
  - unfold get_hmac_c. apply hmac_call_ok; try assumption; try (split; assumption).
    + destruct (Z.ltb_spec 0 len); [discriminate|]. destruct Nm; [assumption|lia].
    + destruct (0 <? len); split.
      * apply Forall_app; split; [apply le4_bytes|].
        apply Forall_app; split; [exact Bm|apply le4_bytes].
      * rewrite !app_length. cbn [length le4]. lia.
      * exact Bm.
      * lia.
Qed.
Theorem C69_digest key m : length (HMAC256 key m) = 32%nat /\ is_bytes (HMAC256 key m).
Proof. split; [apply HMAC256_length|apply HMAC256_bytes]. Qed.
(** A key that is not empty but at most one block gives the same code as the key
    with zero bytes appended, up to one block. *)
Theorem C69_zero_padded_key key k m :
  (length key + k <= 64)%nat -> HMAC256 (key ++ repeat 0 k) m = HMAC256 key m.
Proof.
  intros L. unfold HMAC256. replace (hmac_key (key ++ repeat 0 k)) with (hmac_key key); [reflexivity|].
  unfold hmac_key. rewrite app_length, repeat_length.
  replace (length key <=? 64)%nat with true by (symmetry; apply Nat.leb_le; lia).
  replace (length key + k <=? 64)%nat with true by (symmetry; apply Nat.leb_le; lia).
  rewrite app_length, repeat_length, <- app_assoc, <- repeat_app. do 2 f_equal. lia.
Qed.
(** Empty keys and empty messages are outside: front() of an empty vector. *)
Theorem C69_empty_refuted :
  exists key message, get_hmac_c key message 0 0 = UB /\ get_hmac_c [] message 1 0 = UB
                      /\ is_bytes key /\ key <> [].
Proof.
  exists [1], []. repeat split; try discriminate.
  apply Forall_cons; [unfold is_byte; lia|apply Forall_nil].
Qed.
(** Test case 2 of RFC 4231. *)
Example C69_case :
  hmac_compute (s2b "Jefe") 4 (s2b "what do ya want for nothing?") 28
  = Ok [0x5b;0xdc;0xc1;0x46;0xbf;0x60;0x75;0x4e;0x6a;0x04;0x24;0x26;0x08;0x95;0x75;0xc7;
        0x5a;0x00;0x3f;0x08;0x9d;0x27;0x39;0x83;0x9d;0xec;0x58;0xb9;0x64;0xec;0x38;0x43].
Proof. vm_compute. reflexivity. Qed.

Print Assumptions C68_streaming.
Print Assumptions C68_reuse.
Print Assumptions C68_one_shot.
Print Assumptions C68_digest.
Print Assumptions C68_hash_elems.
Print Assumptions C68_long.
Print Assumptions C68_long_refuted.
Print Assumptions C69_hmac.
Print Assumptions C69_get_hmac.
Print Assumptions C69_digest.
Print Assumptions C69_zero_padded_key.
Print Assumptions C69_empty_refuted.
