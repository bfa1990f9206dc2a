(** Properties C24-C26: hashing and derived nonces. *)
From Coq Require Import Permutation Psatz String.
From Verif Require Import Base GroupModel GroupSpec GroupProofs CodecModel HashModel HashProofs
  ChaumProofs TestParams.
Open Scope string_scope.
Open Scope list_scope.
Open Scope Z_scope.
Ltac Zify.zify_post_hook ::= idtac.
Notation tp := test_params.

(** * C24 *)
Theorem C24_canonical gp sha l : valid_params gp -> 0 <= hash_elems gp sha l < gpQ gp.
Proof. intros V. exact (hash_elems_range gp V sha l). Qed.
(** The value is the digest of one byte string, reduced; the all-ones digest is the
    exception (see C03). *)
Theorem C24_digest gp sha l :
  sha (hash_message gp sha l) mod 2 ^ 256 <> 2 ^ 256 - 1 ->
  hash_elems gp sha l = (sha (hash_message gp sha l) mod 2 ^ 256) mod gpQ gp.
Proof. exact (hash_elems_digest gp sha l). Qed.
(** It depends only on how the items are encoded, to any nesting depth. *)
Theorem C24_extensional gp sha l l' :
  l <> [] -> l' <> [] -> map (hash_string gp sha) l = map (hash_string gp sha) l' ->
  hash_elems gp sha l = hash_elems gp sha l'.
Proof.
  intros N N' H. unfold hash_elems. f_equal. unfold hash_message.
  destruct l as [|x l]; [contradiction|]. destruct l' as [|x' l']; [contradiction|].
  f_equal. rewrite !flat_map_concat_map.
  rewrite <- (map_map (hash_string gp sha) (fun s => s ++ [delim])), H, map_map. reflexivity.
Qed.
Example C24_case : hash_elems tp toy_sha [HStr (s2b "a"); HVec [HU64 3; HVec [HNull]]] = 11472
  /\ hash_message tp toy_sha [HStr (s2b "a"); HU64 31; HElemQ 255] = s2b "|a|31|FF|".
Proof. vm_compute. split; reflexivity. Qed.

(** * C25: false of the code *)
Theorem C25_delimiter_refuted gp sha :
  [HStr (s2b "a|b")] <> [HStr (s2b "a"); HStr (s2b "b")] /\
  hash_message gp sha [HStr (s2b "a|b")] = hash_message gp sha [HStr (s2b "a"); HStr (s2b "b")].
Proof. split; [discriminate|reflexivity]. Qed.
Theorem C25_empty_refuted gp sha :
  hash_message gp sha [HU64 0] = hash_message gp sha [HNull] /\
  hash_message gp sha [HStr []] = hash_message gp sha [HNull] /\
  hash_message gp sha [HVec []] = hash_message gp sha [HNull] /\
  hash_message gp sha [HStr (s2b "null")] = hash_message gp sha [HNull] /\
  hash_message gp sha [] = hash_message gp sha [HNull].
Proof. repeat split. Qed.
Theorem C25_type_refuted :
  hash_message tp toy_sha [HElemQ 5] = hash_message tp toy_sha [HStr (s2b "05")] /\
  hash_message tp toy_sha [HBytes [0; 5]] = hash_message tp toy_sha [HBytes [5]].
Proof. vm_compute. split; reflexivity. Qed.
(** What holds: if no string contains the delimiter the message determines the
    encodings of the items and their number ... *)
Theorem C25_items_partial gp sha l l' :
  Forall item_clean l -> Forall item_clean l' -> l <> [] -> l' <> [] ->
  hash_message gp sha l = hash_message gp sha l' ->
  map (hash_string gp sha) l = map (hash_string gp sha) l'.
Proof. exact (hash_message_inj gp sha l l'). Qed.
(** ... and for items of the same kinds (elements, integers, and strings other than
    "" and "null") the items themselves.  Missing: the cases refuted above. *)
Theorem C25_scalars_partial gp sha l l' :
  Forall scalar_ok l -> Forall scalar_ok l' -> Forall2 same_kind l l' -> l <> [] ->
  hash_message gp sha l = hash_message gp sha l' -> l = l'.
Proof. exact (hash_message_scalar_inj gp sha l l'). Qed.
Example C25_case :
  Forall scalar_ok [HElemQ 5; HStr (s2b "abc"); HU64 7] /\ Forall scalar_ok [HElemQ 6; HStr (s2b "abc"); HU64 7].
Proof.
  split; repeat constructor; try discriminate;
    cbv; intros H; decompose [or] H; try discriminate; contradiction.
Qed.

(** * C26 *)
(** [nop] are the requests of nonces.hpp, [nrun n l] the object after a history. *)
Theorem C26_history gp sha n l i :
  fst (nonces_get gp sha (nrun gp sha n l) i) = fst (nonces_get gp sha n i).
Proof. exact (nonces_history gp sha n l i). Qed.
Theorem C26_next gp sha seed header k :
  Z.of_nat k <= 2 ^ 64 ->
  next_seq gp sha k (nonces_new gp sha seed header) =
  map (fun j => fst (nonces_get gp sha (nonces_new gp sha seed header) (Z.of_nat j))) (seq 0 k).
Proof.
  intros H. rewrite (next_seq_spec gp sha k (nonces_new gp sha seed header));
    [reflexivity|discriminate|exact H].
Qed.
Theorem C26_range gp sha n start count :
  0 <= start -> 0 <= count -> start + count < 2 ^ 64 ->
  fst (nonces_range gp sha n start count) =
    map (fun j => fst (nonces_get gp sha n (start + Z.of_nat j))) (seq 0 (Z.to_nat count)).
Proof. exact (nonces_range_spec gp sha n start count). Qed.
(** False when the end of the range reaches 2^64: nothing is returned. *)
Theorem C26_range_wrap_refuted gp sha n :
  exists start count, 0 <= start < 2 ^ 64 /\ 0 < count /\ start + count <= 2 ^ 64 /\
    fst (nonces_range gp sha n start count) = [].
Proof.
  exists (2 ^ 64 - 3), 3. split; [split; [discriminate|reflexivity]|]. split; [reflexivity|].
  split; [discriminate|reflexivity].
Qed.
(** Different indices never present the same byte string to the hash function. *)
Theorem C26_distinct gp sha s i j :
  0 <= s < 2 ^ 256 -> 0 <= i < 2 ^ 64 -> 0 <= j < 2 ^ 64 -> i <> j ->
  hash_message gp sha [HElemQ s; HU64 i] <> hash_message gp sha [HElemQ s; HU64 j].
Proof. exact (nonce_messages_distinct gp sha s i j). Qed.
Example C26_case :
  next_seq tp toy_sha 3 (nonces_new tp toy_sha 5 (HStr (s2b "h"))) =
  fst (nonces_range tp toy_sha (nrun tp toy_sha (nonces_new tp toy_sha 5 (HStr (s2b "h"))) [NGet 9; NNext; NRange 2 2]) 0 3)
  /\ NoDup (next_seq tp toy_sha 3 (nonces_new tp toy_sha 5 (HStr (s2b "h")))).
Proof.
  vm_compute. split; [reflexivity|].
  repeat constructor; cbn; intros H; decompose [or] H; try discriminate; contradiction.
Qed.

Print Assumptions C24_canonical.
Print Assumptions C24_digest.
Print Assumptions C24_extensional.
Print Assumptions C25_delimiter_refuted.
Print Assumptions C25_empty_refuted.
Print Assumptions C25_type_refuted.
Print Assumptions C25_items_partial.
Print Assumptions C25_scalars_partial.
Print Assumptions C26_history.
Print Assumptions C26_next.
Print Assumptions C26_range.
Print Assumptions C26_range_wrap_refuted.
Print Assumptions C26_distinct.
