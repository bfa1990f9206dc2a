(** src/electionguard/hash.cpp, nonces.cpp, hmac.cpp.  SHA-256 and HMAC-SHA-256
    are parameters: a function from byte strings to 256-bit numbers. *)
From Verif Require Import Base GroupModel CodecModel.
Open Scope Z_scope.

(** The alternatives of CryptoHashableType (hash.hpp; hash.cpp:28-53).  Pointer,
    reference and const-reference alternatives denote the same value; a
    CryptoHashable is represented by the value its crypto_hash() returns. *)
Inductive hitem :=
| HNull                     (* nullptr_t *)
| HHash (h : Z)             (* CryptoHashable: its crypto_hash *)
| HElemP (v : Z)            (* ElementModP *)
| HElemQ (v : Z)            (* ElementModQ *)
| HU64 (n : Z)              (* uint64_t *)
| HStr (s : bytes)          (* string *)
| HBytes (b : bytes)        (* vector<uint8_t> *)
| HVec (l : list hitem).    (* the other vector alternatives *)

(** hash.cpp:55-56. *)
Definition delim : Z := 124.            (* '|' *)
Definition null_string : bytes := [110; 117; 108; 108].   (* "null" *)

Section Hash.
Context (gp : params).
(** SHA-256 of a byte string as a big-endian number. *)
Context (sha : bytes -> Z).
(** HMAC-SHA-256 of a message under a key as a big-endian number. *)
Context (hmac : bytes -> bytes -> Z).

(** hash.cpp:89-115 hash_close: digest, then add_mod_q with 0. *)
Definition hash_close (msg : bytes) : Z := add_mod_q gp (sha msg mod W256) 0.

(** hash.cpp:126-248 get_hash_string and 117-124 hash_inner_vector. *)
Fixpoint hash_string (i : hitem) : bytes :=
  match i with
  | HNull => null_string
  | HHash h => to_hex_q h
  | HElemP v => to_hex_p v
  | HElemQ v => to_hex_q v
  | HU64 n => if n =? 0 then null_string else to_string_u64 n
  | HStr s => match s with [] => null_string | _ => s end
  | HBytes b => bytes_to_hex b
  | HVec l =>
      match l with
      | [] => null_string
      | _ => to_hex_q (hash_close (delim :: flat_map (fun x => hash_string x ++ [delim]) l))
      end
  end.

(** The bytes pushed into the hash state by hash.cpp:60-80 (hash_open pushes
    one delimiter, push_hash_update (250-256) each item and a delimiter). *)
Definition hash_message (l : list hitem) : bytes :=
  delim :: flat_map (fun x => hash_string x ++ [delim])
                    (match l with [] => [HNull] | _ => l end).

(** hash.cpp:60-80 hash_elems. *)
Definition hash_elems (l : list hitem) : Z := hash_close (hash_message l).

(** ** nonces.cpp *)
Record nonces := { nseed : Z; nnext : Z }.

(** nonces.cpp:18-23 and 24-28: constructors. *)
Definition nonces_new (seed : Z) (header : hitem) : nonces :=
  {| nseed := hash_elems [HElemQ seed; header]; nnext := 0 |}.
Definition nonces_new0 (seed : Z) : nonces := {| nseed := seed; nnext := 0 |}.

(** nonces.cpp:30-34 get(item): item + 1 wraps. *)
Definition nonces_get (n : nonces) (i : Z) : Z * nonces :=
  (hash_elems [HElemQ (nseed n); HU64 i],
   {| nseed := nseed n; nnext := (i + 1) mod W64 |}).
(** nonces.cpp:36-40 get(item, headers). *)
Definition nonces_get_hdr (n : nonces) (i : Z) (h : bytes) : Z * nonces :=
  (hash_elems [HElemQ (nseed n); HU64 i; HStr h],
   {| nseed := nseed n; nnext := (i + 1) mod W64 |}).
(** nonces.cpp:42 next. *)
Definition nonces_next (n : nonces) : Z * nonces := nonces_get n (nnext n).

(** nonces.cpp:67-76 get(startItem, count): endItem wraps, the loop runs while
    i < endItem. *)
Fixpoint nonces_loop (k : nat) (i : Z) (n : nonces) : list Z * nonces :=
  match k with
  | O => ([], n)
  | S k' => let '(v, n1) := nonces_get n i in
            let '(vs, n2) := nonces_loop k' (i + 1) n1 in (v :: vs, n2)
  end.
Definition nonces_range (n : nonces) (start count : Z) : list Z * nonces :=
  let end_ := (start + count) mod W64 in
  nonces_loop (Z.to_nat (end_ - start)) start n.

(** ** hmac.cpp:22-45 get_hmac. *)
(** The four bytes of a uint32_t in memory (little endian host). *)
Definition le4 (v : Z) : bytes :=
  [v mod 256; (v / 256) mod 256; (v / 65536) mod 256; (v / 16777216) mod 256].
Definition get_hmac (key message : bytes) (length start : Z) : bytes :=
  let data := if 0 <? length then le4 start ++ message ++ le4 length else message in
  be_bytes 32 (hmac key data mod W256).

End Hash.
