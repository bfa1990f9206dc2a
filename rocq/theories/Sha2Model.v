(** src/karamel/Hacl_Hash.c, Hacl_Streaming_SHA2.c and Hacl_HMAC.c: the SHA-256
    and HMAC-SHA-256 code that hash.cpp and hmac.cpp call.  uint32_t, uint64_t
    and uint8_t values are integers, reduced wherever C wraps.  Arrays are
    lists.  Reading or writing outside an array is [UB].  Allocation is assumed
    to succeed.  load32_be, store32_be and store64_be (include/karamel/lowstar_endianness.h)
    are big-endian byte order conversions. *)
From Verif Require Import Base GroupModel CodecModel HashModel.
Open Scope Z_scope.

Definition u32 (x : Z) : Z := x mod 2 ^ 32.
Definition u64 (x : Z) : Z := x mod 2 ^ 64.
(** x >> n, x << n, ~x on uint32_t, and the idiom  x >> n | x << (32 - n). *)
Definition shr32 (x n : Z) : Z := Z.shiftr x n.
Definition shl32 (x n : Z) : Z := u32 (Z.shiftl x n).
Definition not32 (x : Z) : Z := u32 (Z.lnot x).
Definition add32 (x y : Z) : Z := u32 (x + y).
Definition rot32 (x n m : Z) : Z := Z.lor (shr32 x n) (shl32 x m).

(** Array access with checked bounds. *)
Definition slice (off n : Z) (a : bytes) : outcome bytes :=
  if (0 <=? off) && (0 <=? n) && (off + n <=? Z.of_nat (length a))
  then Ok (firstn (Z.to_nat n) (skipn (Z.to_nat off) a)) else UB.
(** memcpy(dst + off, src, length src). *)
Definition blit (off : Z) (src dst : bytes) : outcome bytes :=
  if (0 <=? off) && (off + Z.of_nat (length src) <=? Z.of_nat (length dst))
  then Ok (firstn (Z.to_nat off) dst ++ src ++ skipn (Z.to_nat off + length src) dst) else UB.
(** a[i] = v, for an index the caller keeps inside. *)
Definition set_nth (i : nat) (v : Z) (a : list Z) : list Z :=
  firstn i a ++ [v] ++ skipn (S i) a.
Definition load32_be (b : bytes) : Z := fold_left (fun acc x => acc * 256 + x) (firstn 4 b) 0.

(** Hacl_Hash.c:36-41. *)
Definition h256 : list Z :=
  [0x6a09e667; 0xbb67ae85; 0x3c6ef372; 0xa54ff53a;
   0x510e527f; 0x9b05688c; 0x1f83d9ab; 0x5be0cd19].

(** Hacl_Hash.c:59-77. *)
Definition k224_256 : list Z :=
  [
    0x428a2f98; 0x71374491; 0xb5c0fbcf; 0xe9b5dba5;
    0x3956c25b; 0x59f111f1; 0x923f82a4; 0xab1c5ed5;
    0xd807aa98; 0x12835b01; 0x243185be; 0x550c7dc3;
    0x72be5d74; 0x80deb1fe; 0x9bdc06a7; 0xc19bf174;
    0xe49b69c1; 0xefbe4786; 0x0fc19dc6; 0x240ca1cc;
    0x2de92c6f; 0x4a7484aa; 0x5cb0a9dc; 0x76f988da;
    0x983e5152; 0xa831c66d; 0xb00327c8; 0xbf597fc7;
    0xc6e00bf3; 0xd5a79147; 0x06ca6351; 0x14292967;
    0x27b70a85; 0x2e1b2138; 0x4d2c6dfc; 0x53380d13;
    0x650a7354; 0x766a0abb; 0x81c2c92e; 0x92722c85;
    0xa2bfe8a1; 0xa81a664b; 0xc24b8b70; 0xc76c51a3;
    0xd192e819; 0xd6990624; 0xf40e3585; 0x106aa070;
    0x19a4c116; 0x1e376c08; 0x2748774c; 0x34b0bcb5;
    0x391c0cb3; 0x4ed8aa4a; 0x5b9cca4f; 0x682e6ff3;
    0x748f82ee; 0x78a5636f; 0x84c87814; 0x8cc70208;
    0x90befffa; 0xa4506ceb; 0xbef9a3f7; 0xc67178f2
  ].

(** Hacl_Hash.c:238-266: one iteration of the loop that fills computed_ws. *)
Definition ws_step (block : bytes) (ws : list Z) (i : nat) : list Z :=
  if (i <? 16)%nat then set_nth i (load32_be (skipn (i * 4) block)) ws
  else
    let t16 := nth (i - 16) ws 0 in
    let t15 := nth (i - 15) ws 0 in
    let t7 := nth (i - 7) ws 0 in
    let t2 := nth (i - 2) ws 0 in
    let s1 := Z.lxor (rot32 t2 17 15) (Z.lxor (rot32 t2 19 13) (shr32 t2 10)) in
    let s0 := Z.lxor (rot32 t15 7 25) (Z.lxor (rot32 t15 18 14) (shr32 t15 3)) in
    set_nth i (add32 (add32 (add32 s1 t7) s0) t16) ws.
Definition computed_ws (block : bytes) : list Z :=
  fold_left (ws_step block) (seq 0 64) (repeat 0 64%nat).

(** Hacl_Hash.c:268-307: one round. *)
Definition sha_step (ws : list Z) (hash1 : list Z) (i : nat) : list Z :=
  let a0 := nth 0 hash1 0 in
  let b0 := nth 1 hash1 0 in
  let c0 := nth 2 hash1 0 in
  let d0 := nth 3 hash1 0 in
  let e0 := nth 4 hash1 0 in
  let f0 := nth 5 hash1 0 in
  let g0 := nth 6 hash1 0 in
  let h02 := nth 7 hash1 0 in
  let w := nth i ws 0 in
  let t1 :=
    add32 (add32 (add32 (add32 h02
      (Z.lxor (rot32 e0 6 26) (Z.lxor (rot32 e0 11 21) (rot32 e0 25 7))))
      (Z.lxor (Z.land e0 f0) (Z.land (not32 e0) g0)))
      (nth i k224_256 0))
      w in
  let t2 :=
    add32 (Z.lxor (rot32 a0 2 30) (Z.lxor (rot32 a0 13 19) (rot32 a0 22 10)))
      (Z.lxor (Z.land a0 b0) (Z.lxor (Z.land a0 c0) (Z.land b0 c0))) in
  [add32 t1 t2; a0; b0; c0; add32 d0 t1; e0; f0; g0].

(** Hacl_Hash.c:234-317 update_256; block points to 64 readable bytes. *)
Definition update_256 (hash : list Z) (block : bytes) : list Z :=
  let ws := computed_ws block in
  let hash1 := fold_left (sha_step ws) (seq 0 64) hash in
  map (fun i => add32 (nth i hash 0) (nth i hash1 0)) (seq 0 8).

(** Hacl_Hash.c:683-692 update_multi_256: n blocks starting at [blocks]. *)
Fixpoint update_multi (n : nat) (s : list Z) (blocks : bytes) : outcome (list Z) :=
  match n with
  | O => Ok s
  | S n' => do b <- slice 0 64 blocks; update_multi n' (update_256 s b) (skipn 64 blocks)
  end.
Definition update_multi_256 (s : list Z) (blocks : bytes) (n : Z) : outcome (list Z) :=
  update_multi (Z.to_nat n) s blocks.

(** The number of zero bytes of padding (Hacl_Hash.c:534-537, 545-548, 769-772). *)
Definition zeros_256 (len : Z) : Z := u32 (128 - (9 + len mod 64)) mod 64.

(** Hacl_Hash.c:523-552 pad_256: writes into dst from offset [off]. *)
Definition pad_256 (len : Z) (off : Z) (dst : bytes) : outcome bytes :=
  do d1 <- blit off [0x80] dst;
  do d2 <- blit (off + 1) (repeat 0 (Z.to_nat (zeros_256 len))) d1;
  blit (off + 1 + zeros_256 len) (be_bytes 8 (u64 (Z.shiftl len 3))) d2.

(** Hacl_Hash.c:642-650 finish_256. *)
Definition sha_finish (s : list Z) : bytes := flat_map (be_bytes 4) s.

(** Hacl_Hash.c:752-786 update_last_256. *)
Definition update_last_256 (s : list Z) (prev_len : Z) (input : bytes) (input_len : Z)
  : outcome (list Z) :=
  let blocks_n := input_len / 64 in
  let blocks_len := u32 (blocks_n * 64) in
  let rest_len := u32 (input_len - blocks_len) in
  do s1 <- update_multi_256 s input blocks_n;
  let total_input_len := u64 (prev_len + input_len) in
  let pad_len := 1 + zeros_256 total_input_len + 8 in
  let tmp_len := rest_len + pad_len in
  do rest <- slice blocks_len rest_len input;
  do tmp1 <- blit 0 rest (repeat 0 128);
  do tmp2 <- pad_256 total_input_len rest_len tmp1;
  update_multi_256 s1 tmp2 (tmp_len / 64).

(** Hacl_Hash.c:872-905 hash_256. *)
Definition hash_256 (input : bytes) (input_len : Z) : outcome bytes :=
  let blocks_n0 := input_len / 64 in
  let blocks_n := if (input_len mod 64 =? 0) && (0 <? blocks_n0)
                  then u32 (blocks_n0 - 1) else blocks_n0 in
  let blocks_len := u32 (blocks_n * 64) in
  let rest_len := u32 (input_len - blocks_len) in
  do s1 <- update_multi_256 h256 input blocks_n;
  do rest <- slice blocks_len rest_len input;
  do s2 <- update_last_256 s1 blocks_len rest rest_len;
  Ok (sha_finish s2).

(** ** Hacl_Streaming_SHA2.c *)
Record sstate := { block_state : list Z; sbuf : bytes; total_len : Z }.

(** Hacl_Streaming_SHA2.c:306-325 create_in_256. *)
Definition create_in_256 : sstate :=
  {| block_state := h256; sbuf := repeat 0 64%nat; total_len := 0 |}.
(** 327-340 init_256: the buffer keeps its bytes. *)
Definition init_256 (s : sstate) : sstate :=
  {| block_state := h256; sbuf := sbuf s; total_len := 0 |}.

(** The bytes held in the buffer (lines 351-358 and its copies). *)
Definition buffered (total : Z) : Z :=
  if (total mod 64 =? 0) && (0 <? total) then 64 else total mod 64.

(** 388-447 / 448-530, the common tail: process the buffer if it is not empty,
    then all the blocks of [data] but the last, and keep the rest. *)
Definition stream_blocks (s : sstate) (data : bytes) (len : Z) : outcome sstate :=
  let sz1 := buffered (total_len s) in
  do st1 <- (if sz1 =? 0 then Ok (block_state s)
             else update_multi_256 (block_state s) (sbuf s) 1);
  let ite := buffered len in
  let n_blocks := u32 (len - ite) / 64 in
  let data1_len := u32 (n_blocks * 64) in
  let data2_len := u32 (len - data1_len) in
  do st2 <- update_multi_256 st1 data (data1_len / 64);
  do data2 <- slice data1_len data2_len data;
  do buf <- blit 0 data2 (sbuf s);
  Ok {| block_state := st2; sbuf := buf; total_len := u64 (total_len s + len) |}.

(** 360-387 and 448-481: append to the buffer. *)
Definition stream_fill (s : sstate) (data : bytes) (len : Z) : outcome sstate :=
  do d <- slice 0 len data;
  do buf <- blit (buffered (total_len s)) d (sbuf s);
  Ok {| block_state := block_state s; sbuf := buf; total_len := u64 (total_len s + len) |}.

(** 342-531 update_256; [data] is readable for [length data] bytes. *)
Definition stream_update (s : sstate) (data : bytes) (len : Z) : outcome sstate :=
  let sz := buffered (total_len s) in
  if len <=? u32 (64 - sz) then stream_fill s data len
  else if sz =? 0 then stream_blocks s data len
  else
    let diff := u32 (64 - sz) in
    do s1 <- stream_fill s data diff;
    stream_blocks s1 (skipn (Z.to_nat diff) data) (u32 (len - diff)).

(** 533-571 finish_256: works on a copy of the block state. *)
Definition stream_finish (s : sstate) : outcome bytes :=
  let r := buffered (total_len s) in
  let ite := if (r mod 64 =? 0) && (0 <? r) then 64 else r mod 64 in
  do buf_last <- slice (r - ite) r (sbuf s);
  do s1 <- update_multi_256 (block_state s) (sbuf s) 0;
  do s2 <- update_last_256 s1 (u64 (total_len s - r)) buf_last r;
  Ok (sha_finish s2).

(** ** Hacl_HMAC.c:132-233 compute_sha2_256 *)
Definition xor_block (a b : bytes) : bytes := map (fun '(x, y) => Z.lxor x y) (combine a b).
Definition hmac_compute (key : bytes) (key_len : Z) (data : bytes) (data_len : Z) : outcome bytes :=
  let key_block0 := repeat 0 64%nat in
  do key_block <- (if key_len <=? 64
                   then do k <- slice 0 key_len key; blit 0 k key_block0
                   else do k <- hash_256 key key_len; blit 0 k key_block0);
  let ipad := xor_block (repeat 0x36 64%nat) key_block in
  let opad := xor_block (repeat 0x5c 64%nat) key_block in
  do s1 <- (if data_len =? 0 then update_last_256 h256 0 ipad 64
            else do s0 <- update_multi_256 h256 ipad 1; update_last_256 s0 64 data data_len);
  do hash1 <- blit 0 (sha_finish s1) ipad;
  do s2 <- update_multi_256 h256 opad 1;
  do s3 <- update_last_256 s2 64 hash1 32;
  Ok (sha_finish s3).

(** ** Their callers *)
(** A size_t passed where uint32_t is expected keeps its low 32 bits; the
    callee then sees only that many bytes. *)
Definition push_bytes (s : sstate) (b : bytes) : outcome sstate :=
  stream_update s b (u32 (Z.of_nat (length b))).

(** hash.cpp:82-87 hash_open, 250-256 push_hash_update and 89-98 hash_close for
    the strings the items were turned into. *)
Definition hash_open_c : outcome sstate := push_bytes create_in_256 [124].
Definition push_hash_update_c (s : sstate) (str : bytes) : outcome sstate :=
  do s1 <- push_bytes s str; push_bytes s1 [124].
Definition hash_strings_c (strs : list bytes) : outcome bytes :=
  do s0 <- hash_open_c;
  do s1 <- foldM push_hash_update_c strs s0;
  stream_finish s1.

(** hmac.cpp:22-44 get_hmac for the assembled message; front() of an empty
    vector is undefined. *)
Definition hmac_call (key data : bytes) : outcome bytes :=
  match key, data with
  | [], _ | _, [] => UB
  | _, _ => hmac_compute key (u32 (Z.of_nat (length key))) data (u32 (Z.of_nat (length data)))
  end.

(** ** hash.cpp with this SHA-256 in place *)
Section HashCode.
Context (gp : params).
(** hash.cpp:98-115: the digest as a number, then add_mod_q with 0. *)
Definition close_c (digest : bytes) : Z := add_mod_q gp (be_val digest) 0.
(** hash.cpp:126-248 get_hash_string; 117-124 hash_inner_vector hashes the
    elements of a vector with hash_open, push_hash_update and hash_close. *)
Fixpoint hash_string_c (i : hitem) : outcome bytes :=
  match i with
  | HNull => Ok null_string
  | HHash h => Ok (to_hex_q h)
  | HElemP v => Ok (to_hex_p v)
  | HElemQ v => Ok (to_hex_q v)
  | HU64 n => Ok (if n =? 0 then null_string else to_string_u64 n)
  | HStr s => Ok (match s with [] => null_string | _ => s end)
  | HBytes b => Ok (bytes_to_hex b)
  | HVec l =>
      match l with
      | [] => Ok null_string
      | _ =>
          do s0 <- hash_open_c;
          do s1 <- (fix go (l : list hitem) (s : sstate) : outcome sstate :=
                      match l with
                      | [] => Ok s
                      | x :: t => do str <- hash_string_c x;
                                  do s' <- push_hash_update_c s str; go t s'
                      end) l s0;
          do d <- stream_finish s1;
          Ok (to_hex_q (close_c d))
      end
  end.
(** hash.cpp:60-80 hash_elems. *)
Definition hash_elems_c (l : list hitem) : outcome Z :=
  do s0 <- hash_open_c;
  do s1 <- foldM (fun s x => do str <- hash_string_c x; push_hash_update_c s str)
                 (match l with [] => [HNull] | _ => l end) s0;
  do d <- stream_finish s1;
  Ok (close_c d).
End HashCode.

(** hmac.cpp:22-45 get_hmac. *)
Definition get_hmac_c (key message : bytes) (length start : Z) : outcome bytes :=
  hmac_call key (if 0 <? length then le4 start ++ message ++ le4 length else message).
