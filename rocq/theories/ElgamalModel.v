(** src/electionguard/elgamal.cpp *)
From Verif Require Import Base GroupModel CodecModel HashModel.
Open Scope Z_scope.

(** elgamal.cpp:84-91 ElGamalCiphertext::Impl. *)
Record ciphertext := { ct_pad : Z; ct_data : Z }.

(** elgamal.cpp:29-37 ElGamalKeyPair::Impl: two owning pointers.  [None] is a
    moved-from (null) pointer. *)
Record keypair := { kp_secret : option Z; kp_public : option Z }.

(** elgamal.cpp:276-284 HashedElGamalCiphertext::Impl. *)
Record hashed_ct := { hc_pad : Z; hc_data : bytes; hc_mac : bytes }.

(** precompute_buffers.hpp Triple: (exp, g_to_exp, pubkey_to_exp). *)
Record triple := { tr_exp : Z; tr_g : Z; tr_k : Z }.

(** constants.h MAX_UINT64. *)
Definition MAX_UINT64 : Z := W64 - 1.

Section Elgamal.
Context (gp : params).

(** elgamal.cpp:68-78 ElGamalKeyPair::fromSecret. *)
Definition keypair_from_secret (s : Z) : outcome keypair :=
  if s <? 2 then Throw InvalidArgument
  else Ok {| kp_secret := Some s; kp_public := Some (g_pow_p gp s) |}.

(** elgamal.cpp:41-44 ElGamalKeyPair copy constructor:
    the Impl is move-constructed from the source, which moves the pointers out of the source.
    Returns (copy, source afterwards). *)
Definition keypair_copy (k : keypair) : keypair * keypair :=
  (k, {| kp_secret := None; kp_public := None |}).

(** Hacl_Bignum4096_mod_inv_prime_vartime (Hacl_Bignum4096.c:1332-1460): on
    violated preconditions the result is zeroed. *)
Definition mod_inv_prime (n a : Z) : Z :=
  if Z.odd n && (1 <? n) && (0 <? a) && (a <? n) then powmod a (n - 2) n else 0.

(** Hacl_Bignum4096_mod_exp_consttime (Hacl_Bignum4096.c:1295-1315) called with
    bBits = 512: [None] when exp_check (752-841) refuses. *)
Definition mod_exp_checked (n a e : Z) : option Z :=
  if Z.odd n && (1 <? n) && (a <? n) then Some (powmod a (e mod W512) n) else None.

(** elgamal.cpp:158-205 ElGamalCiphertext::decrypt. *)
Definition decrypt (c : ciphertext) (secret : Z) : Z :=
  match mod_exp_checked (gpP gp) (ct_pad c) secret with
  | None => 0
  | Some divisor =>
      let inverse := mod_inv_prime (gpP gp) divisor in
      let result := (ct_data c * inverse) mod gpP gp in
      if result =? 1 then 0
      else if result =? gpG gp then 1
      else MAX_UINT64
  end.

(** elgamal.cpp:214-236 elgamalEncrypt. *)
Definition elgamal_encrypt (m nonce pk : Z) : outcome ciphertext :=
  if nonce =? 0 then Throw InvalidArgument
  else
    let pad := g_pow_p gp nonce in
    let k_pow_n := pow_mod_p gp pk nonce in
    let data := if m =? 1 then mul_mod_p gp (gpG gp) k_pow_n else k_pow_n in
    Ok {| ct_pad := pad; ct_data := data |}.

(** elgamal.cpp:238-254 elgamalEncrypt_with_precomputed. *)
Definition elgamal_encrypt_precomp (m g_to_rho k_to_rho : Z) : ciphertext :=
  let data := if m =? 1 then mul_mod_p gp (gpG gp) k_to_rho else k_to_rho in
  {| ct_pad := g_to_rho; ct_data := data |}.

(** elgamal.cpp:256-272 elgamalAdd. *)
Definition elgamal_add_step (acc c : ciphertext) : ciphertext :=
  {| ct_pad := mul_mod_p gp (ct_pad acc) (ct_pad c);
     ct_data := mul_mod_p gp (ct_data acc) (ct_data c) |}.
Definition elgamal_add (l : list ciphertext) : outcome ciphertext :=
  match l with
  | [] => Throw InvalidArgument
  | _ => Ok (fold_left elgamal_add_step l {| ct_pad := 1; ct_data := 1 |})
  end.

Context (sha : bytes -> Z) (hmac : bytes -> bytes -> Z).

(** elgamal.cpp:100-103 ElGamalCiphertext crypto_hash. *)
Definition ct_hash (c : ciphertext) : Z :=
  hash_elems gp sha [HElemP (ct_pad c); HElemP (ct_data c)].

(** ** Hashed ElGamal *)

(** elgamal.cpp:457-502: the padded plaintext.  [max_len] is the enumeration
    value of padded_data_size_t (elgamal.hpp:145-149): 0 (NO_PADDING) or 510. *)
Definition pad_message (message : bytes) (max_len : Z) (allow_truncation : bool)
  : outcome bytes :=
  let size := Z.of_nat (length message) in
  if negb (max_len =? 0) then
    if allow_truncation && (max_len <? size) then
      Ok ([0; 0] ++ firstn (Z.to_nat max_len) message)
    else if max_len <? size then Throw InvalidArgument
    else
      let pad_len := (max_len - size) mod 65536 in
      Ok ([pad_len / 256; pad_len mod 256] ++ message ++ repeat 0 (Z.to_nat pad_len))
  else if negb (size mod 32 =? 0) then Throw InvalidArgument
  else Ok message.

(** elgamal.cpp:524-541 / 389-407: xor block [i] (counting from 0) of the data
    with get_hmac(session_key, seed, blocks*256, i+1).  [blocks] many blocks of
    32 bytes are processed. *)
Fixpoint xor_bytes (a b : bytes) : bytes :=
  match a, b with
  | x :: a', y :: b' => Z.lxor x y :: xor_bytes a' b'
  | _, _ => []
  end.
Fixpoint xor_blocks (key seed : bytes) (total : Z) (blocks : nat) (i : Z) (data : bytes) : bytes :=
  match blocks with
  | O => []
  | S n =>
      xor_bytes (firstn 32 data) (get_hmac hmac key seed total (i + 1))
      ++ xor_blocks key seed total n (i + 1) (skipn 32 data)
  end.

(** number_of_blocks * HASHED_BLOCK_LENGTH_IN_BITS as uint32_t. *)
Definition total_bits (blocks : nat) : Z := (Z.of_nat blocks * 256) mod 2 ^ 32.

(** elgamal.cpp:543-549 / 374-380: the mac over pad bytes and data. *)
Definition hashed_mac (session : Z) (seed : Z) (blocks : nat) (pad : Z) (data : bytes) : bytes :=
  let mac_key := get_hmac hmac (to_bytes_q session) (to_bytes_q seed) (total_bits blocks) 0 in
  get_hmac hmac mac_key (to_bytes_p pad ++ data) 0 0.

(** elgamal.cpp:446-553 hashedElgamalEncrypt.  [pre] is the triple returned by
    PrecomputeBufferContext::getTriple(), if any. *)
Definition hashed_encrypt (pre : option triple) (message : bytes) (nonce pk seed : Z)
           (max_len : Z) (allow_truncation : bool) : outcome hashed_ct :=
  do padded <- pad_message message max_len allow_truncation;
  let blocks := (length padded / 32)%nat in
  let '(g_to_r, k_to_r) :=
    match pre with
    | Some t => (tr_g t, tr_k t)
    | None => (g_pow_p gp nonce, pow_mod_p gp pk nonce)
    end in
  let session := hash_elems gp sha [HElemP g_to_r; HElemP k_to_r] in
  let ct := xor_blocks (to_bytes_q session) (to_bytes_q seed) (total_bits blocks) blocks 0 padded in
  Ok {| hc_pad := g_to_r; hc_data := ct; hc_mac := hashed_mac session seed blocks g_to_r ct |}.

(** elgamal.cpp:409-434: removal of the padding. *)
Definition unpad (p : bytes) : outcome bytes :=
  let size := Z.of_nat (length p) in
  let pad_len := 256 * nth 0 p 0 + nth 1 p 0 in
  if size - 2 <? pad_len then Throw RuntimeError
  else
    let tail := skipn (Z.to_nat (size - pad_len)) p in
    if forallb (Z.eqb 0) tail
    then Ok (skipn 2 (firstn (Z.to_nat (size - pad_len)) p))
    else Throw RuntimeError.

(** elgamal.cpp:354-437 HashedElGamalCiphertext::decrypt. *)
Definition hashed_decrypt (c : hashed_ct) (secret seed : Z) (look_for_padding : bool)
  : outcome bytes :=
  let len := length (hc_data c) in
  let blocks := (len / 32)%nat in
  if negb (len mod 32 =? 0)%nat || (len =? 0)%nat then Throw InvalidArgument
  else
    let k_to_r := pow_mod_p gp (hc_pad c) secret in
    let session := hash_elems gp sha [HElemP (hc_pad c); HElemP k_to_r] in
    let our_mac := hashed_mac session seed blocks (hc_pad c) (hc_data c) in
    if negb (bytes_eqb (hc_mac c) our_mac) then Throw RuntimeError
    else
      let p := xor_blocks (to_bytes_q session) (to_bytes_q seed) (total_bits blocks) blocks 0
                          (hc_data c) in
      if look_for_padding then unpad p else Ok p.

(** elgamal.cpp:292-295 HashedElGamalCiphertext crypto_hash. *)
Definition hashed_ct_hash (c : hashed_ct) : Z :=
  hash_elems gp sha [HElemP (hc_pad c); HBytes (hc_data c); HBytes (hc_mac c)].

End Elgamal.
