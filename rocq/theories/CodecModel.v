(** Byte and hex encodings: src/electionguard/convert.hpp and the codec methods
    of group.cpp. *)
From Verif Require Import Base GroupModel.
Open Scope Z_scope.

(** Hacl_Bignum256_bn_to_bytes_be (Hacl_Bignum256.c:2024) and
    Hacl_Bignum4096_bn_to_bytes_be (Hacl_Bignum4096.c:1811): big-endian bytes of
    a number, at a fixed length.  LimbBytes.v has the limb level version. *)
Fixpoint be_bytes (n : nat) (v : Z) : bytes :=
  match n with
  | O => []
  | S n' => be_bytes n' (v / 256) ++ [v mod 256]
  end.

(** std::hex << std::uppercase digit. *)
Definition hex_digit (d : Z) : Z := if d <? 10 then 48 + d else 55 + d.
(** stream << setw(2) << setfill('0') << byte (convert.hpp:195). *)
Definition hex_byte (b : Z) : bytes := [hex_digit (b / 16); hex_digit (b mod 16)].

(** convert.hpp:183-200 bytes_to_hex: the loop with its flag. *)
Fixpoint bytes_to_hex_loop (seen : bool) (l : bytes) : bool * bytes :=
  match l with
  | [] => (seen, [])
  | b :: t =>
      let seen' := seen || negb (b =? 0) in
      let '(fl, rest) := bytes_to_hex_loop seen' t in
      (fl, if seen' then hex_byte b ++ rest else rest)
  end.
Definition bytes_to_hex (l : bytes) : bytes :=
  let '(fl, s) := bytes_to_hex_loop false l in
  if fl then s else [48; 48].

(** convert.hpp:38 LEADING_CHARS = "0 \n\r\t\f\v". *)
Definition is_leading (c : Z) : bool :=
  existsb (Z.eqb c) [48; 32; 10; 13; 9; 12; 11].

(** convert.hpp:170-181 sanitize_hex_string.  find_first_not_of returns npos
    when every character is a leading one; substr(npos) then throws. *)
Fixpoint drop_leading (l : bytes) : bytes :=
  match l with
  | [] => []
  | c :: t => if is_leading c then drop_leading t else l
  end.
Definition sanitize_hex_string (s : bytes) : outcome bytes :=
  match drop_leading s with
  | [] => Throw OutOfRange
  | t => Ok (if Nat.odd (length t) then 48 :: t else t)
  end.

(** Value of a hexadecimal digit character, as std::stoi(_, _, 16) reads it. *)
Definition hex_val (c : Z) : option Z :=
  if (48 <=? c) && (c <=? 57) then Some (c - 48)
  else if (65 <=? c) && (c <=? 70) then Some (c - 55)
  else if (97 <=? c) && (c <=? 102) then Some (c - 87)
  else None.

(** isspace in the C locale. *)
Definition is_space (c : Z) : bool := (c =? 32) || ((9 <=? c) && (c <=? 13)).

(** stoi(chunk, nullptr, 16) on a chunk of at most two characters, then the
    conversion to uint16_t and to its low byte (convert.hpp:72-76).  strtol skips
    white space, accepts one sign and stops at the first non-digit; no digit at
    all is invalid_argument. *)
Definition stoi1 (c : Z) : outcome Z :=
  match hex_val c with Some v => Ok v | None => Throw InvalidArgument end.
Definition stoi2 (c1 c2 : Z) : outcome Z :=
  match hex_val c1 with
  | Some v1 => match hex_val c2 with
               | Some v2 => Ok (16 * v1 + v2)
               | None => Ok v1
               end
  | None =>
      if is_space c1 then stoi1 c2
      else if c1 =? 43 (* + *) then stoi1 c2
      else if c1 =? 45 (* - *) then (do v <- stoi1 c2; Ok ((- v) mod 256))
      else Throw InvalidArgument
  end.

(** convert.hpp:67-80 hex_to_bytes. *)
Fixpoint hex_to_bytes (s : bytes) : outcome bytes :=
  match s with
  | [] => Ok []
  | [c] => do b <- stoi1 c; Ok [b]
  | c1 :: c2 :: t => do b <- stoi2 c1 c2; do r <- hex_to_bytes t; Ok (b :: r)
  end.

Section Elements.
Context (gp : params).

(** group.cpp:217-224, 366-373 toBytes. *)
Definition to_bytes_p (v : Z) : bytes := be_bytes 512 v.
Definition to_bytes_q (v : Z) : bytes := be_bytes 32 v.

(** group.cpp:226-239 ElementModP::toHex (the cached string is the result of
    the first call), 375-383 ElementModQ::toHex. *)
Definition to_hex_p (v : Z) : bytes := bytes_to_hex (to_bytes_p v).
Definition to_hex_q (v : Z) : bytes := bytes_to_hex (to_bytes_q v).

(** group.cpp:250-258, 387-395 fromHex. *)
Definition from_hex_p (s : bytes) (unchecked : bool) : outcome Z :=
  do t <- sanitize_hex_string s; do b <- hex_to_bytes t; bytes_to_p gp b unchecked.
Definition from_hex_q (s : bytes) (unchecked : bool) : outcome Z :=
  do t <- sanitize_hex_string s; do b <- hex_to_bytes t; bytes_to_q gp b unchecked.
End Elements.

(** std::to_string(uint64_t): decimal digits, at most 20 of them. *)
Fixpoint dec_loop (fuel : nat) (n : Z) (acc : bytes) : bytes :=
  match fuel with
  | O => acc
  | S f => let acc' := (48 + n mod 10) :: acc in
           if n / 10 =? 0 then acc' else dec_loop f (n / 10) acc'
  end.
Definition to_string_u64 (n : Z) : bytes := dec_loop 20 n [].
