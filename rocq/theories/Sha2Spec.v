(** SHA-256 as FIPS 180-4 defines it, and HMAC as RFC 2104 / FIPS 198-1.
    Independent of Sha2Model: words are integers, rotations are arithmetic, the
    constants are computed from the primes. *)
From Verif Require Import Base.
Open Scope Z_scope.

(** 2.2.2, 3.2: operations on 32-bit words. *)
Definition W32 : Z := 2 ^ 32.
Definition ROTR (n x : Z) : Z := x / 2 ^ n + (x mod 2 ^ n) * 2 ^ (32 - n).
Definition SHR (n x : Z) : Z := x / 2 ^ n.
Definition plus (l : list Z) : Z := zsum l mod W32.

(** 4.1.2. *)
Definition Ch (x y z : Z) : Z := Z.lxor (Z.land x y) (Z.land (W32 - 1 - x) z).
Definition Maj (x y z : Z) : Z := Z.lxor (Z.lxor (Z.land x y) (Z.land x z)) (Z.land y z).
Definition Sigma0 (x : Z) : Z := Z.lxor (Z.lxor (ROTR 2 x) (ROTR 13 x)) (ROTR 22 x).
Definition Sigma1 (x : Z) : Z := Z.lxor (Z.lxor (ROTR 6 x) (ROTR 11 x)) (ROTR 25 x).
Definition sigma0 (x : Z) : Z := Z.lxor (Z.lxor (ROTR 7 x) (ROTR 18 x)) (SHR 3 x).
Definition sigma1 (x : Z) : Z := Z.lxor (Z.lxor (ROTR 17 x) (ROTR 19 x)) (SHR 10 x).

(** The first [n] primes, by trial division. *)
Definition prime_b (n : nat) : bool :=
  forallb (fun d => negb (Z.of_nat n mod Z.of_nat d =? 0)) (seq 2 (n - 2)).
Definition first_primes (n bound : nat) : list Z :=
  map Z.of_nat (firstn n (filter prime_b (seq 2 bound))).

(** Integer cube root, one bit at a time from bit [b]. *)
Fixpoint cbrt (b : nat) (n r : Z) : Z :=
  let r' := r + 2 ^ Z.of_nat b in
  let r1 := if r' ^ 3 <=? n then r' else r in
  match b with O => r1 | S b' => cbrt b' n r1 end.

(** 4.2.2: the first thirty-two bits of the fractional parts of the cube roots
    of the first sixty-four primes. *)
Definition K : list Z := map (fun p => cbrt 36 (p * 2 ^ 96) 0 mod W32) (first_primes 64 310).
(** 5.3.3: ... of the square roots of the first eight primes. *)
Definition H0 : list Z := map (fun p => Z.sqrt (p * 2 ^ 64) mod W32) (first_primes 8 20).

(** 5.1.1: append a one bit, k zero bits with l + 1 + k = 448 mod 512, the
    64-bit length.  Messages are whole bytes. *)
Fixpoint big_endian (n : nat) (v : Z) : bytes :=
  match n with O => [] | S n' => (v / 256 ^ Z.of_nat n') mod 256 :: big_endian n' v end.
Definition padding (len : nat) : bytes :=
  0x80 :: repeat 0 ((119 - len mod 64) mod 64)%nat ++ big_endian 8 (8 * Z.of_nat len).

(** 5.2.1, 6.2.2 step 1: the message schedule of a block. *)
Definition word_at (block : bytes) (t : nat) : Z :=
  nth (4 * t) block 0 * 2 ^ 24 + nth (4 * t + 1) block 0 * 2 ^ 16
  + nth (4 * t + 2) block 0 * 2 ^ 8 + nth (4 * t + 3) block 0.
Fixpoint schedule (block : bytes) (n : nat) : list Z :=
  match n with
  | O => []
  | S t =>
      let W := schedule block t in
      W ++ [if (t <? 16)%nat then word_at block t
            else plus [sigma1 (nth (t - 2) W 0); nth (t - 7) W 0;
                       sigma0 (nth (t - 15) W 0); nth (t - 16) W 0]]
  end.

(** 6.2.2 steps 2-4. *)
Definition vars : Type := Z * Z * Z * Z * Z * Z * Z * Z.
Definition round (s : vars) (kw : Z * Z) : vars :=
  let '(a, b, c, d, e, f, g, h) := s in
  let T1 := plus [h; Sigma1 e; Ch e f g; fst kw; snd kw] in
  let T2 := plus [Sigma0 a; Maj a b c] in
  (plus [T1; T2], a, b, c, plus [d; T1], e, f, g).
Definition listed (s : vars) : list Z :=
  let '(a, b, c, d, e, f, g, h) := s in [a; b; c; d; e; f; g; h].
Definition compress (H : list Z) (block : bytes) : list Z :=
  let start := (nth 0 H 0, nth 1 H 0, nth 2 H 0, nth 3 H 0,
                nth 4 H 0, nth 5 H 0, nth 6 H 0, nth 7 H 0) in
  let last := fold_left round (combine K (schedule block 64)) start in
  map (fun '(x, y) => plus [x; y]) (combine (listed last) (listed start)).

(** 6.2.2: the blocks in order. *)
Fixpoint absorb (n : nat) (h : list Z) (m : bytes) : list Z :=
  match n with
  | O => h
  | S n' => absorb n' (compress h (firstn 64 m)) (skipn 64 m)
  end.
Definition SHA256 (m : bytes) : bytes :=
  let p := m ++ padding (length m) in
  flat_map (big_endian 4) (absorb (length p / 64) H0 p).

(** RFC 2104 section 2, with B = 64. *)
Definition hmac_key (key : bytes) : bytes :=
  let k := if (length key <=? 64)%nat then key else SHA256 key in
  k ++ repeat 0 (64 - length k).
Definition HMAC256 (key m : bytes) : bytes :=
  let k := hmac_key key in
  SHA256 (map (Z.lxor 0x5c) k ++ SHA256 (map (Z.lxor 0x36) k ++ m)).
