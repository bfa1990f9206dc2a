(** Arithmetic modulo P in a Windows build: facades/Hacl_Bignum4096.cpp under _WIN32
    passes the same arrays of 64-bit limbs, their address cast to uint32_t *, to the
    32-bit library of Limb32Model.v.  Numbers modulo Q use the 64-bit library on every
    platform (facades/Hacl_Bignum256.cpp has no _WIN32 part).

    GroupLimbModel.v has the functions of group.cpp and lookup_table.hpp for the other
    platforms.  Not represented: that reading uint64_t objects through uint32_t * is
    outside what the C++ standard defines; the little-endian layout of Windows targets
    is assumed. *)
From Verif Require Import Base GroupModel LimbModel LimbSpec GroupLimbModel.
From Verif Require Limb32Model.
Local Open Scope Z_scope.

(** reinterpret_cast<uint32_t *> of a little-endian uint64_t array, and back. *)
Definition halves (l : list Z) : list Z :=
  flat_map (fun x => [x mod 2 ^ 32; x / 2 ^ 32]) l.
Fixpoint joined (l : list Z) : list Z :=
  match l with
  | lo :: hi :: l' => (lo + 2 ^ 32 * hi) :: joined l'
  | _ => []
  end.

(** Hacl_Bignum4096.cpp:29-60 add, sub, mul. *)
Definition w_add (a b : list Z) : Z * list Z :=
  let '(c, r) := Limb32Model.lb_add (halves a) (halves b) in (c, joined r).
Definition w_sub (a b : list Z) : Z * list Z :=
  let '(c, r) := Limb32Model.lb_sub (halves a) (halves b) in (c, joined r).
Definition w_mul (a b : list Z) : list Z :=
  joined (Limb32Model.lb_kmul (halves a) (halves b)).

(** Hacl_Bignum4096.cpp:62-72 static mod. *)
Definition w_mod (n a : list Z) : bool * list Z :=
  let '(ok, r) := Limb32Model.lb_mod (halves n) (halves a) in (ok, joined r).

(** Hacl_Bignum4096.cpp:74-100 static modExp, on Windows and elsewhere; [None] means
    that the result array is not written. *)
Definition w_mod_exp (ct : bool) (n a : list Z) (bBits : Z) (b : list Z) : bool * option (list Z) :=
  if bBits <=? 0 then (false, None)
  else let '(ok, r) := Limb32Model.mod_exp ct (halves n) (halves a) bBits (halves b) in
       (ok, Some (joined r)).
Definition x_mod_exp (ct : bool) (n a : list Z) (bBits : Z) (b : list Z) : bool * option (list Z) :=
  if bBits <=? 0 then (false, None)
  else let '(ok, r) := mod_exp ct n a bBits b in (ok, Some r).

(** Hacl_Bignum4096.cpp:14-19, 183-191: the context of a modulus. *)
Definition w_ctx (n : list Z) : Limb32Model.mont_ctx := Limb32Model.mont_ctx_init (halves n).

(** Hacl_Bignum4096.cpp:117-125 mod. *)
Definition w_mod_precomp (k : Limb32Model.mont_ctx) (a : list Z) : list Z :=
  joined (Limb32Model.mod_precomp k (halves a)).
(** Hacl_Bignum4096.cpp:127-151 modExp with bBits > 0. *)
Definition w_mod_exp_precomp (ct : bool) (k : Limb32Model.mont_ctx) (a : list Z) (bBits : Z)
  (b : list Z) : list Z :=
  joined ((if ct then Limb32Model.mod_exp_consttime_precomp else Limb32Model.mod_exp_vartime_precomp)
            k (halves a) bBits (halves b)).
Definition x_mod_exp_precomp (ct : bool) (k : mont_ctx) (a : list Z) (bBits : Z) (b : list Z)
  : list Z :=
  (if ct then mod_exp_consttime_precomp else mod_exp_vartime_precomp) k a bBits b.
(** Hacl_Bignum4096.cpp:153-181 to_montgomery_form, from_montgomery_form,
    montgomery_mod_mul_stay_in_mont_form. *)
Definition w_to_mont (k : Limb32Model.mont_ctx) (a : list Z) : list Z :=
  joined (Limb32Model.to_mont k (halves a)).
Definition w_from_mont (k : Limb32Model.mont_ctx) (aM : list Z) : list Z :=
  joined (Limb32Model.from_mont k (halves aM)).
Definition w_mont_mul (k : Limb32Model.mont_ctx) (aM bM : list Z) : list Z :=
  joined (Limb32Model.mont_mul k (halves aM) (halves bM)).

Section Win.
Context (ar : arrays).
Definition w_ctxP : Limb32Model.mont_ctx := w_ctx (arP ar).

(** group.cpp:567-576 mul_mod_p. *)
Definition w_mul_mod_p (a b : list Z) : list Z := w_mod_precomp w_ctxP (w_mul a b).

(** group.cpp:597-628 pow_mod_p (the default of useConstTime is false). *)
Definition w_pow_mod_p_p (b e : list Z) : list Z :=
  if l_eq e (zeros 64) then lb_one 64 else w_mod_exp_precomp false w_ctxP b 512 e.
Definition w_pow_mod_p (b e : list Z) : list Z :=
  if l_eq e (zeros 4) then lb_one 64 else w_pow_mod_p_p b (e ++ zeros 60).

(** group.cpp:206-215 isValidResidue; the comparisons are the 64-bit ones. *)
Definition w_valid_residue (a : list Z) : bool :=
  l_in_bounds_p ar a && l_eq (w_pow_mod_p a (arQ ar)) (lb_one 64).

(** lookup_table.hpp:54-126. *)
Fixpoint w_gen_row (k : nat) (row_base running : list Z) : list (list Z) * list Z :=
  match k with
  | O => ([], running)
  | S k' => let '(r, fin) := w_gen_row k' row_base (w_mont_mul w_ctxP running row_base) in
            (running :: r, fin)
  end.
Fixpoint w_gen_rows (rows : nat) (row_base running : list Z) : list (list (list Z)) :=
  match rows with
  | O => []
  | S k => let '(r, fin) := w_gen_row 255 row_base running in r :: w_gen_rows k fin fin
  end.
Definition w_gen_table (base : list Z) : l_table :=
  let b := w_to_mont w_ctxP base in
  {| lt_rows := w_gen_rows 32 b b; lt_one := w_to_mont w_ctxP (lb_one 64) |}.
Fixpoint w_table_loop (rows : list (list (list Z))) (e : bytes) (acc : list Z) : list Z :=
  match rows, e with
  | r :: rows', slice :: e' =>
      let acc := if slice =? 0 then acc
                 else w_mont_mul w_ctxP acc (nth (Z.to_nat (slice - 1)) r []) in
      w_table_loop rows' e' acc
  | _, _ => acc
  end.
Definition w_table_pow (t : l_table) (e : list Z) : list Z :=
  w_from_mont w_ctxP (w_table_loop (lt_rows t) (rev (bn_to_bytes_be e)) (lt_one t)).
End Win.
