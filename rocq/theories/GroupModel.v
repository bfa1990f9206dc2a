(** Group arithmetic of src/electionguard/group.cpp at the level of the
    integers denoted by the limb arrays.  Every call into the bignum library is
    replaced by its integer effect (exact result modulo the array size plus
    carry); LimbModel.v and LimbProofs.v to ExpProofs.v justify those effects limb by limb and
    GroupLimbProofs.v shows that the limb level functions refine the ones below. *)
From Verif Require Import Base.
Open Scope Z_scope.

(** The constants of include/electionguard/constants.h that the arithmetic
    uses (lines 54-213 for the standard primes, 215-388 for the test primes). *)
Record params := {
  gpP : Z;        (* P_ARRAY_REVERSE *)
  gpQ : Z;        (* Q_ARRAY_REVERSE *)
  gpR : Z;        (* R_ARRAY_REVERSE *)
  gpG : Z;        (* G_ARRAY_REVERSE *)
  gpPoff : Z;     (* P_ARRAY_INVERSE_OFFSET *)
  gpQoff : Z      (* Q_ARRAY_INVERSE_OFFSET *)
}.

(** Bignum256::add / Bignum4096::add (facades/Hacl_Bignum256.cpp:16-19,
    facades/Hacl_Bignum4096.cpp:32-41): result array and carry. *)
Definition bn_add (W a b : Z) : Z * Z := ((a + b) mod W, (a + b) / W).

(** Bignum256::sub / Bignum4096::sub: result array and borrow. *)
Definition bn_sub (W a b : Z) : Z * Z := ((a - b) mod W, if a <? b then 1 else 0).

(** utils.hpp:38-58 isMax: all low limbs are 0xff..ff. *)
Definition isMax (W a : Z) : bool := a =? W - 1.

(** Modular exponentiation by binary square and multiply: the value the bignum
    library's exponentiation returns (ExpProofs.v). *)
Fixpoint powmod_pos (b : Z) (e : positive) (m : Z) : Z :=
  match e with
  | xH => b mod m
  | xO e' => let h := powmod_pos b e' m in (h * h) mod m
  | xI e' => let h := powmod_pos b e' m in ((h * h) mod m * b) mod m
  end.
Definition powmod (b e m : Z) : Z :=
  match e with
  | Zpos p => powmod_pos b p m
  | _ => 1 mod m
  end.

Section Group.
Context (gp : params).

(** group.cpp:644-695 add_mod_q (binary). *)
Definition add_mod_q (a b : Z) : Z :=
  let '(s, carry) := bn_add W256 a b in
  let s' :=
    if (0 <? carry) || isMax W256 s then
      let big_a := gpQ gp <? a in
      let big_b := gpQ gp <? b in
      if big_a || big_b then
        let off := 0 in
        let off := if big_a
                   then fst (bn_add W256 (fst (bn_add W256 off (gpQoff gp))) 1)
                   else off in
        let off := if big_b
                   then fst (bn_add W256 (fst (bn_add W256 off (gpQoff gp))) 1)
                   else off in
        fst (bn_add W256 s off)
      else fst (bn_add W256 s (gpQoff gp))
    else s in
  s' mod gpQ gp.

(** group.cpp:697-709 add_mod_q (list). *)
Definition add_mod_q_list (l : list Z) : outcome Z :=
  match l with
  | [] => Throw InvalidArgument
  | _ => Ok (fold_left add_mod_q l 0)
  end.

(** group.cpp:711-753 sub_mod_q. *)
Definition sub_mod_q (a b : Z) : Z :=
  let '(s, borrow) := bn_sub W256 a b in
  let s' :=
    if 0 <? borrow then
      let big_a := gpQ gp <? a in
      let big_b := gpQ gp <? b in
      if big_a || big_b then
        let off := fst (bn_add W256 (fst (bn_add W256 0 (gpQoff gp))) 1) in
        fst (bn_sub W256 s off)
      else fst (bn_sub W256 s (gpQoff gp))
    else s in
  s' mod gpQ gp.

(** group.cpp:755-783 a_plus_bc_mod_q; the product is a double length array,
    the carry of the addition becomes limb 4.  Bignum256::mod returns false
    (hence runtime_error) only for an even or trivial modulus
    (Hacl_Bignum256.c:922), modelled by the two guards. *)
Definition a_plus_bc_mod_q (a b c : Z) : outcome Z :=
  if (Z.even (gpQ gp)) || (gpQ gp <=? 1) then Throw RuntimeError else
  let bc := (b * c) mod gpQ gp in
  let '(s, carry) := bn_add W256 a bc in
  Ok ((s + W256 * carry) mod gpQ gp).

(** group.cpp:785-793 sub_from_q: no reduction of the result. *)
Definition sub_from_q (a : Z) : Z := fst (bn_sub W256 (gpQ gp) a).

(** group.cpp:507-558 add_mod_p.  The last branch passes the 4-limb array
    Q_ARRAY_INVERSE_OFFSET where 64 limbs are read: out of bounds. *)
Definition add_mod_p (a b : Z) : outcome Z :=
  let '(s, carry) := bn_add W4096 a b in
  if (0 <? carry) || isMax W4096 s then
    let big_a := gpP gp <? a in
    let big_b := gpP gp <? b in
    if big_a || big_b then
      let off := 0 in
      let off := if big_a
                 then fst (bn_add W4096 (fst (bn_add W4096 off (gpPoff gp))) 1)
                 else off in
      let off := if big_b
                 then fst (bn_add W4096 (fst (bn_add W4096 off (gpPoff gp))) 1)
                 else off in
      Ok (fst (bn_add W4096 s off) mod gpP gp)
    else UB
  else Ok (s mod gpP gp).

(** group.cpp:560-565 mod_p: CONTEXT_P().mod reads 128 limbs of the 64-limb
    array of the element (Hacl_Bignum4096.c:1533): always out of bounds. *)
Definition mod_p (_ : Z) : outcome Z := UB.

(** group.cpp:567-576 mul_mod_p (binary). *)
Definition mul_mod_p (a b : Z) : Z := (a * b) mod gpP gp.

(** group.cpp:578-595 mul_mod_p (list), elements of Z_Q are widened first
    (ElementModQ::toElementModP, group.cpp:407-412). *)
Definition mul_mod_p_list (l : list Z) : Z := fold_left mul_mod_p l 1.

(** group.cpp:597-607 pow_mod_p with an element mod P as exponent: the bit
    length passed is MAX_P_SIZE = 512 (constants.h), so only the low 512 bits
    of the exponent are read. *)
Definition pow_mod_p_p (b e : Z) : Z :=
  if e =? 0 then 1 else powmod b (e mod W512) (gpP gp).

(** group.cpp:609-628 pow_mod_p with an element mod Q as exponent, base not
    flagged as fixed base.  The fixed base path is LookupModel.pow_mod_p_fixed;
    LookupProofs shows that it returns the same value. *)
Definition pow_mod_p (b e : Z) : Z :=
  if e =? 0 then 1 else pow_mod_p_p b e.

(** group.cpp:630-638 g_pow_p. *)
Definition g_pow_p (e : Z) : Z := pow_mod_p (gpG gp) e.

(** group.cpp:156-161, 315-320 operator<. *)
Definition elem_lt (a b : Z) : bool := a <? b.
(** group.cpp:144-154, 303-313 operator==. *)
Definition elem_eq (a b : Z) : bool := a =? b.

(** group.cpp:206-210, 360-364 isInBounds. *)
Definition in_bounds_p (a : Z) : bool := (0 <? a) && (a <? gpP gp).
Definition in_bounds_q (a : Z) : bool := (0 <? a) && (a <? gpQ gp).

(** group.cpp:211-215 isValidResidue. *)
Definition valid_residue (a : Z) : bool :=
  (pow_mod_p a (gpQ gp) =? 1) && in_bounds_p a.

(** group.cpp:115-135 ElementModP::Impl constructors; the value denotes the
    zero padded array.  [len] is the number of limbs of the vector passed; more
    than 64 limbs overflow the stack array. *)
Definition make_p (len : nat) (v : Z) (unchecked : bool) : outcome Z :=
  if (64 <? len)%nat then UB
  else if negb unchecked && (gpP gp <? v) then Throw OutOfRange
  else Ok v.

(** group.cpp:276-294 ElementModQ::Impl constructors. *)
Definition make_q (len : nat) (v : Z) (unchecked : bool) : outcome Z :=
  if (4 <? len)%nat then UB
  else if negb unchecked && (gpQ gp <? v) then Throw OutOfRange
  else Ok v.

(** group.cpp:241-244 ElementModP::clone (unchecked). *)
Definition clone_p (v : Z) : outcome Z := make_p 64 v true.
(** group.cpp:414-417 ElementModQ::clone (checked!). *)
Definition clone_q (v : Z) : outcome Z := make_q 4 v false.

(** Big-endian value of a byte string (Hacl_Bignum256.c:1911,
    Hacl_Bignum4096.c:1698 new_bn_from_bytes_be). *)
Definition be_val (l : bytes) : Z := fold_left (fun acc b => acc * 256 + b) l 0.

(** group.cpp:427-448 bytes_to_p, 469-490 bytes_to_q.  new_bn_from_bytes_be
    returns NULL for length 0, reported as bad_alloc. *)
Definition bytes_to_p (l : bytes) (unchecked : bool) : outcome Z :=
  if (512 <? length l)%nat then Throw OutOfRange
  else if (length l =? 0)%nat then Throw BadAlloc
  else make_p 64 (be_val l) unchecked.
Definition bytes_to_q (l : bytes) (unchecked : bool) : outcome Z :=
  if (32 <? length l)%nat then Throw OutOfRange
  else if (length l =? 0)%nat then Throw BadAlloc
  else make_q 4 (be_val l) unchecked.

(** group.cpp:260-266, 397-403 fromUint64. *)
Definition from_uint64_p (v : Z) (unchecked : bool) : outcome Z := make_p 64 v unchecked.
Definition from_uint64_q (v : Z) (unchecked : bool) : outcome Z := make_q 4 v unchecked.

(** group.cpp:812-830 rand_q, as a function of the 32 first random bytes. *)
Definition rand_q (random : Z) : Z :=
  let low := Z.land (random mod W64) 0xFFFFFFFFFFFFFF43 in
  add_mod_q ((random / W64) * W64 + low) 0.

(** group.cpp:795-810 rand_p: Random::getBytes() returns 256 bytes by default
    (random.hpp), 512 are read. *)
Definition rand_p (_ : Z) : outcome Z := UB.

End Group.

(** constants.h:215-388, USE_TEST_PRIMES. *)
Definition test_params : params := {|
  gpP := 18446744073704586917;
  gpQ := 65521;
  gpR := 281539415968996;
  gpG := 15463152587872997502;
  gpPoff := W4096 - 18446744073704586917;
  gpQoff := W256 - 65521
|}.
