(** src/electionguard/group.cpp and lookup_table.hpp on the arrays of 64-bit limbs
    the code works with, calling the bignum library of LimbModel.v.  GroupModel.v
    and LookupModel.v are the same functions on integers; GroupLimbProofs.v relates
    the two. *)
From Verif Require Import Base GroupModel CodecModel LimbModel LimbSpec ConstModel.
Open Scope Z_scope.

(** The constant arrays of constants.h the functions below read. *)
Record arrays := {
  arP : list Z;      (* P_ARRAY_REVERSE, 64 limbs *)
  arQ : list Z;      (* Q_ARRAY_REVERSE, 4 limbs *)
  arG : list Z;      (* G_ARRAY_REVERSE, 64 limbs *)
  arPoff : list Z;   (* P_ARRAY_INVERSE_OFFSET *)
  arQoff : list Z    (* Q_ARRAY_INVERSE_OFFSET *)
}.
Definition std_arrays : arrays := {|
  arP := std_P_ARRAY_REVERSE; arQ := std_Q_ARRAY_REVERSE; arG := std_G_ARRAY_REVERSE;
  arPoff := std_P_ARRAY_INVERSE_OFFSET; arQoff := std_Q_ARRAY_INVERSE_OFFSET |}.
Definition test_arrays : arrays := {|
  arP := test_P_ARRAY_REVERSE; arQ := test_Q_ARRAY_REVERSE; arG := test_G_ARRAY_REVERSE;
  arPoff := test_P_ARRAY_INVERSE_OFFSET; arQoff := test_Q_ARRAY_INVERSE_OFFSET |}.

(** lessThan(...) > 0 (facades/Hacl_Bignum256.cpp lessThan, group.cpp:156-161). *)
Definition l_lt (a b : list Z) : bool := 0 <? lb_lt a b.
(** group.cpp:144-154, 303-313 operator==: the first [n] limbs one by one. *)
Fixpoint l_eq (a b : list Z) : bool :=
  match a, b with
  | [], [] => true
  | x :: a', y :: b' => if x =? y then l_eq a' b' else false
  | _, _ => false
  end.
(** utils.hpp:38-58 isMax on the low limbs. *)
Definition l_isMax (a : list Z) : bool := forallb (fun x => x =? 0xffffffffffffffff) a.

Section Limbs.
Context (ar : arrays).

(** facades CONTEXT_P (Hacl_Bignum4096.cpp:183-191), CONTEXT_Q. *)
Definition ctxP : mont_ctx := mont_ctx_init (arP ar).
Definition ctxQ : mont_ctx := mont_ctx_init (arQ ar).

(** group.cpp:644-695 add_mod_q.  addResult has 8 limbs; the additions only touch
    the low four. *)
Definition l_add_mod_q (a b : list Z) : list Z :=
  let '(carry, s) := lb_add a b in
  let s' :=
    if (0 <? carry) || l_isMax s then
      let big_a := l_lt (arQ ar) a in
      let big_b := l_lt (arQ ar) b in
      if big_a || big_b then
        let off := zeros 4 in
        let off := if big_a then snd (lb_add (snd (lb_add off (arQoff ar))) (lb_one 4)) else off in
        let off := if big_b then snd (lb_add (snd (lb_add off (arQoff ar))) (lb_one 4)) else off in
        snd (lb_add s off)
      else snd (lb_add s (arQoff ar))
    else s in
  mod_precomp ctxQ (s' ++ zeros 4).

(** group.cpp:711-753 sub_mod_q. *)
Definition l_sub_mod_q (a b : list Z) : list Z :=
  let '(borrow, s) := lb_sub a b in
  let s' :=
    if 0 <? borrow then
      let big_a := l_lt (arQ ar) a in
      let big_b := l_lt (arQ ar) b in
      if big_a || big_b then
        let off := snd (lb_add (snd (lb_add (zeros 4) (arQoff ar))) (lb_one 4)) in
        snd (lb_sub s off)
      else snd (lb_sub s (arQoff ar))
    else s in
  mod_precomp ctxQ (s' ++ zeros 4).

(** group.cpp:755-783 a_plus_bc_mod_q. *)
Definition l_a_plus_bc_mod_q (a b c : list Z) : outcome (list Z) :=
  let bc := lb_mul b c in
  let '(ok, bc_mod_q) := lb_mod (arQ ar) bc in
  if negb ok then Throw RuntimeError
  else
    let '(carry, s) := lb_add a bc_mod_q in
    let a_plus_bc := s ++ [carry; 0; 0; 0] in
    let '(ok, res) := lb_mod (arQ ar) a_plus_bc in
    if negb ok then Throw RuntimeError else Ok res.

(** group.cpp:785-793 sub_from_q. *)
Definition l_sub_from_q (a : list Z) : list Z := snd (lb_sub (arQ ar) a).

(** group.cpp:567-576 mul_mod_p. *)
Definition l_mul_mod_p (a b : list Z) : list Z := mod_precomp ctxP (lb_kmul a b).

(** group.cpp:597-607 pow_mod_p, exponent mod P; MAX_P_SIZE = 512 is passed as the
    number of bits. *)
Definition l_pow_mod_p_p (b e : list Z) : list Z :=
  if l_eq e (zeros 64) then lb_one 64 else mod_exp_vartime_precomp ctxP b 512 e.
(** group.cpp:609-628 pow_mod_p, exponent mod Q, ordinary base; toElementModP
    (407-412) pads with zero limbs. *)
Definition l_pow_mod_p (b e : list Z) : list Z :=
  if l_eq e (zeros 4) then lb_one 64 else l_pow_mod_p_p b (e ++ zeros 60).

(** group.cpp:206-215 isInBounds, isValidResidue. *)
Definition l_in_bounds_p (a : list Z) : bool := l_lt (zeros 64) a && l_lt a (arP ar).
Definition l_valid_residue (a : list Z) : bool :=
  l_in_bounds_p a && l_eq (l_pow_mod_p a (arQ ar)) (lb_one 64).

(** memcpy of [size] bytes from one little-endian limb array into a zeroed one of
    [cap] limbs (group.cpp:444, 486): whole limbs, then the low bytes of the next. *)
Definition l_memcpy (cap : nat) (src : list Z) (size : nat) : list Z :=
  let w := (size / 8)%nat in
  let r := (size mod 8)%nat in
  let part := if (r =? 0)%nat then [] else [get src w mod 2 ^ (8 * Z.of_nat r)] in
  firstn cap (firstn w src ++ part ++ zeros cap).

(** group.cpp:427-448 bytes_to_p and 469-490 bytes_to_q; [md] is the modulus the
    checked constructor compares with. *)
Definition l_from_bytes (cap : nat) (md : list Z) (l : bytes) (unchecked : bool) : outcome (list Z) :=
  if (8 * cap <? length l)%nat then Throw OutOfRange
  else match bn_from_bytes_be l with
       | None => Throw BadAlloc
       | Some bn =>
           let element := l_memcpy cap bn (length l) in
           if negb unchecked && l_lt md element then Throw OutOfRange else Ok element
       end.
Definition l_bytes_to_p : bytes -> bool -> outcome (list Z) := l_from_bytes 64 (arP ar).
Definition l_bytes_to_q : bytes -> bool -> outcome (list Z) := l_from_bytes 4 (arQ ar).

(** ** lookup_table.hpp:54-126 *)
Record l_table := { lt_rows : list (list (list Z)); lt_one : list Z }.
Fixpoint l_gen_row (k : nat) (row_base running : list Z) : list (list Z) * list Z :=
  match k with
  | O => ([], running)
  | S k' => let '(r, fin) := l_gen_row k' row_base (mont_mul ctxP running row_base) in
            (running :: r, fin)
  end.
Fixpoint l_gen_rows (rows : nat) (row_base running : list Z) : list (list (list Z)) :=
  match rows with
  | O => []
  | S k => let '(r, fin) := l_gen_row 255 row_base running in r :: l_gen_rows k fin fin
  end.
Definition l_gen_table (base : list Z) : l_table :=
  let b := to_mont ctxP base in
  {| lt_rows := l_gen_rows 32 b b; lt_one := to_mont ctxP (lb_one 64) |}.
(** The exponent's bytes, most significant first from toBytes, are reversed
    (lookup_table.hpp:66-70) and walked together with the rows. *)
Fixpoint l_table_loop (rows : list (list (list Z))) (e : bytes) (acc : list Z) : list Z :=
  match rows, e with
  | r :: rows', slice :: e' =>
      let acc := if slice =? 0 then acc
                 else mont_mul ctxP acc (nth (Z.to_nat (slice - 1)) r []) in
      l_table_loop rows' e' acc
  | _, _ => acc
  end.
Definition l_table_pow (t : l_table) (e : list Z) : list Z :=
  from_mont ctxP (l_table_loop (lt_rows t) (rev (bn_to_bytes_be e)) (lt_one t)).
End Limbs.
