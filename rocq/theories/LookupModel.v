(** src/electionguard/lookup_table.hpp: fixed-base exponentiation tables, in
    Montgomery form, and the table cache.  Montgomery operations are given by
    their integer effect; MontProofs.v and GroupLimbProofs.v derive it from the limb code. *)
From Verif Require Import Base GroupModel CodecModel.
Open Scope Z_scope.

(** Multiplicative inverse of 2^4096 modulo an odd n: (n+1)/2 inverts 2. *)
Definition mont_rinv (n : Z) : Z := powmod ((n + 1) / 2) 4096 n.

(** Hacl_GenericField64_mul (Hacl_GenericField64.c:194-206). *)
Definition mont_mul (n a b : Z) : Z := (a * b * mont_rinv n) mod n.
(** Hacl_GenericField64_to_field (Hacl_GenericField64.c:133-147). *)
Definition to_mont (n a : Z) : Z := (a * W4096) mod n.
(** Hacl_GenericField64_from_field (Hacl_GenericField64.c:149-164). *)
Definition from_mont (n a : Z) : Z := (a * mont_rinv n) mod n.

(** A generated table: 32 rows of 255 entries (column 0 is never read) and 1 in
    Montgomery form. *)
Record table := { tb_rows : list (list Z); tb_one : Z }.

(** lookup_table.hpp:115-118, the inner loop: store the running base, multiply. *)
Fixpoint gen_row (n : Z) (k : nat) (row_base running : Z) : list Z * Z :=
  match k with
  | O => ([], running)
  | S k' => let '(r, fin) := gen_row n k' row_base (mont_mul n running row_base) in
            (running :: r, fin)
  end.

(** lookup_table.hpp:113-120, the outer loop: the running base reached at the end
    of a row is the base of the next row and stays the running base. *)
Fixpoint gen_rows (n : Z) (rows : nat) (row_base running : Z) : list (list Z) :=
  match rows with
  | O => []
  | S k => let '(r, fin) := gen_row n 255 row_base running in
           r :: gen_rows n k fin fin
  end.

(** lookup_table.hpp:94-126 generateTable (LUT_TABLE_LENGTH = 32 rows,
    LUT_ORDER_BITS = 256 columns, constants.h). *)
Definition gen_table (n base : Z) : table :=
  let b := to_mont n base in
  {| tb_rows := gen_rows n 32 b b; tb_one := to_mont n 1 |}.

(** lookup_table.hpp:73-83, the loop over the exponent bytes, least significant
    first; [e] is what remains of the exponent. *)
Fixpoint table_loop (n : Z) (rows : list (list Z)) (e acc : Z) : Z :=
  match rows with
  | [] => acc
  | r :: rest =>
      let slice := e mod 256 in
      let acc' := if slice =? 0 then acc
                  else mont_mul n acc (nth (Z.to_nat (slice - 1)) r 0) in
      table_loop n rest (e / 256) acc'
  end.

(** lookup_table.hpp:54-91 LookupTable::pow_mod_p. *)
Definition table_pow (n : Z) (t : table) (e : Z) : Z :=
  from_mont n (table_loop n (tb_rows t) e (tb_one t)).

(** ** lookup_table.hpp:142-189 LookupTableContext *)
Definition cache := list (bytes * table).

Fixpoint cache_find (key : bytes) (c : cache) : option table :=
  match c with
  | [] => None
  | (k, t) :: rest => if bytes_eqb k key then Some t else cache_find key rest
  end.

(** lookup_table.hpp:179-188 getBaseLookupTable. *)
Definition cache_get (gp : params) (c : cache) (key : bytes) (base : Z) : table * cache :=
  match cache_find key c with
  | Some t => (t, c)
  | None => let t := gen_table (gpP gp) base in (t, (key, t) :: c)
  end.

(** group.cpp:609-628 pow_mod_p with a base flagged as fixed base, and
    lookup_table.hpp:164-173. *)
Definition pow_mod_p_fixed (gp : params) (c : cache) (base e : Z) : Z * cache :=
  if e =? 0 then (1, c)
  else let '(t, c') := cache_get gp c (to_hex_p base) base in (table_pow (gpP gp) t e, c').
