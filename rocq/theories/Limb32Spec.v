(** What the limb arrays of Limb32Model.v denote. *)
From Verif Require Import Base.
Open Scope Z_scope.

(** A 32-bit word, a bignum of [n] limbs, the integer it denotes. *)
Definition limb (x : Z) : Prop := 0 <= x < 2 ^ 32.
Definition limbs (n : nat) (l : list Z) : Prop := length l = n /\ Forall limb l.
Fixpoint lval (l : list Z) : Z :=
  match l with [] => 0 | x :: t => x + 2 ^ 32 * lval t end.

(** The limbs of an integer. *)
Fixpoint to_limbs (n : nat) (v : Z) : list Z :=
  match n with O => [] | S n' => v mod 2 ^ 32 :: to_limbs n' (v / 2 ^ 32) end.
