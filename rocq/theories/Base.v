(** Common vocabulary of the model: outcomes of C++ calls, machine words, byte
    strings.  No line of this file transcribes a function of the repository;
    it fixes how the other files represent its values. *)
From Coq Require Export ZArith List Bool Lia.
From Coq Require Import ZifyBool String Ascii.
Export ListNotations.
Open Scope Z_scope.

(** C++ exception classes thrown by the modelled code. *)
Inductive exn :=
| OutOfRange        (* std::out_of_range *)
| InvalidArgument   (* std::invalid_argument *)
| RuntimeError      (* std::runtime_error *)
| BadAlloc          (* std::bad_alloc *)
| JsonError         (* nlohmann::json exceptions *)
| OtherExn.         (* anything else, e.g. throw "literal" *)

(** Outcome of a call: normal return, exception, undefined behaviour. *)
Inductive outcome (A : Type) :=
| Ok (a : A)
| Throw (e : exn)
| UB.
Arguments Ok {A} a.
Arguments Throw {A} e.
Arguments UB {A}.

Definition bind {A B} (x : outcome A) (f : A -> outcome B) : outcome B :=
  match x with Ok a => f a | Throw e => Throw e | UB => UB end.

Notation "'do' x <- e ; k" := (bind e (fun x => k))
  (at level 200, x pattern, e at level 100, k at level 200, right associativity).

Definition is_ok {A} (x : outcome A) : bool :=
  match x with Ok _ => true | _ => false end.

(** [for] loop over a vector that may throw. *)
Fixpoint mapM {A B} (f : A -> outcome B) (l : list A) : outcome (list B) :=
  match l with
  | [] => Ok []
  | x :: t => do y <- f x; do ys <- mapM f t; Ok (y :: ys)
  end.

Fixpoint foldM {A B} (f : B -> A -> outcome B) (l : list A) (b : B) : outcome B :=
  match l with
  | [] => Ok b
  | x :: t => do b' <- f b x; foldM f t b'
  end.

(** Word moduli.  uint64_t, 4-limb and 64-limb numbers
    (include/electionguard/constants.h: MAX_Q_LEN = 4, MAX_P_LEN = 64). *)
Definition W64   : Z := 2 ^ 64.
Definition W256  : Z := 2 ^ 256.
Definition W512  : Z := 2 ^ 512.
Definition W4096 : Z := 2 ^ 4096.

(** Bytes and strings: lists of integers in [0,256). *)
Definition bytes := list Z.
Definition is_byte (z : Z) : Prop := 0 <= z < 256.
Definition is_bytes (l : bytes) : Prop := Forall is_byte l.

(** String literals as byte lists (used for constants and examples). *)
Fixpoint s2b (s : string) : bytes :=
  match s with
  | EmptyString => []
  | String c t => Z.of_N (N_of_ascii c) :: s2b t
  end.

Definition bytes_eqb (a b : bytes) : bool :=
  if list_eq_dec Z.eq_dec a b then true else false.

(** Sum / product of a list (specification vocabulary). *)
Definition zsum (l : list Z) : Z := fold_right Z.add 0 l.
Definition zprod (l : list Z) : Z := fold_right Z.mul 1 l.
