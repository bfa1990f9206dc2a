(** What the C interface owes its clients: independent of FacadeModel.v. *)
From Coq Require Import ZArith List Permutation.
From Verif Require Import Base GroupModel BallotModel FormatSpec CollModel CollSpec.
Import ListNotations.
Local Open Scope Z_scope.

(** Texts that C can show whole. *)
Definition no_zero (s : bytes) : Prop := ~ In 0 s.
(** [t] is the text before the first zero of [s], or all of it. *)
Definition visible (s t : bytes) : Prop :=
  no_zero t /\ (s = t \/ exists rest, s = t ++ 0 :: rest).

(** Entries of a list as pairs of strings. *)
Definition both (e : bytes * bytes) : option bytes * option bytes := (Some (fst e), Some (snd e)).
(** [v] is the last value that the list gives to [k]. *)
Definition last_of (l : list (bytes * bytes)) (k v : bytes) : Prop :=
  exists a b, l = a ++ (k, v) :: b /\ forall v', ~ In (k, v') b.
(** [m] holds, once for each key of the list, its last value. *)
Definition last_values (l m : list (bytes * bytes)) : Prop :=
  NoDup (map fst m) /\ forall k v, In (k, v) m <-> last_of l k v.

(** The context of an election: the arguments and the two hashes of FormatSpec.v. *)
Definition context_for (gp : params) (sha : bytes -> Z) (n q pk commitment manifest : Z) (x : context) : Prop :=
  el_guardians x = n /\ el_quorum x = q /\ el_pk x = pk /\ el_commitment x = commitment /\ el_manifest x = manifest /\
  let base := h_base (gpQ gp) sha (gpP gp) (gpG gp) n q manifest in
  el_base x = base /\ el_ext x = h_extended (gpQ gp) sha base commitment.

(** What later calls on lists do: every one as the world says, or the client's fault. *)
Definition continues (m : memory) (w : world) (room : Z) : Prop :=
  forall later, Z.of_nat (length later) < room ->
  match do_calls m later with
  | Ok (_, answers) => exists w', history w later answers w'
  | Throw _ => False
  | UB => exists pre c post answers w', later = pre ++ c :: post /\ history w pre answers w' /\ ~ permitted w' c
  end.

(** Ticks of the clocks of the three C++ libraries, per second. *)
Definition clock (den : Z) : Prop := den = 1000000000 \/ den = 10000000 \/ den = 1000000.
(** The number of milliseconds since 1970 that a uint64_t stands for, dates before 1970 in two's complement. *)
Definition milliseconds (x t : Z) : Prop := 0 <= x < 2 ^ 64 /\ - 2 ^ 63 <= t < 2 ^ 63 /\ (t - x) mod 2 ^ 64 = 0.
