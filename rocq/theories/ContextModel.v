(** election.cpp:284-345: making a context from hexadecimal strings. *)
From Verif Require Import Base GroupModel CodecModel HashModel BallotModel.
Open Scope Z_scope.

(** The four overloads parse the key and the two hashes in this order and go on to the
    overloads modelled by [context_make]. *)
Definition context_make_hex (gp : params) (sha : bytes -> Z) (guardians quorum : Z)
  (pk commitment manifest : bytes) : outcome context :=
  do k <- from_hex_p gp pk false;
  do c <- from_hex_q gp commitment false;
  do m <- from_hex_q gp manifest false;
  Ok (context_make gp sha guardians quorum k c m).
