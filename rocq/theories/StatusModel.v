(** src/electionguard/facades/encrypt.cpp and include/electionguard/status.h: what the C functions
    that encrypt answer.  Handles are represented by the objects they name; what they own is in
    CApiModel.v. *)
From Coq Require Import String.
From Verif Require Import Base GroupModel HashModel ElgamalModel ChaumModel ManifestModel BallotModel JsonModel EncryptModel.
Open Scope Z_scope.

(** ** status.h *)
(** 10-23 *)
Inductive eg_status :=
| EgSuccess | EgInvalidArgument | EgOutOfRange | EgIoError | EgBadAccess | EgBadAlloc | EgAlreadyExists
| EgRuntimeError | EgUnknown.
Definition eg_code (s : eg_status) : Z :=
  match s with
  | EgSuccess => 0 | EgInvalidArgument => 1 | EgOutOfRange => 2 | EgIoError => 3 | EgBadAccess => 4
  | EgBadAlloc => 5 | EgAlreadyExists => 6 | EgRuntimeError => 7 | EgUnknown => 8
  end.
(** 25-34 *)
Definition eg_status_codes : list bytes :=
  [s2b "ELECTIONGUARD_STATUS_SUCCESS"; s2b "ELECTIONGUARD_STATUS_ERROR_INVALID_ARGUMENT";
   s2b "ELECTIONGUARD_STATUS_ERROR_OUT_OF_RANGE"; s2b "ELECTIONGUARD_STATUS_ERROR_IO_ERROR";
   s2b "ELECTIONGUARD_STATUS_ERROR_BAD_ACCESS"; s2b "ELECTIONGUARD_STATUS_ERROR_BAD_ALLOC";
   s2b "ELECTIONGUARD_STATUS_ERROR_ALREADY_EXISTS"; s2b "ELECTIONGUARD_STATUS_ERROR_RUNTIME_ERROR";
   s2b "ELECTIONGUARD_STATUS_UNKNOWN"].
(** 36-42: the text for codes from UNKNOWN on is looked up (39) and not returned; the array is
    then read at the code itself.  [code] is the number behind the enumeration. *)
Definition eg_get_status (code : Z) : outcome bytes :=
  if code <? 0 then UB
  else match nth_error eg_status_codes (Z.to_nat code) with Some t => Ok t | None => UB end.

(** ** facades/encrypt.cpp *)
(** The catch clauses of the functions below, e.g. 329-339.  out_of_range, bad_alloc and the
    exceptions of nlohmann::json are neither invalid_argument nor runtime_error.  What is no
    std::exception is not caught and may not leave a function with C linkage. *)
Definition answer {A} (x : outcome A) : outcome (eg_status * option A) :=
  match x with
  | Ok a => Ok (EgSuccess, Some a)
  | Throw InvalidArgument => Ok (EgInvalidArgument, None)
  | Throw RuntimeError => Ok (EgRuntimeError, None)
  | Throw OtherExn => UB
  | Throw _ => Ok (EgBadAlloc, None)
  | UB => UB
  end.
(** 128-131: one clause. *)
Definition answer_one {A} (x : outcome A) : outcome (eg_status * option A) :=
  match x with
  | Ok a => Ok (EgSuccess, Some a)
  | Throw OtherExn => UB
  | Throw _ => Ok (EgBadAlloc, None)
  | UB => UB
  end.

Section Status.
Context (gp : params) (sha : bytes -> Z) (hmac : bytes -> bytes -> Z) (dump : json -> outcome bytes).

(** 240-271 eg_encrypt_selection *)
Definition c_encrypt_selection (E : env) (s : pselection) (d : selection) (pk ext seed : Z)
  (placeholder verify : bool) : outcome (eg_status * option cselection) :=
  answer (value_of (encrypt_selection gp sha E s d pk ext seed placeholder verify st0)).
(** 277-307 eg_encrypt_contest *)
Definition c_encrypt_contest (E : env) (c : pcontest) (m : internal_manifest) (d : contest_ph)
  (pk ext seed : Z) (verify : bool) : outcome (eg_status * option ccontest) :=
  answer (value_of (encrypt_contest gp sha hmac dump E c m d pk ext seed verify st0)).
(** 313-340 eg_encrypt_ballot, and with a nonce 342-369 eg_encrypt_ballot_with_nonce: the nonce is
    taken over; a null pointer for it is the same as none. *)
Definition c_encrypt_ballot (E : env) (b : pballot) (m : internal_manifest) (cx : context)
  (code_seed : Z) (nonce : option Z) (verify : bool) : outcome (eg_status * option cballot) :=
  answer (value_of (encrypt_ballot gp sha hmac dump E b m cx code_seed nonce 0 verify st0)).
(** 375-402 eg_encrypt_compact_ballot, and 404-432 eg_encrypt_compact_ballot_with_nonce. *)
Definition c_encrypt_compact (E : env) (b : pballot) (m : internal_manifest) (cx : context)
  (code_seed : Z) (nonce : option Z) (verify : bool) : outcome (eg_status * option compact_cipher) :=
  answer (value_of (encrypt_compact_ballot gp sha hmac dump E b m cx code_seed nonce 0 verify st0)).

(** 115-132 eg_encryption_mediator_new *)
Definition c_mediator_new (m : internal_manifest) (cx : context) (d : device)
  : outcome (eg_status * option mediator) :=
  answer_one (mediator_new m cx d).
(** 145-167 eg_encryption_mediator_encrypt_ballot and 213-234 the same with verify_proofs. *)
Definition c_mediator_encrypt (E : env) (md : mediator) (b : pballot) (verify : bool)
  : mediator * outcome (eg_status * option cballot) :=
  match mediator_step gp sha hmac dump md (ReqEncrypt E b verify) with
  | (md', RespBallot r) => (md', answer r)
  | (md', RespCompact _) => (md', UB)
  end.
(** 169-189 eg_encryption_mediator_compact_encrypt_ballot and 191-211 the same with verify_proofs. *)
Definition c_mediator_compact (E : env) (md : mediator) (b : pballot) (verify : bool)
  : mediator * outcome (eg_status * option compact_cipher) :=
  match mediator_step gp sha hmac dump md (ReqCompact E b verify) with
  | (md', RespCompact r) => (md', answer r)
  | (md', RespBallot _) => (md', UB)
  end.
End Status.
