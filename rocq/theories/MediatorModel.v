(** src/electionguard/encrypt.cpp:102-185: one encryption mediator called by several threads.
    [encrypt] and [compactEncrypt] are const, but change the seed behind the mediator without a
    lock.  The mediator called by one thread is in EncryptModel.v. *)
From Verif Require Import Base GroupModel ManifestModel BallotModel JsonModel EncryptModel ElementModel.

Section Mediator.
Context (gp : params) (sha : bytes -> Z) (hmac : bytes -> bytes -> Z) (dump : json -> outcome bytes).

(** Where a thread is: outside of any call; in the block of 147-151 after finding no seed;
    before 153-155 binds the seed to the parameter of encryptBallot; within encryptBallot, with a
    reference to object [p]; before 158, with the ballot that it will return. *)
Inductive point :=
| Outside
| Unset (r : request)
| Calling (r : request)
| Encrypting (r : request) (p : nat)
| Storing (r : request) (x : response) (code : Z).
Record thread := { th_point : point; th_todo : list request }.
(** The seeds allocated so far, [None] once deleted; ballotCodeSeed (102-107), which owns one of
    them; the threads; the calls that returned, in the order in which they did. *)
Record config := { cf_seeds : list (option Z); cf_seed : option nat; cf_threads : list thread;
                   cf_log : list (nat * request * response) }.
Definition start (todo : list (list request)) : config :=
  {| cf_seeds := []; cf_seed := None; cf_log := [];
     cf_threads := map (fun l => {| th_point := Outside; th_todo := l |}) todo |}.

(** The code of a ballot that was made (158, 183). *)
Definition code_of (x : response) : option Z :=
  match x with
  | RespBallot (Ok c) => Some (cb_code c)
  | RespCompact (Ok c) => Some (cct_code c)
  | _ => None
  end.
(** ~unique_ptr and the assignment of unique_ptr: the object owned before is deleted. *)
Definition delete (l : list (option Z)) (p : option nat) : list (option Z) :=
  match p with None => l | Some p => put l p None end.
Definition goto (c : config) (i : nat) (at_ : point) (todo : list request) : list thread :=
  put (cf_threads c) i {| th_point := at_; th_todo := todo |}.

(** One step of thread [i].  Steps are atomic and interleave; in C++ any two of them on the
    seed, one of them a write, are a data race besides, since nothing orders them.  What the
    log functions read (150, 610) is left out.  In encryptBallot the seed is read at one
    moment, the copy at 626; a call that throws before 610 would not read it, here it does. *)
Definition step (md : mediator) (c : config) (i : nat) : outcome config :=
  match nth_error (cf_threads c) i with
  | None => Ok c
  | Some t =>
      match th_point t with
      | Outside =>
          match th_todo t with
          | [] => Ok c
          | r :: todo =>
              (* 147, 172: if (!pimpl->ballotCodeSeed) *)
              let at_ := match cf_seed c with None => Unset r | Some _ => Calling r end in
              Ok {| cf_seeds := cf_seeds c; cf_seed := cf_seed c; cf_log := cf_log c; cf_threads := goto c i at_ todo |}
          end
      | Unset r =>
          (* 148-151, 173-176: the hash of the device is swapped in, what was there is deleted
             at the end of the block *)
          Ok {| cf_seeds := delete (cf_seeds c) (cf_seed c) ++ [Some (device_get_hash gp sha (md_device md))];
                cf_seed := Some (length (cf_seeds c)); cf_log := cf_log c;
                cf_threads := goto c i (Calling r) (th_todo t) |}
      | Calling r =>
          (* 153-155, 178-180: *pimpl->ballotCodeSeed *)
          match cf_seed c with
          | None => UB
          | Some p => Ok {| cf_seeds := cf_seeds c; cf_seed := cf_seed c; cf_log := cf_log c;
                            cf_threads := goto c i (Encrypting r p) (th_todo t) |}
          end
      | Encrypting r p =>
          match nth_error (cf_seeds c) p with
          | Some (Some s) =>
              let x := snd (mediator_step gp sha hmac dump (with_seed md s) r) in
              match code_of x with
              | Some code => Ok {| cf_seeds := cf_seeds c; cf_seed := cf_seed c; cf_log := cf_log c;
                                   cf_threads := goto c i (Storing r x code) (th_todo t) |}
              | None => Ok {| cf_seeds := cf_seeds c; cf_seed := cf_seed c; cf_log := cf_log c ++ [(i, r, x)];
                              cf_threads := goto c i Outside (th_todo t) |}
              end
          | _ => UB
          end
      | Storing r x code =>
          (* 158-159, 183-184 *)
          Ok {| cf_seeds := delete (cf_seeds c) (cf_seed c) ++ [Some code]; cf_seed := Some (length (cf_seeds c));
                cf_log := cf_log c ++ [(i, r, x)]; cf_threads := goto c i Outside (th_todo t) |}
      end
  end.
Definition run (md : mediator) (c : config) (schedule : list nat) : outcome config :=
  foldM (step md) schedule c.

(** The same with a lock of the caller's around every call: a thread that wants to call waits
    while another one is within a call. *)
Definition outside (t : thread) : bool := match th_point t with Outside => true | _ => false end.
Definition step_locked (md : mediator) (c : config) (i : nat) : outcome config :=
  match nth_error (cf_threads c) i with
  | Some t => if outside t && negb (forallb outside (cf_threads c)) then Ok c else step md c i
  | None => Ok c
  end.
Definition run_locked (md : mediator) (c : config) (schedule : list nat) : outcome config :=
  foldM (step_locked md) schedule c.
End Mediator.
