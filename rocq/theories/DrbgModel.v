(** src/karamel/Hacl_HMAC_DRBG.c (its SHA2_256 cases) and src/electionguard/random.hpp.
    The HMAC code writes its result last, so that its destination may be one of
    its sources, as it is here. *)
From Verif Require Import Base Sha2Model.
Open Scope Z_scope.

(** Hacl_HMAC_DRBG.c:28. *)
Definition reseed_interval : Z := 1024.

Record drbg := { dk : bytes; dv : bytes; dctr : Z }.

(** 75-151 create_in. *)
Definition drbg_create : drbg := {| dk := repeat 0 32%nat; dv := repeat 0 32%nat; dctr := 1 |}.

(** The input of 33 + len bytes of an update: 287-297, 313-322 and their copies in
    reseed and generate.  The length is a uint32_t. *)
Definition update_input (v data : bytes) (len tag : Z) : outcome (bytes * Z) :=
  let input_len := u32 (33 + len) in
  let input0 := repeat 0 (Z.to_nat input_len) in
  do i1 <- blit 0 v input0;
  do i2 <- (if len =? 0 then Ok i1 else do d <- slice 0 len data; blit 33 d i1);
  do i3 <- blit 32 [tag] i2;
  Ok (i3, input_len).

(** One half of an update: key, then value (298-300, 323-325). *)
Definition half_update (k v data : bytes) (len tag : Z) : outcome (bytes * bytes) :=
  do (input, input_len) <- update_input v data len tag;
  do k' <- hmac_compute k 32 input input_len;
  do v' <- hmac_compute k' 32 v 32;
  Ok (k', v').

(** 282-330: both halves, the second only with data. *)
Definition drbg_update (k v data : bytes) (len : Z) : outcome (bytes * bytes) :=
  do (k1, v1) <- half_update k v data len 0;
  if len =? 0 then Ok (k1, v1) else half_update k1 v1 data len 1.

(** 253-338 instantiate: the state's former content is overwritten. *)
Definition drbg_instantiate (st : drbg) (entropy nonce pers : bytes) : outcome drbg :=
  let le := Z.of_nat (length entropy) in
  let ln := Z.of_nat (length nonce) in
  let lp := Z.of_nat (length pers) in
  let total := u32 (le + ln + lp) in
  let m0 := repeat 0 (Z.to_nat total) in
  do m1 <- blit 0 entropy m0;
  do m2 <- blit le nonce m1;
  do m3 <- blit (le + ln) pers m2;
  do (k, v) <- drbg_update (repeat 0 32%nat) (repeat 1 32%nat) m3 total;
  Ok {| dk := k; dv := v; dctr := 1 |}.

(** 596-668 reseed. *)
Definition drbg_reseed (st : drbg) (entropy addl : bytes) : outcome drbg :=
  let le := Z.of_nat (length entropy) in
  let total := u32 (le + Z.of_nat (length addl)) in
  let m0 := repeat 0 (Z.to_nat total) in
  do m1 <- blit 0 entropy m0;
  do m2 <- blit le addl m1;
  do (k, v) <- drbg_update (dk st) (dv st) m2 total;
  Ok {| dk := k; dv := v; dctr := 1 |}.

(** 1024-1033: the loop over whole blocks; [i] counts up to [max]. *)
Fixpoint drbg_blocks (n : nat) (i : Z) (k v out : bytes) : outcome (bytes * bytes) :=
  match n with
  | O => Ok (v, out)
  | S n' => do v' <- hmac_compute k 32 v 32;
            do out' <- blit (i * 32) v' out;
            drbg_blocks n' (i + 1) k v' out'
  end.

(** 966-1095 generate: [None] when the counter has passed the interval, else the
    new contents of the output array and the state. *)
Definition drbg_generate (st : drbg) (output : bytes) (n : Z) (addl : bytes)
  : outcome (option (bytes * drbg)) :=
  if dctr st >? reseed_interval then Ok None
  else
    let la := Z.of_nat (length addl) in
    do (k0, v0) <- (if 0 <? la then drbg_update (dk st) (dv st) addl la else Ok (dk st, dv st));
    let max := n / 32 in
    do (v1, out1) <- drbg_blocks (Z.to_nat max) 0 k0 v0 output;
    do (v2, out2) <- (if u32 (max * 32) <? n
                      then do v' <- hmac_compute k0 32 v1 32;
                           do part <- slice 0 (n - max * 32) v';
                           do o <- blit (max * 32) part out1; Ok (v', o)
                      else Ok (v1, out1));
    do (k3, v3) <- drbg_update k0 v2 addl la;
    Ok (Some (out2, {| dk := k3; dv := v3; dctr := u32 (dctr st + 1) |})).

(** random.hpp:54-89 Random::getBytes with ByteSize [size]: the three draws of the
    operating system's generator ([os n] is its answer for n bytes, [None] its
    failure: bad_alloc, random.hpp:108-120) and the text of the time (121-136) are
    arguments.  The uninitialised output array (75) is [garbage]. *)
Definition random_bytes (os_entropy os_nonce os_input : option bytes) (time garbage : bytes)
  (size : Z) : outcome bytes :=
  match os_entropy with
  | None => Throw BadAlloc
  | Some entropy =>
      match os_nonce with
      | None => Throw BadAlloc
      | Some nonce =>
          do st <- drbg_instantiate drbg_create entropy nonce time;
          match os_input with
          | None => Throw BadAlloc
          | Some input =>
              do r <- drbg_generate st garbage size input;
              match r with
              | Some (out, _) => slice 0 size out
              | None => Throw BadAlloc
              end
          end
      end
  end.

(** A sequence of calls on one generator; each generate call is given a fresh output
    array.  The answers are those of the generate calls. *)
Inductive request :=
| Gen (output : bytes) (addl : bytes)
| Res (entropy addl : bytes).
Fixpoint drbg_run (st : drbg) (l : list request) : outcome (list (option bytes)) :=
  match l with
  | [] => Ok []
  | Gen output addl :: t =>
      do r <- drbg_generate st output (Z.of_nat (length output)) addl;
      match r with
      | None => do a <- drbg_run st t; Ok (None :: a)
      | Some (o, st') => do a <- drbg_run st' t; Ok (Some o :: a)
      end
  | Res entropy addl :: t => do st' <- drbg_reseed st entropy addl; drbg_run st' t
  end.
