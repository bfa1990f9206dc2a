(** HMAC_DRBG of NIST SP 800-90A, section 10.1.2, for SHA-256, over the HMAC of
    Sha2Spec.  Independent of DrbgModel. *)
From Verif Require Import Base Sha2Spec.
Open Scope Z_scope.

Record working := { Key : bytes; V : bytes; reseed_counter : Z }.

(** 10.1.2.2 *)
Definition Update (provided_data : bytes) (K V : bytes) : bytes * bytes :=
  let K := HMAC256 K (V ++ [0x00] ++ provided_data) in
  let V := HMAC256 K V in
  match provided_data with
  | [] => (K, V)
  | _ => let K := HMAC256 K (V ++ [0x01] ++ provided_data) in
         let V := HMAC256 K V in
         (K, V)
  end.

(** 10.1.2.3 *)
Definition Instantiate (entropy nonce personalization : bytes) : working :=
  let '(K, V) := Update (entropy ++ nonce ++ personalization) (repeat 0x00 32) (repeat 0x01 32) in
  {| Key := K; V := V; reseed_counter := 1 |}.

(** 10.1.2.4 *)
Definition Reseed (s : working) (entropy additional : bytes) : working :=
  let '(K, V') := Update (entropy ++ additional) (Key s) (V s) in
  {| Key := K; V := V'; reseed_counter := 1 |}.

(** 10.1.2.5: V_i = HMAC (Key, V_{i-1}); the output is the leftmost bytes of
    V_1 || V_2 || ...; [blocks] blocks are needed. *)
Fixpoint chain (n : nat) (K V : bytes) : list bytes :=
  match n with O => [] | S n' => let V' := HMAC256 K V in V' :: chain n' K V' end.
Definition blocks (bytes_wanted : nat) : nat := ((bytes_wanted + 31) / 32)%nat.
Definition Generate (s : working) (wanted : nat) (additional : bytes) : option (bytes * working) :=
  if reseed_counter s >? 1024 then None
  else
    let '(K, V0) := match additional with [] => (Key s, V s) | _ => Update additional (Key s) (V s) end in
    let Vs := chain (blocks wanted) K V0 in
    let '(K', V') := Update additional K (last Vs V0) in
    Some (firstn wanted (concat Vs),
          {| Key := K'; V := V'; reseed_counter := reseed_counter s + 1 |}).
