(** What a usable parameter set is: the facts about the constants every
    protocol theorem needs.  Independent of the code. *)
From Coq Require Import Znumtheory.
From Verif Require Import Base GroupModel.
Open Scope Z_scope.

Record valid_params (gp : params) : Prop := {
  vp_PQR  : gpP gp = gpQ gp * gpR gp + 1;
  vp_QR   : gpQ gp <= gpR gp;
  vp_Qlo  : 3 <= gpQ gp;
  vp_Qhi  : gpQ gp < W256;
  vp_Qodd : Z.odd (gpQ gp) = true;
  vp_Phi  : gpP gp < W4096;
  vp_Podd : Z.odd (gpP gp) = true;
  vp_Grng : 1 < gpG gp < gpP gp;
  vp_GQ   : (gpG gp ^ gpQ gp) mod gpP gp = 1;
  vp_Qoff : gpQoff gp = W256 - gpQ gp;
  vp_Poff : gpPoff gp = W4096 - gpP gp
}.

(** Parameters whose subgroup order is moreover prime. *)
Record prime_params (gp : params) : Prop := {
  pp_valid : valid_params gp;
  pp_prime : prime (gpQ gp)
}.

(** An exponent in range (what checked construction admits). *)
Definition exp_ok (gp : params) (a : Z) : Prop := 0 <= a <= gpQ gp.
(** A 256-bit / 4096-bit array. *)
Definition arr256 (a : Z) : Prop := 0 <= a < W256.
Definition arr4096 (a : Z) : Prop := 0 <= a < W4096.
