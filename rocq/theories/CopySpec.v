(** What copies and assignments should do, and which objects get it; stated on the objects alone. *)
From Verif Require Import Base GroupModel ElgamalModel ChaumModel ManifestModel BallotModel SerializeSpec
  CopyModel.
Local Open Scope Z_scope.

(** ** The ideal: a copy equals its source, which stays; an assigned object equals the source *)
Definition has_clone (v : value) : bool :=
  match v with
  | VPSelection _ | VCiphertext _ | VHashed _ | VDisjunctive _ | VTriple _ | VQuadruple _ | VTwo _ => true
  | _ => false
  end.
Definition ideal_step (s : list value) (op : vop) : list value :=
  match op with
  | OCopy i => match nth_error s i with Some v => s ++ [v] | None => s end
  | OClone i => match nth_error s i with Some v => if has_clone v then s ++ [v] else s | None => s end
  | OAssign i j =>
      match nth_error s i, nth_error s j with
      | Some t, Some v => if same_class t v then firstn i s ++ v :: skipn (S i) s else s
      | _, _ => s
      end
  end.
Definition ideal_runs (s : list value) (ops : list vop) : list value := fold_left ideal_step ops s.

(** ** Objects that meet it *)
Section Spec.
Context (gp : params).
Definition small (v : Z) : bool := v <=? gpQ gp.
(** What a contest without texts is given as votes allowed. *)
Definition usual_allowed (c : contest) : Z :=
  match cd_variation c with VV_n_of_m => cd_elected c | VV_one_of_m => cd_elected c | _ => 0 end.
Definition plain_contest (c : contest) : bool :=
  match cd_primary c with [] => true | _ => false end
  && (has (cd_title c) && has (cd_subtitle c)
      || negb (has (cd_title c)) && negb (has (cd_subtitle c)) && (cd_allowed c =? usual_allowed c)).
Definition small_triple (t : triple) : bool := small (tr_exp t).
Definition small_quad (q : quadruple) : bool := small (qd_exp1 q) && small (qd_exp2 q).
Definition small_two (t : two_triples_quad) : bool :=
  small_triple (tq_t1 t) && small_triple (tq_t2 t) && small_quad (tq_q t).
Definition copyable (v : value) : bool :=
  match v with
  | VParty p => has (pa_name p)
  | VContest c => plain_contest c
  | VContestPh c => plain_contest (cw_base c)
  | VCSelection s => complete_selection true s
  | VCContest c => complete_contest true c
  | VCBallot b => complete_ballot true b
  | VKeyPair k => negb (has (kp_secret k)) && negb (has (kp_public k))
  | VTriple t => small_triple t
  | VQuadruple q => small_quad q
  | VTwo t => small_two t
  | _ => true
  end.
(** Objects whose clone() equals them. *)
Definition clonable (v : value) : bool :=
  match v with
  | VDisjunctive p =>
      (dp_b1 p =? dp_a1 p) && small (dp_c0 p) && small (dp_c1 p) && small (dp_c p) && small (dp_v0 p) && small (dp_v1 p)
  | _ => copyable v
  end.
(** A title is never without a subtitle. *)
Definition subtitled (c : contest) : bool := negb (has (cd_title c)) || has (cd_subtitle c).
(** Pairs whose assignment makes the target equal the source and keeps the source. *)
Definition assignable (t s : value) : Prop :=
  match t, s with
  | VContestPh x, VContestPh y => cw_base x = cw_base y /\ subtitled (cw_base y) = true
  | _, _ => copyable s = true
  end.
(** Programs that keep to such operations, followed on the ideal.  A key pair assigned to itself keeps
    its keys. *)
Definition op_calm (s : list value) (op : vop) : Prop :=
  match op with
  | OCopy i => match nth_error s i with Some v => copyable v = true | None => True end
  | OClone i => match nth_error s i with Some v => has_clone v = true -> clonable v = true | None => True end
  | OAssign i j =>
      match nth_error s i, nth_error s j with
      | Some t, Some v =>
          same_class t v = true -> assignable t v \/ i = j /\ exists k, v = VKeyPair k
      | _, _ => True
      end
  end.
Fixpoint calm (s : list value) (ops : list vop) : Prop :=
  match ops with
  | [] => True
  | op :: t => op_calm s op /\ calm (ideal_step s op) t
  end.

(** ** Reading a vote with the nonce of its encryption: no secret key is needed *)
Definition read_with_nonce (K : Z) (c : ciphertext) (n : Z) : Z :=
  if ct_data c =? (K ^ n) mod gpP gp then 0 else 1.
End Spec.
