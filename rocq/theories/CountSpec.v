(** What the count of an election is, from the voters' ballots alone, and what is added up of the
    published ballots. *)
From Verif Require Import Base GroupModel ElgamalModel ManifestModel BallotModel EncryptSpec.
Local Open Scope list_scope.
Local Open Scope Z_scope.

(** ** The count *)
(** The contest is on the ballot: its district is one of the style's. *)
Definition on_ballot (m : internal_manifest) (b : pballot) (d : contest_ph) : bool :=
  match find (fun s => bytes_eqb (bs_id s) (pb_style b)) (im_styles m) with
  | Some s => existsb (bytes_eqb (cd_district (cw_base d))) (bs_units s)
  | None => false
  end.
(** The voter marked more options than there are seats, or cast more votes than allowed. *)
Definition spoilt (b : pballot) (d : contest_ph) : bool :=
  let vs := map (fun x => ballot_vote b (cd_id (cw_base d)) (sd_id x)) (cd_selections (cw_base d)) in
  (cd_elected (cw_base d) <? Z.of_nat (length (filter (fun v => 1 <=? v) vs))) ||
  (vote_limit (cd_elected (cw_base d)) (cd_allowed (cw_base d)) <? fold_right Z.add 0 vs).
(** What the ballot counts for an option: nothing if the contest is spoilt. *)
Definition counted_vote (b : pballot) (d : contest_ph) (option : bytes) : Z :=
  if spoilt b d then 0 else ballot_vote b (cd_id (cw_base d)) option.
Definition is_cast (s : box_state) : bool := match s with BS_cast => true | _ => false end.
(** The ballots that are cast and have the contest. *)
Definition counting (m : internal_manifest) (d : contest_ph) (l : list (pballot * box_state)) : list pballot :=
  map fst (filter (fun x => is_cast (snd x) && on_ballot m (fst x) d) l).
Definition count (m : internal_manifest) (d : contest_ph) (option : bytes) (l : list (pballot * box_state)) : Z :=
  fold_right Z.add 0 (map (fun b => counted_vote b d option) (counting m d l)).

(** ** What is added up *)
Definition option_ciphertexts (contest option : bytes) (b : cballot) : list ciphertext :=
  flat_map (fun c => if bytes_eqb (cc_id c) contest
                     then map cs_ct (filter (fun x => bytes_eqb (cs_id x) option && negb (cs_placeholder x)) (cc_selections c))
                     else []) (cb_contests b).
Definition contest_ciphertexts (contest : bytes) (b : cballot) : list ciphertext :=
  flat_map (fun c => if bytes_eqb (cc_id c) contest then [cc_acc c] else []) (cb_contests b).
Definition tallied (f : cballot -> list ciphertext) (l : list sballot) : list ciphertext :=
  flat_map (fun t => if is_cast (sb_state t) then f (sb_ballot t) else []) l.

(** ** Manifests without repetitions *)
Record no_repeats (m : internal_manifest) : Prop := {
  nr_contests : NoDup (map (fun d => cd_id (cw_base d)) (im_contests m));
  nr_units : forall s, In s (im_styles m) -> NoDup (bs_units s) }.
