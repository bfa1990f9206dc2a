(** What the encrypted data of a contest has to contain, stated on the voter's entries
    and the manifest. *)
From Coq Require Import String.
From Verif Require Import Base SortModel ManifestModel BallotModel JsonModel EncryptSpec.
Open Scope string_scope.
Open Scope list_scope.
Open Scope Z_scope.

(** The member of a JSON object with a given name. *)
Fixpoint member (l : list (bytes * json)) (k : bytes) : option json :=
  match l with
  | [] => None
  | (k', v) :: t => if bytes_eqb k k' then Some v else member t k
  end.
Definition obj_get (j : json) (k : bytes) : option json :=
  match j with JObj l => member l k | _ => None end.

(** The options of a contest that the entries vote for with exactly 1, and those among
    them whose candidate is a write-in candidate. *)
Definition options_marked (l : list pselection) (d : contest_ph) : list selection :=
  filter (fun x => vote_for l (sd_id x) =? 1) (get_selections (cw_base d)).
Definition for_writein (m : internal_manifest) (x : selection) : bool :=
  existsb (fun k => bytes_eqb (sd_candidate x) (ca_id k) && ca_writein k) (im_candidates m).
(** The text written beside an option. *)
Definition written (l : list pselection) (id : bytes) : bytes :=
  match first_entry l id with Some s => ps_writein s | None => [] end.

Definition array_of (l : list json) : json := match l with [] => JNull | _ => JArr l end.

(** The names of an object are among these. *)
Definition names_in (j : json) (names : list bytes) : Prop :=
  match j with JObj l => forall k v, In (k, v) l -> In k names | _ => False end.

(** [j] describes the contest: the marked options of an overvoted contest, and the
    texts of the marked write-in options. *)
Record describes (m : internal_manifest) (l : list pselection) (d : contest_ph) (over : bool) (j : json) : Prop := {
  dj_names : names_in j [s2b "error"; s2b "error_data"; s2b "write_ins"];
  dj_error : obj_get j (s2b "error") = if over then Some (JStr (s2b "overvote")) else None;
  dj_marked : obj_get j (s2b "error_data") =
    if over then Some (array_of (map (fun x => JStr (sd_id x)) (options_marked l d))) else None;
  dj_writeins :
    match filter (for_writein m) (options_marked l d) with
    | [] => obj_get j (s2b "write_ins") = None
    | ws => exists w, obj_get j (s2b "write_ins") = Some w /\ names_in w (map sd_id ws) /\
        forall x, In x ws -> obj_get w (sd_id x) = Some (JStr (written l (sd_id x)))
    end }.
(** There is nothing to say about the contest. *)
Definition nothing_to_say (m : internal_manifest) (l : list pselection) (d : contest_ph) (over : bool) : Prop :=
  over = false /\ filter (for_writein m) (options_marked l d) = [].
