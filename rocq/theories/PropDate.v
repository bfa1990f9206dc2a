(** C73: dates of manifests. *)
From Coq Require Import ZArith List Bool Lia String.
From Verif Require Import Base ManifestModel JsonModel SerializeModel SerializeSpec SerializeProofs3 PropSerialize PropElgamal PropManifest PropHash TestParams
  DateModel DateSpec DateProofs.
Import ListNotations.
Local Open Scope string_scope.
Local Open Scope list_scope.
Local Open Scope Z_scope.

(** Writing: the text of any instant a time_point can hold is the date and time, by the
    Gregorian calendar, at which it was that second in Greenwich.  The fraction of a second
    is cut off (towards 1970). *)
Theorem C73_written t : time_point t -> exists x h mi s,
  instant x h mi s 0 (Z.quot t 1000000000) /\
  iso fmt_date t = local_text x h mi s ++ s2b "Z".
Proof.
  intros H. unfold iso. set (u := Z.quot t 1000000000).
  assert (U : -9300000000 <= u <= 9300000000).
  { subst u. unfold time_point in H. change (2 ^ 63) with 9223372036854775808 in H. divs. }
  destruct (fmt_text u) as (x & h & mi & s & I & _ & E); [apply year_range; clearbody u; divs|].
  exists x, h, mi, s. split; assumption.
Qed.
(** Every instant has one date and time, and every day one date. *)
Theorem C73_calendar n : exists x, on_day n x /\ forall y, on_day n y -> y = x.
Proof.
  exists (civil_of_days n). split; [apply civil_on_day|]. intros y H.
  exact (on_day_unique n _ _ H (civil_on_day n)).
Qed.
Theorem C73_every_date x : is_date x -> exists n, on_day n x.
Proof. intros H. exists (of_date x). apply on_day_iff. auto. Qed.
(** Reading what was written gives the instant back, without its fraction of a second. *)
Theorem C73_round_trip t : time_point t ->
  iso_scan scan_date (iso fmt_date t) = Ok (Z.quot t 1000000000 * 1000000000).
Proof.
  intros H. apply (iso_scan_back fmt_date scan_date _ t).
  - unfold ticks. unfold time_point in H. rewrite andb_true_iff. lia.
  - apply scan_fmt. exact H.
Qed.
(** Reading any date and time of the years 0 to 9999, in Greenwich or with an offset from it,
    gives that instant if a time_point can hold it; if it cannot the conversion
    overflows. *)
Definition stored (t : Z) (r : outcome Z) : Prop :=
  (time_point (t * 1000000000) -> r = Ok (t * 1000000000)) /\
  (~ time_point (t * 1000000000) -> r = UB).
Lemma stored_scan s t : scan_date s = t -> stored t (iso_scan scan_date s).
Proof.
  intros E. unfold stored, iso_scan, time_point. rewrite E.
  destruct (Z.leb_spec (- 2 ^ 63) (t * 1000000000)), (Z.ltb_spec (t * 1000000000) (2 ^ 63)); cbn [andb];
    split; intros; try reflexivity; lia.
Qed.
Theorem C73_read_utc x h mi s t rest : 0 <= fst (fst x) <= 9999 -> instant x h mi s 0 t ->
  stored t (iso_scan scan_date (local_text x h mi s ++ s2b "Z" ++ rest)).
Proof.
  intros Y I. apply stored_scan. unfold scan_date. rewrite (parse_zulu_text _ _ _ _ _ rest I Y). reflexivity.
Qed.
Theorem C73_read_offset x h mi s o t rest : 0 <= fst (fst x) <= 9999 -> -6000 < o < 6000 -> instant x h mi s o t ->
  stored t (iso_scan scan_date (local_text x h mi s ++ offset_text o ++ rest)).
Proof.
  intros Y O I. apply stored_scan. unfold scan_date.
  destruct (parse_shifted_text x h mi s o t rest I Y O) as (A & B). rewrite A, B. reflexivity.
Qed.
(** A date that is not in the calendar, or a time that is not on the clock, is not refused but
    read as the beginning of 1970. *)
Theorem C73_impossible_refuted y m d h mi s ending :
  0 <= y <= 9999 -> 0 <= m <= 99 -> 0 <= d <= 99 -> 0 <= h <= 99 -> 0 <= mi <= 99 -> 0 <= s <= 99 ->
  ~ (is_date (y, m, d) /\ h < 24 /\ mi < 60 /\ s < 60) ->
  iso_scan scan_date (local_text (y, m, d) h mi s ++ ending) = Ok 0.
Proof.
  intros Y M D H MI S N.
  assert (E : scan_date (local_text (y, m, d) h mi s ++ ending) = 0).
  { unfold scan_date, parse_zulu, parse_shifted.
    rewrite (parse_local_text (y, m, d) h mi s ending (conj Y (conj M D)) H MI S).
    assert (B : tm_ok (fields (y, m, d) h mi s) = false).
    { apply not_true_iff_false. intros B. apply N. unfold tm_ok in B. cbn in B. rewrite !andb_true_iff in B.
      rewrite is_date_ok. cbn. lia. }
    assert (Z0 : forall o, seconds_of (fields (y, m, d) h mi s) o = None) by (intros; unfold seconds_of; rewrite B; reflexivity).
    destruct (literal 90 ending); rewrite ?Z0; destruct (parse_offset ending); rewrite ?Z0; reflexivity. }
  unfold iso_scan. rewrite E. reflexivity.
Qed.
(** So is every text with a fraction of a second, and every other text that neither format
    describes. *)
Theorem C73_unparsed_refuted s : parse_zulu s = None -> parse_shifted s = None ->
  iso_scan scan_date s = Ok 0.
Proof. intros A B. unfold iso_scan, scan_date. rewrite A, B. reflexivity. Qed.
Theorem C73_fraction_refuted x h mi s t rest : 0 <= fst (fst x) <= 9999 -> instant x h mi s 0 t ->
  iso_scan scan_date (local_text x h mi s ++ s2b "." ++ rest) = Ok 0.
Proof.
  intros Y I. destruct (instant_fits _ _ _ _ _ _ I Y) as (F & H & M & S).
  apply C73_unparsed_refuted; unfold parse_zulu, parse_shifted; rewrite (parse_local_text x h mi s _ F H M S);
    reflexivity.
Qed.
(** Manifests survive with no assumption about dates (compare C67_manifest). *)
Theorem C73_manifest dump parse m s : faithful dump parse -> manifest_in_range m = true ->
  to_text dump (fun m => Ok (manifest_to_json fmt_date m)) m = Ok s ->
  exists m', of_text parse (manifest_of_json scan_date) s = Ok m' /\ manifest_read m m' /\
  (settled m -> forall gp sha, manifest_hash gp sha fmt_date m' = manifest_hash gp sha fmt_date m).
Proof.
  intros F R W. apply (C67_manifest dump parse fmt_date scan_date m s F R); [|exact W].
  unfold manifest_in_range, ticks in R. rewrite !andb_true_iff in R.
  intros t [-> | ->]; apply scan_fmt; lia.
Qed.

(** ** Cases *)
Example C73_written_case : time_point 1604849400999999999 /\
  iso fmt_date 1604849400999999999 = s2b "2020-11-08T15:30:00Z" /\
  instant (2020, 11, 8) 15 30 0 0 (Z.quot 1604849400999999999 1000000000).
Proof.
  split; [unfold time_point; lia|]. split; [vm_compute; reflexivity|].
  exists 18574. split; [apply on_day_iff; split; [apply is_date_ok; vm_compute; repeat split; discriminate|reflexivity]|].
  cbn. lia.
Qed.
(** The sample manifest of /repo/data/election_manifest_jefferson_county.json:400. *)
Example C73_offset_case : instant (2020, 3, 1) 8 0 0 (-300) 1583067600 /\
  local_text (2020, 3, 1) 8 0 0 ++ offset_text (-300) ++ [] = s2b "2020-03-01T08:00:00-05:00" /\
  iso_scan scan_date (s2b "2020-03-01T08:00:00-05:00") = Ok 1583067600000000000.
Proof.
  split; [|split; vm_compute; reflexivity].
  exists 18322. split; [apply on_day_iff; split; [apply is_date_ok; vm_compute; repeat split; discriminate|reflexivity]|].
  cbn. lia.
Qed.
(** Before 1970, and a leap day. *)
Example C73_old_case : iso_scan scan_date (s2b "1904-02-29T23:59:59Z") = Ok (-2077660801000000000) /\
  iso fmt_date (-2077660801000000000) = s2b "1904-02-29T23:59:59Z".
Proof. split; vm_compute; reflexivity. Qed.
Example C73_wrong_case :
  iso_scan scan_date (s2b "2023-02-29T08:00:00Z") = Ok 0 /\
  iso_scan scan_date (s2b "2024-02-29T08:00:00.250Z") = Ok 0 /\
  iso_scan scan_date (s2b "tomorrow") = Ok 0 /\
  iso_scan scan_date (s2b "9999-12-31T23:59:59Z") = UB.
Proof. repeat split; vm_compute; reflexivity. Qed.
Example C73_manifest_case : manifest_in_range settled_sample = true /\ exists s m',
  to_text sample_dump (fun m => Ok (manifest_to_json fmt_date m)) settled_sample = Ok s /\
  of_text sample_parse (manifest_of_json scan_date) s = Ok m' /\
  manifest_hash tp toy_sha fmt_date m' = manifest_hash tp toy_sha fmt_date settled_sample.
Proof.
  split; [reflexivity|]. eexists. eexists. split; [vm_compute; reflexivity|]. split; [vm_compute; reflexivity|].
  vm_compute. reflexivity.
Qed.

Print Assumptions C73_written.
Print Assumptions C73_calendar.
Print Assumptions C73_every_date.
Print Assumptions C73_round_trip.
Print Assumptions C73_read_utc.
Print Assumptions C73_read_offset.
Print Assumptions C73_impossible_refuted.
Print Assumptions C73_unparsed_refuted.
Print Assumptions C73_fraction_refuted.
Print Assumptions C73_manifest.
