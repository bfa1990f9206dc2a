(** The calendar of DateModel.v is that of DateSpec.v; texts of dates are read back. *)
From Coq Require Import ZArith List Bool Lia Znumtheory String.
From Verif Require Import Base ManifestModel DateModel DateSpec.
Import ListNotations.
Local Open Scope Z_scope.
Local Open Scope string_scope.
Local Open Scope list_scope.
Local Open Scope Z_scope.
Ltac divs := Z.to_euclidean_division_equations; lia.

(** ** Years *)
Definition start (y : Z) : Z := 365 * y + y / 4 - y / 100.
Definition finish (y : Z) : Z := if y =? 399 then 146097 else start (y + 1).
Definition num (doe : Z) : Z := doe - doe / 1460 + doe / 36524 - doe / 146096.
Lemma num_mono a b : 0 <= a -> a <= b -> b < 146097 -> num a <= num b.
Proof. unfold num. intros. divs. Qed.
Lemma num_table : forallb (fun y => (num (start y) / 365 =? y) && (num (finish y - 1) / 365 =? y))
  (map Z.of_nat (seq 0 400)) = true.
Proof. vm_compute. reflexivity. Qed.
Lemma num_year y : 0 <= y < 400 -> num (start y) / 365 = y /\ num (finish y - 1) / 365 = y.
Proof.
  intros H. pose proof num_table as T. rewrite forallb_forall in T.
  specialize (T y). rewrite andb_true_iff, !Z.eqb_eq in T. apply T.
  apply in_map_iff. exists (Z.to_nat y). split; [lia|]. apply in_seq. lia.
Qed.
Lemma start_next y : 0 <= y < 400 -> start y < finish y /\ (y < 399 -> finish y = start (y + 1)) /\ finish y <= 146097
  /\ 0 <= start y.
Proof.
  intros H. unfold finish. destruct (Z.eqb_spec y 399).
  - subst. cbv. repeat split; try discriminate; reflexivity.
  - unfold start. repeat split; divs.
Qed.
Lemma start_mono a b : 0 <= a -> a <= b -> start a <= start b.
Proof. unfold start. intros. divs. Qed.
Lemma year_of_era_ok doe : 0 <= doe < 146097 ->
  0 <= year_of_era doe < 400 /\ start (year_of_era doe) <= doe < finish (year_of_era doe).
Proof.
  intros H. assert (R : 0 <= year_of_era doe < 400).
  { unfold year_of_era. divs. }
  split; [exact R|]. change (year_of_era doe) with (num doe / 365) in *.
  set (y := num doe / 365) in *. split.
  - destruct (Z.le_gt_cases (start y) doe) as [?|L]; [assumption|exfalso].
    assert (0 < y). { destruct (Z.eq_dec y 0) as [E|]; [rewrite E in L; change (start 0) with 0 in L; lia|lia]. }
    destruct (num_year (y - 1)) as (_ & E); [lia|].
    destruct (start_next (y - 1)) as (A & B & C & D); [lia|].
    rewrite (B ltac:(lia)) in E. replace (y - 1 + 1) with y in E by lia.
    pose proof (num_mono doe (start y - 1) ltac:(lia) ltac:(lia)) as M.
    destruct (start_next y ltac:(lia)) as (A' & _ & C' & _).
    specialize (M ltac:(lia)). pose proof (Z.div_le_mono _ _ 365 ltac:(lia) M). lia.
  - destruct (Z.le_gt_cases (finish y) doe) as [L|?]; [exfalso|lia].
    assert (y < 399). { unfold finish in L. destruct (Z.eqb_spec y 399); lia. }
    destruct (start_next y) as (A & B & C & D); [lia|]. rewrite (B ltac:(lia)) in L.
    destruct (num_year (y + 1)) as (E & _); [lia|].
    pose proof (num_mono (start (y + 1)) doe ltac:(lia) L ltac:(lia)) as M.
    pose proof (Z.div_le_mono _ _ 365 ltac:(lia) M). lia.
Qed.
Lemma year_of_era_unique doe y : 0 <= y < 400 -> start y <= doe < finish y -> year_of_era doe = y.
Proof.
  intros Y H. destruct (start_next y Y) as (A & B & C & D).
  destruct (year_of_era_ok doe) as (R & S); [lia|]. set (z := year_of_era doe) in *.
  destruct (start_next z R) as (A' & B' & C' & D').
  destruct (Z.lt_trichotomy z y) as [L|[L|L]]; [exfalso|assumption|exfalso].
  - rewrite B' in S by lia. pose proof (start_mono (z + 1) y ltac:(lia) ltac:(lia)). lia.
  - rewrite B in H by lia. pose proof (start_mono (y + 1) z ltac:(lia) ltac:(lia)). lia.
Qed.

(** ** Months *)
Lemma leap_year_ok y : leap_year y = true <-> leap y.
Proof.
  unfold leap_year, leap. rewrite andb_true_iff, orb_true_iff, negb_true_iff, Z.eqb_neq, !Z.eqb_eq.
  rewrite <- !Z.mod_divide by lia. tauto.
Qed.
Lemma leap_year_no y : leap_year y = false <-> ~ leap y.
Proof. rewrite <- leap_year_ok. destruct (leap_year y); intuition congruence. Qed.
Lemma lasts_ok y m n : lasts y m n <-> 1 <= m <= 12 /\ n = last_day y m.
Proof.
  split.
  - intros H. inversion H; subst; unfold last_day; cbn in *.
    + repeat match goal with X : _ \/ _ |- _ => destruct X; try subst end; try contradiction; split; lia || reflexivity.
    + repeat match goal with X : _ \/ _ |- _ => destruct X; try subst end; try contradiction; split; lia || reflexivity.
    + rewrite (proj2 (leap_year_ok y)) by assumption. split; [lia|reflexivity].
    + rewrite (proj2 (leap_year_no y)) by assumption. split; [lia|reflexivity].
  - intros (H & ->). unfold last_day.
    assert (m = 1 \/ m = 2 \/ m = 3 \/ m = 4 \/ m = 5 \/ m = 6 \/ m = 7 \/ m = 8 \/ m = 9 \/ m = 10 \/ m = 11 \/ m = 12) as C by lia.
    destruct C as [->|[->|[->|[->|[->|[->|[->|[->|[->|[->|[->| ->]]]]]]]]]]]; cbn;
      try (apply thirty_one; cbn; tauto); try (apply thirty; cbn; tauto).
    destruct (leap_year y) eqn:E.
    + apply long_february. now apply leap_year_ok.
    + apply short_february. now apply leap_year_no.
Qed.
Definition okb (x : date) : Prop := let '(y, m, d) := x in 1 <= m <= 12 /\ 1 <= d <= last_day y m.
Lemma is_date_ok x : is_date x <-> okb x.
Proof.
  destruct x as [[y m] d]. unfold is_date, okb. split.
  - intros (n & L & D). apply lasts_ok in L. destruct L as (L & ->). tauto.
  - intros (M & D). exists (last_day y m). rewrite lasts_ok. tauto.
Qed.
Definition of_date (x : date) : Z := let '(y, m, d) := x in days_of_civil y m d.

Lemma leap_cases y : leap_year y = true /\ (y mod 4 = 0 /\ (y mod 100 <> 0 \/ y mod 400 = 0)) \/
  leap_year y = false /\ (y mod 4 <> 0 \/ (y mod 100 = 0 /\ y mod 400 <> 0)).
Proof.
  unfold leap_year. destruct (Z.eqb_spec (y mod 4) 0), (Z.eqb_spec (y mod 100) 0), (Z.eqb_spec (y mod 400) 0); cbn; auto.
Qed.
Lemma last_day_cases y m : 1 <= m <= 12 ->
  (m = 2 /\ ((leap_year y = true /\ last_day y m = 29) \/ (leap_year y = false /\ last_day y m = 28))) \/
  ((m = 4 \/ m = 6 \/ m = 9 \/ m = 11) /\ last_day y m = 30) \/
  ((m = 1 \/ m = 3 \/ m = 5 \/ m = 7 \/ m = 8 \/ m = 10 \/ m = 12) /\ last_day y m = 31).
Proof.
  intros H. unfold last_day.
  assert (m = 1 \/ m = 2 \/ m = 3 \/ m = 4 \/ m = 5 \/ m = 6 \/ m = 7 \/ m = 8 \/ m = 9 \/ m = 10 \/ m = 11 \/ m = 12) as C by lia.
  destruct C as [->|[->|[->|[->|[->|[->|[->|[->|[->|[->|[->| ->]]]]]]]]]]]; cbn; destruct (leap_year y); intuition lia.
Qed.
Lemma next_has x : is_date x -> exists y, next x y.
Proof.
  rewrite is_date_ok. destruct x as [[y m] d]. cbn. intros (M & D).
  assert (L : lasts y m (last_day y m)) by (apply lasts_ok; auto).
  destruct (Z.eq_dec d (last_day y m)) as [E|E].
  - destruct (Z.eq_dec m 12) as [->|N].
    + exists (y + 1, 1, 1). rewrite E. apply next_year.
    + exists (y, m + 1, 1). rewrite E. apply next_month; [assumption|lia].
  - exists (y, m, d + 1). eapply next_day; [eassumption|lia|lia].
Qed.
Lemma next_dates x y : next x y -> is_date x /\ is_date y.
Proof.
  rewrite !is_date_ok. intros H. inversion H as [a m d n L D N|a m n L M|a]; subst; cbn.
  - apply lasts_ok in L. destruct L as (L & ->). lia.
  - apply lasts_ok in L. destruct L as (L & ->).
    pose proof (last_day_cases a m L). pose proof (last_day_cases a (m + 1)). lia.
  - unfold last_day; cbn; lia.
Qed.
Lemma next_days x y : next x y -> of_date y = of_date x + 1.
Proof.
  intros H. inversion H as [a m d n L D N|a m n L M|a]; subst; cbn [of_date].
  - unfold days_of_civil. lia.
  - apply lasts_ok in L. destruct L as (L & ->). unfold days_of_civil.
    pose proof (leap_cases a) as LC.
    assert (m = 1 \/ m = 2 \/ m = 3 \/ m = 4 \/ m = 5 \/ m = 6 \/ m = 7 \/ m = 8 \/ m = 9 \/ m = 10 \/ m = 11) as C by lia.
    destruct C as [->|[->|[->|[->|[->|[->|[->|[->|[->|[->| ->]]]]]]]]]];
      cbn [Z.leb Z.ltb Z.add Z.sub Z.compare Pos.compare Pos.compare_cont Z.opp Z.pos_sub Pos.add Pos.succ Pos.pred_double];
      try (unfold last_day; cbn [Z.eqb Pos.eqb orb]; divs).
  - unfold days_of_civil. cbn [Z.leb Z.ltb Z.compare Pos.compare Pos.compare_cont]. divs.
Qed.

(** ** There and back *)
Lemma month_ok doy : 0 <= doy <= 365 -> let mp := (5 * doy + 2) / 153 in
  0 <= mp <= 11 /\ (153 * mp + 2) / 5 <= doy < (153 * (mp + 1) + 2) / 5.
Proof. cbv zeta. intros. divs. Qed.
Lemma finish_leap yoe era : 0 <= yoe < 400 ->
  finish yoe - start yoe = if leap_year (yoe + era * 400 + 1) then 366 else 365.
Proof.
  intros H. pose proof (leap_cases (yoe + era * 400 + 1)) as L. unfold finish.
  destruct (Z.eqb_spec yoe 399).
  - subst. destruct (leap_year (399 + era * 400 + 1)); [reflexivity|]. exfalso.
    assert ((399 + era * 400 + 1) mod 400 = 0 /\ (399 + era * 400 + 1) mod 4 = 0) by (split; divs).
    intuition congruence.
  - unfold start. destruct (leap_year _); destruct L as [(E & L)|(E & L)]; try discriminate; clear E; divs.
Qed.
Ltac lit x := match x with Z0 => idtac | Zpos _ => idtac | Zneg _ => idtac end.
Ltac closed a b f := lit a; lit b; let v := eval vm_compute in (f a b) in change (f a b) with v in *.
Ltac norm := repeat (match goal with
  | |- context [Z.add ?a ?b] => closed a b Z.add
  | |- context [Z.sub ?a ?b] => closed a b Z.sub
  | |- context [Z.mul ?a ?b] => closed a b Z.mul
  | |- context [Z.div ?a ?b] => closed a b Z.div
  | |- context [Z.leb ?a ?b] => closed a b Z.leb
  | |- context [Z.ltb ?a ?b] => closed a b Z.ltb
  | H : context [Z.add ?a ?b] |- _ => closed a b Z.add
  | H : context [Z.mul ?a ?b] |- _ => closed a b Z.mul
  | H : context [Z.div ?a ?b] |- _ => closed a b Z.div
  end; cbv iota).
Lemma civil_ok n : okb (civil_of_days n) /\ of_date (civil_of_days n) = n.
Proof.
  unfold civil_of_days. set (z := n + 719468). set (era := z / 146097). set (doe := z - era * 146097).
  assert (D : 0 <= doe < 146097) by (subst doe era; divs).
  destruct (year_of_era_ok doe D) as (Y & S). set (yoe := year_of_era doe) in *. clearbody yoe.
  fold (start yoe). set (doy := doe - start yoe).
  pose proof (finish_leap yoe era Y) as F.
  assert (R : 0 <= doy <= 365) by (subst doy; destruct (leap_year (yoe + era * 400 + 1)); lia).
  destruct (month_ok doy R) as (M & B). set (mp := (5 * doy + 2) / 153) in *. clearbody mp.
  assert (N : n = era * 146097 + (start yoe + doy) - 719468) by (subst doy doe z; lia).
  assert (doy < finish yoe - start yoe) as U by (subst doy; lia).
  clearbody doy. clear S D. clearbody doe era. clear z doe.
  assert (mp = 0 \/ mp = 1 \/ mp = 2 \/ mp = 3 \/ mp = 4 \/ mp = 5 \/ mp = 6 \/ mp = 7 \/ mp = 8 \/ mp = 9 \/
          mp = 10 \/ mp = 11) as C by lia.
  unfold okb, of_date, days_of_civil.
  assert (E1 : (yoe + era * 400) / 400 = era) by divs.
  assert (E2 : (yoe + era * 400 + 1 - 1) / 400 = era) by divs.
  destruct C as [->|[->|[->|[->|[->|[->|[->|[->|[->|[->|[->| ->]]]]]]]]]]];
    norm; rewrite ?E1, ?E2; subst n; unfold start in *;
    (split; [split; [lia|]|]).
  all: try (replace (yoe + era * 400 + 1 - 1 - era * 400) with yoe by lia).
  all: try (replace (yoe + era * 400 - era * 400) with yoe by lia).
  all: try lia.
  all: unfold last_day; cbn [Z.eqb Pos.eqb orb]; try lia.
  all: try (destruct (leap_year _); lia).
Qed.
Lemma civil_back x : okb x -> civil_of_days (of_date x) = x.
Proof.
  destruct x as [[y m] d]. unfold okb, of_date. intros (M & D).
  unfold days_of_civil. set (y' := if m <=? 2 then y - 1 else y).
  set (era := y' / 400). set (yoe := y' - era * 400).
  set (mp := if 2 <? m then m - 3 else m + 9). set (doy := (153 * mp + 2) / 5 + d - 1).
  assert (Y : 0 <= yoe < 400) by (subst yoe era; divs).
  assert (MP : 0 <= mp <= 11) by (subst mp; destruct (Z.ltb_spec 2 m); lia).
  pose proof (finish_leap yoe era Y) as F.
  assert (U : 0 <= doy < finish yoe - start yoe /\ doy < (153 * (mp + 1) + 2) / 5).
  { rewrite F. subst yoe. replace (y' - era * 400 + era * 400 + 1) with (y' + 1) by lia.
    subst doy mp y'. pose proof (last_day_cases y m M) as L. clear F.
    assert (m = 1 \/ m = 2 \/ m = 3 \/ m = 4 \/ m = 5 \/ m = 6 \/ m = 7 \/ m = 8 \/ m = 9 \/ m = 10 \/ m = 11 \/ m = 12) as C by lia.
    destruct C as [->|[->|[->|[->|[->|[->|[->|[->|[->|[->|[->| ->]]]]]]]]]]];
      norm; try (replace (y - 1 + 1) with y by lia); revert L; repeat destruct (leap_year _); intuition (try discriminate); lia. }
  destruct U as (U1 & U2).
  replace (era * 146097 + (yoe * 365 + yoe / 4 - yoe / 100 + doy) - 719468)
    with (era * 146097 + (start yoe + doy) - 719468) by (unfold start; lia).
  unfold civil_of_days.
  destruct (start_next yoe Y) as (_ & _ & S1 & S2).
  replace (era * 146097 + (start yoe + doy) - 719468 + 719468) with (start yoe + doy + era * 146097) by lia.
  rewrite Z.div_add by lia. rewrite (Z.div_small (start yoe + doy)) by lia. rewrite Z.add_0_l.
  replace (start yoe + doy + era * 146097 - era * 146097) with (start yoe + doy) by lia.
  rewrite (year_of_era_unique (start yoe + doy) yoe Y) by lia.
  fold (start yoe). replace (start yoe + doy - start yoe) with doy by lia.
  assert (E : (5 * doy + 2) / 153 = mp) by (subst doy; divs).
  rewrite E. replace (doy - (153 * mp + 2) / 5 + 1) with d by (subst doy; lia).
  assert (Em : (if mp <? 10 then mp + 3 else mp - 9) = m).
  { subst mp. destruct (Z.ltb_spec 2 m).
    - destruct (Z.ltb_spec (m - 3) 10); lia.
    - destruct (Z.ltb_spec (m + 9) 10); lia. }
  rewrite Em. f_equal. f_equal. subst yoe y'. destruct (Z.leb_spec m 2); lia.
Qed.

(** ** The calendar *)
Lemma on_day_date n x : on_day n x -> is_date x /\ of_date x = n.
Proof.
  induction 1 as [|n x y H (IH1 & IH2) N|n x y H (IH1 & IH2) N].
  - split; [apply is_date_ok; cbv; repeat split; discriminate|reflexivity].
  - split; [apply (next_dates x y N)|]. rewrite (next_days x y N). lia.
  - split; [apply (next_dates x y N)|]. pose proof (next_days x y N). lia.
Qed.
Lemma civil_next n : next (civil_of_days n) (civil_of_days (n + 1)).
Proof.
  destruct (civil_ok n) as (A & B). apply is_date_ok in A. destruct (next_has _ A) as (y & N).
  pose proof (next_days _ _ N) as E. rewrite B in E.
  destruct (next_dates _ _ N) as (_ & Y). apply is_date_ok in Y.
  rewrite <- E, (civil_back y Y). exact N.
Qed.
Lemma civil_on_day n : on_day n (civil_of_days n).
Proof.
  destruct (Z.le_gt_cases 0 n) as [H|H].
  - revert n H. apply natlike_ind.
    + exact epoch.
    + intros n _ IH. eapply after; [exact IH|apply civil_next].
  - assert (forall k, 0 <= k -> on_day (- k) (civil_of_days (- k))) as X.
    { apply natlike_ind.
      - exact epoch.
      - intros k _ IH. eapply (before (- Z.succ k) _ (civil_of_days (- k))).
        + replace (- Z.succ k + 1) with (- k) by lia. exact IH.
        + pose proof (civil_next (- Z.succ k)) as N. replace (- Z.succ k + 1) with (- k) in N by lia. exact N. }
    specialize (X (- n) ltac:(lia)). rewrite Z.opp_involutive in X. exact X.
Qed.
Lemma on_day_iff n x : on_day n x <-> is_date x /\ of_date x = n.
Proof.
  split; [apply on_day_date|]. intros (D & <-). apply is_date_ok in D.
  pose proof (civil_on_day (of_date x)) as C. rewrite (civil_back x D) in C. exact C.
Qed.
Lemma on_day_unique n x y : on_day n x -> on_day n y -> x = y.
Proof.
  rewrite !on_day_iff, !is_date_ok. intros (A & <-) (B & E).
  rewrite <- (civil_back x A), <- (civil_back y B), E. reflexivity.
Qed.

(** ** Texts *)
Lemma digit_ok x : 0 <= x <= 9 -> is_digit (48 + x) = true.
Proof. intros. unfold is_digit. rewrite andb_true_iff. lia. Qed.
Lemma digits_S n a x t : 0 <= x <= 9 ->
  digits (S n) a ((48 + x) :: t) = let '(v, k, r) := digits n (a * 10 + x) t in (v, S k, r).
Proof.
  intros H. cbn [digits]. rewrite (digit_ok x H). replace (a * 10 + (48 + x - 48)) with (a * 10 + x) by lia. reflexivity.
Qed.
Lemma digits_decimal k : forall n a x r, 0 <= x < 10 ^ Z.of_nat k ->
  digits (k + n) a (decimal k x ++ r) =
  let '(v, j, r') := digits n (a * 10 ^ Z.of_nat k + x) r in (v, (k + j)%nat, r').
Proof.
  induction k as [|k IH]; intros n a x r H.
  - cbn [Nat.add decimal app Z.of_nat] in *. replace (a * 10 ^ 0 + x) with a by lia.
    destruct (digits n a r) as [[v j] r']. reflexivity.
  - cbn [decimal]. rewrite <- app_assoc. cbn [app].
    replace (S k + n)%nat with (k + S n)%nat by lia.
    rewrite Nat2Z.inj_succ, Z.pow_succ_r in H by lia.
    rewrite IH by (split; [apply Z.div_pos; lia|apply Z.div_lt_upper_bound; lia]).
    rewrite digits_S by (pose proof (Z.mod_pos_bound x 10 ltac:(lia)); lia).
    replace ((a * 10 ^ Z.of_nat k + x / 10) * 10 + x mod 10) with (a * 10 ^ Z.of_nat (S k) + x).
    + destruct (digits n _ r) as [[v j] r']. f_equal. f_equal. lia.
    + rewrite Nat2Z.inj_succ, Z.pow_succ_r by lia. pose proof (Z.div_mod x 10 ltac:(lia)). lia.
Qed.
Lemma unsigned_decimal m k x r : (m <= k)%nat -> 0 <= x < 10 ^ Z.of_nat k ->
  unsigned m k (decimal k x ++ r) = Some (x, r).
Proof.
  intros M H. unfold unsigned. pose proof (digits_decimal k 0 0 x r H) as D.
  rewrite Nat.add_0_r in D. rewrite D. destruct r; cbn [digits]; rewrite Nat.add_0_r;
  replace (m <=? k)%nat with true by (symmetry; apply Nat.leb_le; exact M); reflexivity.
Qed.
Lemma decimal_head k x : exists c t, decimal (S k) x = (48 + c) :: t /\ 0 <= c <= 9.
Proof.
  revert x. induction k as [|k IH]; intros x.
  - exists (x mod 10), []. split; [reflexivity|]. pose proof (Z.mod_pos_bound x 10 ltac:(lia)). lia.
  - destruct (IH (x / 10)) as (c & t & E & H). exists c, (t ++ [48 + x mod 10]).
    split; [|exact H]. change (decimal (S (S k)) x) with (decimal (S k) (x / 10) ++ [48 + x mod 10]). rewrite E. reflexivity.
Qed.
Lemma signed_digit m M c t : 0 <= c <= 9 -> signed m M ((48 + c) :: t) = unsigned m M ((48 + c) :: t).
Proof.
  intros H. assert (c = 0 \/ c = 1 \/ c = 2 \/ c = 3 \/ c = 4 \/ c = 5 \/ c = 6 \/ c = 7 \/ c = 8 \/ c = 9) as C by lia.
  destruct C as [->|[->|[->|[->|[->|[->|[->|[->|[->| ->]]]]]]]]]; reflexivity.
Qed.
Lemma signed_decimal m k x r : (m <= S k)%nat -> 0 <= x < 10 ^ Z.of_nat (S k) ->
  signed m (S k) (decimal (S k) x ++ r) = Some (x, r).
Proof.
  intros M H. rewrite <- (unsigned_decimal m (S k) x r M H).
  destruct (decimal_head k x) as (c & t & E & C). rewrite E. apply signed_digit. exact C.
Qed.

Lemma literal_ok c r : literal c (c :: r) = Some r.
Proof. cbn. rewrite Z.eqb_refl. reflexivity. Qed.
Lemma t_dash : s2b "-" = [45]. Proof. reflexivity. Qed.
Lemma t_tee : s2b "T" = [84]. Proof. reflexivity. Qed.
Lemma t_colon : s2b ":" = [58]. Proof. reflexivity. Qed.
Lemma t_zed : s2b "Z" = [90]. Proof. reflexivity. Qed.
Lemma t_plus : s2b "+" = [43]. Proof. reflexivity. Qed.
Definition fields (x : date) (h mi s : Z) : tm :=
  let '(y, m, d) := x in
  {| tm_year := y; tm_mon := m; tm_day := d; tm_hour := h; tm_min := mi; tm_sec := s |}.
Definition fits (x : date) : Prop := let '(y, m, d) := x in 0 <= y <= 9999 /\ 0 <= m <= 99 /\ 0 <= d <= 99.
Lemma parse_local_text x h mi s r : fits x -> 0 <= h <= 99 -> 0 <= mi <= 99 -> 0 <= s <= 99 ->
  parse_local (local_text x h mi s ++ r) = Some (fields x h mi s, r).
Proof.
  destruct x as [[y m] d]. intros (Y & M & D) H MI S. unfold parse_local, local_text, fields.
  rewrite <- !app_assoc.
  rewrite t_dash, t_tee, t_colon. cbn [app].
  rewrite (signed_decimal 1 3) by (lia || (cbn; lia)). rewrite literal_ok.
  do 5 (rewrite (unsigned_decimal 1 2) by (lia || (cbn; lia)); rewrite ?literal_ok).
  reflexivity.
Qed.

Lemma tm_ok_fields x h mi s : is_date x -> 0 <= h < 24 -> 0 <= mi < 60 -> 0 <= s < 60 ->
  tm_ok (fields x h mi s) = true.
Proof.
  rewrite is_date_ok. destruct x as [[y m] d]. cbn. intros (M & D) H MI S. unfold tm_ok. cbn.
  rewrite !andb_true_iff. lia.
Qed.
Lemma seconds_ok x h mi s o t : instant x h mi s o t -> seconds_of (fields x h mi s) o = Some t.
Proof.
  intros (n & D & H & MI & S & E). apply on_day_date in D. destruct D as (D & N). unfold seconds_of.
  rewrite (tm_ok_fields x h mi s D H MI S). destruct x as [[y m] d]. cbn [fields of_date tm_year tm_mon tm_day tm_hour tm_min tm_sec] in *. f_equal. lia.
Qed.
Lemma instant_fits x h mi s o t : instant x h mi s o t -> 0 <= fst (fst x) <= 9999 ->
  fits x /\ 0 <= h <= 99 /\ 0 <= mi <= 99 /\ 0 <= s <= 99.
Proof.
  intros (n & D & H & MI & S & E) Y. apply on_day_date in D. destruct D as (D & _).
  apply is_date_ok in D. destruct x as [[y m] d]. cbn in *.
  pose proof (last_day_cases y m ltac:(lia)). lia.
Qed.
Lemma parse_zulu_text x h mi s t r : instant x h mi s 0 t -> 0 <= fst (fst x) <= 9999 ->
  parse_zulu (local_text x h mi s ++ s2b "Z" ++ r) = Some t.
Proof.
  intros I Y. destruct (instant_fits _ _ _ _ _ _ I Y) as (F & H & M & S). unfold parse_zulu.
  rewrite (parse_local_text x h mi s _ F H M S). rewrite t_zed. cbn [app]. rewrite literal_ok.
  apply seconds_ok. exact I.
Qed.
Lemma parse_offset_text o r : -6000 < o < 6000 -> parse_offset (offset_text o ++ r) = Some o.
Proof.
  intros H. unfold offset_text. rewrite t_dash, t_plus, t_colon.
  assert (B1 : 0 <= Z.abs o / 60 < 10 ^ Z.of_nat 2) by (cbn; divs).
  assert (B2 : 0 <= Z.abs o mod 60 < 10 ^ Z.of_nat 2) by (cbn; divs).
  destruct (Z.ltb_spec o 0) as [L|L]; rewrite <- !app_assoc; cbn [app]; unfold parse_offset; cbn [signed];
    rewrite (unsigned_decimal 1 2) by (lia || assumption);
    rewrite (unsigned_decimal 2 2) by (lia || assumption); f_equal; divs.
Qed.
Lemma parse_shifted_text x h mi s o t r : instant x h mi s o t -> 0 <= fst (fst x) <= 9999 -> -6000 < o < 6000 ->
  parse_shifted (local_text x h mi s ++ offset_text o ++ r) = Some t /\
  parse_zulu (local_text x h mi s ++ offset_text o ++ r) = None.
Proof.
  intros I Y O. destruct (instant_fits _ _ _ _ _ _ I Y) as (F & H & M & S).
  unfold parse_shifted, parse_zulu. rewrite (parse_local_text x h mi s _ F H M S). split.
  - rewrite (parse_offset_text o r O). apply seconds_ok. exact I.
  - unfold offset_text. rewrite t_dash, t_plus. destruct (o <? 0); reflexivity.
Qed.
Lemma four_decimal y : 0 <= y <= 9999 -> four y = decimal 4 y.
Proof.
  intros H. unfold four, two. cbn [app decimal]. rewrite ?Z.div_div by lia.
  norm.
  assert (C : y mod 100 / 10 = y / 10 mod 10) by divs. assert (D : (y mod 100) mod 10 = y mod 10) by divs.
  rewrite C, D, (Z.mod_small (y / 1000)) by divs. reflexivity.
Qed.
Lemma two_decimal y : 0 <= y <= 99 -> two y = decimal 2 y.
Proof. intros H. unfold two. cbn [app decimal]. rewrite (Z.mod_small (y / 10)) by divs. reflexivity. Qed.
Lemma fmt_text t : 0 <= fst (fst (civil_of_days (t / 86400))) <= 9999 ->
  exists x h mi s, instant x h mi s 0 t /\ 0 <= fst (fst x) <= 9999 /\
    fmt_date t = local_text x h mi s ++ s2b "Z".
Proof.
  intros Y. unfold fmt_date, gmtime. pose proof (civil_on_day (t / 86400)) as D.
  destruct (civil_of_days (t / 86400)) as [[y m] d].
  set (s := t mod 86400). assert (S : 0 <= s < 86400) by (subst s; apply Z.mod_pos_bound; lia).
  exists (y, m, d), (s / 3600), (s / 60 mod 60), (s mod 60).
  assert (I : instant (y, m, d) (s / 3600) (s / 60 mod 60) (s mod 60) 0 t).
  { exists (t / 86400). split; [exact D|]. assert (t = 86400 * (t / 86400) + s) by (subst s; apply Z.div_mod; lia).
    clearbody s. divs. }
  split; [exact I|]. split; [exact Y|].
  destruct (instant_fits _ _ _ _ _ _ I Y) as (F & H & M & X). cbn in F, Y.
  unfold put_time, local_text. cbn [tm_year tm_mon tm_day tm_hour tm_min tm_sec].
  rewrite four_decimal by lia. rewrite !two_decimal by lia. rewrite <- !app_assoc. reflexivity.
Qed.
Lemma year_range n : -400000 <= n <= 400000 -> 0 <= fst (fst (civil_of_days n)) <= 9999.
Proof.
  intros H. destruct (civil_ok n) as (A & B). destruct (civil_of_days n) as [[y m] d]. cbn in *.
  unfold days_of_civil in B. pose proof (last_day_cases y m ltac:(lia)).
  destruct (Z.leb_spec m 2), (Z.ltb_spec 2 m); try lia; divs.
Qed.
Lemma scan_fmt t : - 2 ^ 63 <= t < 2 ^ 63 ->
  scan_date (fmt_date (Z.quot t 1000000000)) = Z.quot t 1000000000.
Proof.
  intros H. set (u := Z.quot t 1000000000).
  assert (U : -9300000000 <= u <= 9300000000) by (subst u; change (2 ^ 63) with 9223372036854775808 in H; divs).
  destruct (fmt_text u) as (x & h & mi & s & I & Y & E).
  { apply year_range. clearbody u. divs. }
  rewrite E. unfold scan_date. rewrite <- (app_nil_r (s2b "Z")).
  rewrite (parse_zulu_text _ _ _ _ _ [] I Y). reflexivity.
Qed.
