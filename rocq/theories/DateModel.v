(** src/electionguard/convert.cpp:23-65: dates of manifests as text.  The calendar
    functions it calls are not in the repository: gmtime_r and put_time (C and C++
    library) and date::parse (Howard Hinnant's date library, named in
    src/CMakeLists.txt:10).  They are modelled here from their documentation. *)
From Verif Require Import Base ManifestModel.
Local Open Scope Z_scope.

(** ** The calendar *)
(** date.h, year_month_day::to_days and from_days: years begin in March, and 400 years
    are 146097 days. *)
Definition days_of_civil (y m d : Z) : Z :=
  let y' := if m <=? 2 then y - 1 else y in
  let era := y' / 400 in
  let yoe := y' - era * 400 in
  let doy := (153 * (if 2 <? m then m - 3 else m + 9) + 2) / 5 + d - 1 in
  let doe := yoe * 365 + yoe / 4 - yoe / 100 + doy in
  era * 146097 + doe - 719468.
Definition year_of_era (doe : Z) : Z := (doe - doe / 1460 + doe / 36524 - doe / 146096) / 365.
Definition civil_of_days (n : Z) : Z * Z * Z :=
  let z := n + 719468 in
  let era := z / 146097 in
  let doe := z - era * 146097 in
  let yoe := year_of_era doe in
  let doy := doe - (365 * yoe + yoe / 4 - yoe / 100) in
  let mp := (5 * doy + 2) / 153 in
  let d := doy - (153 * mp + 2) / 5 + 1 in
  let m := if mp <? 10 then mp + 3 else mp - 9 in
  let y := yoe + era * 400 in
  (if m <=? 2 then y + 1 else y, m, d).
(** gmtime_r (convert.cpp:35). *)
Record tm := { tm_year : Z; tm_mon : Z; tm_day : Z; tm_hour : Z; tm_min : Z; tm_sec : Z }.
Definition gmtime (t : Z) : tm :=
  let '(y, m, d) := civil_of_days (t / 86400) in
  let s := t mod 86400 in
  {| tm_year := y; tm_mon := m; tm_day := d;
     tm_hour := s / 3600; tm_min := s / 60 mod 60; tm_sec := s mod 60 |}.

(** ** Writing: put_time with "%FT%TZ" (convert.cpp:23, 37-39) *)
Definition two (x : Z) : bytes := [48 + x / 10; 48 + x mod 10].
(** %Y; years of other lengths do not occur, a time_point being 64 bits of nanoseconds. *)
Definition four (x : Z) : bytes := two (x / 100) ++ two (x mod 100).
Definition put_time (x : tm) : bytes :=
  four (tm_year x) ++ [45] ++ two (tm_mon x) ++ [45] ++ two (tm_day x) ++ [84] ++
  two (tm_hour x) ++ [58] ++ two (tm_min x) ++ [58] ++ two (tm_sec x) ++ [90].
(** timePointToIsoString of a time_t; [ManifestModel.iso] takes a time_point to it. *)
Definition fmt_date (t : Z) : bytes := put_time (gmtime t).

(** ** Reading: date::parse (convert.cpp:47-57) *)
Definition is_digit (c : Z) : bool := (48 <=? c) && (c <=? 57).
(** Up to [n] digits are read into [acc]; the number of digits is returned too. *)
Fixpoint digits (n : nat) (acc : Z) (s : bytes) : Z * nat * bytes :=
  match n, s with
  | S n', c :: t => if is_digit c then let '(x, k, r) := digits n' (acc * 10 + (c - 48)) t in (x, S k, r)
                    else (acc, O, s)
  | _, _ => (acc, O, s)
  end.
(** ru{m, M}: between [m] and [M] digits. *)
Definition unsigned (m M : nat) (s : bytes) : option (Z * bytes) :=
  let '(x, k, r) := digits M 0 s in if (m <=? k)%nat then Some (x, r) else None.
(** rs{m, M}: an optional sign before them. *)
Definition signed (m M : nat) (s : bytes) : option (Z * bytes) :=
  match s with
  | 45 :: t => match unsigned m M t with Some (x, r) => Some (- x, r) | None => None end
  | 43 :: t => unsigned m M t
  | _ => unsigned m M s
  end.
Definition literal (c : Z) (s : bytes) : option bytes :=
  match s with x :: t => if x =? c then Some t else None | [] => None end.
Notation "'opt' p <- e ; k" := (match e with Some p => k | None => None end)
  (at level 200, p pattern, e at level 100, k at level 200).
(** "%FT%T".  Simplifications: seconds with a decimal point in place of the second digit, and
    texts that end within a field (where the stream's state stops the parser), are
    taken as not parsed. *)
Definition parse_local (s : bytes) : option (tm * bytes) :=
  opt (y, s1) <- signed 1 4 s; opt s2 <- literal 45 s1;
  opt (m, s3) <- unsigned 1 2 s2; opt s4 <- literal 45 s3;
  opt (d, s5) <- unsigned 1 2 s4; opt s6 <- literal 84 s5;
  opt (hh, s7) <- unsigned 1 2 s6; opt s8 <- literal 58 s7;
  opt (mm, s9) <- unsigned 1 2 s8; opt s10 <- literal 58 s9;
  opt (ss, s11) <- unsigned 1 2 s10;
  Some ({| tm_year := y; tm_mon := m; tm_day := d; tm_hour := hh; tm_min := mm; tm_sec := ss |}, s11).
(** year_month_day::ok and hh_mm_ss::in_conventional_range. *)
Definition leap_year (y : Z) : bool := (y mod 4 =? 0) && (negb (y mod 100 =? 0) || (y mod 400 =? 0)).
Definition last_day (y m : Z) : Z :=
  if m =? 2 then (if leap_year y then 29 else 28)
  else if (m =? 4) || (m =? 6) || (m =? 9) || (m =? 11) then 30 else 31.
Definition tm_ok (x : tm) : bool :=
  (1 <=? tm_mon x) && (tm_mon x <=? 12) && (1 <=? tm_day x) && (tm_day x <=? last_day (tm_year x) (tm_mon x)) &&
  (tm_hour x <? 24) && (tm_min x <? 60) && (tm_sec x <? 60).
(** from_stream into a sys_time<seconds>; the offset is in minutes. *)
Definition seconds_of (x : tm) (offset : Z) : option Z :=
  if tm_ok x then
    Some (days_of_civil (tm_year x) (tm_mon x) (tm_day x) * 86400 - offset * 60 +
          (tm_hour x * 3600 + tm_min x * 60 + tm_sec x))
  else None.
(** "%FT%TZ"; what follows is not looked at. *)
Definition parse_zulu (s : bytes) : option Z :=
  opt (x, r) <- parse_local s; opt _ <- literal 90 r; seconds_of x 0.
(** "%Ez": hours and, after a colon, minutes. *)
Definition parse_offset (s : bytes) : option Z :=
  opt (h, r) <- signed 1 2 s;
  let minutes := match r with
                 | 58 :: r' => match unsigned 2 2 r' with Some (x, _) => Some x | None => None end
                 | _ => Some 0
                 end in
  opt m <- minutes;
  let total := Z.abs h * 60 + m in
  Some (match s with 45 :: _ => - total | _ => total end).
(** "%FT%T%Ez" *)
Definition parse_shifted (s : bytes) : option Z :=
  opt (x, r) <- parse_local s; opt o <- parse_offset r; seconds_of x o.
(** timePointFromIsoString: the second format is tried when the first fails; nothing looks
    at the stream after that, and the time point was initialised to 0. *)
Definition scan_date (s : bytes) : Z :=
  match parse_zulu s with
  | Some t => t
  | None => match parse_shifted s with Some t => t | None => 0 end
  end.
