(** The Gregorian calendar by counting days, and ISO 8601 texts. *)
From Coq Require Import ZArith List Bool String.
From Verif Require Import Base.
Import ListNotations.
Local Open Scope Z_scope.

(** A year is a leap year if it is divisible by 4, but not by 100 unless by 400. *)
Definition leap (y : Z) : Prop := (4 | y) /\ (~ (100 | y) \/ (400 | y)).
(** The length of a month. *)
Inductive lasts (y : Z) : Z -> Z -> Prop :=
| thirty_one m : In m [1; 3; 5; 7; 8; 10; 12] -> lasts y m 31
| thirty m : In m [4; 6; 9; 11] -> lasts y m 30
| long_february : leap y -> lasts y 2 29
| short_february : ~ leap y -> lasts y 2 28.
Definition date := (Z * Z * Z)%type.
Definition is_date (x : date) : Prop :=
  let '(y, m, d) := x in exists n, lasts y m n /\ 1 <= d <= n.
(** The next day. *)
Inductive next : date -> date -> Prop :=
| next_day y m d n : lasts y m n -> 1 <= d -> d < n -> next (y, m, d) (y, m, d + 1)
| next_month y m n : lasts y m n -> 1 <= m < 12 -> next (y, m, n) (y, m + 1, 1)
| next_year y : next (y, 12, 31) (y + 1, 1, 1).
(** The date [n] days after (or before) 1 January 1970. *)
Inductive on_day : Z -> date -> Prop :=
| epoch : on_day 0 (1970, 1, 1)
| after n x y : on_day n x -> next x y -> on_day (n + 1) y
| before n x y : on_day (n + 1) y -> next x y -> on_day n x.

(** The instant, in seconds after 1970 began in Greenwich, when clocks [offset] minutes ahead
    show a date and time. *)
Definition instant (x : date) (h mi s offset t : Z) : Prop :=
  exists n, on_day n x /\ 0 <= h < 24 /\ 0 <= mi < 60 /\ 0 <= s < 60 /\
            t = 86400 * n + 3600 * h + 60 * mi + s - 60 * offset.

(** Decimal text of [n] digits. *)
Fixpoint decimal (n : nat) (x : Z) : bytes :=
  match n with
  | O => []
  | S n' => decimal n' (x / 10) ++ [48 + x mod 10]
  end.
Definition local_text (x : date) (h mi s : Z) : bytes :=
  let '(y, m, d) := x in
  decimal 4 y ++ s2b "-" ++ decimal 2 m ++ s2b "-" ++ decimal 2 d ++ s2b "T" ++
  decimal 2 h ++ s2b ":" ++ decimal 2 mi ++ s2b ":" ++ decimal 2 s.
(** Offsets as +hh:mm or -hh:mm. *)
Definition offset_text (o : Z) : bytes :=
  (if o <? 0 then s2b "-" else s2b "+") ++ decimal 2 (Z.abs o / 60) ++ s2b ":" ++ decimal 2 (Z.abs o mod 60).
(** The instants a time_point can hold: 64 bits of nanoseconds. *)
Definition time_point (t : Z) : Prop := - 2 ^ 63 <= t < 2 ^ 63.
