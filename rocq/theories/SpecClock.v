(* C107: instants, the calendar and clocks. What a time.Time is, and what AppendFormat (xproto/any.go:267, xproto/expr.go) shows of it. *)
From Coq Require Import List NArith ZArith Bool.
From Verif Require Import Base Text SpecValue.
Import ListNotations.
Local Open Scope Z_scope.

(* A time.Time: an instant, as seconds since 1970-01-01 00:00:00 UTC and nanoseconds, and the offset (seconds east of UTC) that its location has then. *)
Record moment := mkmoment { seconds : Z; nanos : N; offset : Z }.
Definition go_moment (t : moment) : Prop := in_int 64 (seconds t) /\ (nanos t < 10 ^ 9)%N /\ Z.abs (offset t) < 10 ^ 6.

(* t.Equal(u) and t.Before(u) *)
Definition same_instant (t u : moment) : Prop := seconds t = seconds u /\ nanos t = nanos u.
Definition before (t u : moment) : Prop := seconds t < seconds u \/ (seconds t = seconds u /\ (nanos t < nanos u)%N).

(* The Gregorian calendar, also before it was introduced. *)
Definition leap (year : Z) : bool := (year mod 4 =? 0) && (negb (year mod 100 =? 0) || (year mod 400 =? 0)).
Definition month_length (year : Z) (month : N) : N :=
  match month with 2%N => if leap year then 29%N else 28%N | 4%N | 6%N | 9%N | 11%N => 30%N | _ => 31%N end.
Definition day : Type := Z * N * N.   (* year, month, day of the month *)
Definition is_day (x : day) : Prop := let '(y, m, d) := x in (1 <= m <= 12)%N /\ (1 <= d <= month_length y m)%N.
Definition next_day (x : day) : day :=
  let '(y, m, d) := x in
  if (d <? month_length y m)%N then (y, m, d + 1)%N else if (m <? 12)%N then (y, m + 1, 1)%N else (y + 1, 1%N, 1%N).
Definition previous_day (x : day) : day :=
  let '(y, m, d) := x in
  if (1 <? d)%N then (y, m, d - 1)%N else if (1 <? m)%N then (y, m - 1, month_length y (m - 1))%N else (y - 1, 12%N, 31%N).
(* The n-th day after 1970-01-01. *)
Definition date (n : Z) : day :=
  match n with
  | Z0 => (1970, 1%N, 1%N)
  | Zpos p => Pos.iter next_day (1970, 1%N, 1%N) p
  | Zneg p => Pos.iter previous_day (1970, 1%N, 1%N) p
  end.

(* What a clock at that offset shows (t.Date() and t.Clock()). *)
Definition wall (t : moment) : gtime :=
  let local := seconds t + offset t in
  let '(y, m, d) := date (local / 86400) in
  let s := Z.to_N (local mod 86400) in
  {| t_year := y; t_month := m; t_day := d; t_hour := s / 3600; t_min := s / 60 mod 60; t_sec := s mod 60; t_nsec := nanos t |}%N.

(* The order of texts. *)
Fixpoint text_before (a b : bytes) : Prop :=
  match a, b with
  | _, [] => False
  | [], _ :: _ => True
  | x :: a, y :: b => (x < y)%N \/ (x = y /\ text_before a b)
  end.
