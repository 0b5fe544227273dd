(* Text produced by Go's standard library for the values xtorm formats as text. *)
From Coq Require Import String NArith ZArith Arith List.
From Verif Require Import Base GoSlice.
Import ListNotations.
Open Scope N_scope.

(* Decimal digits of n (strconv.AppendUint/Itoa base 10). *)
Fixpoint dec_k (k : nat) (n : N) (acc : bytes) : bytes :=
  match k with
  | O => acc
  | S k => let acc := (48 + n mod 10) :: acc in
           if n / 10 =? 0 then acc else dec_k k (n / 10) acc
  end.
Definition dec (n : N) : bytes := dec_k (S (N.size_nat n)) n [].

(* time.appendInt(b, x, width) of Go's time package: optional '-', zero padded to width. *)
Definition dec_pad (x : Z) (width : nat) : bytes :=
  let d := dec (Z.abs_N x) in
  (if (x <? 0)%Z then [45] else []) ++ repeat 48 (width - length d) ++ d.

(* The wall clock fields of a time.Time, as time.AppendFormat sees them. *)
Record gtime := { t_year : Z; t_month : N; t_day : N; t_hour : N; t_min : N; t_sec : N; t_nsec : N }.

(* t.AppendFormat(b, "2006-01-02 15:04:05.000000000"). Standard library, modelled from its
   documentation: each field zero padded, nanoseconds as nine digits. *)
Definition format_time (t : gtime) : bytes :=
  dec_pad (t_year t) 4 ++ [45] ++ dec_pad (Z.of_N (t_month t)) 2 ++ [45] ++
  dec_pad (Z.of_N (t_day t)) 2 ++ [32] ++ dec_pad (Z.of_N (t_hour t)) 2 ++ [58] ++
  dec_pad (Z.of_N (t_min t)) 2 ++ [58] ++ dec_pad (Z.of_N (t_sec t)) 2 ++ [46] ++
  dec_pad (Z.of_N (t_nsec t)) 9.

(* Two's complement wrap to int64. *)
Definition wrap64 (z : Z) : Z := ((z + 2 ^ 63) mod 2 ^ 64 - 2 ^ 63)%Z.

(* uint(z) of an int64 z: 32 or 64 bits. *)
Definition to_uint `{Env} (z : Z) : N := Z.to_N (z mod (if word32 then 2 ^ 32 else 2 ^ 64))%Z.

(* xproto/scalar.go:40-45 smallsString: two digits for each of 0..59 *)
Definition smalls : bytes := s2b
  ("00010203040506070809" ++
   "10111213141516171819" ++
   "20212223242526272829" ++
   "30313233343536373839" ++
   "40414243444546474849" ++
   "50515253545556575859")%string.

Definition smalls_at (i : N) : res N :=
  match nth_error smalls (N.to_nat i) with Some b => Ok b | None => Panic end.

Definition ns_second : Z := 1000000000.
Definition ns_minute : Z := 60000000000.
Definition ns_hour : Z := 3600000000000.

(* xproto/scalar.go:47-55 AppendDuration. Duration division truncates toward zero; -d wraps. *)
Definition append_duration `{Env} (p : slice) (d : Z) : res slice :=
  let '(p, d) := if (d <? 0)%Z then (append p [45], wrap64 (- d)) else (p, d) in
  let i := 2 * (to_uint (Z.quot d ns_minute) mod 60) in
  let j := 2 * (to_uint (Z.quot d ns_second) mod 60) in
  let p := append p (dec (Z.to_N (Z.quot d ns_hour mod 2 ^ 64)%Z)) in
  do i0 <- smalls_at i; do i1 <- smalls_at (i + 1);
  do j0 <- smalls_at j; do j1 <- smalls_at (j + 1);
  Ok (append p [58; i0; i1; 58; j0; j1]).
