(* What packed decimals, decimal texts and big endian numbers stand for. *)
From Coq Require Import NArith ZArith List Bool.
From Verif Require Import Base.
Import ListNotations.
Open Scope N_scope.

(* The number a sequence of digits stands for, in base b. *)
Definition number (b : N) (ds : list N) : N := fold_left (fun a d => a * b + d) ds 0.
Definition big_endian (l : bytes) : N := number 256 l.

(* The MySQL packed decimal: a byte with the number of digits after the point, then one digit in each half
   byte, then a half byte with the sign (A, C, E, F plus, B, D minus). *)
Inductive half_bytes : bytes -> list N -> Prop :=
| hb_nil : half_bytes [] []
| hb_byte : forall hi lo l hs, hi < 16 -> lo < 16 -> half_bytes l hs -> half_bytes (16 * hi + lo :: l) (hi :: lo :: hs).
Definition packed (scale : N) (negative : bool) (ds : list N) (d : bytes) : Prop :=
  scale < 256 /\ Forall (fun x => x < 10) ds /\
  exists body sign pad, d = scale :: body /\ half_bytes body (ds ++ sign :: pad) /\
    In sign (if negative then [11; 13] else [10; 12; 14; 15]).

(* Reading a decimal text: an optional minus, then digits with at most one point among them, at least one
   digit. Gives the sign, the number without the point, and how many digits come after the point. *)
Fixpoint read_frac (t : bytes) (a : N) (k : N) : option (N * N) :=
  match t with
  | [] => Some (a, k)
  | c :: t => if (48 <=? c) && (c <=? 57) then read_frac t (10 * a + (c - 48)) (k + 1) else None
  end.
Fixpoint read_int (t : bytes) (a : N) : option (N * N) :=
  match t with
  | [] => Some (a, 0)
  | c :: t => if c =? 46 then read_frac t a 0 else if (48 <=? c) && (c <=? 57) then read_int t (10 * a + (c - 48)) else None
  end.
Definition has_digit (t : bytes) : bool := existsb (fun c => (48 <=? c) && (c <=? 57)) t.
Definition read_decimal (t : bytes) : option (bool * N * N) :=
  if negb (has_digit t) then None else
  match t with
  | 45 :: t => match read_int t 0 with Some (a, k) => Some (true, a, k) | None => None end
  | _ => match read_int t 0 with Some (a, k) => Some (false, a, k) | None => None end
  end.
