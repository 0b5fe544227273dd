(* Model of /repo/types/decimal.go. *)
From Coq Require Import String NArith ZArith Bool List.
From Verif Require Import Base.
Import ListNotations.
Open Scope N_scope.
Open Scope list_scope.
Local Notation length := List.length.

Definition W : N := 2 ^ 64.

(* decimal.go:8 Uint256, x[0] first. *)
Record uint256 := mku { x0 : N; x1 : N; x2 : N; x3 : N }.

(* math/bits.Mul64: the high and the low word of the product. Trusted library. *)
Definition mul64 (x y : N) : N * N := (x * y / W, (x * y) mod W).
(* math/bits.Add64: the sum and the carry out. Trusted library. *)
Definition add64 (x y c : N) : N * N := ((x + y + c) mod W, (x + y + c) / W).

(* decimal.go:26-40 MulAdd. The receiver is returned beside the result. *)
Definition mul_add (x : uint256) (y z : N) : uint256 * N :=
  let '(h1, a0) := mul64 (x0 x) y in
  let '(h2, a1) := mul64 (x1 x) y in
  let '(h3, a2) := mul64 (x2 x) y in
  let '(h4, a3) := mul64 (x3 x) y in
  let '(b0, c) := add64 a0 z 0 in
  let '(b1, c) := add64 a1 h1 c in
  let '(b2, c) := add64 a2 h2 c in
  let '(b3, c) := add64 a3 h3 c in
  (mku b0 b1 b2 b3, (h4 + c) mod W).

(* encoding/binary.BigEndian.PutUint64. Trusted library. *)
Definition be64 (v : N) : bytes :=
  [byte (N.shiftr v 56); byte (N.shiftr v 48); byte (N.shiftr v 40); byte (N.shiftr v 32);
   byte (N.shiftr v 24); byte (N.shiftr v 16); byte (N.shiftr v 8); byte v].

(* decimal.go:19-22: the loop, at most n steps (n = 31 - i). *)
Fixpoint skip_zeros (n : nat) (b : bytes) : bytes :=
  match n, b with
  | S n, 0 :: b' => skip_zeros n b'
  | _, _ => b
  end.

(* decimal.go:10-24 AppendBytes. Simplification: buf is a byte list; where the result is stored (in buf's
   array if it is large enough) is not modelled. *)
Definition append_bytes (x : uint256) (buf : bytes) : bytes :=
  let b := be64 (x3 x) ++ be64 (x2 x) ++ be64 (x1 x) ++ be64 (x0 x) in
  buf ++ skip_zeros 31 b.

(* decimal.go:54, 59 *)
Definition minus (x : N) : bool := (x =? 11) || (x =? 13).

(* decimal.go:50-63: the loop of Decompose. *)
Fixpoint decompose_loop (d : bytes) (u : uint256) : bool * uint256 :=
  match d with
  | [] => (false, u)
  | x :: d =>
      let y := N.land x 15 in
      let x := N.shiftr x 4 in
      if 9 <? x then (minus x, u) else
      let u := fst (mul_add u 10 x) in
      if 9 <? y then (minus y, u) else
      decompose_loop d (fst (mul_add u 10 y))
  end.

(* decimal.go:44-66 Decompose: form, negative, coefficient, exponent. *)
Definition decompose (d : bytes) : res (N * bool * bytes * Z) :=
  match d with
  | [] => Panic
  | s :: d =>
      let '(negative, u) := decompose_loop d (mku 0 0 0 0) in
      Ok (0, negative, append_bytes u [], (- Z.of_N s)%Z)
  end.

(* decimal.go:71 digits[x] *)
Definition digit (x : N) : N := 48 + x.

(* decimal.go:76-93: the loop of String. b is what comes after the first byte, '-'; the flag says
   whether b = b[1:] was executed. *)
Fixpoint string_loop (d : bytes) (b : bytes) : bool * bytes :=
  match d with
  | [] => (false, b)
  | x :: d =>
      let y := N.land x 15 in
      let x := N.shiftr x 4 in
      if 9 <? x then (negb (minus x), b)
      else if 9 <? y then (negb (minus y), b ++ [digit x])
      else string_loop d (b ++ [digit x; digit y])
  end.

(* decimal.go:68-105 String. *)
Definition to_string (d : bytes) : res bytes :=
  match d with
  | [] => Panic
  | s :: d =>
      let '(cut, b) := string_loop d [] in
      let b := if cut then b else 45 :: b in
      let n := N.to_nat s in
      (* decimal.go:96-103: at i, everything from there moves one to the right *)
      if (0 <? s) && (n <=? length b)%nat
      then let i := (length b - n)%nat in Ok (firstn i b ++ 46 :: skipn i b)
      else Ok b
  end.
