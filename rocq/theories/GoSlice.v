(* Go byte slices and the helpers of /repo/slice/slice.go. *)
From Coq Require Import List NArith Arith.
From Verif Require Import Base.
Import ListNotations.

(* A slice value p: [data] is p[0:len(p)], [spare] is p[len(p):cap(p)], memory that is
   reachable by reslicing and holds arbitrary stale bytes.
   Simplification: two slices sharing an array are not represented; every use in the code
   modelled here overwrites the old slice variable with the new one. *)
Record slice := mk { data : bytes; spare : bytes }.

Definition len (p : slice) : nat := length (data p).
Definition cap (p : slice) : nat := (length (data p) + length (spare p))%nat.
Definition nil_slice : slice := mk [] [].

(* The runtime environment. [fresh oldcap newlen] is the memory append finds after the new
   content when it has to reallocate: any length (any growth policy), any content.
   [word32] says whether int and uint are 32 bits wide (bits.UintSize == 32). *)
Class Env := { fresh : nat -> nat -> bytes; word32 : bool }.

(* Go's built-in append(p, xs...). *)
Definition append `{Env} (p : slice) (xs : bytes) : slice :=
  if (len p + length xs <=? cap p)%nat
  then mk (data p ++ xs) (skipn (length xs) (spare p))
  else mk (data p ++ xs) (fresh (cap p) (len p + length xs)).

(* Go's make([]byte, n, c) with n <= c. *)
Definition make (n c : nat) : slice := mk (repeat 0%N n) (repeat 0%N (c - n)).

(* p[:n], which may extend p up to its capacity; panics beyond it. *)
Definition reslice (p : slice) (n : nat) : res slice :=
  if (n <=? cap p)%nat
  then Ok (mk (firstn n (data p ++ spare p)) (skipn n (data p ++ spare p)))
  else Panic.

(* p[n:] read as bytes; panics when n > len(p). *)
Definition from (p : slice) (n : nat) : res bytes :=
  if (n <=? len p)%nat then Ok (skipn n (data p)) else Panic.

(* Overwrite the elements of l from off on by xs. *)
Definition ow (l : bytes) (off : nat) (xs : bytes) : bytes :=
  firstn off l ++ xs ++ skipn (off + length xs) l.

(* p[off] = x0; p[off+1] = x1; ... for all of xs; panics when an index is out of range. *)
Definition put (p : slice) (off : nat) (xs : bytes) : res slice :=
  if (off + length xs <=? len p)%nat then Ok (mk (ow (data p) off xs) (spare p)) else Panic.

(* copy(p[off:], xs): copies as much as fits; panics when off > len(p). *)
Definition copy_at (p : slice) (off : nat) (xs : bytes) : res slice :=
  if (off <=? len p)%nat
  then Ok (mk (ow (data p) off (firstn (len p - off) xs)) (spare p))
  else Panic.

(* p[i] = f(p[i]); panics when i is out of range. *)
Definition upd (p : slice) (i : nat) (f : N -> N) : res slice :=
  match nth_error (data p) i with
  | Some x => put p i [f x]
  | None => Panic
  end.

(* slice/slice.go:11-20 ForAppend. Only head is returned: tail is head[len(in):], so a write
   to tail[i] is a write to head[len(in)+i]. *)
Definition for_append (p : slice) (n : nat) : slice :=
  let nn := (len p + n)%nat in
  if (nn <=? cap p)%nat
  then mk (firstn nn (data p ++ spare p)) (skipn nn (data p ++ spare p))
  else mk (ow (repeat 0%N nn) 0 (data p)) (repeat 0%N (2 * nn - nn)).

(* slice/slice.go:23-34 Insert. *)
Definition insert `{Env} (p : slice) (pos n : nat) : res slice :=
  match n with
  | O => Ok p
  | _ =>
    if (pos + n <=? cap p)%nat
    then do h <- reslice p (pos + n);
         do t <- from p pos;
         Ok (append h t)
    else do t <- from p pos;
         let q := make (len p + n) (len p + n + 512) in
         do q <- copy_at q 0 (firstn pos (data p));
         copy_at q (pos + n) t
  end.

(* slice/slice.go:3-9 Allocate. The second component is the offset in the returned slice at
   which the second result (an n byte sub-slice) starts. *)
Definition allocate (p : slice) (n : nat) : slice * nat :=
  let nn := (len p + n)%nat in
  if (nn <=? cap p)%nat
  then (mk (firstn nn (data p ++ spare p)) (skipn nn (data p ++ spare p)), len p)
  else (make n (2 * n + 512), 0%nat).

Arguments put : simpl never.
Arguments copy_at : simpl never.
Arguments reslice : simpl never.
Arguments upd : simpl never.
Arguments append : simpl never.
Arguments insert : simpl never.
Arguments for_append : simpl never.
