(* Go code as the sequence of its accesses to memory, one byte at a time, so that goroutines can be interleaved between any two of them;
   and /repo/slice/slice.go and the operations of Mem.v as such sequences. *)
From Coq Require Import List NArith Arith.
From Verif Require Import Base GoSlice Varint Mem.
Import ListNotations.

(* What a goroutine does next: it has returned, has panicked, reads or writes element i of array a, or allocates an array with content l,
   and goes on. Simplification: the elements of a new array are there at once; the allocator itself is not modelled. *)
Inductive go (A : Type) :=
| Return (a : A)
| Stop
| Load (a i : nat) (k : N -> go A)
| Store (a i : nat) (x : N) (k : go A)
| Alloc (l : bytes) (k : nat -> go A).
Arguments Return {A} _.
Arguments Stop {A}.
Arguments Load {A} _ _ _.
Arguments Store {A} _ _ _ _.
Arguments Alloc {A} _ _.

Fixpoint gbind {A B} (c : go A) (f : A -> go B) : go B :=
  match c with
  | Return a => f a
  | Stop => Stop
  | Load a i k => Load a i (fun x => gbind (k x) f)
  | Store a i x k => Store a i x (gbind k f)
  | Alloc l k => Alloc l (fun a => gbind (k a) f)
  end.
Notation "'let!' x := e 'in' f" := (gbind e (fun x => f)) (at level 200, x pattern, e at level 100, f at level 200).

(* What c does if the caller recovers from its panic. *)
Fixpoint try {A} (c : go A) : go (option A) :=
  match c with
  | Return a => Return (Some a)
  | Stop => Return None
  | Load a i k => Load a i (fun x => try (k x))
  | Store a i x k => Store a i x (try k)
  | Alloc l k => Alloc l (fun a => try (k a))
  end.

(* n elements of array a from o on, one after the other *)
Fixpoint loads (a o n : nat) : go bytes :=
  match n with
  | O => Return []
  | S n => Load a o (fun x => let! xs := loads a (S o) n in Return (x :: xs))
  end.

(* Elements o, o+1, .. of array a become xs, one after the other. *)
Fixpoint stores (a o : nat) (xs : bytes) : go unit :=
  match xs with
  | [] => Return tt
  | x :: xs => Store a o x (stores a (S o) xs)
  end.

Section Model.
Context `{E : Env}.

(* A new array with content l; the slice of its first n elements. *)
Definition g_new (l : bytes) (n : nat) : go hslice := Alloc l (fun a => Return (mkh a 0 n (length l))).

(* make([]byte, n, c) with n <= c *)
Definition g_make (n c : nat) : go hslice := g_new (repeat 0%N n ++ repeat 0%N (c - n)) n.

(* The content of s. *)
Definition g_read (s : hslice) : go bytes := loads (arr s) (off s) (hlen s).

(* append(s, xs...), as Mem.h_append *)
Definition g_append (s : hslice) (xs : bytes) : go hslice :=
  if (hlen s + length xs <=? hcap s)%nat
  then let! _ := stores (arr s) (off s + hlen s) xs in Return (mkh (arr s) (off s) (hlen s + length xs) (hcap s))
  else let! old := g_read s in
       g_new (old ++ xs ++ fresh (hcap s) (hlen s + length xs)) (hlen s + length xs).

(* append(s, t...) for a slice t that may overlap s. Simplification: all is read before anything is written. *)
Definition g_append_slice (s t : hslice) : go hslice :=
  let! xs := g_read t in g_append s xs.

(* s[:n] *)
Definition g_reslice (s : hslice) (n : nat) : go hslice :=
  if (n <=? hcap s)%nat then Return (mkh (arr s) (off s) n (hcap s)) else Stop.

(* s[n:] *)
Definition g_from (s : hslice) (n : nat) : go hslice :=
  if (n <=? hlen s)%nat then Return (mkh (arr s) (off s + n) (hlen s - n) (hcap s - n)) else Stop.

(* s[i] = x0; s[i+1] = x1; ..., as Mem.h_put *)
Definition g_put (s : hslice) (i : nat) (xs : bytes) : go unit :=
  if (i + length xs <=? hlen s)%nat then stores (arr s) (off s + i) xs else Stop.

(* copy(s[i:], xs), and the number of elements copied *)
Definition g_copy (s : hslice) (i : nat) (xs : bytes) : go nat :=
  let! t := g_from s i in
  let! _ := stores (arr t) (off t) (firstn (hlen t) xs) in
  Return (Nat.min (hlen t) (length xs)).

(* s[i] = f(s[i]) *)
Definition g_upd (s : hslice) (i : nat) (f : N -> N) : go unit :=
  if (i <? hlen s)%nat then Load (arr s) (off s + i) (fun x => g_put s i [f x]) else Stop.

(* slice/slice.go:11-20 ForAppend: head and tail *)
Definition g_for_append (s : hslice) (n : nat) : go (hslice * hslice) :=
  let nn := (hlen s + n)%nat in
  let! head := (if (nn <=? hcap s)%nat then g_reslice s nn
                else let! head := g_make nn (2 * nn) in
                     let! old := g_read s in
                     let! _ := g_copy head 0 old in
                     Return head) in
  let! tail := g_from head (hlen s) in
  Return (head, tail).

(* slice/slice.go:23-34 Insert *)
Definition g_insert (s : hslice) (pos n : nat) : go hslice :=
  match n with
  | O => Return s
  | _ =>
    if (pos + n <=? hcap s)%nat
    then let! h := g_reslice s (pos + n) in
         let! t := g_from s pos in
         g_append_slice h t
    else let! p := g_make (hlen s + n) (hlen s + n + 512) in
         let! a := g_reslice s pos in
         let! x := g_read a in
         let! _ := g_copy p 0 x in
         let! t := g_from s pos in
         let! x := g_read t in
         let! _ := g_copy p (pos + n) x in
         Return p
  end.

(* slice/slice.go:3-9 Allocate: the slice and the n bytes at its end *)
Definition g_allocate (s : hslice) (n : nat) : go (hslice * hslice) :=
  let nn := (hlen s + n)%nat in
  if (nn <=? hcap s)%nat
  then let! a := g_reslice s nn in
       let! b := g_from a (hlen s) in
       Return (a, b)
  else let! a := g_make n (2 * n + 512) in Return (a, a).

(* xproto/protobuf.go:64-70 putUvarint(s[i:], x) *)
Definition g_put_uvarint (s : hslice) (i : nat) (x : N) : go nat :=
  let! t := g_from s i in
  if (x <? 128)%N
  then let! _ := g_put t 0 [byte x] in Return 1%nat
  else let! _ := g_put t 0 (uvarint x) in Return (length (uvarint x)).

(* s[n-1] &= 0x7F; s = s[:n] *)
Definition g_mask_truncate (s : hslice) (n : nat) : go hslice :=
  let! _ := g_upd s (n - 1) (fun b => N.land b 127) in
  g_reslice s n.

(* xproto/protobuf.go:72-80 appendWireString *)
Definition g_append_wire_string (s : hslice) (tag : N) (value : bytes) : go hslice :=
  let x := nlen value in
  let n := size_varint x in
  let! s := g_append s [hdr tag wireBytes; b80 x; b80 (N.shiftr x 7); b80 (N.shiftr x 14);
                     b80 (N.shiftr x 21); b80 (N.shiftr x 28); b80 (N.shiftr x 35);
                     b80 (N.shiftr x 42); b80 (N.shiftr x 49); b80 (N.shiftr x 56); 1%N] in
  let n := (n + (hlen s - 10))%nat in
  let! s := g_mask_truncate s n in
  g_append s value.

(* xproto/protobuf.go:82-90 appendWireBytes; the value is a slice, read when it is appended *)
Definition g_append_wire_bytes (s : hslice) (tag : N) (value : hslice) : go hslice :=
  let x := N.of_nat (hlen value) in
  let n := size_varint x in
  let! s := g_append s [hdr tag wireBytes; b80 x; b80 (N.shiftr x 7); b80 (N.shiftr x 14);
                     b80 (N.shiftr x 21); b80 (N.shiftr x 28); b80 (N.shiftr x 35);
                     b80 (N.shiftr x 42); b80 (N.shiftr x 49); b80 (N.shiftr x 56); 1%N] in
  let n := (n + (hlen s - 10))%nat in
  let! s := g_mask_truncate s n in
  g_append_slice s value.

End Model.
