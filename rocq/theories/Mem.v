(* Go slices as references into memory, and /repo/slice/slice.go over them. GoSlice.v models a slice by its value;
   here two slices can share an array, as they do in Go. *)
From Coq Require Import List NArith Arith.
From Verif Require Import Base GoSlice Varint.
Import ListNotations.

(* Memory: the arrays allocated so far. An array never moves and is never freed. *)
Definition mem := list bytes.
Definition array (m : mem) (a : nat) : bytes := nth a m [].

(* A slice header: elements off .. off+hlen-1 of array arr, with room up to off+hcap. *)
Record hslice := mkh { arr : nat; off : nat; hlen : nat; hcap : nat }.
Definition hnil : hslice := mkh 0 0 0 0.

(* Outcome of running Go code on memory: it returns or panics, and leaves memory behind either way. *)
Inductive hres (A : Type) := HOk (a : A) (m : mem) | HPanic (m : mem).
Arguments HOk {A} _ _.
Arguments HPanic {A} _.
Definition H (A : Type) := mem -> hres A.

Definition hret {A} (a : A) : H A := fun m => HOk a m.
Definition hpanic {A} : H A := fun m => HPanic m.
Definition hbind {A B} (h : H A) (f : A -> H B) : H B :=
  fun m => match h m with HOk a m => f a m | HPanic m => HPanic m end.
Notation "'let*' x := e 'in' f" := (hbind e (fun x => f)) (at level 200, x pattern, e at level 100, f at level 200).

(* n elements of l from o on. *)
Definition sub (l : bytes) (o n : nat) : bytes := firstn n (skipn o l).

Fixpoint set_array (m : mem) (a : nat) (l : bytes) : mem :=
  match m, a with
  | [], _ => []
  | _ :: m, O => l :: m
  | x :: m, S a => x :: set_array m a l
  end.

(* Elements o, o+1, .. of array a become xs. *)
Definition write (m : mem) (a o : nat) (xs : bytes) : mem := set_array m a (ow (array m a) o xs).

(* s[0:len(s)] as a value *)
Definition contents (m : mem) (s : hslice) : bytes := sub (array m (arr s)) (off s) (hlen s).

Section Model.
Context `{E : Env}.

(* A new array with content l; the slice of its first n elements. *)
Definition h_new (l : bytes) (n : nat) : H hslice :=
  fun m => HOk (mkh (length m) 0 n (length l)) (m ++ [l]).

(* make([]byte, n, c) with n <= c *)
Definition h_make (n c : nat) : H hslice := h_new (repeat 0%N n ++ repeat 0%N (c - n)) n.

(* The content of s at this moment. *)
Definition h_read (s : hslice) : H bytes := fun m => HOk (contents m s) m.

(* append(s, xs...): in place if there is room, else in a new array (GoSlice.Env says how much room it gets). *)
Definition h_append (s : hslice) (xs : bytes) : H hslice :=
  if (hlen s + length xs <=? hcap s)%nat
  then fun m => HOk (mkh (arr s) (off s) (hlen s + length xs) (hcap s)) (write m (arr s) (off s + hlen s) xs)
  else let* old := h_read s in
       h_new (old ++ xs ++ fresh (hcap s) (hlen s + length xs)) (hlen s + length xs).

(* append(s, t...) for a slice t that may overlap s: the elements are moved as if read before any is written. *)
Definition h_append_slice (s t : hslice) : H hslice :=
  let* xs := h_read t in h_append s xs.

(* s[:n] *)
Definition h_reslice (s : hslice) (n : nat) : H hslice :=
  if (n <=? hcap s)%nat then hret (mkh (arr s) (off s) n (hcap s)) else hpanic.

(* s[n:] *)
Definition h_from (s : hslice) (n : nat) : H hslice :=
  if (n <=? hlen s)%nat then hret (mkh (arr s) (off s + n) (hlen s - n) (hcap s - n)) else hpanic.

(* s[i] = x0; s[i+1] = x1; ... Simplification: when an index is out of range, the elements before it are not written
   either (the indices are single or, in PutUint32 and PutUvarint, checked). *)
Definition h_put (s : hslice) (i : nat) (xs : bytes) : H unit :=
  if (i + length xs <=? hlen s)%nat then fun m => HOk tt (write m (arr s) (off s + i) xs) else hpanic.

(* copy(s[i:], xs), and the number of elements copied *)
Definition h_copy (s : hslice) (i : nat) (xs : bytes) : H nat :=
  let* t := h_from s i in
  fun m => HOk (Nat.min (hlen t) (length xs)) (write m (arr t) (off t) (firstn (hlen t) xs)).

(* s[i] = f(s[i]) *)
Definition h_upd (s : hslice) (i : nat) (f : N -> N) : H unit :=
  fun m => match nth_error (contents m s) i with
           | Some x => h_put s i [f x] m
           | None => HPanic m
           end.

(* slice/slice.go:11-20 ForAppend: head and tail *)
Definition h_for_append (s : hslice) (n : nat) : H (hslice * hslice) :=
  let nn := (hlen s + n)%nat in
  let* head := (if (nn <=? hcap s)%nat then h_reslice s nn
                else let* head := h_make nn (2 * nn) in
                     let* old := h_read s in
                     let* _ := h_copy head 0 old in
                     hret head) in
  let* tail := h_from head (hlen s) in
  hret (head, tail).

(* slice/slice.go:23-34 Insert *)
Definition h_insert (s : hslice) (pos n : nat) : H hslice :=
  match n with
  | O => hret s
  | _ =>
    if (pos + n <=? hcap s)%nat
    then let* h := h_reslice s (pos + n) in
         let* t := h_from s pos in
         h_append_slice h t
    else let* p := h_make (hlen s + n) (hlen s + n + 512) in
         let* a := h_reslice s pos in
         let* x := h_read a in
         let* _ := h_copy p 0 x in
         let* t := h_from s pos in
         let* x := h_read t in
         let* _ := h_copy p (pos + n) x in
         hret p
  end.

(* slice/slice.go:3-9 Allocate: the slice and the n bytes at its end *)
Definition h_allocate (s : hslice) (n : nat) : H (hslice * hslice) :=
  let nn := (hlen s + n)%nat in
  if (nn <=? hcap s)%nat
  then let* a := h_reslice s nn in
       let* b := h_from a (hlen s) in
       hret (a, b)
  else let* a := h_make n (2 * n + 512) in hret (a, a).

(* xproto/protobuf.go:64-70 putUvarint(s[i:], x) *)
Definition h_put_uvarint (s : hslice) (i : nat) (x : N) : H nat :=
  let* t := h_from s i in
  if (x <? 128)%N
  then let* _ := h_put t 0 [byte x] in hret 1%nat
  else let* _ := h_put t 0 (uvarint x) in hret (length (uvarint x)).

(* s[n-1] &= 0x7F; s = s[:n] *)
Definition h_mask_truncate (s : hslice) (n : nat) : H hslice :=
  let* _ := h_upd s (n - 1) (fun b => N.land b 127) in
  h_reslice s n.

(* xproto/protobuf.go:72-80 appendWireString *)
Definition h_append_wire_string (s : hslice) (tag : N) (value : bytes) : H hslice :=
  let x := nlen value in
  let n := size_varint x in
  let* s := h_append s [hdr tag wireBytes; b80 x; b80 (N.shiftr x 7); b80 (N.shiftr x 14);
                     b80 (N.shiftr x 21); b80 (N.shiftr x 28); b80 (N.shiftr x 35);
                     b80 (N.shiftr x 42); b80 (N.shiftr x 49); b80 (N.shiftr x 56); 1%N] in
  let n := (n + (hlen s - 10))%nat in
  let* s := h_mask_truncate s n in
  h_append s value.

(* xproto/protobuf.go:82-90 appendWireBytes; the value is a slice, read when it is appended *)
Definition h_append_wire_bytes (s : hslice) (tag : N) (value : hslice) : H hslice :=
  let x := N.of_nat (hlen value) in
  let n := size_varint x in
  let* s := h_append s [hdr tag wireBytes; b80 x; b80 (N.shiftr x 7); b80 (N.shiftr x 14);
                     b80 (N.shiftr x 21); b80 (N.shiftr x 28); b80 (N.shiftr x 35);
                     b80 (N.shiftr x 42); b80 (N.shiftr x 49); b80 (N.shiftr x 56); 1%N] in
  let n := (n + (hlen s - 10))%nat in
  let* s := h_mask_truncate s n in
  h_append_slice s value.

End Model.
