(* Model of the pointer loop of /repo/xproto/any.go:346-411 on a heap, where pointers may form cycles.
   AnyModel.v has the same function on values without cycles. *)
From Coq Require Import List NArith Arith.
From Verif Require Import Base GoSlice Values AnyModel.
Import ListNotations.

(* A variable holds a value that is not a non-nil pointer, or points to another variable. The flag says
   whether the pointer's type is pointer to interface. *)
Inductive cell :=
| CVal (v : gvalue)
| CPtr (iface : bool) (address : nat).
Definition heap := list cell.

Section Model.
Context `{E : Env}.

(* The AppendAny method of a pointer to c (any.go:394): pointers to pointers and to interfaces have none. *)
Definition cell_method (iface : bool) (c : cell) : option ufun :=
  match iface, c with
  | false, CVal v => any_method v
  | _, _ => None
  end.

(* xproto/any.go:350-410: at most fuel rounds of the loop; None: it has not returned yet. *)
Fixpoint switch_loop (fuel : nat) (h : heap) (c : cell) (p : slice) (tag : N) : option (res (slice * option err)) :=
  match fuel with
  | O => None
  | S fuel =>
      match c with
      | CVal v => Some (type_switch v p tag)
      | CPtr iface a =>
          match nth_error h a with
          | None => None
          | Some c' =>
              match cell_method iface c' with
              | Some m => Some (m p tag)
              | None => switch_loop fuel h c' p tag
              end
          end
      end
  end.

(* xproto/any.go:346-411 appendAny *)
Definition append_any_heap (fuel : nat) (h : heap) (c : cell) (p : slice) (tag : N) : option (res (slice * option err)) :=
  match c with
  | CVal VNil => Some (ok (append_any_null p tag))
  | _ => switch_loop fuel h c p tag
  end.
End Model.
