(* The life of one XPipe: building, Send and Reset in any order, with panics that the user of the
   pipe recovers from. Builder.run says only that a program panics; here the builder is also
   given as the panic leaves it. *)
From Coq Require Import String List NArith Arith Bool.
From Coq Require Import List.
From Verif Require Import Base GoSlice Text Values MsgModel Builder.
Import ListNotations.
Open Scope N_scope.

Section Model.
Context `{E : Env}.

(* builder.go:119-128: b.buf when AppendInsertRow panics, which is as the rows before left it. *)
Fixpoint rows_stop (ncols : nat) (rows : list (list gvalue)) (p : slice) : slice :=
  match rows with
  | [] => p
  | row :: rows =>
      if (length row =? ncols)%nat then
        match append_insert_row p row with
        | Ok (p', None) => rows_stop ncols rows p'
        | _ => p
        end
      else p
  end.

(* builder.go:169-174: b.buf when AppendUpdateSet panics. *)
Fixpoint sets_stop (set : list (bytes * gvalue)) (p : slice) : slice :=
  match set with
  | [] => p
  | (k, v) :: set =>
      match append_update_set p k v with
      | Ok (p', None) => sets_stop set p'
      | _ => p
      end
  end.

(* The builder after a call on it has panicked: b.buf, b.err and b.disabled as last assigned.
   builder.go:65-105, 179-188: StmtExecute, Prepare, Execute, Deallocate and Delete assign only
   after the call they make returns. builder.go:107-130, 156-176: Insert and Update assign b.buf
   message part by message part. crud.go:24-37, 51-66: InsertF and UpdateF set disabled, and assign
   b.buf, when the callback has returned.
   Simplification: bytes written beyond len(b.buf) before the panic are not recorded (they can only
   show up as stale memory, which the theorems allow to be anything: see GoSlice.slice; that the bytes
   before len(b.buf) are not changed is C92). *)
Definition stop_call (c : call) (b : builder) : builder :=
  if disabled b then b else
  match berr b with
  | Some _ => b
  | None =>
      match c with
      | CInsert name columns rows =>
          match msg_insert (buf b) name columns with
          | Ok p => mkb (rows_stop (length columns) rows p) None false
          | Panic => b
          end
      | CInsertF name columns _ _ =>
          match msg_insert (buf b) name columns with
          | Ok _ => mkb (buf b) None true
          | Panic => b
          end
      | CUpdate name criteria set =>
          match msg_update (buf b) name criteria with
          | Ok (p, None) => mkb (sets_stop set p) None false
          | _ => b
          end
      | CUpdateF name criteria _ _ =>
          match msg_update (buf b) name criteria with
          | Ok _ => mkb (buf b) None true
          | Panic => b
          end
      | _ => b
      end
  end.

(* builder.go:132-143: the builder after InsertRow has panicked, in AppendInsertRow. *)
Definition stop_row (name : bytes) (columns : list bytes) (b : builder) : builder :=
  if disabled b then b else
  match berr b with
  | Some _ => b
  | None =>
      match msg_insert (buf b) name columns with
      | Ok p => mkb p None false
      | Panic => b
      end
  end.

(* How a program ends: normally, or with a panic. The builders in scope outside of it are given in
   both cases. *)
Inductive ended :=
| Done (st : list builder) (out : list (option exprfun))
| Stopped (st : list builder).

(* Builder.run, with the builders after a panic. A panic in a callback passes through call
   (builder.go:31-43), which then neither takes over the child's buffer nor clears disabled. *)
Fixpoint run_to (pr : prog) (st : list builder) : ended :=
  match pr with
  | Ret _ out => Done st out
  | PCall lvl c next =>
      match nth_error st lvl with
      | None => Stopped st
      | Some b =>
          match exec_call (set_nth (map disabled st) lvl true) c b with
          | Ok b' => run_to next (set_nth st lvl b')
          | Panic => Stopped (set_nth st lvl (stop_call c b))
          end
      end
  | PInsertRow lvl name columns row next =>
      match nth_error st lvl with
      | None => Stopped st
      | Some b =>
          match b_insert_row name columns row b with
          | Ok (b', f) => run_to (next f) (set_nth st lvl b')
          | Panic => Stopped (set_nth st lvl (stop_row name columns b))
          end
      end
  | PBlock lvl k body next =>
      match nth_error st lvl with
      | None => Stopped st
      | Some b =>
          match block_begin k b with
          | Panic => Stopped st
          | Ok (b1, false) => run_to (next []) (set_nth st lvl b1)
          | Ok (b1, true) =>
              match run_to body (mkb (buf b1) (berr b1) false :: set_nth st lvl (mkb (buf b1) (berr b1) true)) with
              | Stopped st2 => Stopped (tl st2)
              | Done [] _ => Stopped []
              | Done (child :: st2) out =>
                  match block_end k (mkb (buf child) (berr child) false) with
                  | Ok b2 => run_to (next out) (set_nth st2 lvl b2)
                  | Panic => Stopped (set_nth st2 lvl (mkb (buf child) (berr child) false))
                  end
              end
          end
      end
  end.

(* What the user of an XPipe does with it. *)
Inductive op :=
| Build (pr : prog)  (* calls its methods *)
| Send               (* xpipe.go:18-21 *)
| Reset.             (* xpipe.go:23-25 *)

(* What the user sees. *)
Inductive seen :=
| Fine                  (* Build or Reset returned *)
| Panicked              (* the operation panicked; the user recovered *)
| Sent (bs : bytes)     (* Send called the Sender with these bytes *)
| SendError (e : err).  (* Send returned this error without calling the Sender *)

(* One operation. *)
Definition do_op (o : op) (b : builder) : builder * seen :=
  match o with
  | Build pr =>
      match run_to pr [b] with
      | Done st _ => (hd b st, Fine)
      | Stopped st => (hd b st, Panicked)
      end
  | Send =>
      match send b with
      | Ok (inl bs) => (b, Sent bs)
      | Ok (inr e) => (b, SendError e)
      | Panic => (b, Panicked)
      end
  | Reset =>
      match reset b with
      | Ok b' => (b', Fine)
      | Panic => (b, Panicked)
      end
  end.

(* All of them, in order. *)
Fixpoint history (ops : list op) (b : builder) : list seen :=
  match ops with
  | [] => []
  | o :: ops => let '(b', s) := do_op o b in s :: history ops b'
  end.

End Model.
