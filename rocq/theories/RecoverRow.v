(* Callbacks of InsertF and UpdateF that recover from panics of the calls they make. Builder's callbacks of InsertF and
   UpdateF are lists of calls without recovery. *)
From Coq Require Import List NArith Arith Bool.
From Verif Require Import Base GoSlice Values MsgModel Builder Recover.
Import ListNotations.

(* One call of the callback: Row or Set with an X, or a method of builder lvl of those in scope. *)
Inductive op (X : Type) := Part (x : X) | Outer (lvl : nat).
Arguments Part {X} x.
Arguments Outer {X} lvl.

(* A callback. Try: the call is made in a function that recovers from panics, and what follows is told whether it had to.
   stale is what is in memory after the end of the buffer after the panic, which the call may have written to. A function that
   recovers from the panics of several calls is one Try for each of them, of which the rest is left out after a panic. The
   error the callback returns is dropped (crud.go:34, 62). *)
Inductive callback (X : Type) :=
| End
| Do (o : op X) (next : callback X)
| Try (stale : nat -> N) (o : op X) (next : bool -> callback X).
Arguments End {X}.
Arguments Do {X} o next.
Arguments Try {X} stale o next.

Section Model.
Context `{E : Env}.

(* crud.go:14-18 Row, crud.go:45-49 Set: i.buf and i.err are assigned when enc has returned, so not if it panics. *)
Definition do_op {X} (enc : X -> slice -> res (slice * option err)) (dis : list bool) (o : op X) (p : slice) (e : option err) : res (slice * option err) :=
  match o with
  | Part x => match e with Some e => Ok (p, Some e) | None => enc x p end
  | Outer lvl => do _ <- use_outer dis lvl; Ok (p, e)
  end.

Fixpoint run_callback {X} (enc : X -> slice -> res (slice * option err)) (dis : list bool) (cb : callback X) (p : slice) (e : option err) :
    res (slice * option err) :=
  match cb with
  | End => Ok (p, e)
  | Do o next => do (p, e) <- do_op enc dis o p e; run_callback enc dis next p e
  | Try stale o next =>
      match do_op enc dis o p e with
      | Ok (p, e) => run_callback enc dis (next false) p e
      | Panic => run_callback enc dis (next true) (smudge stale p) e
      end
  end.

(* crud.go:24-38 InsertF; dis as in Builder.exec_call *)
Definition insert_with (dis : list bool) (name : bytes) (columns : list bytes) (cb : callback (list gvalue)) (b : builder) : res builder :=
  guarded b (fun p =>
    let n := len p in
    do p <- msg_insert p name columns;
    do (p, e) <- run_callback (fun row p => append_insert_row p row) dis cb p None;
    do p <- patch_length p n;
    Ok (p, e)).

(* crud.go:51-66 UpdateF *)
Definition update_with (dis : list bool) (name : bytes) (criteria : option exprfun) (cb : callback (bytes * gvalue)) (b : builder) : res builder :=
  guarded b (fun p =>
    let n := len p in
    do (p, e) <- msg_update p name criteria;
    do (p, e) <- run_callback (fun kv p => append_update_set p (fst kv) (snd kv)) dis cb p e;
    do p <- patch_length p n;
    Ok (p, e)).

End Model.
