(* Programs that recover from panics anywhere, also inside of callbacks, and that panic themselves.
   Builder.prog has neither; History has panics that are recovered from outside of all callbacks. *)
From Coq Require Import String List NArith Arith Bool.
From Coq Require Import List.
From Verif Require Import Base GoSlice Text Values MsgModel Builder History.
Import ListNotations.
Open Scope N_scope.

(* Builder.prog, and: TPanic, the program panics. TTry, body is run in a function that recovers from
   panics, func() { defer func() { recover() }(); body }(), and the rest of the program is told whether
   it had to: None, or what body hands out. A panicking call may have written to the memory after the
   end of the buffer before it panicked: stale is what is there afterwards. *)
Inductive tprog :=
| TRet (cberr : option err) (out : list (option exprfun))
| TPanic
| TCall (lvl : nat) (c : call) (next : tprog)
| TInsertRow (lvl : nat) (name : bytes) (columns : list bytes) (row : list gvalue) (next : option exprfun -> tprog)
| TBlock (lvl : nat) (k : block) (body : tprog) (next : list (option exprfun) -> tprog)
| TTry (stale : nat -> N) (body : tprog) (next : option (list (option exprfun)) -> tprog).

(* The same slice with other memory after its end. *)
Definition smudge (stale : nat -> N) (p : slice) : slice := mk (data p) (map stale (List.seq 0 (length (spare p)))).
Definition smudged (stale : nat -> N) (st : list builder) : list builder :=
  match st with
  | [] => []
  | b :: st => mkb (smudge stale (buf b)) (berr b) (disabled b) :: st
  end.

Section Model.
Context `{E : Env}.

(* Running such a program on the builders in scope, innermost first: builder.go:31-236, crud.go:24-66 as in
   History.run_to. The builders are as they were when the panic occurred, wherever it is recovered from: call
   (builder.go:31-43) has no deferred function. *)
Fixpoint run_try (pr : tprog) (st : list builder) : ended :=
  match pr with
  | TRet _ out => Done st out
  | TPanic => Stopped st
  | TCall lvl c next =>
      match nth_error st lvl with
      | None => Stopped st
      | Some b =>
          match exec_call (set_nth (map disabled st) lvl true) c b with
          | Ok b' => run_try next (set_nth st lvl b')
          | Panic => Stopped (set_nth st lvl (stop_call c b))
          end
      end
  | TInsertRow lvl name columns row next =>
      match nth_error st lvl with
      | None => Stopped st
      | Some b =>
          match b_insert_row name columns row b with
          | Ok (b', f) => run_try (next f) (set_nth st lvl b')
          | Panic => Stopped (set_nth st lvl (stop_row name columns b))
          end
      end
  | TBlock lvl k body next =>
      match nth_error st lvl with
      | None => Stopped st
      | Some b =>
          match block_begin k b with
          | Panic => Stopped st
          | Ok (b1, false) => run_try (next []) (set_nth st lvl b1)
          | Ok (b1, true) =>
              match run_try body (mkb (buf b1) (berr b1) false :: set_nth st lvl (mkb (buf b1) (berr b1) true)) with
              | Stopped st2 => Stopped (tl st2)
              | Done [] _ => Stopped []
              | Done (child :: st2) out =>
                  match block_end k (mkb (buf child) (berr child) false) with
                  | Ok b2 => run_try (next out) (set_nth st2 lvl b2)
                  | Panic => Stopped (set_nth st2 lvl (mkb (buf child) (berr child) false))
                  end
              end
          end
      end
  | TTry stale body next =>
      match run_try body st with
      | Done st out => run_try (next (Some out)) st
      | Stopped st => run_try (next None) (smudged stale st)
      end
  end.

End Model.
