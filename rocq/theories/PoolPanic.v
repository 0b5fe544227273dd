(* Model of /repo/netx/pool/fifoch/fifoch.go where a call that panics does not end the program: the
   goroutine that made it recovers from the panic (as an HTTP server does for its handlers), and all
   the others go on.
   The states are those of Pool. Nothing of Send and Close runs after a panic (the only deferred call
   is close(ch), fifoch.go:31, which is what panics), so a call that panicked is left where it was:
   it is [gone], and makes no step any more. *)
From Coq Require Import List Arith Bool.
From Verif Require Import Pool.
Import ListNotations.

Record rstate := mkrs { pool : state; gone : list nat }.

Definition is_gone (i : nat) (r : rstate) : bool := existsb (Nat.eqb i) (gone r).

Inductive raction :=
| Do (a : action)         (* any step of Pool; it may be one that panics *)
| Breaks (i : nat).       (* the code of the connector or the connection call i is in panics, fifoch.go:71, 76 *)

Definition rstep (a : raction) (r : rstate) : option rstate :=
  match a with
  | Do a =>
      match actor a with
      | None => match step a (pool r) with Some s => Some (mkrs s (gone r)) | None => None end
      | Some i =>
          if is_gone i r then None else
          match step a (pool r) with
          | Some s => if crashed s then Some (mkrs (pool r) (i :: gone r)) else Some (mkrs s (gone r))
          | None => None
          end
      end
  | Breaks i =>
      if is_gone i r then None else
      match nth_error (calls (pool r)) i with
      | Some (SDial, _) | Some (SSend _, _) => Some (mkrs (pool r) (i :: gone r))
      | _ => None
      end
  end.

Fixpoint rrun (acts : list raction) (r : rstate) : option rstate :=
  match acts with
  | [] => Some r
  | a :: acts => match rstep a r with Some r => rrun acts r | None => None end
  end.

(* fifoch.go:20-25 New *)
Definition rnew (n : nat) : rstate := mkrs (new_pool n) [].
