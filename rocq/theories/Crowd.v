(* Model of goroutines that call Send on one connection at the same time: /repo/netx/connection/connection.go:65-74, 97-106. The connection has no lock; each goroutine does one call on
   the connection or its reader after the other, and what the others do may come in between. Simplification: each of these calls - SetDeadline, Write and the reading of one response -
   is taken to happen without interruption, so this is less than may happen (bufio.Reader is not safe for concurrent use either). *)
From Coq Require Import String List NArith Arith.
From Coq Require Import List.
From Verif Require Import Base SpecWire Conn.
Import ListNotations.
Open Scope list_scope.

(* How far a Send has come. *)
Inductive stage :=
| Before (deadline : option N) (b : bytes)              (* called with this context and unit; line 66 *)
| Dated (b : bytes)                                     (* the deadline is set; line 70 *)
| Reading (rest : bytes) (rs : list response)           (* written; responses to rest are still to be read; line 98 *)
| Back (rs : list response) (e : option cerr)           (* has returned *)
| Crashed.                                              (* has panicked *)

Record crowd := mkcr { line : conn; stages : nat -> stage }.

Section Model.
Variable w32 : bool.

(* connection.go:65-74 and 97-106, one call at a time. None: nothing more to do. *)
Definition advance (g : stage) (c : conn) : option (stage * conn) :=
  match g with
  | Before d b =>
      match set_deadline d c with
      | (Some e, c) => Some (Back [] (Some (CDeadline e)), c)
      | (None, c) => Some (Dated b, c)
      end
  | Dated b =>
      match write b c with
      | (Some e, c) => Some (Back [] (Some (CWrite e)), c)
      | (None, c) => Some (Reading b [], c)
      end
  | Reading [] rs => Some (Back rs None, c)
  | Reading rest rs =>
      match nth_error rest 4 with
      | None => Some (Crashed, c)
      | Some ct =>
          let (a, c) := c_read w32 ct c in
          match snd a with
          | Some e => Some (Back (rs ++ [fst a]) (Some e), c)
          | None => Some (Reading (skipN (4 + le (firstn 4 rest))%N rest) (rs ++ [fst a]), c)
          end
      end
  | Back _ _ | Crashed => None
  end.

Definition step (i : nat) (s : crowd) : option crowd :=
  match advance (stages s i) (line s) with
  | None => None
  | Some (g, c) => Some (mkcr c (fun j => if Nat.eqb j i then g else stages s j))
  end.
Fixpoint run (l : list nat) (s : crowd) : option crowd :=
  match l with [] => Some s | i :: l => match step i s with Some s => run l s | None => None end end.
End Model.
