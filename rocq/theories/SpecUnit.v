(* Specification: units of work, and shapes of message sequences. *)
From Coq Require Import String List NArith ZArith Bool.
From Coq Require Import List.
From Verif Require Import Base GoSlice SpecWire SpecMsg Text Values SpecValue MsgModel Builder SpecProg.
Import ListNotations.
Open Scope N_scope.

(* An XPipe with nothing in it: a new one of any capacity, or one that was reset. *)
Definition empty (b : builder) : Prop := data (buf b) = [] /\ berr b = None /\ disabled b = false.

(* Building pr on b and then calling Send hands bs to the Sender. *)
Definition delivers `{Env} (b : builder) (pr : prog) (bs : bytes) : Prop :=
  exists b' out, run pr [b] = Ok ([b'], out) /\ send b' = Ok (inl bs).
(* Building pr on b and then calling Send returns the error e, and the Sender is not called. *)
Definition fails `{Env} (b : builder) (pr : prog) (e : err) : Prop :=
  exists b' out, run pr [b] = Ok ([b'], out) /\ send b' = Ok (inr e).
(* Building pr on b panics. *)
Definition panics `{Env} (b : builder) (pr : prog) : Prop := run pr [b] = Panic.

(* The program that makes one call. *)
Definition one_call (c : call) : prog := PCall 0 c (Ret None []).
(* The program that makes one InsertRow call. *)
Definition one_row (name : bytes) (cols : list bytes) (row : list gvalue) : prog :=
  PInsertRow 0 name cols row (fun _ => Ret None []).
(* The program that runs body in one Tx or ExpectFailOnError. *)
Definition one_block (k : block) (body : prog) : prog := PBlock 0 k body (fun _ => Ret None []).

(* One frame on the wire: length of type and payload, little endian, then the type, then the payload. *)
Definition frame (f : N * bytes) : bytes :=
  let n := 1 + nlen (snd f) in
  [n mod 256; n / 256 mod 256; n / 65536 mod 256; n / 16777216] ++ [fst f] ++ snd f.

Definition is_open (m : msg) : Prop := match m with MExpectOpen _ _ => True | _ => False end.
Definition is_close (m : msg) : Prop := match m with MExpectClose => True | _ => False end.

(* Properly nested expectation blocks. *)
Inductive balanced : list msg -> Prop :=
| B_nil : balanced []
| B_other m ms : ~ is_open m -> ~ is_close m -> balanced ms -> balanced (m :: ms)
| B_block o body c ms : is_open o -> balanced body -> is_close c -> balanced ms -> balanced (o :: body ++ c :: ms).

(* Unless an error occurs first, and whatever InsertRow returns, the program makes the call c on
   the innermost builder: at top level or in a callback. *)
Inductive makes (c : call) : prog -> Prop :=
| Mk_here next : makes c (PCall 0 c next)
| Mk_after_call lvl c' next : makes c next -> makes c (PCall lvl c' next)
| Mk_after_row lvl name cols row next : (forall o, makes c (next o)) -> makes c (PInsertRow lvl name cols row next)
| Mk_inside lvl k body next : makes c body -> makes c (PBlock lvl k body next)
| Mk_after_block lvl k body next : (forall out, makes c (next out)) -> makes c (PBlock lvl k body next).

(* Unless an error occurs first, and whatever InsertRow returns, the program (or a callback in it)
   calls a method of a builder that encloses the running callback. *)
Inductive uses_outer : prog -> Prop :=
| U_call lvl c next : uses_outer (PCall (S lvl) c next)
| U_row lvl name cols row next : uses_outer (PInsertRow (S lvl) name cols row next)
| U_block lvl k body next : uses_outer (PBlock (S lvl) k body next)
| U_insert_f name cols ops cberr lvl next : In (IOuter lvl) ops -> uses_outer (PCall 0 (CInsertF name cols ops cberr) next)
| U_update_f name cr ops cberr lvl next : In (UOuter lvl) ops -> uses_outer (PCall 0 (CUpdateF name cr ops cberr) next)
| U_after_call lvl c next : uses_outer next -> uses_outer (PCall lvl c next)
| U_after_row lvl name cols row next : (forall o, uses_outer (next o)) -> uses_outer (PInsertRow lvl name cols row next)
| U_inside lvl k body next : uses_outer body -> uses_outer (PBlock lvl k body next)
| U_after_block lvl k body next : (forall out, uses_outer (next out)) -> uses_outer (PBlock lvl k body next).
