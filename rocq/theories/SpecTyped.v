(* Specification: programs of builder calls whose arguments are only what Go's types guarantee.

   This is SpecProg.prog_ok without its exclusion of the values that are known to be encoded wrongly
   (SpecValue.no_known_defect: long variable names, the least duration, long durations where int has
   32 bits). *)
From Coq Require Import List NArith ZArith Bool.
From Verif Require Import Base GoSlice SpecWire SpecMsg Text Values SpecValue MsgModel Builder SpecProg.
Import ListNotations.
Open Scope N_scope.

Definition typed_values (w32 : bool) (vs : list gvalue) : Prop := Forall (well_formed w32) vs.
Definition typed_sets (w32 : bool) (set : list (bytes * gvalue)) : Prop :=
  Forall (fun kv => go_string (fst kv)) set /\ typed_values w32 (map snd set).

Definition typed_call (w32 : bool) (c : call) : Prop :=
  match c with
  | CStmtExecute stmt args => go_string stmt /\ typed_values w32 args
  | CPrepare id stmt => id < 2 ^ 32 /\ go_string stmt
  | CExecute id args => id < 2 ^ 32 /\ typed_values w32 args
  | CDeallocate id => id < 2 ^ 32
  | CInsert name cols rows => go_string name /\ Forall go_string cols /\ Forall (typed_values w32) rows
  | CInsertF name cols ops _ => go_string name /\ Forall go_string cols /\ Forall (typed_values w32) (rows_of ops)
  | CUpdate name cr set => go_string name /\ opt (well_formed_fun w32) cr /\ typed_sets w32 set
  | CUpdateF name cr ops _ => go_string name /\ opt (well_formed_fun w32) cr /\ typed_sets w32 (sets_of ops)
  | CDelete name cr => go_string name /\ opt (well_formed_fun w32) cr
  end.

Fixpoint typed_prog (w32 : bool) (pr : prog) : Prop :=
  match pr with
  | Ret _ out => Forall row_result out
  | PCall _ c next => typed_call w32 c /\ typed_prog w32 next
  | PInsertRow _ name cols row next =>
      go_string name /\ Forall go_string cols /\ typed_values w32 row /\
      forall o, row_result o -> typed_prog w32 (next o)
  | PBlock _ k body next =>
      match k with KTx _ => True | KExpectFailOnError context => context < 2 end /\
      typed_prog w32 body /\ forall out, Forall row_result out -> typed_prog w32 (next out)
  end.

(* The types of the messages a builder can be asked for (mysqlx.proto, ClientMessages.Type): statement
   execution, insert, update, delete, opening and closing of expectations, prepare, execute, deallocate. *)
Definition built_types : list N := [12; 18; 19; 20; 24; 25; 40; 41; 42].

(* That of a call. *)
Definition call_type (c : call) : N :=
  match c with
  | CStmtExecute _ _ => 12
  | CPrepare _ _ => 40
  | CExecute _ _ => 41
  | CDeallocate _ => 42
  | CInsert _ _ _ | CInsertF _ _ _ _ => 18
  | CUpdate _ _ _ | CUpdateF _ _ _ _ => 19
  | CDelete _ _ => 20
  end.

(* ---- messages that hold a value that is encoded wrongly, among others ---- *)

Definition reads (f : N * bytes) (m : msg) : Prop := dmsg (fst f) (snd f) = Some m.

(* The frame of a call has the type of its message, and unless an argument is one of those values it is
   the message the call stands for. *)
Definition call_frame (w32 : bool) (c : call) (f : N * bytes) : Prop :=
  fst f = call_type c /\ (call_ok w32 c -> exists m, reads f m /\ call_denotes c m).
Definition row_frame (w32 : bool) (name : bytes) (cols : list bytes) (row : list gvalue) (f : N * bytes) : Prop :=
  fst f = 18 /\ (values_ok w32 row -> exists es, reads f (MInsert name (Some table_model) cols [es]) /\ Forall2 expr_denotes row es).

(* SpecProg.prog_msgs, with frames in place of messages: one for every call, two for every InsertRow, and
   those of the begin and end of every block, in order. *)
Inductive prog_frames (w32 : bool) : prog -> list (N * bytes) -> list bytes -> list (option exprfun) -> Prop :=
| F_ret cberr out : prog_frames w32 (Ret cberr out) [] [] out
| F_call c next f fs ids out : call_frame w32 c f -> prog_frames w32 next fs ids out -> prog_frames w32 (PCall 0 c next) (f :: fs) ids out
| F_insert_row name cols row next id f g fs ids out :
    row_frame w32 name cols row f -> reads g (set_last_id id) ->
    prog_frames w32 (next (Some (EVariable id))) fs ids out ->
    prog_frames w32 (PInsertRow 0 name cols row next) (f :: g :: fs) (id :: ids) out
| F_block k body next open fs0 fs1 ids1 out1 g fs2 ids2 out :
    opening k = Some open -> Forall2 reads fs0 open -> prog_frames w32 body fs1 ids1 out1 ->
    reads g (closing k) -> prog_frames w32 (next out1) fs2 ids2 out ->
    prog_frames w32 (PBlock 0 k body next) (fs0 ++ fs1 ++ [g] ++ fs2) (ids1 ++ ids2) out.

(* ---- expectation blocks, by the types of the frames ---- *)

(* SpecUnit.balanced for frames of which some cannot be read: 24 opens an expectation block, 25 closes one. *)
Inductive nested : list (N * bytes) -> Prop :=
| N_nil : nested []
| N_other f fs : fst f <> 24 -> fst f <> 25 -> nested fs -> nested (f :: fs)
| N_block o body c fs : fst o = 24 -> nested body -> fst c = 25 -> nested fs -> nested (o :: body ++ c :: fs).

(* ---- what a server takes frames for ---- *)

(* A frame it can read is what it reads. One it cannot read it may take for any message, except that the
   type of the frame tells whether it is about expectation blocks. *)
Definition unreadable (f : N * bytes) : Prop := dmsg (fst f) (snd f) = None.
Definition taken_for (f : N * bytes) (m : msg) : Prop :=
  reads f m \/ (unreadable f /\ match m with MExpectOpen _ _ => fst f = 24 | MExpectClose => fst f = 25 | _ => True end).
