(* Specification: what programs that recover from panics stand for. *)
From Coq Require Import List NArith.
From Verif Require Import Base GoSlice SpecWire SpecMsg Values Builder SpecValue SpecProg SpecUnit History Recover.
Import ListNotations.
Open Scope N_scope.

(* A call that is one message, made by one function that returns it: it assigns the buffer at the end. *)
Definition plain (c : call) : Prop :=
  match c with CStmtExecute _ _ | CPrepare _ _ | CExecute _ _ | CDeallocate _ | CDelete _ _ => True | _ => False end.

(* Part of a program ends by handing out values, or by a panic. *)
Inductive finish := Returned (out : list (option exprfun)) | Broke.

(* The program stands for the messages ms, with ids as the variables of its InsertRow calls. A call
   that panics stands for nothing; only one with an argument that may panic, or of 2^61 bytes, or on an outer
   builder, can. *)
Inductive tprog_msgs : tprog -> list msg -> list bytes -> finish -> Prop :=
| T_ret cberr out : tprog_msgs (TRet cberr out) [] [] (Returned out)
| T_panic : tprog_msgs TPanic [] [] Broke
| T_call c next m ms ids f : call_denotes c m -> tprog_msgs next ms ids f -> tprog_msgs (TCall 0 c next) (m :: ms) ids f
| T_call_panics c next : plain c -> ~ (call_quiet c /\ call_fits c) -> tprog_msgs (TCall 0 c next) [] [] Broke
| T_outer_call lvl c next : tprog_msgs (TCall (S lvl) c next) [] [] Broke
| T_row name cols row next id es ms ids f :
    Forall2 expr_denotes row es -> tprog_msgs (next (Some (EVariable id))) ms ids f ->
    tprog_msgs (TInsertRow 0 name cols row next) (MInsert name (Some table_model) cols [es] :: set_last_id id :: ms) (id :: ids) f
| T_outer_row lvl name cols row next : tprog_msgs (TInsertRow (S lvl) name cols row next) [] [] Broke
| T_block k body next open ms1 ids1 out1 ms2 ids2 f :
    opening k = Some open -> tprog_msgs body ms1 ids1 (Returned out1) -> tprog_msgs (next out1) ms2 ids2 f ->
    tprog_msgs (TBlock 0 k body next) (open ++ ms1 ++ [closing k] ++ ms2) (ids1 ++ ids2) f
| T_outer_block lvl k body next : tprog_msgs (TBlock (S lvl) k body next) [] [] Broke
| T_try stale body next ms1 ids1 out1 ms2 ids2 f :
    tprog_msgs body ms1 ids1 (Returned out1) -> tprog_msgs (next (Some out1)) ms2 ids2 f ->
    tprog_msgs (TTry stale body next) (ms1 ++ ms2) (ids1 ++ ids2) f
| T_recovered stale body next ms1 ids1 ms2 ids2 f :
    tprog_msgs body ms1 ids1 Broke -> tprog_msgs (next None) ms2 ids2 f ->
    tprog_msgs (TTry stale body next) (ms1 ++ ms2) (ids1 ++ ids2) f.

(* The arguments of all calls are well-formed Go values. *)
Fixpoint tprog_ok (w32 : bool) (pr : tprog) : Prop :=
  match pr with
  | TRet _ out => Forall row_result out
  | TPanic => True
  | TCall _ c next => call_ok w32 c /\ tprog_ok w32 next
  | TInsertRow _ name cols row next =>
      go_string name /\ Forall go_string cols /\ values_ok w32 row /\ forall o, row_result o -> tprog_ok w32 (next o)
  | TBlock _ k body next =>
      match k with KTx _ => True | KExpectFailOnError context => context < 2 end /\
      tprog_ok w32 body /\ forall out, Forall row_result out -> tprog_ok w32 (next out)
  | TTry _ body next => tprog_ok w32 body /\ tprog_ok w32 (next None) /\ forall out, Forall row_result out -> tprog_ok w32 (next (Some out))
  end.

(* Which panics part of a program may have: any, that nothing recovers from; of plain calls and of its own,
   that are recovered from; none. *)
Inductive mode := Free | Recovered | Calm.
Definition quiet_call (c : call) : Prop := call_quiet c /\ call_fits c.
Fixpoint tidy (m : mode) (pr : tprog) : Prop :=
  match pr with
  | TRet _ _ => True
  | TPanic => m <> Calm
  | TCall lvl c next =>
      match m with
      | Free => True
      | Recovered => lvl = O -> plain c \/ quiet_call c
      | Calm => lvl = O /\ quiet_call c
      end /\ tidy m next
  | TInsertRow lvl name cols row next =>
      match m with
      | Free => True
      | Recovered => lvl = O -> Forall panic_free row /\ row_fits name cols row
      | Calm => lvl = O /\ Forall panic_free row /\ row_fits name cols row
      end /\ forall o, row_result o -> tidy m (next o)
  | TBlock lvl _ body next =>
      (m = Calm -> lvl = O) /\ tidy (match m with Free => Free | _ => Calm end) body /\
      forall out, Forall row_result out -> tidy m (next out)
  | TTry _ body next => tidy Recovered body /\ tidy m (next None) /\ forall out, Forall row_result out -> tidy m (next (Some out))
  end.

(* Building pr on b and then calling Send hands bs to the Sender. *)
Definition tdelivers `{Env} (b : builder) (pr : tprog) (bs : bytes) : Prop :=
  exists b' out, run_try pr [b] = Done [b'] out /\ send b' = Ok (inl bs).

(* A program without recovery is one of these. *)
Fixpoint embed (pr : prog) : tprog :=
  match pr with
  | Ret e out => TRet e out
  | PCall lvl c next => TCall lvl c (embed next)
  | PInsertRow lvl name cols row next => TInsertRow lvl name cols row (fun o => embed (next o))
  | PBlock lvl k body next => TBlock lvl k (embed body) (fun out => embed (next out))
  end.
