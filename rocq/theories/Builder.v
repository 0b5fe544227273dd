(* Model of /repo/builder.go, crud.go, xpipe.go, and of Go programs that use them. *)
From Coq Require Import Ascii String NArith ZArith Arith List.
From Verif Require Import Base GoSlice Varint Text Values AnyModel ExprModel MsgModel.
Import ListNotations.
Open Scope N_scope.

(* builder.go:25-29 *)
Record builder := mkb { buf : slice; berr : option err; disabled : bool }.

(* builder.go:16-23; the type is uint, every other value is possible *)
Definition IsolationLevelDefault : N := 0.
Definition IsolationLevelReadUncommitted : N := 1.
Definition IsolationLevelReadCommitted : N := 2.
Definition IsolationLevelRepeatableRead : N := 3.
Definition IsolationLevelSerializable : N := 4.
Definition IsolationLevelSnapshot : N := 5.

(* What the function given to InsertF / UpdateF may do: add a row / a set, or use a builder of
   the enclosing scopes (lvl counts outwards, 0 is the builder InsertF was called on). *)
Inductive iop := IRow (row : list gvalue) | IOuter (lvl : nat).
Inductive uop := USet (name : bytes) (value : gvalue) | UOuter (lvl : nat).

(* Calls of Builder methods that take no builder callback and return nothing.
   A map[string]interface{} is the list of its entries in iteration order.
   InsertF and UpdateF callbacks return cberr. *)
Inductive call :=
| CStmtExecute (stmt : bytes) (args : list gvalue)
| CPrepare (id : N) (stmt : bytes)
| CExecute (id : N) (args : list gvalue)
| CDeallocate (id : N)
| CInsert (name : bytes) (columns : list bytes) (rows : list (list gvalue))
| CInsertF (name : bytes) (columns : list bytes) (ops : list iop) (cberr : option err)
| CUpdate (name : bytes) (criteria : option exprfun) (set : list (bytes * gvalue))
| CUpdateF (name : bytes) (criteria : option exprfun) (ops : list uop) (cberr : option err)
| CDelete (name : bytes) (criteria : option exprfun).

(* Methods that run a callback on a child builder. *)
Inductive block :=
| KTx (isolationLevel : N)
| KExpectFailOnError (context : N).

(* A Go program using builders, as the tree of its builder calls. lvl says which builder in
   scope is used, 0 being the innermost (the argument of the running callback), so programs that
   wrongly use an outer builder are included. InsertRow's result is given to the rest of the
   program. A callback ends with Ret: cberr is the error it returns, out are results of InsertRow
   calls it stores in captured variables for the code after it.
   Simplifications: a child builder is not used after its callback has returned; callbacks do
   not themselves panic or block. *)
Inductive prog :=
| Ret (cberr : option err) (out : list (option exprfun))
| PCall (lvl : nat) (c : call) (next : prog)
| PInsertRow (lvl : nat) (name : bytes) (columns : list bytes) (row : list gvalue) (next : option exprfun -> prog)
| PBlock (lvl : nat) (k : block) (body : prog) (next : list (option exprfun) -> prog).

Fixpoint set_nth {A} (l : list A) (n : nat) (x : A) : list A :=
  match l, n with
  | [], _ => []
  | _ :: l, O => x :: l
  | y :: l, S n => y :: set_nth l n x
  end.

Section Model.
Context `{E : Env}.

(* Every method starts with: if b.disabled { panic }; if b.err != nil { return } *)
Definition guarded (b : builder) (m : slice -> res (slice * option err)) : res builder :=
  if disabled b then Panic else
  match berr b with
  | Some _ => Ok b
  | None => do (p, e) <- m (buf b); Ok (mkb p e (disabled b))
  end.

(* builder.go:65-73 StmtExecute *)
Definition b_stmt_execute (stmt : bytes) (args : list gvalue) (b : builder) : res builder :=
  guarded b (fun p => stmt_execute p stmt args).

(* builder.go:119-128, the loop over the rows of Insert *)
Fixpoint insert_rows (ncols i : nat) (rows : list (list gvalue)) (p : slice) : res (slice * option err) :=
  match rows with
  | [] => Ok (p, None)
  | row :: rows =>
      if (length row =? ncols)%nat then
        do (p, e) <- append_insert_row p row;
        match e with
        | Some e => Ok (p, Some e)
        | None => insert_rows ncols (S i) rows p
        end
      else Ok (p, Some (ERowLen i ncols (length row)))
  end.

(* builder.go:116-129, Insert after the checks *)
Definition do_insert (name : bytes) (columns : list bytes) (rows : list (list gvalue)) (p : slice) :
    res (slice * option err) :=
  let n := len p in
  do p <- msg_insert p name columns;
  do (p, e) <- insert_rows (length columns) 0 rows p;
  match e with
  | Some e => Ok (p, Some e)
  | None => okm (patch_length p n)
  end.

(* builder.go:169-174, the loop of Update over the map *)
Fixpoint update_sets (set : list (bytes * gvalue)) (p : slice) : res (slice * option err) :=
  match set with
  | [] => Ok (p, None)
  | (k, v) :: set =>
      do (p, e) <- append_update_set p k v;
      match e with
      | Some e => Ok (p, Some e)
      | None => update_sets set p
      end
  end.

(* builder.go:163-175, Update after the checks *)
Definition do_update (name : bytes) (criteria : option exprfun) (set : list (bytes * gvalue)) (p : slice) :
    res (slice * option err) :=
  let n := len p in
  do (p, e) <- msg_update p name criteria;
  match e with
  | Some e => Ok (p, Some e)
  | None =>
      do (p, e) <- update_sets set p;
      match e with
      | Some e => Ok (p, Some e)
      | None => okm (patch_length p n)
      end
  end.

(* A method call on builder lvl from inside an InsertF/UpdateF callback. [dis] are the disabled
   flags of the builders in scope. Simplification: on a builder that is not disabled (which
   BuilderProofs shows impossible) nothing is modelled. *)
Definition use_outer (dis : list bool) (lvl : nat) : res unit :=
  match nth_error dis lvl with
  | Some false => Ok tt
  | _ => Panic
  end.

(* crud.go:14-18 Insert.Row, called by the callback of InsertF; RowV (crud.go:20-22) calls it with its variadic arguments *)
Fixpoint run_iops (dis : list bool) (ops : list iop) (p : slice) (e : option err) : res (slice * option err) :=
  match ops with
  | [] => Ok (p, e)
  | IRow row :: ops =>
      match e with
      | Some e => run_iops dis ops p (Some e)
      | None => do (p, e) <- append_insert_row p row; run_iops dis ops p e
      end
  | IOuter lvl :: ops => do _ <- use_outer dis lvl; run_iops dis ops p e
  end.

(* crud.go:45-49 Update.Set, called by the callback of UpdateF *)
Fixpoint run_uops (dis : list bool) (ops : list uop) (p : slice) (e : option err) : res (slice * option err) :=
  match ops with
  | [] => Ok (p, e)
  | USet name v :: ops =>
      match e with
      | Some e => run_uops dis ops p (Some e)
      | None => do (p, e) <- append_update_set p name v; run_uops dis ops p e
      end
  | UOuter lvl :: ops => do _ <- use_outer dis lvl; run_uops dis ops p e
  end.

(* crud.go:31-37 InsertF after the checks; the callback's error is dropped *)
Definition do_insert_f (dis : list bool) (name : bytes) (columns : list bytes) (ops : list iop) (p : slice) :
    res (slice * option err) :=
  let n := len p in
  do p <- msg_insert p name columns;
  do (p, e) <- run_iops dis ops p None;
  do p <- patch_length p n;
  Ok (p, e).

(* crud.go:58-65 UpdateF after the checks; the callback's error is dropped *)
Definition do_update_f (dis : list bool) (name : bytes) (criteria : option exprfun) (ops : list uop) (p : slice) :
    res (slice * option err) :=
  let n := len p in
  do (p, e) <- msg_update p name criteria;
  do (p, e) <- run_uops dis ops p e;
  do p <- patch_length p n;
  Ok (p, e).

(* One call on builder b; dis: the disabled flags of all builders in scope while a callback of
   this call runs (b's own flag set by crud.go:33, 61).
   builder.go:65-188, crud.go:24-66 *)
Definition exec_call (dis : list bool) (c : call) (b : builder) : res builder :=
  guarded b (fun p =>
    match c with
    | CStmtExecute stmt args => stmt_execute p stmt args
    | CPrepare id stmt => okm (msg_prepare p id stmt)
    | CExecute id args => msg_execute p id args
    | CDeallocate id => okm (msg_deallocate p id)
    | CInsert name columns rows => do_insert name columns rows p
    | CInsertF name columns ops _ => do_insert_f dis name columns ops p
    | CUpdate name criteria set => do_update name criteria set p
    | CUpdateF name criteria ops _ => do_update_f dis name criteria ops p
    | CDelete name criteria => msg_delete p name criteria
    end).

(* builder.go:149: "@id$" + strconv.Itoa(len(b.buf)). An int is below 2^63 (a Go slice is never
   longer; the model's slices are unbounded, hence the mod). *)
Definition insert_id (p : slice) : bytes := s2b "@id$" ++ dec (N.of_nat (len p) mod 2 ^ 63).

(* builder.go:132-154 InsertRow *)
Definition b_insert_row (name : bytes) (columns : list bytes) (row : list gvalue) (b : builder) :
    res (builder * option exprfun) :=
  if disabled b then Panic else
  match berr b with
  | Some _ => Ok (b, None)
  | None =>
      let n := len (buf b) in
      do p <- msg_insert (buf b) name columns;
      do (p, e) <- append_insert_row p row;
      match e with
      | Some e => Ok (mkb p (Some e) (disabled b), None)
      | None =>
          do p <- patch_length p n;
          let id := insert_id p in
          do b' <- b_stmt_execute (s2b "SET " ++ id ++ s2b " = LAST_INSERT_ID()") [] (mkb p None (disabled b));
          Ok (b', Some (EVariable id))
      end
  end.

(* builder.go:198-215, the part of Tx before the callback: None when the level is unknown *)
Definition tx_begin (isolationLevel : N) (b : builder) : res (builder * bool) :=
  let start (b : builder) (s : bytes) := do b <- b_stmt_execute s [] b; Ok (b, true) in
  let set_then (s : bytes) :=
    do b <- b_stmt_execute s [] b; start b (s2b "START TRANSACTION") in
  match isolationLevel with
  | 0 => start b (s2b "START TRANSACTION")
  | 1 => set_then (s2b "SET TRANSACTION ISOLATION LEVEL READ UNCOMMITTED")
  | 2 => set_then (s2b "SET TRANSACTION ISOLATION LEVEL READ COMMITTED")
  | 3 => set_then (s2b "SET TRANSACTION ISOLATION LEVEL REPEATABLE READ")
  | 4 => set_then (s2b "SET TRANSACTION ISOLATION LEVEL SERIALIZABLE")
  | 5 => start b (s2b "START TRANSACTION WITH CONSISTENT SNAPSHOT")
  | _ => Ok (mkb (buf b) (Some EIsolation) (disabled b), false)
  end.

(* The part of Tx / ExpectFailOnError before b.call(f): builder.go:52-59, 191-215.
   The boolean says whether the callback will be run. *)
Definition block_begin (k : block) (b : builder) : res (builder * bool) :=
  if disabled b then Panic else
  match berr b with
  | Some _ => Ok (b, false)
  | None =>
      match k with
      | KTx lvl => tx_begin lvl b
      | KExpectFailOnError ctx =>
          do p <- expect_open (buf b) ctx [ONoError true];
          Ok (mkb p None (disabled b), true)
      end
  end.

(* The part after b.call(f): builder.go:61, 217 *)
Definition block_end (k : block) (b : builder) : res builder :=
  match k with
  | KTx _ => b_stmt_execute (s2b "COMMIT") [] b
  | KExpectFailOnError _ => Ok (mkb (expect_close (buf b)) (berr b) (disabled b))
  end.

(* Running a program on the builders in scope (innermost first). Returns the builders and the
   results the callback hands out; a callback's returned error is dropped (builder.go:39). *)
Fixpoint run (pr : prog) (st : list builder) : res (list builder * list (option exprfun)) :=
  match pr with
  | Ret _ out => Ok (st, out)
  | PCall lvl c next =>
      match nth_error st lvl with
      | None => Panic
      | Some b =>
          do b' <- exec_call (set_nth (map disabled st) lvl true) c b;
          run next (set_nth st lvl b')
      end
  | PInsertRow lvl name columns row next =>
      match nth_error st lvl with
      | None => Panic
      | Some b =>
          do (b', f) <- b_insert_row name columns row b;
          run (next f) (set_nth st lvl b')
      end
  | PBlock lvl k body next =>
      match nth_error st lvl with
      | None => Panic
      | Some b =>
          do (b1, entered) <- block_begin k b;
          if entered then
            (* builder.go:31-43 call *)
            let child := mkb (buf b1) (berr b1) false in
            do (st2, out) <- run body (child :: set_nth st lvl (mkb (buf b1) (berr b1) true));
            match st2 with
            | [] => Panic
            | child :: st2 =>
                do b2 <- block_end k (mkb (buf child) (berr child) false);
                run (next out) (set_nth st2 lvl b2)
            end
          else run (next []) (set_nth st lvl b1)
      end
  end.

(* xpipe.go:14-16 New *)
Definition new_pipe (n : nat) : builder := mkb (make 0 n) None false.

(* builder.go:220-226 reset, xpipe.go:23-25 Reset *)
Definition reset (b : builder) : res builder :=
  if disabled b then Panic else do p <- reslice (buf b) 0; Ok (mkb p None (disabled b)).

(* builder.go:228-236 send, xpipe.go:18-21 Send: what is handed to the Sender (if anything),
   or the error returned instead. *)
Definition send (b : builder) : res (bytes + err) :=
  if disabled b then Panic else
  match berr b with
  | Some e => Ok (inr e)
  | None => Ok (inl (data (buf b)))
  end.

End Model.
