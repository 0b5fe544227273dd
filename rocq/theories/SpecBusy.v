(* What the theorems of ThmBusy.v say about programs that use their own memory. *)
From Coq Require Import List NArith Arith.
From Verif Require Import Base GoSlice Values Builder SpecValue SpecMem Mem MemModel MemArg MemBusy SpecArg.
Import ListNotations.

(* The program's memory after copy(t[o:], xs) *)
Definition stored (m : mem) (t : hslice) (o : nat) (xs : bytes) : mem := write m (arr t) (off t + o) xs.

(* ---- programs as if the program's memory m were separate from that of the pipe, and all calls got copies of what they are
   given, made when they are called ---- *)

(* What a callback does, with the contents its slices have at each Row. *)
Fixpoint iops_at (m : mem) (ops : list wiop) : list iop :=
  match ops with
  | [] => []
  | WRow row :: ops => IRow (map (value_now m) row) :: iops_at m ops
  | WIOuter lvl :: ops => IOuter lvl :: iops_at m ops
  | WICopy t o xs :: ops => iops_at (stored m t o xs) ops
  end.
Fixpoint iops_mem (m : mem) (ops : list wiop) : mem :=
  match ops with
  | [] => m
  | WICopy t o xs :: ops => iops_mem (stored m t o xs) ops
  | _ :: ops => iops_mem m ops
  end.

Fixpoint uops_at (m : mem) (ops : list wuop) : list uop :=
  match ops with
  | [] => []
  | WSet k v :: ops => USet k (value_now m v) :: uops_at m ops
  | WUOuter lvl :: ops => UOuter lvl :: uops_at m ops
  | WUCopy t o xs :: ops => uops_at (stored m t o xs) ops
  end.
Fixpoint uops_mem (m : mem) (ops : list wuop) : mem :=
  match ops with
  | [] => m
  | WUCopy t o xs :: ops => uops_mem (stored m t o xs) ops
  | _ :: ops => uops_mem m ops
  end.

(* Callbacks of a builder that has an error are not called. *)
Definition has_error (st : list builder) (lvl : nat) : bool :=
  match nth_error st lvl with Some b => match berr b with Some _ => true | None => false end | None => false end.

(* The run of a program, as Builder.run, on builders that are values. *)
Fixpoint run_at `{Env} (pr : wprog) (st : list builder) (m : mem) : res (list builder * list (option exprfun) * mem) :=
  let call lvl c := match nth_error st lvl with
    | None => Panic
    | Some b => do b' <- exec_call (set_nth (map disabled st) lvl true) c b; Ok (set_nth st lvl b')
    end in
  match pr with
  | WRet _ out => Ok (st, out, m)
  | WCall lvl c next => do st <- call lvl (call_now m c); run_at next st m
  | WInsertF lvl name columns ops next =>
      do st' <- call lvl (CInsertF name columns (iops_at m ops) None); run_at next st' (if has_error st lvl then m else iops_mem m ops)
  | WUpdateF lvl name criteria ops next =>
      do st' <- call lvl (CUpdateF name (option_map (fun_now m) criteria) (uops_at m ops) None); run_at next st' (if has_error st lvl then m else uops_mem m ops)
  | WInsertRow lvl name columns row next =>
      match nth_error st lvl with
      | None => Panic
      | Some b =>
          do (b', f) <- b_insert_row name columns (map (value_now m) row) b;
          run_at (next f) (set_nth st lvl b') m
      end
  | WBlock lvl k body next =>
      match nth_error st lvl with
      | None => Panic
      | Some b =>
          do (b1, entered) <- block_begin k b;
          if entered then
            do (x, m) <- run_at body (mkb (buf b1) (berr b1) false :: set_nth st lvl (mkb (buf b1) (berr b1) true)) m;
            match x with
            | ([], _) => Panic
            | (child :: st2, out) =>
                do b2 <- block_end k (mkb (buf child) (berr child) false);
                run_at (next out) (set_nth st2 lvl b2) m
            end
          else run_at (next []) (set_nth st lvl b1) m
      end
  | WCopy t o xs next => run_at next st (stored m t o xs)
  | WRead t next => run_at (next (contents m t)) st m
  end.

(* ---- every slice the program uses satisfies Q, and it writes inside of them ---- *)
Section Uses.
Variable Q : hslice -> Prop.

Definition wiop_uses (o : wiop) : Prop :=
  match o with WRow row => Forall (value_refs Q) row | WIOuter _ => True | WICopy t o xs => Q t /\ (o + length xs <= hlen t)%nat end.
Definition wuop_uses (o : wuop) : Prop :=
  match o with WSet _ v => value_refs Q v | WUOuter _ => True | WUCopy t o xs => Q t /\ (o + length xs <= hlen t)%nat end.

Fixpoint uses (pr : wprog) : Prop :=
  match pr with
  | WRet _ _ => True
  | WCall _ c next => call_refs Q c /\ uses next
  | WInsertF _ _ _ ops next => Forall wiop_uses ops /\ uses next
  | WUpdateF _ _ cr ops next => opt (fun_refs Q) cr /\ Forall wuop_uses ops /\ uses next
  | WInsertRow _ _ _ row next => Forall (value_refs Q) row /\ forall o, uses (next o)
  | WBlock _ _ body next => uses body /\ forall out, uses (next out)
  | WCopy t o xs next => Q t /\ (o + length xs <= hlen t)%nat /\ uses next
  | WRead t next => Q t /\ forall x, uses (next x)
  end.
End Uses.
