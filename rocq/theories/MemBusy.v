(* Programs that use their own memory between the calls, and between the calls of Row and Set inside of a callback: they fill a
   slice, pass it, and fill it again for the next call. *)
From Coq Require Import String List NArith ZArith Arith.
From Coq Require Import List.
From Verif Require Import Base GoSlice Varint Text Values AnyModel ExprModel MsgModel Builder Mem MemModel MemArg.
Import ListNotations.

(* What a callback of InsertF does: Row, a call on an outer builder, or copy(t[o:], xs) to memory of its own. *)
Inductive wiop := WRow (row : list rvalue) | WIOuter (lvl : nat) | WICopy (t : hslice) (o : nat) (xs : bytes).
(* The same for UpdateF. *)
Inductive wuop := WSet (name : bytes) (value : rvalue) | WUOuter (lvl : nat) | WUCopy (t : hslice) (o : nat) (xs : bytes).

(* A program: as rprog, with copy(t[o:], xs), and with code that reads t and decides what to do. *)
Inductive wprog :=
| WRet (cberr : option err) (out : list (option exprfun))
| WCall (lvl : nat) (c : rcall) (next : wprog)
| WInsertF (lvl : nat) (name : bytes) (columns : list bytes) (ops : list wiop) (next : wprog)
| WUpdateF (lvl : nat) (name : bytes) (criteria : option rfun) (ops : list wuop) (next : wprog)
| WInsertRow (lvl : nat) (name : bytes) (columns : list bytes) (row : list rvalue) (next : option exprfun -> wprog)
| WBlock (lvl : nat) (k : block) (body : wprog) (next : list (option exprfun) -> wprog)
| WCopy (t : hslice) (o : nat) (xs : bytes) (next : wprog)
| WRead (t : hslice) (next : bytes -> wprog).

Section Model.
Context `{E : Env}.

(* crud.go:14-18 Insert.Row, called by the callback of InsertF *)
Fixpoint w_run_iops (dis : list bool) (ops : list wiop) (p : hslice) (e : option err) : H (hslice * option err) :=
  match ops with
  | [] => hret (p, e)
  | WRow row :: ops =>
      match e with
      | Some e => w_run_iops dis ops p (Some e)
      | None => let* (p, e) := r_append_insert_row p row in w_run_iops dis ops p e
      end
  | WIOuter lvl :: ops => let* _ := h_use_outer dis lvl in w_run_iops dis ops p e
  | WICopy t o xs :: ops => let* _ := h_copy t o xs in w_run_iops dis ops p e
  end.

(* crud.go:45-49 Update.Set, called by the callback of UpdateF *)
Fixpoint w_run_uops (dis : list bool) (ops : list wuop) (p : hslice) (e : option err) : H (hslice * option err) :=
  match ops with
  | [] => hret (p, e)
  | WSet name v :: ops =>
      match e with
      | Some e => w_run_uops dis ops p (Some e)
      | None => let* (p, e) := r_append_update_set p name v in w_run_uops dis ops p e
      end
  | WUOuter lvl :: ops => let* _ := h_use_outer dis lvl in w_run_uops dis ops p e
  | WUCopy t o xs :: ops => let* _ := h_copy t o xs in w_run_uops dis ops p e
  end.

(* crud.go:24-38 InsertF *)
Definition w_insert_f (dis : list bool) (name : bytes) (columns : list bytes) (ops : list wiop) (b : hbuilder) : H hbuilder :=
  h_guarded b (fun p =>
    let n := hlen p in
    let* p := h_msg_insert p name columns in
    let* (p, e) := w_run_iops dis ops p None in
    let* p := h_patch_length p n in
    hret (p, e)).

(* crud.go:52-66 UpdateF *)
Definition w_update_f (dis : list bool) (name : bytes) (criteria : option rfun) (ops : list wuop) (b : hbuilder) : H hbuilder :=
  h_guarded b (fun p =>
    let n := hlen p in
    let* (p, e) := r_msg_update p name criteria in
    let* (p, e) := w_run_uops dis ops p e in
    let* p := h_patch_length p n in
    hret (p, e)).

(* Running a program, as r_run. *)
Fixpoint w_run (pr : wprog) (st : list hbuilder) : H (list hbuilder * list (option exprfun)) :=
  match pr with
  | WRet _ out => hret (st, out)
  | WCall lvl c next =>
      match nth_error st lvl with
      | None => hpanic
      | Some b =>
          let* b' := r_exec_call (set_nth (map hdisabled st) lvl true) c b in
          w_run next (set_nth st lvl b')
      end
  | WInsertF lvl name columns ops next =>
      match nth_error st lvl with
      | None => hpanic
      | Some b =>
          let* b' := w_insert_f (set_nth (map hdisabled st) lvl true) name columns ops b in
          w_run next (set_nth st lvl b')
      end
  | WUpdateF lvl name criteria ops next =>
      match nth_error st lvl with
      | None => hpanic
      | Some b =>
          let* b' := w_update_f (set_nth (map hdisabled st) lvl true) name criteria ops b in
          w_run next (set_nth st lvl b')
      end
  | WInsertRow lvl name columns row next =>
      match nth_error st lvl with
      | None => hpanic
      | Some b =>
          let* (b', f) := r_b_insert_row name columns row b in
          w_run (next f) (set_nth st lvl b')
      end
  | WBlock lvl k body next =>
      match nth_error st lvl with
      | None => hpanic
      | Some b =>
          let* (b1, entered) := h_block_begin k b in
          if entered then
            let child := mkhb (hbuf b1) (hberr b1) false in
            let* (st2, out) := w_run body (child :: set_nth st lvl (mkhb (hbuf b1) (hberr b1) true)) in
            match st2 with
            | [] => hpanic
            | child :: st2 =>
                let* b2 := h_block_end k (mkhb (hbuf child) (hberr child) false) in
                w_run (next out) (set_nth st2 lvl b2)
            end
          else w_run (next []) (set_nth st lvl b1)
      end
  | WCopy t o xs next => let* _ := h_copy t o xs in w_run next st
  | WRead t next => let* x := h_read t in w_run (next x) st
  end.

End Model.
