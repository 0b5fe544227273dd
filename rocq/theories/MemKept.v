(* Builders, and the *Insert and *Update given to callbacks, kept by the callback and used after it, over memory. *)
From Coq Require Import List NArith Arith.
From Verif Require Import Base GoSlice Values Builder Mem MemModel.
Import ListNotations.

Section Model.
Context `{E : Env}.

(* What a callback can keep: its builder (builder.go:14-18), its *Insert (crud.go:9-12) or its *Update (crud.go:40-43). *)
Inductive obj :=
| OBuilder (b : hbuilder)
| OInsert (p : hslice) (e : option err)
| OUpdate (p : hslice) (e : option err).

(* Its field buf. *)
Definition obj_buf (o : obj) : hslice :=
  match o with OBuilder b => hbuf b | OInsert p _ | OUpdate p _ => p end.

(* Memory, and the objects that are still referred to. *)
Record kworld := mkk { kmem : mem; kobj : nat -> option obj }.

Definition set_obj (os : nat -> option obj) (i : nat) (o : obj) : nat -> option obj :=
  fun j => if (j =? i)%nat then Some o else os j.

(* One use of an object, outside of callbacks.
   KUse i pr        calls on builder i, none of whose callbacks keep anything
   KBlock i j k pr  Tx or ExpectFailOnError on builder i, with a callback that does pr and keeps its builder as object j
   KInsertF, KUpdateF i j .. ops  with a callback that does ops and keeps its *Insert or *Update as object j
   KRow, KSet j     Row on the *Insert j, Set on the *Update j
   Simplification: pr and ops keep nothing themselves. *)
Inductive kact :=
| KUse (i : nat) (pr : prog)
| KBlock (i j : nat) (k : block) (pr : prog)
| KInsertF (i j : nat) (name : bytes) (columns : list bytes) (ops : list iop)
| KUpdateF (i j : nat) (name : bytes) (criteria : option exprfun) (ops : list uop)
| KRow (j : nat) (row : list gvalue)
| KSet (j : nat) (name : bytes) (value : gvalue).

(* builder.go:31-63, 190-219: as MemModel.h_run on PBlock; also the callback's builder as the callback left it. None: the
   callback was not called. *)
Definition h_keep_block (k : block) (pr : prog) (b : hbuilder) : H (hbuilder * option hbuilder) :=
  let* (b1, entered) := h_block_begin k b in
  if entered then
    let* (st, _) := h_run pr [mkhb (hbuf b1) (hberr b1) false; mkhb (hbuf b1) (hberr b1) true] in
    match st with
    | [] => hpanic
    | c :: _ =>
        let* b2 := h_block_end k (mkhb (hbuf c) (hberr c) false) in
        hret (b2, Some c)
    end
  else hret (b1, None).

(* crud.go:24-38 InsertF, as MemModel.h_exec_call on CInsertF; also the fields of the callback's *Insert. *)
Definition h_keep_insert_f (name : bytes) (columns : list bytes) (ops : list iop) (b : hbuilder) :
    H (hbuilder * option (hslice * option err)) :=
  if hdisabled b then hpanic else
  match hberr b with
  | Some _ => hret (b, None)
  | None =>
      let n := hlen (hbuf b) in
      let* p := h_msg_insert (hbuf b) name columns in
      let* (p, e) := h_run_iops [true] ops p None in
      let* q := h_patch_length p n in
      hret (mkhb q e (hdisabled b), Some (p, e))
  end.

(* crud.go:51-66 UpdateF, as MemModel.h_exec_call on CUpdateF; also the fields of the callback's *Update. *)
Definition h_keep_update_f (name : bytes) (criteria : option exprfun) (ops : list uop) (b : hbuilder) :
    H (hbuilder * option (hslice * option err)) :=
  if hdisabled b then hpanic else
  match hberr b with
  | Some _ => hret (b, None)
  | None =>
      let n := hlen (hbuf b) in
      let* (p, e) := h_msg_update (hbuf b) name criteria in
      let* (p, e) := h_run_uops [true] ops p e in
      let* q := h_patch_length p n in
      hret (mkhb q e (hdisabled b), Some (p, e))
  end.

(* crud.go:14-18 Insert.Row *)
Definition h_row (row : list gvalue) (p : hslice) (e : option err) : H (hslice * option err) :=
  match e with
  | None => h_append_insert_row p row
  | Some _ => hret (p, e)
  end.

(* crud.go:45-49 Update.Set *)
Definition h_set (name : bytes) (value : gvalue) (p : hslice) (e : option err) : H (hslice * option err) :=
  match e with
  | None => h_append_update_set p name value
  | Some _ => hret (p, e)
  end.

(* The objects after the act. Nothing happens if there is no such object. *)
Definition k_do (a : kact) (os : nat -> option obj) : H (nat -> option obj) :=
  match a with
  | KUse i pr =>
      match os i with
      | Some (OBuilder b) =>
          let* (st, _) := h_run pr [b] in
          match st with
          | b :: _ => hret (set_obj os i (OBuilder b))
          | [] => hpanic
          end
      | _ => hret os
      end
  | KBlock i j k pr =>
      match os i with
      | Some (OBuilder b) =>
          let* (b, c) := h_keep_block k pr b in
          match c with
          | Some c => hret (set_obj (set_obj os j (OBuilder c)) i (OBuilder b))
          | None => hret (set_obj os i (OBuilder b))
          end
      | _ => hret os
      end
  | KInsertF i j name columns ops =>
      match os i with
      | Some (OBuilder b) =>
          let* (b, r) := h_keep_insert_f name columns ops b in
          match r with
          | Some (p, e) => hret (set_obj (set_obj os j (OInsert p e)) i (OBuilder b))
          | None => hret (set_obj os i (OBuilder b))
          end
      | _ => hret os
      end
  | KUpdateF i j name criteria ops =>
      match os i with
      | Some (OBuilder b) =>
          let* (b, r) := h_keep_update_f name criteria ops b in
          match r with
          | Some (p, e) => hret (set_obj (set_obj os j (OUpdate p e)) i (OBuilder b))
          | None => hret (set_obj os i (OBuilder b))
          end
      | _ => hret os
      end
  | KRow j row =>
      match os j with
      | Some (OInsert p e) => let* (p, e) := h_row row p e in hret (set_obj os j (OInsert p e))
      | _ => hret os
      end
  | KSet j name value =>
      match os j with
      | Some (OUpdate p e) => let* (p, e) := h_set name value p e in hret (set_obj os j (OUpdate p e))
      | _ => hret os
      end
  end.

End Model.
