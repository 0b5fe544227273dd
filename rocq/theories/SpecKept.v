(* Histories of objects that share memory, some of them kept from callbacks. *)
From Coq Require Import List NArith Arith.
From Verif Require Import Base GoSlice Values SpecValue Builder Mem MemModel SpecMem MemKept.
Import ListNotations.

(* The user encoders in the arguments of the act. *)
Definition act_users (P : ufun -> Prop) (a : kact) : Prop :=
  match a with
  | KUse _ pr | KBlock _ _ _ pr => prog_users P pr
  | KInsertF _ _ _ _ ops => Forall (iop_users P) ops
  | KUpdateF _ _ _ cr ops => opt (fun_users P) cr /\ Forall (uop_users P) ops
  | KRow _ row => Forall (value_users P) row
  | KSet _ _ v => value_users P v
  end.

(* The object an act is made on, and the one it may make. *)
Definition subject (a : kact) : nat :=
  match a with KUse i _ | KBlock i _ _ _ | KInsertF i _ _ _ _ | KUpdateF i _ _ _ _ | KRow i _ | KSet i _ _ => i end.
Definition made (a : kact) : option nat :=
  match a with KBlock _ j _ _ | KInsertF _ j _ _ _ | KUpdateF _ j _ _ _ => Some j | KUse _ _ | KRow _ _ | KSet _ _ _ => None end.

(* Any number of acts on any of the objects. When one panics and the panic is recovered, the object it was made on and the one
   it was going to make are left with what the subject had, maybe with something appended; everything else is as it was. *)
Inductive acts `{E : Env} (w : kworld) : kworld -> Prop :=
| acts_none : acts w w
| acts_done w1 a os m : acts w w1 -> act_users leaves_alone a ->
    k_do a (kobj w1) (kmem w1) = HOk os m -> acts w (mkk m os)
| acts_panic w1 a o os m : acts w w1 -> act_users leaves_alone a ->
    k_do a (kobj w1) (kmem w1) = HPanic m -> kobj w1 (subject a) = Some o ->
    (forall i, os i = kobj w1 i \/
       (i = subject a \/ made a = Some i) /\
       exists o', os i = Some o' /\ valid m (obj_buf o') /\ grown (kmem w1) (obj_buf o) (obj_buf o')) ->
    acts w (mkk m os).

(* s starts where t starts, in the same array, and is not longer. *)
Definition begins (s t : hslice) : Prop :=
  arr t = arr s /\ off t = off s /\ hcap t = hcap s /\ (hlen s <= hlen t)%nat.
