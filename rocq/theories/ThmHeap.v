(* Termination of the encoder: C52. *)
From Coq Require Import List NArith ZArith Arith Lia Bool.
From Verif Require Import Base GoSlice Values AnyModel Heap ThmBuilder.
Import ListNotations.
Open Scope nat_scope.

(* Values that are not non-nil pointers. *)
Definition not_pointer (v : gvalue) : Prop := match v with VPtr _ _ => False | _ => True end.
(* Go has no dangling pointers. *)
Definition valid_cell (h : heap) (c : cell) : Prop := match c with CVal v => not_pointer v | CPtr _ a => a < length h end.
Definition valid (h : heap) : Prop := Forall (valid_cell h) h.

(* Following pointers from c leads to variable a. *)
Inductive points (h : heap) : cell -> nat -> Prop :=
| P_here i a : points h (CPtr i a) a
| P_next i a c b : nth_error h a = Some c -> points h c b -> points h (CPtr i a) b.
(* Following pointers from c leads to a variable from which they lead back to it. *)
Definition cyclic (h : heap) (c : cell) : Prop := exists a ca, points h c a /\ nth_error h a = Some ca /\ points h ca a.
(* The value c stands for, with all it points to. *)
Inductive tree (h : heap) : cell -> gvalue -> Prop :=
| T_val v : tree h (CVal v) v
| T_ptr i a c v : nth_error h a = Some c -> tree h c v -> tree h (CPtr i a) (VPtr i v).

Definition returns (E : Env) (h : heap) (c : cell) (p : slice) (tag : N) (r : res (slice * option err)) : Prop :=
  exists fuel, append_any_heap fuel h c p tag = Some r.

(* On values without cycles the loop does what AnyModel says. *)
Lemma loop_tree : forall (E : Env) h c v, tree h c v -> valid h -> valid_cell h c -> forall p tag, exists fuel, switch_loop fuel h c p tag = Some (type_switch v p tag).
Proof.
  intros E h c v T. induction T as [v|i a c v Ha T IH]; intros Hv Hc p tag.
  - exists 1. reflexivity.
  - assert (Hc' : valid_cell h c) by (unfold valid in Hv; rewrite Forall_forall in Hv; apply Hv; exact (nth_error_In _ _ Ha)).
    destruct (IH Hv Hc' p tag) as [fuel F]. exists (S fuel). cbn [switch_loop type_switch]. rewrite Ha.
    assert (M : cell_method i c = if i then None else any_method v).
    { destruct i; [destruct c; reflexivity|]. inversion T; subst; cbn; [reflexivity|]. reflexivity. }
    rewrite M. destruct (if i then None else any_method v) as [m|]; [reflexivity|exact F].
Qed.

Theorem C52_acyclic_result_partial : forall (E : Env) h c v p tag, valid h -> valid_cell h c -> tree h c v -> returns E h c p tag (append_any v p tag).
Proof.
  intros E h c v p tag Hv Hc T. destruct (loop_tree E h c v T Hv Hc p tag) as [fuel F]. exists fuel. unfold append_any_heap, append_any.
  inversion T; subst; [|exact F]. destruct v; try exact F. reflexivity. Qed.

(* No cycle: there is such a value, so the call returns. *)
Lemma no_cycle_tree : forall h c0, valid h -> ~ cyclic h c0 -> forall n visited c,
  length h - length visited = n -> NoDup visited -> (forall a, In a visited -> a < length h) -> valid_cell h c ->
  (forall b, points h c b -> points h c0 b) ->
  (forall a, In a visited -> exists ca, nth_error h a = Some ca /\ points h c0 a /\ forall b, points h c b -> points h ca b) ->
  exists v, tree h c v.
Proof.
  intros h c0 Hv Nc. induction n as [n IH] using lt_wf_ind. intros visited c Hn Nd In_h Hc Hs Hw. destruct c as [v|i a]; [exists v; constructor|].
  cbn in Hc. destruct (nth_error h a) as [c'|] eqn:Ha; [|apply nth_error_None in Ha; lia].
  assert (Hnew : ~ In a visited).
  { intros I. destruct (Hw a I) as (ca & E1 & E2 & E3). apply Nc. exists a, ca. split; [exact E2|]. split; [exact E1|]. apply E3. constructor. }
  assert (Lv : length visited < length h).
  { assert (length (a :: visited) <= length (seq 0 (length h))); [|rewrite seq_length in H; cbn in H; lia]. apply NoDup_incl_length; [constructor; assumption|]. intros x [<-|Hx]; apply in_seq; [lia|specialize (In_h _ Hx); lia]. }
  assert (Hc' : valid_cell h c') by (unfold valid in Hv; rewrite Forall_forall in Hv; apply Hv; exact (nth_error_In _ _ Ha)).
  destruct (IH (length h - length (a :: visited)) ltac:(cbn [length]; lia) (a :: visited) c' eq_refl) as [v T].
  - constructor; assumption.
  - intros x [<-|Hx]; [exact Hc|auto].
  - exact Hc'.
  - intros b Hb. apply Hs. econstructor; eauto.
  - intros x [<-|Hx].
    + exists c'. split; [exact Ha|]. split; [apply Hs; constructor|auto].
    + destruct (Hw x Hx) as (ca & E1 & E2 & E3). exists ca. split; [exact E1|]. split; [exact E2|]. intros b Hb. apply E3. econstructor; eauto.
  - exists (VPtr i v). econstructor; eauto.
Qed.

(* A cycle: it never returns. *)
Lemma points_trans : forall h c a ca b, points h c a -> nth_error h a = Some ca -> points h ca b -> points h c b.
Proof. intros h c a ca b P. induction P as [i a|i a c b' Ha P IH]; intros Hb Q; [econstructor; eauto|]. econstructor; [exact Ha|]. apply IH; assumption. Qed.
Lemma cycle_loops : forall (E : Env) h p tag fuel c, cyclic h c -> switch_loop fuel h c p tag = None.
Proof.
  intros E h p tag fuel. induction fuel as [|fuel IH]; intros c Cy; [reflexivity|]. cbn [switch_loop]. destruct Cy as (a & ca & P1 & Ha & P2).
  inversion P1 as [i x|i x c' b Hx P]; subst.
  - rewrite Ha. assert (exists i' x', ca = CPtr i' x') as (i' & x' & ->) by (inversion P2; eauto). replace (cell_method i (CPtr i' x')) with (@None ufun) by (destruct i; reflexivity). apply IH. exists a, (CPtr i' x'). auto.
  - rewrite Hx. assert (exists i' x', c' = CPtr i' x') as (i' & x' & ->) by (inversion P; eauto). replace (cell_method i (CPtr i' x')) with (@None ufun) by (destruct i; reflexivity). apply IH. exists a, ca. auto.
Qed.

(* Encoding an argument returns exactly if no cycle of pointers is reachable from it. *)
Theorem C52_returns_iff_acyclic_partial : forall (E : Env) h c p tag, valid h -> valid_cell h c -> ((exists r, returns E h c p tag r) <-> ~ cyclic h c).
Proof.
  intros E h c p tag Hv Hc. split.
  - intros (r & fuel & R) Cy. assert (Pc : exists i a, c = CPtr i a) by (destruct Cy as (a & ca & P & _); inversion P; eauto). destruct Pc as (i & a & ->). cbn [append_any_heap] in R. rewrite cycle_loops in R by exact Cy. discriminate.
  - intros Nc. destruct (no_cycle_tree h c Hv Nc (length h - 0) [] c eq_refl) as [v T]; [constructor|intros ? []|exact Hc|auto|intros ? []|]. exists (append_any v p tag). exact (C52_acyclic_result_partial E h c v p tag Hv Hc T).
Qed.

(* C52 as stated is false: var x interface{}; x = &x. *)
Theorem C52_refuted : forall (E : Env) p tag, exists h c, valid h /\ valid_cell h c /\ forall r, ~ returns E h c p tag r.
Proof.
  intros E p tag. exists [CPtr true 0], (CPtr true 0). split; [repeat constructor|]. split; [cbn; lia|]. intros r R.
  apply (C52_returns_iff_acyclic_partial E [CPtr true 0] (CPtr true 0) p tag); [repeat constructor|cbn; lia|eauto|]. exists 0, (CPtr true 0). split; [constructor|]. split; [reflexivity|constructor].
Qed.

(* A pointer to a pointer to an int; a cell shared by two pointers; and a cycle of length two elsewhere on the heap. *)
Definition some_heap : heap := [CVal (VInt64 7%Z); CPtr false 0; CPtr true 3; CPtr true 2].
Example some_tree : valid some_heap /\ tree some_heap (CPtr true 1) (VPtr true (VPtr false (VInt64 7%Z))) /\ ~ cyclic some_heap (CPtr true 1) /\ cyclic some_heap (CPtr true 2).
Proof.
  split; [repeat constructor|]. assert (T : tree some_heap (CPtr true 1) (VPtr true (VPtr false (VInt64 7%Z)))) by (econstructor; [reflexivity|]; econstructor; [reflexivity|]; constructor). split; [exact T|]. split.
  - apply (C52_returns_iff_acyclic_partial plain some_heap (CPtr true 1) nil_slice 1%N); [repeat constructor|cbn; lia|]. exists (@append_any plain (VPtr true (VPtr false (VInt64 7%Z))) nil_slice 1%N). apply C52_acyclic_result_partial; [repeat constructor|cbn; lia|exact T].
  - exists 2, (CPtr true 3). split; [constructor|]. split; [reflexivity|]. eapply P_next; [reflexivity|constructor].
Qed.

Print Assumptions C52_acyclic_result_partial.
Print Assumptions C52_returns_iff_acyclic_partial.
Print Assumptions C52_refuted.
