(* A sequence of accesses with more reads of memory that does not change. *)
From Coq Require Import List NArith Arith Bool Lia.
From Verif Require Import Base GoSlice Mem Fine.
From Verif Require MemProofs.
Import ListNotations.
Local Open Scope nat_scope.

Section More.
Variable m0 : mem.
(* The elements that may be read besides. *)
Variable may : nat -> nat -> Prop.

(* c is d with more accesses, which read elements of m0 as they are there. *)
Inductive more {A} : go A -> go A -> Prop :=
| more_return a : more (Return a) (Return a)
| more_stop : more Stop Stop
| more_load a i k k' : (forall x, more (k x) (k' x)) -> more (Load a i k) (Load a i k')
| more_store a i x k k' : more k k' -> more (Store a i x k) (Store a i x k')
| more_alloc l k k' : (forall a, more (k a) (k' a)) -> more (Alloc l k) (Alloc l k')
| more_read a i l v k d : may a i -> nth_error m0 a = Some l -> nth_error l i = Some v -> more (k v) d -> more (Load a i k) d.

Lemma more_refl {A} (c : go A) : more c c.
Proof. induction c; constructor; auto. Qed.

Lemma more_bind {A B} (c d : go A) (f g : A -> go B) : more c d -> (forall a, more (f a) (g a)) -> more (gbind c f) (gbind d g).
Proof. intros H Hf. induction H; cbn [gbind]; [apply Hf|constructor..|]; auto. eapply more_read; eassumption. Qed.

Lemma more_same {A B} (c : go A) (f g : A -> go B) : (forall a, more (f a) (g a)) -> more (gbind c f) (gbind c g).
Proof. apply more_bind, more_refl. Qed.

Lemma more_try {A} (c d : go A) : more c d -> more (try c) (try d).
Proof. induction 1; cbn [try]; [constructor..|]; auto. eapply more_read; eassumption. Qed.

Lemma more_loads a n : forall o, o + n <= length (array m0 a) -> (forall i, o <= i < o + n -> may a i) ->
  more (loads a o n) (Return (sub (array m0 a) o n)).
Proof.
  induction n as [|n IH]; intros o L M; cbn [loads]; [constructor|].
  unfold array in L.
  destruct (nth_error m0 a) as [l|] eqn:El; [|rewrite (nth_overflow m0) in L by (apply nth_error_None; exact El); cbn in L; lia].
  assert (Ea : nth a m0 [] = l) by (apply nth_error_nth; exact El). rewrite Ea in L.
  destruct (nth_error l o) as [v|] eqn:Ev; [|apply nth_error_None in Ev; lia].
  eapply (more_read a o l v); [apply M; lia|exact El|exact Ev|].
  replace (Return (sub (array m0 a) o (S n))) with (gbind (Return (sub (array m0 a) (S o) n)) (fun xs => Return (v :: xs))).
  - apply more_bind; [apply IH; [unfold array; rewrite Ea; lia|intros i Hi; apply M; lia]|intros xs; constructor].
  - cbn [gbind]. f_equal. unfold array. rewrite Ea. apply MemProofs.list_ext; cbn [length]; rewrite !MemProofs.sub_length by lia; [reflexivity|].
    intros i Li. rewrite MemProofs.nth_sub by lia. destruct i as [|i]; cbn [nth].
    + rewrite Nat.add_0_r. symmetry. apply nth_error_nth. exact Ev.
    + rewrite MemProofs.nth_sub by lia. f_equal. lia.
Qed.

End More.
