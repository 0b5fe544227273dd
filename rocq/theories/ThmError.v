(* Properties of errors: C09, C10, C11, C12 (which error, which panic), C60. *)
From Coq Require Import String List NArith ZArith Arith Bool Lia ZifyN ZifyNat ZifyBool.
From Coq Require Import List.
From Verif Require Import Base GoSlice SpecWire SpecMsg Text Values AnyModel ExprModel MsgModel Builder
  SpecValue SpecProg SpecUnit SpecError ValueProofs MsgProofs BuilderProofs UnitProofs ShapeProofs ErrorProofs ThmBuilder.
Import ListNotations.
Open Scope N_scope.
Open Scope list_scope.

Ltac Zify.zify_post_hook ::= Z.div_mod_to_equations.

(* ---- C10 ---- *)

(* C10: wherever it occurs (at top level, in callbacks, after callbacks), the first error is the one
   Send returns, whatever the program does after it. *)
Theorem C10_first_error_is_returned : forall (E : Env) b pr e, empty b -> inner_only pr ->
  reaches word32 (step_error word32 e) pr -> fails b pr e.
Proof.
  intros E b pr e (_ & He & Hd) Hi H. destruct (reaches_error e pr H Hi b [] Hd He) as (b1 & out & Hr & Hd1 & He1).
  exists b1, out. split; [exact Hr|]. unfold send. rewrite Hd1, He1. reflexivity.
Qed.

(* ---- C09, C11 ---- *)

(* C09: neither the bytes sent nor the error returned depend on the capacity and content of the
   buffer, or on how Go grows it. *)
Theorem C09_outcome_independent_of_buffer : forall (E1 E2 : Env) b1 b2 pr, @word32 E1 = @word32 E2 -> empty b1 -> empty b2 ->
  prog_ok (@word32 E1) pr -> inner_only pr -> prog_settled pr ->
  (exists bs, @delivers E1 b1 pr bs /\ @delivers E2 b2 pr bs) \/ (exists e, @fails E1 b1 pr e /\ @fails E2 b2 pr e).
Proof.
  intros E1 E2 b1 b2 pr HW (D1 & N1 & A1) (D2 & N2 & A2) Hok Hi Hs.
  assert (Hl : locked b1 b2) by (unfold locked; intuition congruence).
  destruct (run_locked E1 E2 HW pr b1 b2 [] [] Hi Hok Hs Hl N1 eq_refl) as (c1 & c2 & out & out' & R1 & R2 & (L1 & L2 & L3 & L4) & _).
  destruct (berr c1) as [e|] eqn:He.
  - right. exists e. split; [exists c1, out|exists c2, out']; (split; [assumption|]); unfold send; rewrite ?L1, ?L2, <- ?L3, ?He; reflexivity.
  - left. exists (data (buf c1)). split; [exists c1, out|exists c2, out']; (split; [assumption|]); unfold send; rewrite ?L1, ?L2, <- ?L3, ?He; [reflexivity|]. rewrite L4 by reflexivity. reflexivity.
Qed.

(* C11: after Reset, of a builder with any content and in any error state, the result is that of a new one. *)
Theorem C11_reset_gives_a_fresh_pipe : forall (E : Env) b n pr, disabled b = false -> prog_ok word32 pr -> inner_only pr -> prog_settled pr ->
  exists b', reset b = Ok b' /\ (forall bs, delivers b' pr bs <-> delivers (new_pipe n) pr bs) /\
    (forall e, fails b' pr e <-> fails (new_pipe n) pr e) /\ ((exists bs, delivers b' pr bs) \/ exists e, fails b' pr e).
Proof.
  intros E b n pr Hd Hok Hi Hs. unfold reset. rewrite Hd. unfold reslice. cbn [Nat.leb firstn bind]. eexists. split; [reflexivity|].
  match goal with |- context [delivers ?x pr] => set (b' := x) end.
  assert (U : forall b, (forall x y, delivers b pr x -> delivers b pr y -> x = y) /\ (forall x y, fails b pr x -> fails b pr y -> x = y) /\ (forall x y, delivers b pr x -> fails b pr y -> False)).
  { clear. intros b. split; [|split]; intros x y (p & o & R1 & S1) (q & o' & R2 & S2); rewrite R1 in R2; injection R2 as -> ->; congruence. }
  destruct (U b') as (U1 & U2 & U3), (U (new_pipe n)) as (V1 & V2 & V3).
  destruct (C09_outcome_independent_of_buffer E E b' (new_pipe n) pr eq_refl ltac:(repeat split) ltac:(repeat split) Hok Hi Hs) as [(bs & A & B)|(e & A & B)].
  - split; [|split; [|eauto]]; intros x; split; intros H.
    + rewrite (U1 x bs H A). exact B.
    + rewrite (V1 x bs H B). exact A.
    + destruct (U3 bs x A H).
    + destruct (V3 bs x B H).
  - split; [|split; [|eauto]]; intros x; split; intros H.
    + destruct (U3 x e H A).
    + destruct (V3 x e H B).
    + rewrite (U2 x e H A). exact B.
    + rewrite (V2 x e H B). exact A.
Qed.

(* ---- C12 ---- *)

(* C12: wherever it occurs, unless there was an error before, using an enclosing builder panics. *)
Theorem C12_outer_use_panics : forall (E : Env) b pr, empty b -> reaches word32 step_outer pr -> panics b pr.
Proof.
  intros E b pr (_ & He & Hd) H. apply (reaches_panic step_outer pr); [|assumption..|constructor].
  intros t b' outer Ht Hd' He' Ho. exact (step_outer_panics t b' outer Ht Hd' He' Ho).
Qed.

Lemma during_shape : forall (E : Env) pr st t st', during pr st t st' -> forall b outer, st = b :: outer -> disabled b = false -> all_disabled outer ->
  exists b' outer', st' = b' :: outer' /\ disabled b' = false /\ all_disabled outer'.
Proof.
  assert (N : forall b outer lvl x, all_disabled outer -> nth_error (b :: outer) lvl = Some x -> disabled x = false -> lvl = O /\ x = b).
  { intros b outer [|lvl] x Ho Hx Hd; [cbn in Hx; split; congruence|]. pose proof (only_inner b outer lvl x Ho Hx). congruence. }
  assert (NE : forall E b dis c b', @exec_call E dis c b = Ok b' -> disabled b = false).
  { intros E b dis c b' H. destruct (disabled b) eqn:Hd; [|reflexivity]. rewrite exec_disabled in H by assumption. discriminate. }
  assert (NR : forall E b name cols row r, @b_insert_row E name cols row b = Ok r -> disabled b = false).
  { intros E b name cols row r H. destruct (disabled b) eqn:Hd; [|reflexivity]. rewrite insert_row_disabled in H by assumption. discriminate. }
  assert (NB : forall E b k r, @block_begin E k b = Ok r -> disabled b = false).
  { intros E b k r H. destruct (disabled b) eqn:Hd; [|reflexivity]. rewrite block_disabled in H by assumption. discriminate. }
  intros E pr st t st' H.
  induction H as [pr st|lvl c next st x x' t st' Hn Hx H IH|lvl name cols row next st x x' o t st' Hn Hx H IH|lvl k body next st x x1 t st' Hn Hx H IH
    |lvl k body next st x x1 child st2 out x2 t st' Hn Hx Hr Hend H IH|lvl k body next st x x1 t st' Hn Hx H IH]; intros b outer -> Hd Ho.
  - eauto.
  - destruct (N _ _ _ _ Ho Hn (NE _ _ _ _ _ Hx)) as [-> ->]. apply (IH x' outer); [reflexivity| |assumption]. exact (proj1 (exec_keeps E _ _ _ _ Hd Hx)).
  - destruct (N _ _ _ _ Ho Hn (NR _ _ _ _ _ _ Hx)) as [-> ->]. apply (IH x' outer); [reflexivity| |assumption]. exact (proj1 (insert_row_keeps E _ _ _ _ _ _ Hd Hx)).
  - destruct (N _ _ _ _ Ho Hn (NB _ _ _ _ Hx)) as [-> ->]. eapply IH; [reflexivity|reflexivity|]. constructor; [reflexivity|assumption].
  - destruct (N _ _ _ _ Ho Hn (NB _ _ _ _ Hx)) as [-> ->]. cbn [set_nth] in Hr.
    assert (Ho1 : all_disabled (mkb (buf x1) (berr x1) true :: outer)) by (constructor; [reflexivity|exact Ho]).
    destruct (run_shape E body (mkb (buf x1) (berr x1) false) _ _ _ Ho1 eq_refl Hr) as (b' & Hb & _ & _). injection Hb as -> ->.
    eapply IH; [reflexivity| |assumption]. exact (block_end_disabled E k (mkb (buf b') (berr b') false) _ eq_refl Hend).
  - destruct (N _ _ _ _ Ho Hn (NB _ _ _ _ Hx)) as [-> ->]. apply (IH x1 outer); [reflexivity| |assumption]. exact (proj1 (block_begin_keeps E _ _ _ _ Hd Hx)).
Qed.

(* C12: and at every moment of a program, Send and Reset of each enclosing builder panic, while those
   of the builder itself do not. *)
Theorem C12_send_and_reset_panic : forall (E : Env) b pr t st, empty b -> during pr [b] t st ->
  exists inner enclosing, st = inner :: enclosing /\ send inner <> Panic /\ reset inner <> Panic /\
    Forall (fun x => send x = Panic /\ reset x = Panic) enclosing.
Proof.
  intros E b pr t st (_ & _ & Hd) H. destruct (during_shape E pr [b] t st H b [] eq_refl Hd (Forall_nil _)) as (b' & outer & -> & Hd' & Ho).
  exists b', outer. split; [reflexivity|]. unfold send, reset. rewrite Hd'. split; [destruct (berr b'); discriminate|]. split; [discriminate|].
  eapply Forall_impl; [|exact Ho]. intros x Hx. cbv beta in Hx. rewrite Hx. auto.
Qed.

(* ---- C60 ---- *)

Lemma single_error : forall (E : Env) b c e, empty b -> call_ok word32 c -> call_fits c -> call_quiet c -> call_error c e -> fails b (one_call c) e.
Proof.
  intros E b c e Hb Hok Hf Hq He. apply C10_first_error_is_returned; [assumption|cbn; auto|]. apply R_here, SE_call; assumption.
Qed.

(* C60: the error of a call is the one of its first faulty part, with the position of that part. *)
Theorem C60_error_names_the_fault : forall (E : Env) b c e, empty b -> call_ok word32 c -> call_fits c -> call_quiet c ->
  call_error c e -> fails b (one_call c) e /\ forall bs, ~ delivers b (one_call c) bs.
Proof.
  intros E b c e Hb Hok Hf Hq He. pose proof (single_error E b c e Hb Hok Hf Hq He) as H. split; [exact H|].
  intros bs (b1 & out1 & R1 & S1). destruct H as (b2 & out2 & R2 & S2). rewrite R1 in R2. injection R2 as -> ->. congruence.
Qed.

Theorem C60_row_error_names_the_fault : forall (E : Env) b name cols row e, empty b -> go_string name -> Forall go_string cols ->
  values_ok word32 row -> row_fits name cols row -> Forall panic_free row -> row_error row e -> fails b (one_row name cols row) e.
Proof.
  intros E b name cols row e Hb Hn Hc Hr Hf Hq He. apply C10_first_error_is_returned; [assumption|cbn; auto|]. apply R_here, SE_row; assumption.
Qed.

(* C60: conversely, a call is sent, or its error is that of a faulty part of it. *)
Theorem C60_every_failure_has_a_fault : forall (E : Env) b c, empty b -> call_ok word32 c -> call_fits c -> call_quiet c -> call_settled c ->
  (exists bs, delivers b (one_call c) bs) \/ exists e, call_error c e /\ fails b (one_call c) e.
Proof.
  intros E b c Hb Hok Hf Hq Hs. destruct (call_named c Hq Hs) as [Ha|[e He]].
  - left. destruct Hb as (_ & He & Hd). destruct (accepted_total (one_call c) b []) as (b' & out & Hr & He'); [cbn; auto|cbn; auto|cbn; auto|assumption..|].
    destruct (run_shape E _ b [] _ _ (Forall_nil _) Hd Hr) as (b2 & Hb2 & Hd2 & _). injection Hb2 as <-.
    exists (data (buf b')), b', out. split; [exact Hr|]. unfold send. rewrite Hd2, He'. reflexivity.
  - right. exists e. split; [exact He|]. apply single_error; assumption.
Qed.

(* ---- the hypotheses are met ---- *)

(* The third value of the second row is a call with a faulty second parameter. *)
Definition boom : ufun := fun p _ => Ok (p, Some (EUser 7)).
Definition faulty : call :=
  CInsert (s2b "t") [s2b "a"; s2b "b"] [[VNil; VInt 1]; [VBool true; VFunc (Some (ECall (s2b "f") [VInt 2; VUser None (Some boom)]))]].
Lemma boom_raises : raises boom (EUser 7).
Proof. intros p tag. exists p. reflexivity. Qed.
Example faulty_error : call_error faulty (EColumnErr 1 (EParam 1 (EUser 7))) /\ call_ok false faulty /\ call_fits faulty /\ call_quiet faulty /\ call_settled faulty.
Proof.
  split; [|split; [|split; [|split]]].
  - apply (CE_insert _ _ [[VNil; VInt 1]] [VBool true; VFunc (Some (ECall (s2b "f") [VInt 2; VUser None (Some boom)]))] []); [repeat constructor|reflexivity|].
    apply (RE [VBool true] _ []); [repeat constructor|]. constructor. apply (XF_call _ [VInt 2] _ []); [repeat constructor|]. constructor. apply boom_raises.
  - unfold faulty. ok; try (right; unfold boom; congruence).
  - unfold faulty. sizes.
  - cbn. repeat constructor. intros p tag. exists p. eexists. split; [reflexivity|apply Nat.le_refl].
  - assert (Hb : answers dexpr boom) by (right; eexists; apply boom_raises). cbn. repeat first [exact Hb|exact I|constructor].
Qed.
(* In a transaction in an expectation block, after an InsertRow and before other calls and errors. *)
Definition faulty_unit : prog :=
  PBlock 0 (KExpectFailOnError 1)
    (PInsertRow 0 (s2b "orders") [s2b "c"] [VInt 7] (fun order =>
      PBlock 0 (KTx 4) (PCall 0 faulty (Ret None []))
        (fun _ => PBlock 0 (KTx 77) (Ret None []) (fun _ => PCall 0 (CInsert (s2b "t") [s2b "a"] [[]]) (Ret None [order])))))
    (fun _ => Ret None []).
Example faulty_unit_reaches : reaches false (step_error false (EColumnErr 1 (EParam 1 (EUser 7)))) faulty_unit /\ inner_only faulty_unit /\
  @fails plain (new_pipe 0) faulty_unit (EColumnErr 1 (EParam 1 (EUser 7))).
Proof.
  split; [|split].
  - destruct faulty_error as (H1 & H2 & H3 & H4 & _). apply R_inside; [discriminate|reflexivity|]. apply R_after_row; [ok..|unfold row_fits; sizes|].
    intros o _. apply R_inside; [discriminate|exact I|]. apply R_here, SE_call; assumption.
  - unfold faulty_unit. ok.
  - eexists _, _. split; vm_compute; reflexivity.
Qed.

(* The same program is settled, so C09 and C11 apply to it. *)
Example faulty_unit_settled : prog_ok (@word32 plain) faulty_unit /\ prog_settled faulty_unit.
Proof.
  destruct faulty_error as (_ & H2 & H3 & H4 & H5). change (@word32 plain) with false. unfold faulty_unit, prog_settled. split.
  - cbn [prog_ok]. split; [reflexivity|]. split; [|intros; constructor].
    split; [ok|]. split; [ok|]. split; [ok|]. intros o Ho. split; [exact I|]. split; [split; [exact H2|constructor]|].
    intros out _. split; [exact I|]. split; [constructor|]. intros out2 _. split; [ok|]. constructor; [exact Ho|constructor].
  - cbn [prog_all]. split; [exact I|]. split; [|intros; constructor].
    split; [split; [repeat constructor|]; split; [repeat constructor|unfold row_fits; sizes]|]. intros o Ho. split; [exact I|].
    split; [split; [auto|constructor]|]. intros out _. split; [exact I|]. split; [constructor|]. intros out2 _.
    split; [split; [repeat constructor|]; split; [repeat constructor|sizes]|]. constructor; [exact Ho|constructor].
Qed.

(* After a transaction, inside another block, the pipe itself is used. *)
Definition outer_unit : prog :=
  PBlock 0 (KTx 0) (PCall 0 (CDeallocate 1) (Ret None []))
    (fun _ => PBlock 0 (KExpectFailOnError 0) (PBlock 0 (KTx 5) (PInsertRow 2 (s2b "t") [] [] (fun _ => Ret None [])) (fun _ => Ret None [])) (fun _ => Ret None [])).
Example outer_unit_reaches : reaches false step_outer outer_unit.
Proof.
  apply R_after_block; [discriminate|exact I|cbn; repeat split; try reflexivity; constructor|cbn; auto|cbn; repeat split; try reflexivity; constructor|]. intros out _.
  apply R_inside; [discriminate|reflexivity|]. apply R_inside; [discriminate|exact I|]. apply R_here. constructor.
Qed.
Example outer_unit_during : exists inner one two, @during plain outer_unit [new_pipe 0] (PInsertRow 2 (s2b "t") [] [] (fun _ => Ret None [])) [inner; one; two].
Proof.
  eexists _, _, _. unfold outer_unit. eapply D_after_block; [reflexivity|vm_compute; reflexivity|vm_compute; reflexivity|vm_compute; reflexivity|].
  eapply D_inside; [reflexivity|vm_compute; reflexivity|]. eapply D_inside; [reflexivity|vm_compute; reflexivity|]. apply D_now.
Qed.

Print Assumptions C10_first_error_is_returned.
Print Assumptions C09_outcome_independent_of_buffer.
Print Assumptions C11_reset_gives_a_fresh_pipe.
Print Assumptions C12_outer_use_panics.
Print Assumptions C12_send_and_reset_panic.
Print Assumptions C60_error_names_the_fault.
Print Assumptions C60_row_error_names_the_fault.
Print Assumptions C60_every_failure_has_a_fault.
