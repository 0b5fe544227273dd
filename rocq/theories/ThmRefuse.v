(* What cannot be sent is refused, whatever the other arguments are: of any size, with user code that does anything, and also if they
   are encoded wrongly (C10, C14, C16, C51). *)
From Coq Require Import String List NArith ZArith Arith Bool Lia ZifyN ZifyNat ZifyBool.
From Coq Require Import List.
From Verif Require Import Base GoSlice SpecWire SpecMsg Text Values AnyModel ExprModel MsgModel Builder
  SpecValue SpecProg SpecUnit SpecTyped SpecRefuse ValueProofs MsgProofs BuilderProofs ShapeProofs TypedRunProofs RefuseProofs ThmValues ThmBuilder ThmDefects ThmTyped.
Import ListNotations.
Open Scope N_scope.
Open Scope list_scope.

(* ---- unsupported values are not taken ---- *)

Lemma unsupported_arg_not_taken : forall v, unsupported_arg v -> v <> VNil /\ ~ arg_taken v.
Proof. intros v H. induction H as [f|e|i v H [_ IH]]; (split; [discriminate|]); cbn; auto. Qed.
Lemma unsupported_expr_not_taken : forall v, unsupported_expr v -> ~ expr_taken v.
Proof.
  intros v H. assert (P : forall v, unsupported_expr v -> ~ is_wrapper v /\ ~ is_literal v) by (intros u Hu; destruct Hu; split; intros []).
  induction H as [a|m1 m2|i v H IH|name ps v Hin H IH|name ps v Hin H IH]; cbn; auto.
  - destruct i; [auto|]. destruct (P v H). destruct H; cbn in *; auto.
  - intros Ht. apply all_Forall in Ht. rewrite Forall_forall in Ht. exact (IH (Ht v Hin)).
  - intros Ht. apply all_Forall in Ht. rewrite Forall_forall in Ht. exact (IH (Ht v Hin)).
Qed.
Lemma some_not_taken : forall {A} (U T : A -> Prop) xs, (forall x, U x -> ~ T x) -> Exists U xs -> ~ Forall T xs.
Proof. intros A U T xs H Hx Hf. apply Exists_exists in Hx. destruct Hx as (x & Hin & Hu). rewrite Forall_forall in Hf. exact (H x Hu (Hf x Hin)). Qed.
Lemma row_not_taken : forall row, Exists unsupported_expr row -> ~ Forall expr_taken row.
Proof. intros row. apply some_not_taken. exact unsupported_expr_not_taken. Qed.
Lemma unsupported_not_taken : forall c, unsupported_call c -> ~ call_taken c.
Proof.
  assert (Hc : forall cr, (exists f, cr = Some f /\ unsupported_expr (VFunc (Some f))) -> ~ opt fun_taken cr).
  { intros cr (f & -> & H). exact (unsupported_expr_not_taken _ H). }
  intros [stmt args|id stmt|id args|id|name cols rows|name cols ops cberr|name cr set|name cr ops cberr|name cr]; cbn [unsupported_call call_taken]; try contradiction.
  - apply some_not_taken. intros v H. destruct (unsupported_arg_not_taken v H). intros [|]; contradiction.
  - apply some_not_taken. intros v H. destruct (unsupported_arg_not_taken v H). intros [|]; contradiction.
  - apply some_not_taken. intros row H [_ Ht]. exact (row_not_taken row H Ht).
  - intros Hx Ht. induction Ht as [|[row|lvl] ops Hr Ht IH]; cbn [rows_of] in Hx; [inversion Hx| |contradiction].
    inversion_clear Hx as [? ? Hu|? ? Hu]; [exact (row_not_taken row Hu Hr)|exact (IH Hu)].
  - intros [Hu|Hu] [Ht1 Ht2]; [exact (Hc cr Hu Ht1)|]. revert Hu Ht2. apply some_not_taken. intros kv. apply unsupported_expr_not_taken.
  - intros [Hu|Hu] [Ht1 Ht2]; [exact (Hc cr Hu Ht1)|]. induction Ht2 as [|[k v|lvl] ops Hv Ht IH]; cbn [sets_of] in Hu; [inversion Hu| |contradiction].
    inversion_clear Hu as [? ? H|? ? H]; [exact (unsupported_expr_not_taken v H Hv)|exact (IH H)].
  - apply Hc.
Qed.
Lemma ragged_not_taken : forall c, ragged_insert c -> ~ call_taken c.
Proof. intros c. destruct c; cbn [ragged_insert call_taken]; try contradiction. apply some_not_taken. intros row H [Hl _]. exact (H Hl). Qed.

(* ---- programs ---- *)

Lemma asks_fails : forall (E : Env) (C : call -> Prop) (R : list gvalue -> Prop) pr, (forall c, C c -> ~ call_taken c) -> (forall row, R row -> ~ Forall expr_taken row) ->
  asks C R pr -> must_fail E pr.
Proof.
  intros E C R pr HC HR H. induction H as [c next Hc|name cols row next Hr|lvl c next H IH|lvl name cols row next H IH|lvl k body next H IH|lvl k body next H IH].
  - apply F_call. intros dis b b1 Hdis Hd He _ Hx He1. exact (HC c Hc (exec_taken E dis c b b1 Hdis Hd He Hx He1)).
  - apply F_row. intros b b1 o Hd He _ Hx He1. exact (HR row Hr (insert_row_taken E name cols row b b1 o Hd He Hx He1)).
  - apply F_after_call. exact IH.
  - apply F_after_row. exact IH.
  - apply F_inside. exact IH.
  - apply F_after_block. exact IH.
Qed.

(* C51: a program that has a value of an unsupported type anywhere in an argument, a row, a set or a criterion is never sent: it panics, or
   Send returns an error. Nothing is assumed of its other arguments. *)
Theorem C51_never_sent_whatever_else : forall (E : Env) b pr, disabled b = false -> asks unsupported_call (Exists unsupported_expr) pr ->
  panics b pr \/ exists e, fails b pr e.
Proof. intros E b pr Hd H. exact (must_fail_sent E pr b (asks_fails E _ _ pr unsupported_not_taken row_not_taken H) Hd). Qed.

(* C16: neither is one with an Insert of a row of another length than the list of columns. *)
Theorem C16_ragged_whatever_else : forall (E : Env) b pr, disabled b = false -> asks ragged_insert (fun _ => False) pr -> panics b pr \/ exists e, fails b pr e.
Proof. intros E b pr Hd H. exact (must_fail_sent E pr b (asks_fails E _ _ pr ragged_not_taken (fun _ F => False_ind _ F) H) Hd). Qed.

(* C10: neither is one with any call or row that is not acceptable, if its arguments have Go's types. *)
Theorem C10_nothing_sent_whatever_the_values : forall (E : Env) b pr, disabled b = false ->
  asks (fun c => typed_call word32 c /\ ~ call_accepted c) (fun row => typed_values word32 row /\ ~ Forall expr_accepted row) pr ->
  panics b pr \/ exists e, fails b pr e.
Proof.
  intros E b pr Hd H. refine (must_fail_sent E pr b (asks_fails E _ _ pr _ _ H) Hd).
  - intros c [Hc Ha] Ht. exact (Ha (call_taken_accepted word32 c Hc Ht)).
  - intros row [Hr Ha] Ht. exact (Ha (exprs_accepted word32 row Hr Ht)).
Qed.

(* C14, the part that holds: so a call in the callback of Tx that is not acceptable prevents the commit. *)
Theorem C14_refused_whatever_the_values_partial : forall (E : Env) b level body next, disabled b = false ->
  asks (fun c => typed_call word32 c /\ ~ call_accepted c) (fun row => typed_values word32 row /\ ~ Forall expr_accepted row) body ->
  panics b (PBlock 0 (KTx level) body next) \/ exists e, fails b (PBlock 0 (KTx level) body next) e.
Proof. intros E b level body next Hd H. apply C10_nothing_sent_whatever_the_values; [exact Hd|]. apply K_inside. exact H. Qed.

(* ...and if nothing in the program panics, it is an error that is returned. *)
Lemma quiet_fails : forall (E : Env) b pr, empty b -> typed_prog word32 pr -> inner_only pr -> prog_quiet pr ->
  panics b pr \/ (exists e, fails b pr e) -> exists e, fails b pr e.
Proof. intros E b pr He Hok Hi Hq [H|H]; [|exact H]. exfalso. exact (C54_quiet_whatever_the_values E b pr He Hok Hi Hq H). Qed.
Theorem C51_reported_whatever_the_values : forall (E : Env) b pr, empty b -> typed_prog word32 pr -> inner_only pr -> prog_quiet pr ->
  asks unsupported_call (Exists unsupported_expr) pr -> exists e, fails b pr e.
Proof. intros E b pr He Hok Hi Hq H. apply quiet_fails; auto. apply C51_never_sent_whatever_else; [apply He|exact H]. Qed.
Theorem C10_reported_whatever_the_values : forall (E : Env) b pr, empty b -> typed_prog word32 pr -> inner_only pr -> prog_quiet pr ->
  asks (fun c => typed_call word32 c /\ ~ call_accepted c) (fun row => typed_values word32 row /\ ~ Forall expr_accepted row) pr -> exists e, fails b pr e.
Proof. intros E b pr He Hok Hi Hq H. apply quiet_fails; auto. apply C10_nothing_sent_whatever_the_values; [apply He|exact H]. Qed.

(* ---- the hypotheses can be met ---- *)

(* In a transaction, after an InsertRow of the least duration: a set of a value of an unsupported type in a function call, beside a
   variable with a long name. *)
Definition wrong_and_unsupported : prog :=
  one_block (KTx 0) (PInsertRow 0 (s2b "t") [s2b "ago"] [least] (fun v =>
    PCall 0 (CUpdate (s2b "u") (Some (EVariable long_name)) [(s2b "a", VFunc (Some (ECall (s2b "f") [num 1; VUser None None])))]) (Ret None []))).
Definition wrong_and_ragged : prog :=
  one_block (KTx 0) (PCall 0 (CInsert (s2b "t") [s2b "ago"; s2b "n"] [[least; num 1]; [least]]) (Ret None [])).
Example wrong_and_unsupported_meets : asks unsupported_call (Exists unsupported_expr) wrong_and_unsupported /\ asks ragged_insert (fun _ => False) wrong_and_ragged /\
  typed_prog (@word32 plain) wrong_and_unsupported /\ inner_only wrong_and_unsupported /\ prog_quiet wrong_and_unsupported.
Proof.
  split; [|split; [|split; [|split]]].
  - unfold wrong_and_unsupported, one_block. apply K_inside. apply K_after_row. intros o. apply K_call. cbn [unsupported_call]. right. constructor. cbn [snd].
    apply (UE_call _ _ (VUser None None)); [right; left; reflexivity|constructor].
  - unfold wrong_and_ragged, one_block. apply K_inside. apply K_call. cbn [ragged_insert]. right. left. discriminate.
  - unfold wrong_and_unsupported, one_block. change (@word32 plain) with false. pose proof long_name_string. pose proof (least_well_formed false).
    cbn [typed_prog typed_call]. unfold typed_sets, typed_values. ok; try assumption.
  - unfold wrong_and_unsupported, one_block. ok.
  - unfold wrong_and_unsupported, one_block, prog_quiet. ok; cbn [call_quiet panic_free panic_free_fun opt all]; sizes; try exact I; try (vm_compute; reflexivity); repeat constructor.
Qed.
Example wrong_and_unsupported_fails : exists e, @fails plain (new_pipe 0) wrong_and_unsupported e.
Proof. eexists. eexists _, _. split; vm_compute; reflexivity. Qed.
(* A row that is not acceptable: a pointer to an interface. *)
Example not_acceptable : asks (fun c => typed_call false c /\ ~ call_accepted c) (fun row => typed_values false row /\ ~ Forall expr_accepted row)
  (PInsertRow 0 (s2b "t") [s2b "a"] [VPtr true (num 1)] (fun _ => Ret None [])).
Proof. apply K_row. split; [repeat constructor; cbn; lia|]. intros H. inversion_clear H as [|? ? H1 _]. exact H1. Qed.

Print Assumptions C51_never_sent_whatever_else.
Print Assumptions C16_ragged_whatever_else.
Print Assumptions C10_nothing_sent_whatever_the_values.
Print Assumptions C14_refused_whatever_the_values_partial.
Print Assumptions C51_reported_whatever_the_values.
Print Assumptions C10_reported_whatever_the_values.
