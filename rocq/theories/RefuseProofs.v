(* Calls that succeed: whatever their arguments, these are values of supported types. *)
From Coq Require Import String List NArith ZArith Arith Bool Lia ZifyN ZifyNat ZifyBool.
From Coq Require Import List.
From Verif Require Import Base GoSlice SpecWire SpecMsg Text Values AnyModel ExprModel MsgModel Builder
  SpecValue ValueProofs SpecProg SpecUnit MsgProofs BuilderProofs ShapeProofs SpecTyped.
Import ListNotations.
Open Scope N_scope.

(* User code that has reported success at least once. *)
Definition worked (u : ufun) : Prop := exists p tag q, u p tag = Ok (q, None).

(* SpecValue.arg_accepted, expr_accepted and fun_accepted without the contract of user code. *)
Fixpoint arg_taken (v : gvalue) : Prop :=
  match v with
  | VPtr _ v => arg_taken v
  | VNilPtr m _ => m = false
  | VUser (Some u) _ => worked u
  | _ => is_literal v
  end.
Fixpoint expr_taken (v : gvalue) : Prop :=
  match v with
  | VNil => True
  | VPtr false v => match v with VUser _ (Some u) => worked u | _ => is_wrapper v end
  | VUser _ (Some u) => worked u
  | VFunc (Some f) => fun_taken f
  | _ => is_literal v
  end
with fun_taken (f : exprfun) : Prop :=
  match f with
  | EColumn _ | EVariable _ | EPlaceholder _ => True
  | EOperator _ ps | ECall _ ps => all expr_taken ps
  | EUserFn u => worked u
  end.
Definition call_taken (c : call) : Prop :=
  match c with
  | CStmtExecute _ args | CExecute _ args => Forall (fun v => v = VNil \/ arg_taken v) args
  | CPrepare _ _ | CDeallocate _ => True
  | CInsert _ cols rows => Forall (fun row => length row = length cols /\ Forall expr_taken row) rows
  | CInsertF _ _ ops _ => Forall (fun o => match o with IRow row => Forall expr_taken row | IOuter _ => False end) ops
  | CUpdate _ cr set => opt fun_taken cr /\ Forall (fun kv => expr_taken (snd kv)) set
  | CUpdateF _ cr ops _ => opt fun_taken cr /\ Forall (fun o => match o with USet _ v => expr_taken v | UOuter _ => False end) ops
  | CDelete _ cr => opt fun_taken cr
  end.

Section Taken.
Context (E : Env).

Lemma type_switch_taken : forall v p tag q, type_switch v p tag = Ok (q, None) -> arg_taken v.
Proof using.
  induction v as [|z|z|z|z|z|n|n|n|n|n|s|b|b|bits|bits|t|d|s collation|b|s|b|s|b|f|i v IH|a e|a e]; intros p tag q H;
    try exact I; cbn [type_switch any_method arg_taken is_literal] in *; try discriminate.
  - destruct i; [exact (IH _ _ _ H)|].
    destruct v as [|z|z|z|z|z|n|n|n|n|n|s|b|b|bits|bits|t|d|s collation|b|s|b|s|b|f|i v|a e|[a|] e]; cbn [any_method] in H; try exact I; try exact (IH _ _ _ H).
  - destruct a; [discriminate|reflexivity].
  - destruct a as [u|]; [exists p, tag, q; exact H|discriminate].
Qed.
Lemma any_taken : forall v p tag q, append_any v p tag = Ok (q, None) -> v = VNil \/ arg_taken v.
Proof using. intros v p tag q H. destruct v; [left; reflexivity|right; exact (type_switch_taken _ _ _ _ H)..]. Qed.

Lemma each_taken : forall {A} (P : A -> Prop) (f : A -> slice -> res (slice * option err)) wrap xs,
  Forall (fun x => forall p q, f x p = Ok (q, None) -> P x) xs -> forall j p q, each f wrap j xs p = Ok (q, None) -> Forall P xs.
Proof using.
  intros A P f wrap xs Hf. induction Hf as [|x xs Hx Hf IH]; intros j p q H; [constructor|]. cbn [each] in H. destruct (f x p) as [[r [e|]]|] eqn:Hr; cbn [bind] in H; try discriminate.
  constructor; [exact (Hx _ _ Hr)|exact (IH _ _ _ H)].
Qed.
Lemma args_taken : forall tag args p q, append_args tag args p = Ok (q, None) -> Forall (fun v => v = VNil \/ arg_taken v) args.
Proof using.
  intros tag args p q H. unfold append_args in H. refine (each_taken _ (fun v p => append_any v p tag) (fun _ e => e) args _ 0%nat p q H).
  apply Forall_forall. intros v _ p1 q1. apply any_taken.
Qed.

Lemma expr_taken_all : (forall v p tag q, append_expr v p tag = Ok (q, None) -> expr_taken v) /\ (forall f p tag q, run_fun f p tag = Ok (q, None) -> fun_taken f).
Proof using.
  set (PV := fun v => forall p tag q, append_expr v p tag = Ok (q, None) -> expr_taken v).
  set (PF := fun f => forall p tag q, run_fun f p tag = Ok (q, None) -> fun_taken f).
  assert (Hleaf : forall v, match v with VFunc (Some _) | VPtr _ _ => False | _ => True end -> PV v).
  { intros v Hv p tag q H. destruct v as [|z|z|z|z|z|n|n|n|n|n|s|b|b|bits|bits|t|d|s collation|b|s|b|s|b|[f|]|i v|a e|a [u|]];
      try exact I; try contradiction; cbn in H; try discriminate.
    - destruct e; discriminate.
    - exists p, tag, q. exact H. }
  assert (Hfunc : forall f, PF f -> PV (VFunc (Some f))) by (intros f Hf p tag q H; exact (Hf p tag q H)).
  assert (Hptr : forall i v, PV v -> PV (VPtr i v)).
  { intros i v _ p tag q H. cbn [append_expr] in H. destruct i; [discriminate|].
    destruct v as [|z|z|z|z|z|n|n|n|n|n|s|b|b|bits|bits|t|d|s collation|b|s|b|s|b|[f|]|i v|a e|a [u|]]; cbn [expr_method] in H; try exact I; try discriminate.
    exists p, tag, q. exact H. }
  assert (Hfleaf : forall f, match f with EOperator _ _ | ECall _ _ => False | _ => True end -> PF f).
  { intros f Hf p tag q H. destruct f; try exact I; try contradiction. exists p, tag, q. exact H. }
  assert (Hps : forall tg ps p q, Forall PV ps -> each (fun v p => append_expr v p tg) EParam 0 ps p = Ok (q, None) -> all expr_taken ps).
  { intros tg ps p q Hps H. apply all_Forall. refine (each_taken _ (fun v p => append_expr v p tg) _ ps _ 0%nat p q H).
    eapply Forall_impl; [|exact Hps]. intros v Hv p1 q1. apply Hv. }
  assert (Hoper : forall name ps, Forall PV ps -> PF (EOperator name ps)).
  { intros name ps Hv p tag q H. cbn [run_fun] in H. destruct (each _ _ _ ps p) as [[r [e|]]|] eqn:Hr; cbn [bind] in H; try discriminate. exact (Hps _ _ _ _ Hv Hr). }
  assert (Hcall : forall name ps, Forall PV ps -> PF (ECall name ps)).
  { intros name ps Hv p tag q H. cbn [run_fun] in H. destruct (each _ _ _ ps p) as [[r [e|]]|] eqn:Hr; cbn [bind] in H; try discriminate. exact (Hps _ _ _ _ Hv Hr). }
  split.
  - exact (gvalue_deep _ _ Hleaf Hfunc Hptr Hfleaf Hoper Hcall).
  - exact (exprfun_deep _ _ Hleaf Hfunc Hptr Hfleaf Hoper Hcall).
Qed.

Lemma row_taken : forall row p q, append_insert_row p row = Ok (q, None) -> Forall expr_taken row.
Proof using.
  intros row p q H. unfold append_insert_row in H. destruct (each _ _ _ row _) as [[r [e|]]|] eqn:Hr; cbn [bind] in H; try discriminate.
  refine (each_taken _ (fun v p => append_expr v p tagTypedRowField) _ row _ 0%nat _ _ Hr). apply Forall_forall. intros v _ p1 q1. apply expr_taken_all.
Qed.
Lemma rows_taken : forall ncols rows i p q, insert_rows ncols i rows p = Ok (q, None) -> Forall (fun row => length row = ncols /\ Forall expr_taken row) rows.
Proof using.
  intros ncols. induction rows as [|row rows IH]; intros i p q H; [constructor|]. cbn [insert_rows] in H.
  destruct (Nat.eqb_spec (length row) ncols) as [Hn|]; [|discriminate]. destruct (append_insert_row p row) as [[r [e|]]|] eqn:Hr; cbn [bind] in H; try discriminate.
  constructor; [split; [exact Hn|exact (row_taken _ _ _ Hr)]|exact (IH _ _ _ H)].
Qed.
Lemma set_taken : forall name v p q, append_update_set p name v = Ok (q, None) -> expr_taken v.
Proof using.
  intros name v p q H. unfold append_update_set in H. destruct (append_expr v p _) as [[r [e|]]|] eqn:Hr; cbn [bind] in H; try discriminate.
  exact (proj1 expr_taken_all _ _ _ _ Hr).
Qed.
Lemma sets_taken : forall set p q, update_sets set p = Ok (q, None) -> Forall (fun kv => expr_taken (snd kv)) set.
Proof using.
  induction set as [|[k v] set IH]; intros p q H; [constructor|]. cbn [update_sets] in H. destruct (append_update_set p k v) as [[r [e|]]|] eqn:Hr; cbn [bind] in H; try discriminate.
  constructor; [exact (set_taken _ _ _ _ Hr)|exact (IH _ _ H)].
Qed.

Lemma outer_none : forall dis lvl, Forall (fun d => d = true) dis -> use_outer dis lvl = Panic.
Proof using.
  intros dis lvl Hd. unfold use_outer. destruct (nth_error dis lvl) as [d|] eqn:Hn; [|reflexivity]. apply nth_error_In in Hn. rewrite Forall_forall in Hd. rewrite (Hd _ Hn). reflexivity.
Qed.
Lemma iops_error : forall dis ops p e q r, run_iops dis ops p (Some e) = Ok (q, r) -> r <> None.
Proof using.
  intros dis. induction ops as [|[row|lvl] ops IH]; intros p e q r H; cbn [run_iops] in H; [injection H as _ <-; discriminate|eapply IH; exact H|].
  destruct (use_outer dis lvl); [|discriminate]. cbn [bind] in H. eapply IH; exact H.
Qed.
Lemma uops_error : forall dis ops p e q r, run_uops dis ops p (Some e) = Ok (q, r) -> r <> None.
Proof using.
  intros dis. induction ops as [|[name v|lvl] ops IH]; intros p e q r H; cbn [run_uops] in H; [injection H as _ <-; discriminate|eapply IH; exact H|].
  destruct (use_outer dis lvl); [|discriminate]. cbn [bind] in H. eapply IH; exact H.
Qed.
Lemma iops_taken : forall dis ops p q, Forall (fun d => d = true) dis -> run_iops dis ops p None = Ok (q, None) ->
  Forall (fun o => match o with IRow row => Forall expr_taken row | IOuter _ => False end) ops.
Proof using.
  intros dis ops p q Hd. revert p q. induction ops as [|[row|lvl] ops IH]; intros p q H; [constructor| |]; cbn [run_iops] in H.
  - destruct (append_insert_row p row) as [[r e]|] eqn:Hr; cbn [bind] in H; [|discriminate].
    destruct e as [e|]; [exfalso; exact (iops_error _ _ _ _ _ _ H eq_refl)|]. constructor; [exact (row_taken _ _ _ Hr)|exact (IH _ _ H)].
  - rewrite outer_none in H by exact Hd. discriminate.
Qed.
Lemma uops_taken : forall dis ops p q, Forall (fun d => d = true) dis -> run_uops dis ops p None = Ok (q, None) ->
  Forall (fun o => match o with USet _ v => expr_taken v | UOuter _ => False end) ops.
Proof using.
  intros dis ops p q Hd. revert p q. induction ops as [|[name v|lvl] ops IH]; intros p q H; [constructor| |]; cbn [run_uops] in H.
  - destruct (append_update_set p name v) as [[r e]|] eqn:Hr; cbn [bind] in H; [|discriminate].
    destruct e as [e|]; [exfalso; exact (uops_error _ _ _ _ _ _ H eq_refl)|]. constructor; [exact (set_taken _ _ _ _ Hr)|exact (IH _ _ H)].
  - rewrite outer_none in H by exact Hd. discriminate.
Qed.

Lemma bind_ok : forall {A B} (m : res A) (k : A -> res B) y, bind m k = Ok y -> exists x, m = Ok x /\ k x = Ok y.
Proof using. intros A B [x|] k y H; [exists x; auto|discriminate]. Qed.
Ltac past H := repeat (apply bind_ok in H; let x := fresh "x" in let Hx := fresh "Hx" in destruct H as (x & Hx & H); try destruct x as [? ?]; cbv zeta in H).
Lemma criteria_taken : forall cr p tag q, match cr with None => Ok (p, None) | Some f => run_fun f p tag end = Ok (q, None) -> opt fun_taken cr.
Proof using. intros [f|] p tag q H; [exact (proj2 expr_taken_all _ _ _ _ H)|exact I]. Qed.
Lemma update_taken : forall name cr p q, msg_update p name cr = Ok (q, None) -> opt fun_taken cr.
Proof using. intros name cr p q H. unfold msg_update in H. cbv zeta in H. past H; exact (criteria_taken _ _ _ _ H). Qed.
Lemma delete_taken : forall name cr p q, msg_delete p name cr = Ok (q, None) -> opt fun_taken cr.
Proof using.
  intros name cr p q H. unfold msg_delete in H. cbv zeta in H. past H. injection H as _ ->.
  match goal with Hc : match cr with _ => _ end = _ |- _ => exact (criteria_taken _ _ _ _ Hc) end.
Qed.

(* A call that succeeds. *)
Lemma run_call_taken : forall dis c p q, Forall (fun d => d = true) dis -> run_call dis c E p = Ok (q, None) -> call_taken c.
Proof using.
  intros dis [stmt args|id stmt|id args|id|name cols rows|name cols ops cberr|name cr set|name cr ops cberr|name cr] p q Hd H; cbn [run_call call_taken] in *; try exact I.
  - unfold stmt_execute in H. cbv zeta in H. apply bind_ok in H. destruct H as (r & _ & H). apply bind_ok in H. destruct H as ([s [e|]] & Hs & H); [discriminate|].
    exact (args_taken _ _ _ _ Hs).
  - unfold msg_execute in H. cbv zeta in H. apply bind_ok in H. destruct H as (r & _ & H). apply bind_ok in H. destruct H as ([s [e|]] & Hs & H); [discriminate|].
    exact (args_taken _ _ _ _ Hs).
  - unfold do_insert in H. apply bind_ok in H. destruct H as (r & _ & H). apply bind_ok in H. destruct H as ([s [e|]] & Hs & H); [discriminate|]. exact (rows_taken _ _ _ _ _ Hs).
  - unfold do_insert_f in H. apply bind_ok in H. destruct H as (r & _ & H). apply bind_ok in H. destruct H as ([s e] & Hs & H). apply bind_ok in H. destruct H as (t & _ & H). injection H as _ ->.
    exact (iops_taken _ _ _ _ Hd Hs).
  - unfold do_update in H. apply bind_ok in H. destruct H as ([r [e|]] & Hr & H); [discriminate|]. apply bind_ok in H. destruct H as ([s [e|]] & Hs & H); [discriminate|].
    split; [exact (update_taken _ _ _ _ Hr)|exact (sets_taken _ _ _ Hs)].
  - unfold do_update_f in H. apply bind_ok in H. destruct H as ([r e] & Hr & H). apply bind_ok in H. destruct H as ([s e'] & Hs & H). apply bind_ok in H. destruct H as (t & _ & H). injection H as _ ->.
    destruct e as [e|]; [exfalso; exact (uops_error _ _ _ _ _ _ Hs eq_refl)|].
    split; [exact (update_taken _ _ _ _ Hr)|exact (uops_taken _ _ _ _ Hd Hs)].
  - exact (delete_taken _ _ _ _ H).
Qed.

Lemma exec_taken : forall dis c b b1, Forall (fun d => d = true) dis -> disabled b = false -> berr b = None -> exec_call dis c b = Ok b1 -> berr b1 = None -> call_taken c.
Proof using.
  intros dis c b b1 Hd Hb He H H1. unfold exec_call, guarded in H. rewrite Hb, He in H. apply bind_ok in H. destruct H as ([q e] & Hr & H). injection H as <-.
  cbn [berr] in H1. subst e. exact (run_call_taken dis c _ _ Hd Hr).
Qed.
Lemma insert_row_taken : forall name cols row b b1 o, disabled b = false -> berr b = None -> b_insert_row name cols row b = Ok (b1, o) -> berr b1 = None -> Forall expr_taken row.
Proof using.
  intros name cols row b b1 o Hb He H H1. unfold b_insert_row in H. rewrite Hb, He in H. apply bind_ok in H. destruct H as (r & _ & H).
  apply bind_ok in H. destruct H as ([s [e|]] & Hs & H); [injection H as <- _; discriminate|]. exact (row_taken _ _ _ Hs).
Qed.

End Taken.

(* ---- with the contract of user code ---- *)

Lemma worked_honest : forall {A} (dec : bytes -> option A) u, honest dec u -> worked u -> exists x, appends dec u x.
Proof. intros A dec u [H|H] (p & tag & q & Hq); [exact H|]. exfalso. exact (H _ _ _ Hq). Qed.
Lemma arg_taken_accepted : forall w v, well_formed w v -> arg_taken v -> arg_behind_pointer v.
Proof.
  intros w. induction v as [|z|z|z|z|z|n|n|n|n|n|s|b|b|bits|bits|t|d|s collation|b|s|b|s|b|f|i v IH|a e|[a|] e]; cbn [well_formed arg_taken arg_behind_pointer]; auto.
  intros [Ha _]. exact (worked_honest dany a Ha).
Qed.
Lemma expr_taken_accepted_all : forall w, (forall v, well_formed w v -> expr_taken v -> expr_accepted v) /\ (forall f, well_formed_fun w f -> fun_taken f -> fun_accepted f).
Proof.
  intros w.
  set (PV := fun v => well_formed w v -> expr_taken v -> expr_accepted v).
  set (PF := fun f => well_formed_fun w f -> fun_taken f -> fun_accepted f).
  assert (Hleaf : forall v, match v with VFunc (Some _) | VPtr _ _ => False | _ => True end -> PV v).
  { intros v Hv. destruct v as [|z|z|z|z|z|n|n|n|n|n|s|b|b|bits|bits|t|d|s collation|b|s|b|s|b|[f|]|i v|a e|a [u|]]; try contradiction; intros Hw H; try exact H.
    exact (worked_honest dexpr u (proj2 Hw) H). }
  assert (Hfunc : forall f, PF f -> PV (VFunc (Some f))) by (intros f Hf Hw H; exact (Hf Hw H)).
  assert (Hptr : forall i v, PV v -> PV (VPtr i v)).
  { intros i v _ Hw H. destruct i; [exact H|]. destruct v as [|z|z|z|z|z|n|n|n|n|n|s|b|b|bits|bits|t|d|s collation|b|s|b|s|b|[f|]|i v|a e|a [u|]]; try exact H.
    exact (worked_honest dexpr u (proj2 Hw) H). }
  assert (Hfleaf : forall f, match f with EOperator _ _ | ECall _ _ => False | _ => True end -> PF f).
  { intros f Hf Hw H. destruct f; try exact I; try contradiction. exact (worked_honest dexpr _ Hw H). }
  assert (Hps : forall ps, Forall PV ps -> all (well_formed w) ps -> all expr_taken ps -> all expr_accepted ps).
  { intros ps Hps. induction Hps as [|v ps Hv _ IH]; [auto|]. intros [W1 W2] [T1 T2]. split; [exact (Hv W1 T1)|exact (IH W2 T2)]. }
  assert (Hoper : forall name ps, Forall PV ps -> PF (EOperator name ps)) by (intros name ps Hv [_ Hw] H; exact (Hps ps Hv Hw H)).
  assert (Hcall : forall name ps, Forall PV ps -> PF (ECall name ps)) by (intros name ps Hv [_ Hw] H; exact (Hps ps Hv Hw H)).
  split.
  - exact (gvalue_deep _ _ Hleaf Hfunc Hptr Hfleaf Hoper Hcall).
  - exact (exprfun_deep _ _ Hleaf Hfunc Hptr Hfleaf Hoper Hcall).
Qed.
Lemma exprs_accepted : forall w vs, typed_values w vs -> Forall expr_taken vs -> Forall expr_accepted vs.
Proof.
  intros w vs Hw H. induction H as [|v vs Hv H IH]; [constructor|]. inversion_clear Hw as [|? ? W1 W2].
  constructor; [exact (proj1 (expr_taken_accepted_all w) v W1 Hv)|exact (IH W2)].
Qed.
Lemma criteria_accepted : forall w cr, opt (well_formed_fun w) cr -> opt fun_taken cr -> opt fun_accepted cr.
Proof. intros w [f|]; [exact (proj2 (expr_taken_accepted_all w) f)|auto]. Qed.

(* A call with arguments of Go's types that is taken is acceptable. *)
Lemma call_taken_accepted : forall w c, typed_call w c -> call_taken c -> call_accepted c.
Proof.
  assert (Ha : forall w args, typed_values w args -> Forall (fun v => v = VNil \/ arg_taken v) args -> Forall arg_accepted args).
  { intros w args Hw H. induction H as [|v vs Hv H IH]; [constructor|]. inversion_clear Hw as [|? ? W1 W2]. constructor; [|exact (IH W2)].
    destruct Hv as [->|Hv]; [left; reflexivity|right; exact (arg_taken_accepted w v W1 Hv)]. }
  intros w [stmt args|id stmt|id args|id|name cols rows|name cols ops cberr|name cr set|name cr ops cberr|name cr]; cbn [typed_call call_taken call_accepted]; auto.
  - intros [_ Hw]. exact (Ha w args Hw).
  - intros [_ Hw]. exact (Ha w args Hw).
  - intros (_ & _ & Hw) H. induction H as [|row rows [Hl Hr] H IH]; [constructor|]. inversion_clear Hw as [|? ? W1 W2].
    constructor; [split; [exact Hl|exact (exprs_accepted w row W1 Hr)]|exact (IH W2)].
  - intros (_ & _ & Hw) H. induction H as [|[row|lvl] ops Hr H IH]; [constructor| |contradiction]. cbn [rows_of] in Hw. inversion_clear Hw as [|? ? W1 W2].
    constructor; [exact (exprs_accepted w row W1 Hr)|exact (IH W2)].
  - intros (_ & Hc & _ & Hw) [Ht H]. split; [exact (criteria_accepted w cr Hc Ht)|]. induction H as [|[k v] set Hv H IH]; [constructor|]. cbn [map snd] in Hw. inversion_clear Hw as [|? ? W1 W2].
    constructor; [exact (proj1 (expr_taken_accepted_all w) v W1 Hv)|exact (IH W2)].
  - intros (_ & Hc & _ & Hw) [Ht H]. split; [exact (criteria_accepted w cr Hc Ht)|]. induction H as [|[k v|lvl] ops Hv H IH]; [constructor| |contradiction].
    cbn [sets_of map snd] in Hw. inversion_clear Hw as [|? ? W1 W2].
    constructor; [exact (proj1 (expr_taken_accepted_all w) v W1 Hv)|exact (IH W2)].
  - intros [_ Hc]. exact (criteria_accepted w cr Hc).
Qed.
