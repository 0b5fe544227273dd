(* Which error a call reports (ErrorProofs), when its values may also be values that are encoded wrongly. *)
From Coq Require Import String List NArith ZArith Arith Bool Lia ZifyN ZifyNat ZifyBool.
From Coq Require Import List.
From Verif Require Import Base GoSlice SliceProofs Varint VarintProofs SpecWire SpecMsg WireProofs Text TextProofs Values AnyModel ExprModel MsgModel Builder
  SpecValue SpecProg SpecUnit SpecError Pure AnyProofs HeadProofs ValueProofs MsgProofs BuilderProofs UnitProofs ShapeProofs ErrorProofs SpecTyped TypedProofs TypedRunProofs.
Import ListNotations.
Open Scope N_scope.
Open Scope list_scope.

Section Errors.
Context `{E : Env}.

(* ---- values ---- *)

Lemma lays_none : forall k Q K (S : Prop) W (f : enc) p, lays k word32 Q K S W f -> S -> W < 2 ^ 61 -> gives (f E p) None.
Proof using.
  intros k Q K S W f p [(bs & _ & _ & Hg)|[[_ HS]|[_ HW]]] s w; [|contradiction|lia].
  destruct (Hg E eq_refl p) as [sp ->]. apply gives_ok.
Qed.

Lemma expr_none : forall v p tag, 0 < tag < 16 -> well_formed word32 v -> expr_accepted v -> weight v < 2 ^ 61 -> gives (append_expr v p tag) None.
Proof using. intros v p tag Ht H1 Ha Hw. exact (lays_none _ _ _ _ _ _ p (expr_lays word32 v tag Ht H1) Ha Hw). Qed.
Lemma fun_none : forall f p tag, 0 < tag < 16 -> well_formed_fun word32 f -> fun_accepted f -> fun_weight f < 2 ^ 61 -> gives (run_fun f p tag) None.
Proof using. intros f p tag Ht H1 Ha Hw. exact (lays_none _ _ _ _ _ _ p (fun_lays word32 f tag Ht H1) Ha Hw). Qed.
Lemma any_none : forall v p tag, 0 < tag < 16 -> well_formed word32 v -> arg_accepted v -> weight v < 2 ^ 61 -> gives (append_any v p tag) None.
Proof using. intros v p tag Ht H1 Ha Hw. exact (lays_none _ _ _ _ _ _ p (any_lays word32 v tag Ht H1) Ha Hw). Qed.



Lemma before_none : forall before rest tag, 0 < tag < 16 -> Forall (well_formed word32) before -> Forall expr_accepted before ->
  total_weight weight (before ++ rest) < 2 ^ 61 -> forall y, In y before -> forall p, gives (append_expr y p tag) None.
Proof using.
  intros before rest tag Ht H1 H2 Hw y Hy p. rewrite total_app in Hw. pose proof (weight_in weight y before Hy).
  rewrite Forall_forall in H1, H2. apply expr_none; [exact Ht|apply H1, Hy|apply H2, Hy|lia].
Qed.

(* The first faulty parameter, with its position. *)
Lemma error_gives :
  (forall v e, expr_error v e -> well_formed word32 v -> weight v < 2 ^ 61 -> forall p tag, 0 < tag < 16 -> gives (append_expr v p tag) (Some e)) /\
  (forall f e, fun_error f e -> well_formed_fun word32 f -> fun_weight f < 2 ^ 61 -> forall p tag, 0 < tag < 16 -> gives (run_fun f p tag) (Some e)).
Proof using.
  apply expr_fun_error_ind.
  - intros a _ _ p tag _. apply gives_ok.
  - intros a u e Hu _ _ p tag _. cbn. apply gives_raises, Hu.
  - intros a _ _ p tag _. apply gives_ok.
  - intros i v Hv _ _ p tag _. cbn. destruct i; [apply gives_ok|]. destruct Hv as [Hv|Hv]; [discriminate|].
    destruct v; cbn in *; try apply gives_ok; try (destruct (Hv I)). destruct expr_method as [u|]; [destruct (Hv I)|apply gives_ok].
  - intros a u e Hu _ _ p tag _. cbn. apply gives_raises, Hu.
  - intros f e _ IH H1 Hw p tag Ht. exact (IH H1 Hw p tag Ht).
  - intros u e Hu _ _ p tag _. cbn. apply gives_raises, Hu.
  - intros name before x after e Hb _ IH [_ H1] Hw p tag Ht. cbn [fun_weight] in *. pose proof (proj1 (all_Forall _ _) H1) as Hf.
    apply Forall_app in Hf as [Hf1 Hf2]. inversion Hf2 as [|? ? Hx Hf3]; subst.
    assert (Hwx : weight x < 2 ^ 61) by (rewrite total_app, total_cons in Hw; lia).
    cbn [run_fun]. eapply gives_bind.
    + apply each_gives; [apply (before_none before (x :: after)); try assumption; unfold tagOperatorParam; lia|]. intros p'. apply IH; [assumption..|unfold tagOperatorParam; lia].
    + intros q. cbn. apply gives_ok.
  - intros name before x after e Hb _ IH [_ H1] Hw p tag Ht. cbn [fun_weight] in *. pose proof (proj1 (all_Forall _ _) H1) as Hf.
    apply Forall_app in Hf as [Hf1 Hf2]. inversion Hf2 as [|? ? Hx Hf3]; subst.
    assert (Hwx : weight x < 2 ^ 61) by (rewrite total_app, total_cons in Hw; lia).
    cbn [run_fun]. eapply gives_bind.
    + apply each_gives; [apply (before_none before (x :: after)); try assumption; unfold tagFunctionCallParam; lia|]. intros p'. apply IH; [assumption..|unfold tagFunctionCallParam; lia].
    + intros q. cbn. apply gives_ok.
Qed.


(* ---- rows and sets ---- *)

Lemma row_none : forall row p, typed_values word32 row -> Forall expr_accepted row -> total_weight weight row < 2 ^ 61 -> gives (append_insert_row p row) None.
Proof using.
  intros row p Hr Ha Hw. unfold append_insert_row. eapply gives_bind.
  - apply each_none. intros x Hx p'. apply (before_none row [] tagTypedRowField); try assumption; [unfold tagTypedRowField; lia|]. rewrite app_nil_r. exact Hw.
  - intros q. cbn beta iota zeta. apply gives_skip. intros q1. apply gives_skip. intros [q2 k]. apply gives_ok.
Qed.
Lemma row_gives : forall row e p, row_error row e -> typed_values word32 row -> total_weight weight row < 2 ^ 61 -> gives (append_insert_row p row) (Some e).
Proof using.
  intros row e p [before x after e' Hb Hx] Hr Hw. unfold append_insert_row. pose proof Hr as Hf. apply Forall_app in Hf as [Hf1 Hf2]. inversion Hf2 as [|? ? Hfx Hf3]; subst.
  eapply gives_bind.
  - apply each_gives; [apply (before_none before (x :: after)); try assumption; unfold tagTypedRowField; lia|].
    intros p'. apply (proj1 error_gives); [exact Hx|exact Hfx| |unfold tagTypedRowField; lia]. rewrite total_app, total_cons in Hw. lia.
  - intros q. apply gives_ok.
Qed.
Lemma set_none : forall name v p, well_formed word32 v -> expr_accepted v -> weight v < 2 ^ 61 -> gives (append_update_set p name v) None.
Proof using.
  intros name v p Hv Ha Hw. unfold append_update_set. eapply gives_bind; [apply expr_none; try assumption; unfold tagUpdateOperationValue; lia|].
  intros q. cbn beta iota. unfold okm. apply gives_skip. intros q1. apply gives_ok.
Qed.
Lemma set_gives : forall name v e p, expr_error v e -> well_formed word32 v -> weight v < 2 ^ 61 -> gives (append_update_set p name v) (Some e).
Proof using.
  intros name v e p He Hv Hw. unfold append_update_set. eapply gives_bind; [apply (proj1 error_gives); try eassumption; unfold tagUpdateOperationValue; lia|].
  intros q. apply gives_ok.
Qed.

Lemma args_gives : forall before x after e tag p, 0 < tag < 16 -> typed_values word32 (before ++ x :: after) -> Forall arg_accepted before -> arg_error x e ->
  total_weight weight (before ++ x :: after) < 2 ^ 61 -> gives (append_args tag (before ++ x :: after) p) (Some e).
Proof using.
  intros before x after e tag p Ht Hv Hb Hx Hw. unfold append_args. apply Forall_app in Hv as [Hv _]. rewrite total_app in Hw.
  apply (each_gives (fun v p => append_any v p tag) (fun _ e => e)).
  - intros y Hy p'. pose proof (weight_in weight y before Hy). rewrite Forall_forall in Hv, Hb. apply any_none; [exact Ht|apply Hv, Hy|apply Hb, Hy|lia].
  - intros p'. apply arg_gives, Hx.
Qed.

(* ---- calls ---- *)

Lemma rows_gives : forall ncols before rest e p i, Forall (fun row => length row = ncols /\ Forall expr_accepted row) before -> Forall (typed_values word32) before ->
  total_weight row_weight before < 2 ^ 61 -> (forall p, gives (insert_rows ncols (i + length before) rest p) (Some e)) ->
  gives (insert_rows ncols i (before ++ rest) p) (Some e).
Proof using.
  intros ncols before. induction before as [|row before IH]; intros rest e p i H1 H2 Hw H3; cbn [app].
  - cbn [length] in H3. rewrite Nat.add_0_r in H3. apply H3.
  - inversion H1 as [|? ? [Hl Ha] H1']; subst. inversion H2 as [|? ? Hv H2']; subst. cbn [insert_rows]. rewrite Nat.eqb_refl. rewrite total_cons in Hw. unfold row_weight at 1 in Hw.
    eapply gives_bind; [apply row_none; [assumption..|lia]|]. intros q. cbn beta iota. apply IH; [assumption..|lia|].
    intros p'. cbn [length] in H3. rewrite <- Nat.add_succ_comm in H3. apply H3.
Qed.

Lemma iops_gives : forall dis before rest e p, Forall iop_accepted before -> Forall (typed_values word32) (rows_of before) ->
  total_weight row_weight (rows_of before) < 2 ^ 61 -> (forall p, gives (run_iops dis rest p None) (Some e)) ->
  gives (run_iops dis (before ++ rest) p None) (Some e).
Proof using.
  intros dis before. induction before as [|[row|lvl] before IH]; intros rest e p H1 H2 Hw H3; cbn [app]; [apply H3| |].
  - inversion H1 as [|? ? Ha H1']; subst. cbn [rows_of] in *. inversion H2 as [|? ? Hv H2']; subst. rewrite total_cons in Hw. unfold row_weight at 1 in Hw.
    cbn [run_iops]. eapply gives_bind; [apply row_none; [assumption..|lia]|]. intros q. cbn beta iota. apply IH; [assumption..|lia|exact H3].
  - inversion H1 as [|? ? Hf _]. destruct Hf.
Qed.

Lemma sets_gives : forall before rest e p, Forall (fun kv => expr_accepted (snd kv)) before -> typed_values word32 (map snd before) ->
  total_weight set_weight before < 2 ^ 61 -> (forall p, gives (update_sets rest p) (Some e)) -> gives (update_sets (before ++ rest) p) (Some e).
Proof using.
  intros before. induction before as [|[k v] before IH]; intros rest e p H1 H2 Hw H3; cbn [app]; [apply H3|].
  inversion H1 as [|? ? Ha H1']; subst. cbn [map snd] in *. inversion H2 as [|? ? Hv H2']; subst. rewrite total_cons in Hw. unfold set_weight at 1 in Hw. cbn [fst snd] in Hw.
  cbn [update_sets]. eapply gives_bind; [apply set_none; [assumption..|lia]|]. intros q. cbn beta iota. apply IH; [assumption..|lia|exact H3].
Qed.
Lemma uops_gives : forall dis before rest e p, Forall uop_accepted before -> typed_values word32 (map snd (sets_of before)) ->
  total_weight set_weight (sets_of before) < 2 ^ 61 -> (forall p, gives (run_uops dis rest p None) (Some e)) -> gives (run_uops dis (before ++ rest) p None) (Some e).
Proof using.
  intros dis before. induction before as [|[k v|lvl] before IH]; intros rest e p H1 H2 Hw H3; cbn [app]; [apply H3| |].
  - inversion H1 as [|? ? Ha H1']; subst. cbn [sets_of map snd] in *. inversion H2 as [|? ? Hv H2']; subst. rewrite total_cons in Hw. unfold set_weight at 1 in Hw. cbn [fst snd] in Hw.
    cbn [run_uops]. eapply gives_bind; [apply set_none; [assumption..|lia]|]. intros q. cbn beta iota. apply IH; [assumption..|lia|exact H3].
  - inversion H1 as [|? ? Hf _]. destruct Hf.
Qed.


Lemma criteria_gives : forall p name cr, opt (well_formed_fun word32) cr -> opt fun_accepted cr -> criteria_weight cr < 2 ^ 61 -> gives (msg_update p name cr) None.
Proof using.
  intros p name cr Hok Ha Hw. unfold msg_update. cbn zeta. repeat (apply gives_skip; try intros [? ?]; intros).
  destruct cr as [f|]; [|apply gives_ok]. apply fun_none; [unfold tagUpdateCriteria; lia|assumption..].
Qed.
Lemma criteria_error : forall p name f e, well_formed_fun word32 f -> fun_error f e -> fun_weight f < 2 ^ 61 -> gives (msg_update p name (Some f)) (Some e).
Proof using.
  intros p name f e Hok He Hw. unfold msg_update. cbn zeta. repeat (apply gives_skip; try intros [? ?]; intros).
  apply (proj2 error_gives); [assumption..|unfold tagUpdateCriteria; lia].
Qed.

Lemma call_gives : forall dis c e p, call_error c e -> typed_call word32 c -> call_fits c -> gives (run_call dis c E p) (Some e).
Proof using.
  intros dis c e p He Hok Hf. unfold call_fits in Hf. destruct He; cbn [typed_call call_weight run_call] in *.
  - unfold stmt_execute. cbn zeta. apply gives_skip. intros q. eapply gives_bind; [apply args_gives; [unfold tagStmtExecuteArgs; lia|apply Hok|assumption|eassumption|unfold name_weight in Hf; lia]|].
    intros q'. apply gives_ok.
  - unfold msg_execute. cbn zeta. apply gives_skip. intros q. eapply gives_bind; [apply args_gives; [unfold tagExecuteArgs; lia|apply Hok|assumption|eassumption|lia]|].
    intros q'. apply gives_ok.
  - destruct Hok as (_ & _ & Hok). apply Forall_app in Hok as [Hok1 Hok2]. inversion Hok2 as [|? ? Hrow Hok3]; subst. rewrite total_app, total_cons in Hf.
    unfold do_insert. cbn zeta. apply gives_skip. intros q. eapply gives_bind.
    + apply rows_gives with (e := e); [assumption..|lia|]. intros p'. cbn [insert_rows]. rewrite (proj2 (Nat.eqb_eq _ _) H0). eapply gives_bind; [apply row_gives; [eassumption..|unfold row_weight in Hf; lia]|].
      intros q'. apply gives_ok.
    + intros q'. apply gives_ok.
  - destruct Hok as (_ & _ & Hok). apply Forall_app in Hok as [Hok1 Hok2]. rewrite total_app in Hf.
    unfold do_insert. cbn zeta. apply gives_skip. intros q. eapply gives_bind.
    + apply rows_gives; [assumption..|lia|]. intros p'. cbn [insert_rows]. rewrite (proj2 (Nat.eqb_neq _ _) H0). apply gives_ok.
    + intros q'. apply gives_ok.
  - destruct Hok as (_ & _ & Hok). rewrite rows_of_app in *. cbn [rows_of] in *. apply Forall_app in Hok as [Hok1 Hok2]. inversion Hok2 as [|? ? Hrow Hok3]; subst. rewrite total_app, total_cons in Hf.
    unfold do_insert_f. cbn zeta. apply gives_skip. intros q. eapply gives_bind.
    + apply iops_gives with (e := e); [assumption..|lia|]. intros p'. cbn [run_iops]. eapply gives_bind; [apply row_gives; [eassumption..|unfold row_weight in Hf; lia]|].
      intros q'. apply iops_keep.
    + intros q'. cbn beta iota. apply gives_skip. intros q2. apply gives_ok.
  - destruct Hok as (_ & Hcr & _). cbn [opt criteria_weight] in *. unfold do_update. cbn zeta. eapply gives_bind; [apply criteria_error; [assumption|eassumption|lia]|]. intros q. apply gives_ok.
  - destruct Hok as (_ & Hcr & _ & Hs). rewrite map_app in Hs. cbn [map snd] in Hs. apply Forall_app in Hs as [Hs1 Hs2]. inversion Hs2 as [|? ? Hv Hs3]; subst. rewrite total_app, total_cons in Hf. unfold set_weight at 2 in Hf. cbn [fst snd] in Hf.
    unfold do_update. cbn zeta. eapply gives_bind; [apply criteria_gives; [assumption..|lia]|]. intros q. cbn beta iota. eapply gives_bind.
    + apply sets_gives with (e := e); [assumption..|lia|]. intros p'. cbn [update_sets]. eapply gives_bind; [apply set_gives; [eassumption..|lia]|]. intros q'. apply gives_ok.
    + intros q'. apply gives_ok.
  - destruct Hok as (_ & Hcr & _). cbn [opt criteria_weight] in *. unfold do_update_f. cbn zeta. eapply gives_bind; [apply criteria_error; [assumption|eassumption|lia]|]. intros q. cbn beta iota.
    eapply gives_bind; [apply uops_keep|]. intros q'. cbn beta iota. apply gives_skip. intros q2. apply gives_ok.
  - destruct Hok as (_ & Hcr & _ & Hs). rewrite sets_of_app in *. cbn [sets_of] in *. rewrite map_app in Hs. cbn [map snd] in Hs. apply Forall_app in Hs as [Hs1 Hs2]. inversion Hs2 as [|? ? Hv Hs3]; subst. rewrite total_app, total_cons in Hf. unfold set_weight at 2 in Hf. cbn [fst snd] in Hf.
    unfold do_update_f. cbn zeta. eapply gives_bind; [apply criteria_gives; [assumption..|lia]|]. intros q. cbn beta iota. eapply gives_bind.
    + apply uops_gives with (e := e); [assumption..|lia|]. intros p'. cbn [run_uops]. eapply gives_bind; [apply set_gives; [eassumption..|lia]|]. intros q'. apply uops_keep.
    + intros q'. cbn beta iota. apply gives_skip. intros q2. apply gives_ok.
  - destruct Hok as (_ & Hcr). cbn [opt criteria_weight] in *. unfold msg_delete. cbn zeta. do 6 (apply gives_skip; try intros [? ?]; intros).
    eapply gives_bind; [apply (proj2 error_gives); [eassumption|assumption|lia|unfold tagDeleteCriteria; lia]|]. intros q. cbn beta iota. apply gives_skip. intros q2. apply gives_ok.
Qed.

End Errors.
