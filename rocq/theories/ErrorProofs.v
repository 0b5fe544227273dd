(* Which error a call reports, and that the first one is the one Send returns. *)
From Coq Require Import String List NArith ZArith Arith Bool Lia ZifyN ZifyNat ZifyBool.
From Coq Require Import List.
From Verif Require Import Base GoSlice SliceProofs Varint VarintProofs SpecWire SpecMsg WireProofs Text TextProofs Values AnyModel ExprModel MsgModel Builder
  SpecValue SpecProg SpecUnit SpecError Pure AnyProofs HeadProofs ValueProofs MsgProofs BuilderProofs UnitProofs ShapeProofs.
Import ListNotations.
Open Scope N_scope.
Open Scope list_scope.

Ltac Zify.zify_post_hook ::= Z.div_mod_to_equations.

(* If it returns at all, then with this error. *)
Definition gives (r : res (slice * option err)) (eo : option err) : Prop := forall q e, r = Ok (q, e) -> e = eo.

Lemma gives_ok : forall q e, gives (Ok (q, e)) e.
Proof. intros q e q' e' H. congruence. Qed.
Lemma gives_bind : forall r (k : slice * option err -> res (slice * option err)) e1 e2, gives r e1 -> (forall q, gives (k (q, e1)) e2) ->
  gives (bind r k) e2.
Proof. intros [[q e]|] k e1 e2 H1 H2; [|intros q e; discriminate]. rewrite (H1 q e eq_refl). apply H2. Qed.
Lemma gives_skip : forall {A} (r : res A) k e, (forall a, gives (k a) e) -> gives (bind r k) e.
Proof. intros A [a|] k e H; [apply H|intros q e'; discriminate]. Qed.
Lemma gives_raises : forall u e p tag, raises u e -> gives (u p tag) (Some e).
Proof. intros u e p tag H. destruct (H p tag) as [q ->]. apply gives_ok. Qed.

Scheme expr_error_ind2 := Minimality for expr_error Sort Prop
  with fun_error_ind2 := Minimality for fun_error Sort Prop.
Combined Scheme expr_fun_error_ind from expr_error_ind2, fun_error_ind2.

Section Errors.
Context `{E : Env}.

(* ---- values ---- *)

Lemma outcome_none : forall {A} (dec : bytes -> option A) tag D Q K (S : Prop) W (f : enc) p, outcome dec word32 tag D Q K S W f -> S -> W < 2 ^ 61 ->
  gives (f E p) None.
Proof using.
  intros A dec tag D Q K S W f p [(x & bs & pl & _ & _ & _ & _ & Hg)|[[_ HS]|[_ HW]]] s w; [|contradiction|lia].
  destruct (Hg E eq_refl p) as [sp ->]. apply gives_ok.
Qed.

Definition fine (v : gvalue) : Prop := well_formed word32 v /\ no_known_defect word32 v.

Lemma expr_none : forall v p tag, 0 < tag < 16 -> fine v -> expr_accepted v -> weight v < 2 ^ 61 -> gives (append_expr v p tag) None.
Proof using. intros v p tag Ht [H1 H2] Ha Hw. exact (outcome_none _ _ _ _ _ _ _ _ p (expr_outcome word32 v tag Ht H1 H2) Ha Hw). Qed.
Lemma fun_none : forall f p tag, 0 < tag < 16 -> fun_ok word32 f -> fun_accepted f -> fun_weight f < 2 ^ 61 -> gives (run_fun f p tag) None.
Proof using. intros f p tag Ht [H1 H2] Ha Hw. exact (outcome_none _ _ _ _ _ _ _ _ p (fun_outcome word32 f tag Ht H1 H2) Ha Hw). Qed.
Lemma any_none : forall v p tag, 0 < tag < 16 -> fine v -> arg_accepted v -> weight v < 2 ^ 61 -> gives (append_any v p tag) None.
Proof using. intros v p tag Ht [H1 H2] Ha Hw. exact (outcome_none _ _ _ _ _ _ _ _ p (any_outcome word32 v tag Ht H1 H2) Ha Hw). Qed.

Lemma each_none : forall {A} (f : A -> slice -> res (slice * option err)) wrap xs j p, (forall x, In x xs -> forall p, gives (f x p) None) ->
  gives (each f wrap j xs p) None.
Proof using.
  intros A f wrap xs. induction xs as [|x xs IH]; intros j p H; [apply gives_ok|]. rewrite each_cons.
  eapply gives_bind; [apply H; left; reflexivity|]. intros q. cbn. apply IH. intros y Hy. apply H. right. exact Hy.
Qed.
Lemma each_gives : forall {A} (f : A -> slice -> res (slice * option err)) wrap before x after e j p,
  (forall y, In y before -> forall p, gives (f y p) None) -> (forall p, gives (f x p) (Some e)) ->
  gives (each f wrap j (before ++ x :: after) p) (Some (wrap (j + length before)%nat e)).
Proof using.
  intros A f wrap before x after e. induction before as [|y before IH]; intros j p H1 H2; cbn [app length].
  - rewrite each_cons. eapply gives_bind; [apply H2|]. intros q. cbn. rewrite Nat.add_0_r. apply gives_ok.
  - rewrite each_cons. eapply gives_bind; [apply H1; left; reflexivity|]. intros q. cbn beta iota. rewrite <- Nat.add_succ_comm.
    apply IH; [|exact H2]. intros z Hz. apply H1. right. exact Hz.
Qed.

Lemma total_app : forall {A} (W : A -> N) xs ys, total_weight W (xs ++ ys) = total_weight W xs + total_weight W ys.
Proof using. intros A W xs ys. induction xs as [|x xs IH]; cbn [app]; [reflexivity|]. rewrite !total_cons, IH. lia. Qed.
Lemma weight_in : forall {A} (W : A -> N) x xs, In x xs -> W x <= total_weight W xs.
Proof using. intros A W x xs. induction xs as [|y xs IH]; intros []; rewrite total_cons; [subst; lia|]. specialize (IH H). lia. Qed.

Lemma before_none : forall before rest tag, 0 < tag < 16 -> Forall fine before -> Forall expr_accepted before ->
  total_weight weight (before ++ rest) < 2 ^ 61 -> forall y, In y before -> forall p, gives (append_expr y p tag) None.
Proof using.
  intros before rest tag Ht H1 H2 Hw y Hy p. rewrite total_app in Hw. pose proof (weight_in weight y before Hy).
  rewrite Forall_forall in H1, H2. apply expr_none; [exact Ht|apply H1, Hy|apply H2, Hy|lia].
Qed.

Lemma all_fine : forall ps, all (well_formed word32) ps -> all (no_known_defect word32) ps -> Forall fine ps.
Proof using.
  intros ps H1 H2. apply all_Forall in H1. apply all_Forall in H2. rewrite Forall_forall in *. intros x Hx. split; auto.
Qed.

(* The first faulty parameter, with its position. *)
Lemma error_gives :
  (forall v e, expr_error v e -> fine v -> weight v < 2 ^ 61 -> forall p tag, 0 < tag < 16 -> gives (append_expr v p tag) (Some e)) /\
  (forall f e, fun_error f e -> fun_ok word32 f -> fun_weight f < 2 ^ 61 -> forall p tag, 0 < tag < 16 -> gives (run_fun f p tag) (Some e)).
Proof using.
  apply expr_fun_error_ind.
  - intros a _ _ p tag _. apply gives_ok.
  - intros a u e Hu _ _ p tag _. cbn. apply gives_raises, Hu.
  - intros a _ _ p tag _. apply gives_ok.
  - intros i v Hv _ _ p tag _. cbn. destruct i; [apply gives_ok|]. destruct Hv as [Hv|Hv]; [discriminate|].
    destruct v; cbn in *; try apply gives_ok; try (destruct (Hv I)). destruct expr_method as [u|]; [destruct (Hv I)|apply gives_ok].
  - intros a u e Hu _ _ p tag _. cbn. apply gives_raises, Hu.
  - intros f e _ IH [H1 H2] Hw p tag Ht. exact (IH (conj H1 H2) Hw p tag Ht).
  - intros u e Hu _ _ p tag _. cbn. apply gives_raises, Hu.
  - intros name before x after e Hb _ IH [[_ H1] H2] Hw p tag Ht. cbn [no_known_defect_fun fun_weight] in *. pose proof (all_fine _ H1 H2) as Hf.
    apply Forall_app in Hf as [Hf1 Hf2]. inversion Hf2 as [|? ? Hx Hf3]; subst.
    assert (Hwx : weight x < 2 ^ 61) by (rewrite total_app, total_cons in Hw; lia).
    cbn [run_fun]. eapply gives_bind.
    + apply each_gives; [apply (before_none before (x :: after)); try assumption; unfold tagOperatorParam; lia|]. intros p'. apply IH; [assumption..|unfold tagOperatorParam; lia].
    + intros q. cbn. apply gives_ok.
  - intros name before x after e Hb _ IH [[_ H1] H2] Hw p tag Ht. cbn [no_known_defect_fun fun_weight] in *. pose proof (all_fine _ H1 H2) as Hf.
    apply Forall_app in Hf as [Hf1 Hf2]. inversion Hf2 as [|? ? Hx Hf3]; subst.
    assert (Hwx : weight x < 2 ^ 61) by (rewrite total_app, total_cons in Hw; lia).
    cbn [run_fun]. eapply gives_bind.
    + apply each_gives; [apply (before_none before (x :: after)); try assumption; unfold tagFunctionCallParam; lia|]. intros p'. apply IH; [assumption..|unfold tagFunctionCallParam; lia].
    + intros q. cbn. apply gives_ok.
Qed.

Lemma arg_gives : forall v e, arg_error v e -> forall p tag, gives (append_any v p tag) (Some e).
Proof using.
  assert (H : forall v e, arg_error v e -> forall p tag, gives (type_switch v p tag) (Some e)).
  { intros v e H. induction H as [m|f|u m e Hu|i|i v e H IH]; intros p tag; try apply gives_ok.
    - cbn. apply gives_raises, Hu.
    - cbn. destruct i; apply gives_ok.
    - cbn. destruct i; [apply IH|]. destruct H; cbn; try apply gives_ok; try (apply gives_raises; assumption); apply IH. }
  intros v e He p tag. destruct He; apply H; constructor; assumption.
Qed.

(* ---- rows and sets ---- *)

Lemma row_none : forall row p, values_ok word32 row -> Forall expr_accepted row -> total_weight weight row < 2 ^ 61 -> gives (append_insert_row p row) None.
Proof using.
  intros row p Hr Ha Hw. unfold append_insert_row. eapply gives_bind.
  - apply each_none. intros x Hx p'. apply (before_none row [] tagTypedRowField); try assumption; [unfold tagTypedRowField; lia|]. rewrite app_nil_r. exact Hw.
  - intros q. cbn beta iota zeta. apply gives_skip. intros q1. apply gives_skip. intros [q2 k]. apply gives_ok.
Qed.
Lemma row_gives : forall row e p, row_error row e -> values_ok word32 row -> total_weight weight row < 2 ^ 61 -> gives (append_insert_row p row) (Some e).
Proof using.
  intros row e p [before x after e' Hb Hx] Hr Hw. unfold append_insert_row. pose proof Hr as Hf. apply Forall_app in Hf as [Hf1 Hf2]. inversion Hf2 as [|? ? Hfx Hf3]; subst.
  eapply gives_bind.
  - apply each_gives; [apply (before_none before (x :: after)); try assumption; unfold tagTypedRowField; lia|].
    intros p'. apply (proj1 error_gives); [exact Hx|exact Hfx| |unfold tagTypedRowField; lia]. rewrite total_app, total_cons in Hw. lia.
  - intros q. apply gives_ok.
Qed.
Lemma set_none : forall name v p, fine v -> expr_accepted v -> weight v < 2 ^ 61 -> gives (append_update_set p name v) None.
Proof using.
  intros name v p Hv Ha Hw. unfold append_update_set. eapply gives_bind; [apply expr_none; try assumption; unfold tagUpdateOperationValue; lia|].
  intros q. cbn beta iota. unfold okm. apply gives_skip. intros q1. apply gives_ok.
Qed.
Lemma set_gives : forall name v e p, expr_error v e -> fine v -> weight v < 2 ^ 61 -> gives (append_update_set p name v) (Some e).
Proof using.
  intros name v e p He Hv Hw. unfold append_update_set. eapply gives_bind; [apply (proj1 error_gives); try eassumption; unfold tagUpdateOperationValue; lia|].
  intros q. apply gives_ok.
Qed.

Lemma args_gives : forall before x after e tag p, 0 < tag < 16 -> values_ok word32 (before ++ x :: after) -> Forall arg_accepted before -> arg_error x e ->
  total_weight weight (before ++ x :: after) < 2 ^ 61 -> gives (append_args tag (before ++ x :: after) p) (Some e).
Proof using.
  intros before x after e tag p Ht Hv Hb Hx Hw. unfold append_args. apply Forall_app in Hv as [Hv _]. rewrite total_app in Hw.
  apply (each_gives (fun v p => append_any v p tag) (fun _ e => e)).
  - intros y Hy p'. pose proof (weight_in weight y before Hy). rewrite Forall_forall in Hv, Hb. apply any_none; [exact Ht|apply Hv, Hy|apply Hb, Hy|lia].
  - intros p'. apply arg_gives, Hx.
Qed.

(* ---- calls ---- *)

Lemma rows_gives : forall ncols before rest e p i, Forall (fun row => length row = ncols /\ Forall expr_accepted row) before -> Forall (values_ok word32) before ->
  total_weight row_weight before < 2 ^ 61 -> (forall p, gives (insert_rows ncols (i + length before) rest p) (Some e)) ->
  gives (insert_rows ncols i (before ++ rest) p) (Some e).
Proof using.
  intros ncols before. induction before as [|row before IH]; intros rest e p i H1 H2 Hw H3; cbn [app].
  - cbn [length] in H3. rewrite Nat.add_0_r in H3. apply H3.
  - inversion H1 as [|? ? [Hl Ha] H1']; subst. inversion H2 as [|? ? Hv H2']; subst. cbn [insert_rows]. rewrite Nat.eqb_refl. rewrite total_cons in Hw. unfold row_weight at 1 in Hw.
    eapply gives_bind; [apply row_none; [assumption..|lia]|]. intros q. cbn beta iota. apply IH; [assumption..|lia|].
    intros p'. cbn [length] in H3. rewrite <- Nat.add_succ_comm in H3. apply H3.
Qed.

Lemma iops_gives : forall dis before rest e p, Forall iop_accepted before -> Forall (values_ok word32) (rows_of before) ->
  total_weight row_weight (rows_of before) < 2 ^ 61 -> (forall p, gives (run_iops dis rest p None) (Some e)) ->
  gives (run_iops dis (before ++ rest) p None) (Some e).
Proof using.
  intros dis before. induction before as [|[row|lvl] before IH]; intros rest e p H1 H2 Hw H3; cbn [app]; [apply H3| |].
  - inversion H1 as [|? ? Ha H1']; subst. cbn [rows_of] in *. inversion H2 as [|? ? Hv H2']; subst. rewrite total_cons in Hw. unfold row_weight at 1 in Hw.
    cbn [run_iops]. eapply gives_bind; [apply row_none; [assumption..|lia]|]. intros q. cbn beta iota. apply IH; [assumption..|lia|exact H3].
  - inversion H1 as [|? ? Hf _]. destruct Hf.
Qed.
Lemma iops_keep : forall dis ops p e, gives (run_iops dis ops p (Some e)) (Some e).
Proof using. intros dis ops p e q eo H. destruct (iops_error E dis ops p e) as [H1|H1]; rewrite H1 in H; congruence. Qed.
Lemma uops_keep : forall dis ops p e, gives (run_uops dis ops p (Some e)) (Some e).
Proof using. intros dis ops p e q eo H. destruct (uops_error E dis ops p e) as [H1|H1]; rewrite H1 in H; congruence. Qed.

Lemma sets_gives : forall before rest e p, Forall (fun kv => expr_accepted (snd kv)) before -> values_ok word32 (map snd before) ->
  total_weight set_weight before < 2 ^ 61 -> (forall p, gives (update_sets rest p) (Some e)) -> gives (update_sets (before ++ rest) p) (Some e).
Proof using.
  intros before. induction before as [|[k v] before IH]; intros rest e p H1 H2 Hw H3; cbn [app]; [apply H3|].
  inversion H1 as [|? ? Ha H1']; subst. cbn [map snd] in *. inversion H2 as [|? ? Hv H2']; subst. rewrite total_cons in Hw. unfold set_weight at 1 in Hw. cbn [fst snd] in Hw.
  cbn [update_sets]. eapply gives_bind; [apply set_none; [assumption..|lia]|]. intros q. cbn beta iota. apply IH; [assumption..|lia|exact H3].
Qed.
Lemma uops_gives : forall dis before rest e p, Forall uop_accepted before -> values_ok word32 (map snd (sets_of before)) ->
  total_weight set_weight (sets_of before) < 2 ^ 61 -> (forall p, gives (run_uops dis rest p None) (Some e)) -> gives (run_uops dis (before ++ rest) p None) (Some e).
Proof using.
  intros dis before. induction before as [|[k v|lvl] before IH]; intros rest e p H1 H2 Hw H3; cbn [app]; [apply H3| |].
  - inversion H1 as [|? ? Ha H1']; subst. cbn [sets_of map snd] in *. inversion H2 as [|? ? Hv H2']; subst. rewrite total_cons in Hw. unfold set_weight at 1 in Hw. cbn [fst snd] in Hw.
    cbn [run_uops]. eapply gives_bind; [apply set_none; [assumption..|lia]|]. intros q. cbn beta iota. apply IH; [assumption..|lia|exact H3].
  - inversion H1 as [|? ? Hf _]. destruct Hf.
Qed.

Lemma rows_of_app : forall a b, rows_of (a ++ b) = rows_of a ++ rows_of b.
Proof using. intros a b. induction a as [|[row|lvl] a IH]; cbn; [reflexivity| |]; rewrite IH; reflexivity. Qed.
Lemma sets_of_app : forall a b, sets_of (a ++ b) = sets_of a ++ sets_of b.
Proof using. intros a b. induction a as [|[k v|lvl] a IH]; cbn; [reflexivity| |]; rewrite IH; reflexivity. Qed.

Lemma criteria_gives : forall p name cr, opt (fun_ok word32) cr -> opt fun_accepted cr -> criteria_weight cr < 2 ^ 61 -> gives (msg_update p name cr) None.
Proof using.
  intros p name cr Hok Ha Hw. unfold msg_update. cbn zeta. repeat (apply gives_skip; try intros [? ?]; intros).
  destruct cr as [f|]; [|apply gives_ok]. apply fun_none; [unfold tagUpdateCriteria; lia|assumption..].
Qed.
Lemma criteria_error : forall p name f e, fun_ok word32 f -> fun_error f e -> fun_weight f < 2 ^ 61 -> gives (msg_update p name (Some f)) (Some e).
Proof using.
  intros p name f e Hok He Hw. unfold msg_update. cbn zeta. repeat (apply gives_skip; try intros [? ?]; intros).
  apply (proj2 error_gives); [assumption..|unfold tagUpdateCriteria; lia].
Qed.

Lemma call_gives : forall dis c e p, call_error c e -> call_ok word32 c -> call_fits c -> gives (run_call dis c E p) (Some e).
Proof using.
  intros dis c e p He Hok Hf. unfold call_fits in Hf. destruct He; cbn [call_ok call_weight run_call] in *.
  - unfold stmt_execute. cbn zeta. apply gives_skip. intros q. eapply gives_bind; [apply args_gives; [unfold tagStmtExecuteArgs; lia|apply Hok|assumption|eassumption|unfold name_weight in Hf; lia]|].
    intros q'. apply gives_ok.
  - unfold msg_execute. cbn zeta. apply gives_skip. intros q. eapply gives_bind; [apply args_gives; [unfold tagExecuteArgs; lia|apply Hok|assumption|eassumption|lia]|].
    intros q'. apply gives_ok.
  - destruct Hok as (_ & _ & Hok). apply Forall_app in Hok as [Hok1 Hok2]. inversion Hok2 as [|? ? Hrow Hok3]; subst. rewrite total_app, total_cons in Hf.
    unfold do_insert. cbn zeta. apply gives_skip. intros q. eapply gives_bind.
    + apply rows_gives with (e := e); [assumption..|lia|]. intros p'. cbn [insert_rows]. rewrite (proj2 (Nat.eqb_eq _ _) H0). eapply gives_bind; [apply row_gives; [eassumption..|unfold row_weight in Hf; lia]|].
      intros q'. apply gives_ok.
    + intros q'. apply gives_ok.
  - destruct Hok as (_ & _ & Hok). apply Forall_app in Hok as [Hok1 Hok2]. rewrite total_app in Hf.
    unfold do_insert. cbn zeta. apply gives_skip. intros q. eapply gives_bind.
    + apply rows_gives; [assumption..|lia|]. intros p'. cbn [insert_rows]. rewrite (proj2 (Nat.eqb_neq _ _) H0). apply gives_ok.
    + intros q'. apply gives_ok.
  - destruct Hok as (_ & _ & Hok). rewrite rows_of_app in *. cbn [rows_of] in *. apply Forall_app in Hok as [Hok1 Hok2]. inversion Hok2 as [|? ? Hrow Hok3]; subst. rewrite total_app, total_cons in Hf.
    unfold do_insert_f. cbn zeta. apply gives_skip. intros q. eapply gives_bind.
    + apply iops_gives with (e := e); [assumption..|lia|]. intros p'. cbn [run_iops]. eapply gives_bind; [apply row_gives; [eassumption..|unfold row_weight in Hf; lia]|].
      intros q'. apply iops_keep.
    + intros q'. cbn beta iota. apply gives_skip. intros q2. apply gives_ok.
  - destruct Hok as (_ & Hcr & _). cbn [opt criteria_weight] in *. unfold do_update. cbn zeta. eapply gives_bind; [apply criteria_error; [assumption|eassumption|lia]|]. intros q. apply gives_ok.
  - destruct Hok as (_ & Hcr & _ & Hs). rewrite map_app in Hs. cbn [map snd] in Hs. apply Forall_app in Hs as [Hs1 Hs2]. inversion Hs2 as [|? ? Hv Hs3]; subst. rewrite total_app, total_cons in Hf. unfold set_weight at 2 in Hf. cbn [fst snd] in Hf.
    unfold do_update. cbn zeta. eapply gives_bind; [apply criteria_gives; [assumption..|lia]|]. intros q. cbn beta iota. eapply gives_bind.
    + apply sets_gives with (e := e); [assumption..|lia|]. intros p'. cbn [update_sets]. eapply gives_bind; [apply set_gives; [eassumption..|lia]|]. intros q'. apply gives_ok.
    + intros q'. apply gives_ok.
  - destruct Hok as (_ & Hcr & _). cbn [opt criteria_weight] in *. unfold do_update_f. cbn zeta. eapply gives_bind; [apply criteria_error; [assumption|eassumption|lia]|]. intros q. cbn beta iota.
    eapply gives_bind; [apply uops_keep|]. intros q'. cbn beta iota. apply gives_skip. intros q2. apply gives_ok.
  - destruct Hok as (_ & Hcr & _ & Hs). rewrite sets_of_app in *. cbn [sets_of] in *. rewrite map_app in Hs. cbn [map snd] in Hs. apply Forall_app in Hs as [Hs1 Hs2]. inversion Hs2 as [|? ? Hv Hs3]; subst. rewrite total_app, total_cons in Hf. unfold set_weight at 2 in Hf. cbn [fst snd] in Hf.
    unfold do_update_f. cbn zeta. eapply gives_bind; [apply criteria_gives; [assumption..|lia]|]. intros q. cbn beta iota. eapply gives_bind.
    + apply uops_gives with (e := e); [assumption..|lia|]. intros p'. cbn [run_uops]. eapply gives_bind; [apply set_gives; [eassumption..|lia]|]. intros q'. apply uops_keep.
    + intros q'. cbn beta iota. apply gives_skip. intros q2. apply gives_ok.
  - destruct Hok as (_ & Hcr). cbn [opt criteria_weight] in *. unfold msg_delete. cbn zeta. do 6 (apply gives_skip; try intros [? ?]; intros).
    eapply gives_bind; [apply (proj2 error_gives); [eassumption|assumption|lia|unfold tagDeleteCriteria; lia]|]. intros q. cbn beta iota. apply gives_skip. intros q2. apply gives_ok.
Qed.

(* ---- steps ---- *)

Lemma call_step_error : forall dis c e b, call_ok word32 c -> call_fits c -> call_quiet c -> call_error c e -> disabled b = false -> berr b = None ->
  exists b1, exec_call dis c b = Ok b1 /\ disabled b1 = false /\ berr b1 = Some e.
Proof using.
  intros dis c e b Hok Hf Hq He Hd Hn. destruct (call_total dis c b Hok Hf (or_introl Hq) Hd Hn) as (b1 & H1 & H2 & _). exists b1. split; [exact H1|]. split; [exact H2|].
  unfold exec_call, guarded in H1. rewrite Hd, Hn in H1.
  change (match c with CStmtExecute stmt args => stmt_execute (buf b) _ _ | _ => _ end) with (run_call dis c E (buf b)) in H1.
  pose proof (call_gives dis c e (buf b) He Hok Hf) as Hg. destruct (run_call dis c E (buf b)) as [[q eo]|]; cbn [bind] in H1; [|discriminate].
  rewrite (Hg q eo eq_refl) in H1. assert (b1 = mkb q (Some e) false) by congruence. subst b1. reflexivity.
Qed.

Lemma row_step_error : forall name cols row e b, go_string name -> Forall go_string cols -> values_ok word32 row -> row_fits name cols row ->
  Forall panic_free row -> row_error row e -> disabled b = false -> berr b = None ->
  exists b1, b_insert_row name cols row b = Ok (b1, None) /\ disabled b1 = false /\ berr b1 = Some e.
Proof using.
  intros name cols row e b Hn Hc Hr Hf Hq He Hd Hb. destruct (insert_row_total name cols row b Hn Hc Hr Hf (or_introl Hq) Hd Hb) as (b1 & o & H1 & H2 & _).
  unfold b_insert_row in *. rewrite Hd, Hb in *. cbn zeta in *. destruct (msg_insert (buf b) name cols) as [p1|]; cbn [bind] in *; [|discriminate].
  assert (Hw : total_weight weight row < 2 ^ 61) by (unfold row_fits, row_size, row_weight in Hf; lia).
  pose proof (row_gives row e p1 He Hr Hw) as Hg. destruct (append_insert_row p1 row) as [[p2 eo]|]; cbn [bind] in *; [|discriminate].
  rewrite (Hg p2 eo eq_refl) in *. eauto.
Qed.

Lemma level_step_error : forall level b, tx_opening level = None -> disabled b = false -> berr b = None ->
  exists b1, block_begin (KTx level) b = Ok (b1, false) /\ disabled b1 = false /\ berr b1 = Some EIsolation.
Proof using.
  intros level b Hl Hd He. unfold block_begin. rewrite Hd, He. unfold tx_begin.
  destruct level as [|[[[l|l|]|[l|l|]|]|[[l|l|]|[l|l|]|]|]]; try discriminate; eauto.
Qed.

Lemma step_error_run : forall e t b outer, step_error word32 e t -> inner_only t -> disabled b = false -> berr b = None ->
  exists b1 out, run t (b :: outer) = Ok (b1 :: outer, out) /\ disabled b1 = false /\ berr b1 = Some e.
Proof using.
  intros e t b outer Ht Hi Hd He.
  assert (Rest : forall pr b1, inner_only pr -> disabled b1 = false -> berr b1 = Some e ->
    exists b2 out, run pr (b1 :: outer) = Ok (b2 :: outer, out) /\ disabled b2 = false /\ berr b2 = Some e).
  { intros pr b1 Hp Hd1 He1. destruct (run_error pr b1 outer Hp Hd1 ltac:(congruence)) as [out Ho]. exists b1, out. auto. }
  destruct Ht as [c next Hok Hf Hq Hc|name cols row next Hn Hc Hr Hf Hq Hre|level body next Hl ->]; cbn [run inner_only nth_error] in *.
  - edestruct (call_step_error (set_nth (map disabled (b :: outer)) 0 true) c e b Hok Hf Hq Hc Hd He) as (b1 & H1 & H2 & H3). rewrite H1. cbn [bind set_nth]. apply Rest; [apply Hi|assumption..].
  - edestruct (row_step_error name cols row e b) as (b1 & H1 & H2 & H3); try eassumption. rewrite H1. cbn [bind set_nth]. apply Rest; [apply Hi|assumption..].
  - edestruct (level_step_error level b Hl Hd He) as (b1 & H1 & H2 & H3). rewrite H1. cbn [bind set_nth]. apply Rest; [apply Hi|assumption..].
Qed.

(* ---- up to the step ---- *)

Lemma accepted_more : forall pr b outer, inner_only pr -> prog_ok word32 pr -> prog_accepted pr -> disabled b = false -> berr b = None ->
  exists b' out, run pr (b :: outer) = Ok (b' :: outer, out) /\ berr b' = None /\ Forall row_variable out.
Proof using.
  intros pr b outer Hi Hok Hq Hd He.
  unfold prog_accepted in Hq. edestruct (fun A HC HR HK => run_total _ _ _ A HC HR HK pr b outer Hi Hok Hq Hd He) as (b' & out & H & _ & Ho & Hb);
    [..|exists b', out; split; [exact H|split; [exact (Hb I)|exact (Ho (Hb I))]]].
  - intros c [H1 H2]. tauto.
  - intros name cols row [H1 H2]. tauto.
  - intros k H _. exact H.
Qed.

(* What the step does, the program does. *)
Lemma reaches_panic : forall (T : prog -> Prop) pr, (forall t b outer, T t -> disabled b = false -> berr b = None -> all_disabled outer -> run t (b :: outer) = Panic) ->
  reaches word32 T pr -> forall b outer, disabled b = false -> berr b = None -> all_disabled outer -> run pr (b :: outer) = Panic.
Proof using.
  intros T pr HT H. induction H as [pr H|c next Hok Ha Hf H IH|name cols row next Hn Hc Hr Ha Hf H IH|k body next Ho Hk H IH|k body next Ho Hk Hb1 Hb2 Hb3 H IH];
    intros b outer Hd He Hout; [apply HT; assumption|..]; cbn [run nth_error].
  - edestruct (call_total (set_nth (map disabled (b :: outer)) 0 true) c b Hok Hf (or_intror Ha) Hd He) as (b1 & H1 & H2 & H3). rewrite H1. cbn [bind set_nth]. apply IH; auto.
  - edestruct (insert_row_total name cols row b Hn Hc Hr Hf (or_intror Ha) Hd He) as (b1 & o & H1 & H2 & H3 & H4). rewrite H1. cbn [bind set_nth]. apply IH; auto.
  - destruct (block_begin_total k b Hk Hd He) as (b1 & en & H1 & H2 & H3 & H4 & H5). rewrite H1. rewrite (H5 Ho) in *. cbn [bind set_nth].
    rewrite IH; [reflexivity|reflexivity|cbn; auto|]. constructor; [reflexivity|assumption].
  - destruct (block_begin_total k b Hk Hd He) as (b1 & en & H1 & H2 & H3 & H4 & H5). rewrite H1. rewrite (H5 Ho) in *. cbn [bind set_nth].
    destruct (accepted_more body (mkb (buf b1) (berr b1) false) (mkb (buf b1) (berr b1) true :: outer) Hb2 Hb1 Hb3 eq_refl ltac:(cbn; auto)) as (b2 & out & -> & He2 & Hout2).
    cbn [bind]. destruct (block_end_total k (mkb (buf b2) (berr b2) false) eq_refl) as (b3 & -> & Hd3 & He3). cbn [bind set_nth berr] in *. apply IH; auto. congruence.
Qed.

Lemma reaches_error : forall e pr, reaches word32 (step_error word32 e) pr -> inner_only pr -> forall b outer, disabled b = false -> berr b = None ->
  exists b1 out, run pr (b :: outer) = Ok (b1 :: outer, out) /\ disabled b1 = false /\ berr b1 = Some e.
Proof using.
  intros e pr H. induction H as [pr H|c next Hok Ha Hf H IH|name cols row next Hn Hc Hr Ha Hf H IH|k body next Ho Hk H IH|k body next Ho Hk Hb1 Hb2 Hb3 H IH];
    intros Hi b outer Hd He; [apply step_error_run; assumption|..]; cbn [run nth_error inner_only] in *.
  - edestruct (call_total (set_nth (map disabled (b :: outer)) 0 true) c b Hok Hf (or_intror Ha) Hd He) as (b1 & H1 & H2 & H3). rewrite H1. cbn [bind set_nth]. apply IH; [apply Hi|auto..].
  - edestruct (insert_row_total name cols row b Hn Hc Hr Hf (or_intror Ha) Hd He) as (b1 & o & H1 & H2 & H3 & H4). rewrite H1. cbn [bind set_nth]. apply IH; auto. apply Hi.
  - destruct Hi as (_ & Hi1 & Hi2).
    destruct (block_begin_total k b Hk Hd He) as (b1 & en & H1 & H2 & H3 & H4 & H5). rewrite H1. rewrite (H5 Ho) in *. cbn [bind set_nth].
    destruct (IH Hi1 (mkb (buf b1) (berr b1) false) (mkb (buf b1) (berr b1) true :: outer) eq_refl ltac:(cbn; auto)) as (b2 & out & -> & Hd2 & He2). cbn [bind].
    destruct (block_end_total k (mkb (buf b2) (berr b2) false) eq_refl) as (b3 & -> & Hd3 & He3). cbn [bind set_nth berr] in *.
    destruct (run_error (next out) b3 outer (Hi2 out) Hd3 ltac:(congruence)) as [out2 Hout2]. exists b3, out2. split; [exact Hout2|]. split; [assumption|congruence].
  - destruct Hi as (_ & Hi1 & Hi2).
    destruct (block_begin_total k b Hk Hd He) as (b1 & en & H1 & H2 & H3 & H4 & H5). rewrite H1. rewrite (H5 Ho) in *. cbn [bind set_nth].
    destruct (accepted_more body (mkb (buf b1) (berr b1) false) (mkb (buf b1) (berr b1) true :: outer) Hb2 Hb1 Hb3 eq_refl ltac:(cbn; auto)) as (b2 & out & -> & He2 & Hout2).
    cbn [bind]. destruct (block_end_total k (mkb (buf b2) (berr b2) false) eq_refl) as (b3 & -> & Hd3 & He3). cbn [bind set_nth berr] in *. apply IH; auto. congruence.
Qed.

Lemma step_outer_panics : forall t b outer, step_outer t -> disabled b = false -> berr b = None -> all_disabled outer -> run t (b :: outer) = Panic.
Proof using.
  intros t b outer [lvl c next|lvl name cols row next|lvl k body next|name cols ops cberr lvl next Hin|name cr ops cberr lvl next Hin] Hd He Ho; cbn [run].
  - destruct (nth_error (b :: outer) (S lvl)) as [x|] eqn:Hx; [|reflexivity]. apply only_inner in Hx; [|assumption]. rewrite exec_disabled by assumption. reflexivity.
  - destruct (nth_error (b :: outer) (S lvl)) as [x|] eqn:Hx; [|reflexivity]. apply only_inner in Hx; [|assumption]. rewrite insert_row_disabled by assumption. reflexivity.
  - destruct (nth_error (b :: outer) (S lvl)) as [x|] eqn:Hx; [|reflexivity]. apply only_inner in Hx; [|assumption]. rewrite block_disabled by assumption. reflexivity.
  - cbn [nth_error]. unfold exec_call, guarded. rewrite Hd, He. unfold do_insert_f. cbn zeta. destruct (msg_insert _ _ _) as [p|]; [|reflexivity]. cbn [bind].
    rewrite (run_iops_outer E _ ops lvl); [reflexivity| |assumption]. apply all_true. assumption.
  - cbn [nth_error]. unfold exec_call, guarded. rewrite Hd, He. unfold do_update_f. cbn zeta. destruct (msg_update _ _ _) as [[p e]|]; [|reflexivity]. cbn [bind].
    rewrite (run_uops_outer E _ ops lvl); [reflexivity| |assumption]. apply all_true. assumption.
Qed.
End Errors.

(* ---- every fault has an error ---- *)

(* Every value is accepted or has an error. *)
Lemma first_fault : forall {A} (P : A -> Prop) (Q : A -> err -> Prop) xs, Forall (fun x => P x \/ exists e, Q x e) xs ->
  Forall P xs \/ exists before x after e, xs = before ++ x :: after /\ Forall P before /\ Q x e.
Proof.
  intros A P Q xs H. induction H as [|x xs [Hx|[e Hx]] H IH]; [left; constructor| |].
  - destruct IH as [IH|(before & y & after & e & -> & Hb & Hy)]; [left; constructor; assumption|]. right. exists (x :: before), y, after, e. auto.
  - right. exists [], x, xs, e. auto.
Qed.

Definition value_named (v : gvalue) : Prop := panic_free v -> settled v -> expr_accepted v \/ exists e, expr_error v e.
Definition fun_named (f : exprfun) : Prop := panic_free_fun f -> settled_fun f -> fun_accepted f \/ exists e, fun_error f e.

Lemma all_named : forall ps, Forall value_named ps -> all panic_free ps -> all settled ps -> Forall (fun x => expr_accepted x \/ exists e, expr_error x e) ps.
Proof.
  intros ps H H1 H2. apply all_Forall in H1. apply all_Forall in H2. rewrite Forall_forall in *. intros x Hx. apply H; auto.
Qed.

Lemma named : (forall v, value_named v) /\ (forall f, fun_named f).
Proof.
  assert (L1 : forall v, match v with VFunc (Some _) | VPtr _ _ => False | _ => True end -> value_named v).
  { intros v Hl Hp Hs. destruct v as [|z|z|z|z|z|n|n|n|n|n|s|b|b|bits|bits|t|d|s collation|b|s|b|s|b|[f|]|i v|a e|a [e|]]; try (left; exact I); try contradiction.
    - destruct Hp as [_ ->]. right. eexists. constructor.
    - destruct Hs as [_ [Hs|[x Hs]]]; [left; exact Hs|right; eexists; constructor; eassumption].
    - right. eexists. constructor. }
  assert (L2 : forall f, fun_named f -> value_named (VFunc (Some f))).
  { intros f H Hp Hs. destruct (H Hp Hs) as [Ha|[e He]]; [left; exact Ha|right; eexists; constructor; eassumption]. }
  assert (L3 : forall i v, value_named v -> value_named (VPtr i v)).
  { intros i v _ Hp Hs. destruct i; [right; eexists; constructor; left; reflexivity|].
    destruct v as [|z|z|z|z|z|n|n|n|n|n|s|b|b|bits|bits|t|d|s collation|b|s|b|s|b|[f|]|i v|a e|a [e|]]; try (left; exact I); try (right; eexists; constructor; right; cbn; tauto).
    destruct Hs as [_ [Hs|[x Hs]]]; [left; exact Hs|right; eexists; constructor; eassumption]. }
  assert (L4 : forall f, match f with EOperator _ _ | ECall _ _ => False | _ => True end -> fun_named f).
  { intros [name|name ps|name ps|name|pos|u] Hl Hp Hs; try (left; exact I); try contradiction.
    destruct Hs as [Hs|[x Hs]]; [left; exact Hs|right; eexists; constructor; eassumption]. }
  assert (L5 : forall name ps, Forall value_named ps -> fun_named (EOperator name ps)).
  { intros name ps H Hp Hs. destruct (first_fault _ _ _ (all_named ps H Hp Hs)) as [Ha|(before & x & after & e & -> & Hb & Hx)];
      [left; apply all_Forall; exact Ha|right; eexists; constructor; eassumption]. }
  assert (L6 : forall name ps, Forall value_named ps -> fun_named (ECall name ps)).
  { intros name ps H Hp Hs. destruct (first_fault _ _ _ (all_named ps H Hp Hs)) as [Ha|(before & x & after & e & -> & Hb & Hx)];
      [left; apply all_Forall; exact Ha|right; eexists; constructor; eassumption]. }
  split.
  - exact (gvalue_deep _ _ L1 L2 L3 L4 L5 L6).
  - exact (exprfun_deep _ _ L1 L2 L3 L4 L5 L6).
Qed.

Lemma arg_named : forall v, panic_free v -> settled v -> arg_accepted v \/ exists e, arg_error v e.
Proof.
  assert (B : forall v, panic_free v -> settled v -> arg_behind_pointer v \/ v = VNil \/ exists e, arg_error v e).
  { fix B 1. intros v Hp Hs. destruct v as [|z|z|z|z|z|n|n|n|n|n|s|b|b|bits|bits|t|d|s collation|b|s|b|s|b|f|i v|a e|[u|] e]; try (left; exact I).
    - right. left. reflexivity.
    - right. right. eexists. constructor.
    - destruct (B v Hp Hs) as [H|[->|[e H]]]; [left; exact H|right; right; eexists; constructor..]. exact H.
    - left. apply Hp.
    - destruct Hs as [[Hs|[x Hs]] _]; [left; exact Hs|right; right; eexists; constructor; eassumption].
    - right. right. eexists. constructor. }
  intros v Hp Hs. destruct (B v Hp Hs) as [H|[H|H]]; [left; right; exact H|left; left; exact H|right; exact H].
Qed.

Lemma args_named : forall args, Forall panic_free args -> Forall settled args -> Forall (fun x => arg_accepted x \/ exists e, arg_error x e) args.
Proof. intros args H1 H2. rewrite Forall_forall in *. intros x Hx. apply arg_named; auto. Qed.

Lemma row_named : forall row, Forall panic_free row -> Forall settled row -> Forall expr_accepted row \/ exists e, row_error row e.
Proof.
  intros row H1 H2. assert (H : Forall (fun x => expr_accepted x \/ exists e, expr_error x e) row).
  { rewrite Forall_forall in *. intros x Hx. apply (proj1 named); auto. }
  destruct (first_fault _ _ _ H) as [Ha|(before & x & after & e & -> & Hb & Hx)]; [left; exact Ha|right; eexists; constructor; eassumption].
Qed.

Lemma call_named : forall c, call_quiet c -> call_settled c -> call_accepted c \/ exists e, call_error c e.
Proof.
  intros [stmt args|id stmt|id args|id|name cols rows|name cols ops cberr|name cr set|name cr ops cberr|name cr] Hq Hs; cbn [call_quiet call_settled call_accepted] in *.
  - destruct (first_fault _ _ _ (args_named _ Hq Hs)) as [Ha|(before & x & after & e & -> & Hb & Hx)]; [left; exact Ha|right; eexists; constructor; eassumption].
  - left. exact I.
  - destruct (first_fault _ _ _ (args_named _ Hq Hs)) as [Ha|(before & x & after & e & -> & Hb & Hx)]; [left; exact Ha|right; eexists; constructor; eassumption].
  - left. exact I.
  - assert (H : Forall (fun row => (length row = length cols /\ Forall expr_accepted row) \/
        exists e, (length row = length cols /\ row_error row e) \/ (length row <> length cols /\ e = EUser 0)) rows).
    { rewrite Forall_forall in *. intros row Hr. destruct (Nat.eq_dec (length row) (length cols)) as [Hl|Hl]; [|right; eauto].
      destruct (row_named row (Hq row Hr) (Hs row Hr)) as [Ha|[e He]]; [left; auto|right; eauto]. }
    destruct (first_fault _ _ _ H) as [Ha|(before & x & after & e & -> & Hb & [[Hl Hx]|[Hl _]])]; [left; exact Ha|right..].
    + eexists. apply CE_insert; eassumption.
    + eexists. apply CE_insert_length; eassumption.
  - assert (H : Forall (fun o => iop_accepted o \/ exists e, match o with IRow row => row_error row e | IOuter _ => False end) ops).
    { clear name cols cberr. induction ops as [|[row|lvl] ops IH]; [constructor| |]; inversion Hq as [|? ? Hq1 Hq2]; subst; [|contradiction].
      cbn [rows_of] in Hs. inversion Hs as [|? ? Hs1 Hs2]; subst. constructor; [|apply IH; assumption].
      destruct (row_named row Hq1 Hs1) as [Ha|[e He]]; [left; exact Ha|right; eauto]. }
    destruct (first_fault _ _ _ H) as [Ha|(before & [row|lvl] & after & e & -> & Hb & Hx)]; [left; exact Ha|right; eexists; apply CE_insert_f; eassumption|contradiction].
  - destruct Hq as [Hq1 Hq2], Hs as [Hs1 Hs2].
    assert (Hc : opt fun_accepted cr \/ exists f e, cr = Some f /\ fun_error f e).
    { destruct cr as [f|]; [|left; exact I]. destruct (proj2 named f Hq1 Hs1) as [Ha|[e He]]; [left; exact Ha|right; eauto]. }
    destruct Hc as [Hc|(f & e & -> & He)]; [|right; eexists; apply CE_update_criteria; eassumption].
    assert (H : Forall (fun kv => expr_accepted (snd kv) \/ exists e, expr_error (snd kv) e) set).
    { rewrite Forall_forall in *. intros x Hx. apply (proj1 named); auto. }
    destruct (first_fault _ _ _ H) as [Ha|(before & [k x] & after & e & -> & Hb & Hx)]; [left; auto|right; eexists; apply CE_update; eassumption].
  - destruct Hq as [Hq1 Hq2], Hs as [Hs1 Hs2].
    assert (Hc : opt fun_accepted cr \/ exists f e, cr = Some f /\ fun_error f e).
    { destruct cr as [f|]; [|left; exact I]. destruct (proj2 named f Hq1 Hs1) as [Ha|[e He]]; [left; exact Ha|right; eauto]. }
    destruct Hc as [Hc|(f & e & -> & He)]; [|right; eexists; apply CE_update_f_criteria; eassumption].
    assert (H : Forall (fun o => uop_accepted o \/ exists e, match o with USet _ v => expr_error v e | UOuter _ => False end) ops).
    { clear name cr cberr Hq1 Hs1 Hc. induction ops as [|[k v|lvl] ops IH]; [constructor| |]; inversion Hq2 as [|? ? Hq3 Hq4]; subst; [|contradiction].
      cbn [sets_of] in Hs2. inversion Hs2 as [|? ? Hs3 Hs4]; subst. constructor; [|apply IH; assumption].
      destruct (proj1 named v Hq3 Hs3) as [Ha|[e He]]; [left; exact Ha|right; eauto]. }
    destruct (first_fault _ _ _ H) as [Ha|(before & [k v|lvl] & after & e & -> & Hb & Hx)]; [left; auto|right; eexists; apply CE_update_f; eassumption|contradiction].
  - destruct cr as [f|]; [|left; exact I]. destruct (proj2 named f Hq Hs) as [Ha|[e He]]; [left; exact Ha|right; eexists; apply CE_delete; eassumption].
Qed.


(* ---- two builders in step ---- *)

Definition locked (b1 b2 : builder) : Prop :=
  disabled b1 = false /\ disabled b2 = false /\ berr b1 = berr b2 /\ (berr b1 = None -> data (buf b1) = data (buf b2)).

Section Locked.
Variables (E1 E2 : Env) (HW : @word32 E1 = @word32 E2).

Lemma outcome_locked : forall D Q S W (f : enc) p1 p2, msg_outcome (@word32 E1) D Q S W f -> W < 2 ^ 61 ->
  S \/ (Q /\ exists e, gives (f E1 p1) (Some e) /\ gives (f E2 p2) (Some e)) -> data p1 = data p2 ->
  exists q1 q2 eo, f E1 p1 = Ok (q1, eo) /\ f E2 p2 = Ok (q2, eo) /\ (eo = None -> data q1 = data q2).
Proof using HW.
  intros D Q S W f p1 p2 Ho Hw HS Hp.
  assert (G : forall bs, good (@word32 E1) f bs -> exists q1 q2 eo, f E1 p1 = Ok (q1, eo) /\ f E2 p2 = Ok (q2, eo) /\ (eo = None -> data q1 = data q2)).
  { intros bs Hg. destruct (Hg E1 eq_refl p1) as [s1 H1]. destruct (Hg E2 (eq_sym HW) p2) as [s2 H2]. do 3 eexists. split; [exact H1|]. split; [exact H2|].
    intros _. cbn [data]. rewrite Hp. reflexivity. }
  destruct Ho as [(m & bs & _ & _ & _ & Hg)|[[[_ B] N]|[_ [_ Hg]]]].
  - exact (G bs Hg).
  - destruct HS as [HS|[q (e & Ge1 & Ge2)]]; [contradiction|]. destruct (B q E1 eq_refl p1) as (q1 & e1 & H1 & _). destruct (B q E2 (eq_sym HW) p2) as (q2 & e2 & H2 & _).
    pose proof (Ge1 _ _ H1) as X1. pose proof (Ge2 _ _ H2) as X2. injection X1 as ->. injection X2 as ->.
    exists q1, q2, (Some e). split; [assumption|]. split; [assumption|discriminate].
  - destruct (Hg Hw) as (bs & _ & Hg'). exact (G bs Hg').
Qed.

Lemma call_locked : forall d1 d2 c b1 b2, call_ok (@word32 E1) c -> call_quiet c -> call_settled c -> call_fits c -> d1 = d2 -> locked b1 b2 -> berr b1 = None ->
  exists c1 c2, @exec_call E1 d1 c b1 = Ok c1 /\ @exec_call E2 d2 c b2 = Ok c2 /\ locked c1 c2.
Proof using HW.
  intros d1 d2 c b1 b2 Hok Hq Hs Hf <- (L1 & L2 & L3 & L4) He. unfold exec_call, guarded. rewrite L1, L2, <- L3, He.
  change (match c with CStmtExecute stmt args => @stmt_execute E1 (buf b1) _ _ | _ => _ end) with (run_call d1 c E1 (buf b1)).
  change (match c with CStmtExecute stmt args => @stmt_execute E2 (buf b2) _ _ | _ => _ end) with (run_call d1 c E2 (buf b2)).
  destruct (outcome_locked _ _ _ _ _ (buf b1) (buf b2) (call_outcome (@word32 E1) d1 c Hok) Hf) as (q1 & q2 & eo & -> & -> & Hd); [|exact (L4 He)|].
  - destruct (call_named c Hq Hs) as [Ha|[e Hc]]; [left; exact Ha|right; split; [exact Hq|]]. exists e.
    split; [apply (@call_gives E1)|apply (@call_gives E2)]; try assumption. rewrite <- HW. exact Hok.
  - cbn [bind]. do 2 eexists. split; [reflexivity|]. split; [reflexivity|]. unfold locked. cbn [disabled berr buf]. auto.
Qed.

Lemma statement_locked : forall s b1 b2, go_string s -> nlen s < 2 ^ 60 -> locked b1 b2 -> berr b1 = None ->
  exists c1 c2, @b_stmt_execute E1 s [] b1 = Ok c1 /\ @b_stmt_execute E2 s [] b2 = Ok c2 /\ locked c1 c2 /\ berr c1 = None.
Proof using HW.
  intros s b1 b2 Hs Hn Hl He. destruct (call_locked [] [] (CStmtExecute s []) b1 b2) as (c1 & c2 & H1 & H2 & H3); try assumption; try (constructor; fail).
  - split; [assumption|constructor].
  - unfold call_fits. cbn [call_weight total_weight]. unfold name_weight. lia.
  - exists c1, c2. split; [exact H1|]. split; [exact H2|]. split; [exact H3|].
    destruct (@statement_total E1 s b1 Hs Hn (proj1 Hl) He) as (c & Hc & _ & Hn'). unfold exec_call in H1. unfold b_stmt_execute in Hc. rewrite H1 in Hc. injection Hc as ->. exact Hn'.
Qed.

Lemma insert_row_alike : forall name cols row b1 b2, go_string name -> Forall go_string cols -> values_ok (@word32 E1) row ->
  Forall expr_accepted row \/ (Forall panic_free row /\ exists e, row_error row e) -> row_fits name cols row -> locked b1 b2 -> berr b1 = None ->
  exists c1 c2 o, @b_insert_row E1 name cols row b1 = Ok (c1, o) /\ @b_insert_row E2 name cols row b2 = Ok (c2, o) /\ locked c1 c2.
Proof using HW.
  intros name cols row b1 b2 Hn Hc Hr Hq Hf (L1 & L2 & L3 & L4) He.
  assert (Hw : total_weight weight row < 2 ^ 61) by (unfold row_fits, row_size, row_weight in Hf; lia).
  assert (Hgive : forall e, row_error row e -> gives (row_enc name cols row E1 (buf b1)) (Some e) /\ gives (row_enc name cols row E2 (buf b2)) (Some e)).
  { intros e Hre. unfold row_enc, patched, seq, okm. split; (apply gives_bind with (e1 := Some e); [|intros; apply gives_ok]).
    - eapply gives_bind; [apply gives_skip; intros; apply gives_ok|]. intros q. cbn beta iota. apply (@row_gives E1); assumption.
    - eapply gives_bind; [apply gives_skip; intros; apply gives_ok|]. intros q. cbn beta iota. apply (@row_gives E2); try assumption. rewrite <- HW. exact Hr. }
  destruct (outcome_locked _ _ _ _ (row_enc name cols row) (buf b1) (buf b2) (row_outcome (@word32 E1) name cols row Hn Hc Hr) Hf) as (q1 & q2 & eo & H1 & H2 & Hd); [|exact (L4 He)|].
  { destruct Hq as [Ha|[Hq [e Hre]]]; [left; exact Ha|right; split; [exact Hq|]]. exists e. apply Hgive, Hre. }
  assert (He2 : berr b2 = None) by congruence.
  destruct eo as [e|].
  - unfold row_enc, patched, seq, okm in H1, H2. unfold b_insert_row. rewrite L1, L2, He, He2. cbn zeta.
    destruct (msg_insert (buf b1) name cols) as [x1|]; cbn [bind] in H1 |- *; [|discriminate].
    destruct (msg_insert (buf b2) name cols) as [x2|]; cbn [bind] in H2 |- *; [|discriminate].
    destruct (@append_insert_row E1 x1 row) as [[y1 [e1|]]|]; cbn [bind] in H1 |- *; [| |discriminate].
    2: { destruct (patch_length y1 (len (buf b1))); cbn [bind] in H1; discriminate. }
    destruct (@append_insert_row E2 x2 row) as [[y2 [e2|]]|]; cbn [bind] in H2 |- *; [| |discriminate].
    2: { destruct (patch_length y2 (len (buf b2))); cbn [bind] in H2; discriminate. }
    injection H1 as -> ->. injection H2 as -> ->. do 3 eexists. split; [reflexivity|]. split; [reflexivity|]. unfold locked. cbn [disabled berr buf]. repeat split. discriminate.
  - specialize (Hd eq_refl). rewrite (proj1 (insert_row_eq E1 name cols row b1 L1 He) q1 H1), (proj1 (insert_row_eq E2 name cols row b2 L2 He2) q2 H2).
    assert (Hid : insert_id q2 = insert_id q1) by (unfold insert_id, len; rewrite Hd; reflexivity). rewrite Hid.
    assert (Hb : Forall (fun x => x < 256) (insert_id q1) /\ nlen (insert_id q1) <= 23) by (apply id_of_small; apply N.mod_upper_bound; discriminate).
    destruct (statement_locked (set_statement (insert_id q1)) (mkb q1 None false) (mkb q2 None false)) as (c1 & c2 & -> & -> & Hlk & _).
    + apply set_statement_ok.
    + unfold set_statement. rewrite !nlen_app. rewrite !(proj2 (s2b_go _)). cbn [String.length]. lia.
    + unfold locked. cbn [disabled berr buf]. auto.
    + reflexivity.
    + cbn [bind]. do 3 eexists. split; [reflexivity|]. split; [reflexivity|]. exact Hlk.
Qed.

Lemma insert_row_locked : forall name cols row b1 b2, go_string name -> Forall go_string cols -> values_ok (@word32 E1) row ->
  Forall panic_free row -> Forall settled row -> row_fits name cols row -> locked b1 b2 -> berr b1 = None ->
  exists c1 c2 o, @b_insert_row E1 name cols row b1 = Ok (c1, o) /\ @b_insert_row E2 name cols row b2 = Ok (c2, o) /\ locked c1 c2.
Proof using HW.
  intros name cols row b1 b2 Hn Hc Hr Hq Hs. apply insert_row_alike; try assumption. destruct (row_named row Hq Hs) as [Ha|He]; auto.
Qed.

Lemma block_begin_locked : forall k b1 b2, blk_ok k -> locked b1 b2 -> berr b1 = None ->
  exists c1 c2 en, @block_begin E1 k b1 = Ok (c1, en) /\ @block_begin E2 k b2 = Ok (c2, en) /\ locked c1 c2.
Proof using HW.
  intros k b1 b2 Hk Hl He. pose proof Hl as (L1 & L2 & L3 & L4). unfold block_begin. rewrite L1, L2, <- L3, He. destruct k as [lvl|ctx].
  - assert (Hone : forall s, go_string s -> nlen s < 2 ^ 60 ->
      exists c1 c2 en, (do b <- @b_stmt_execute E1 s [] b1; Ok (b, true)) = Ok (c1, en) /\ (do b <- @b_stmt_execute E2 s [] b2; Ok (b, true)) = Ok (c2, en) /\ locked c1 c2).
    { intros s Hs Hn. destruct (statement_locked s b1 b2 Hs Hn Hl He) as (c1 & c2 & -> & -> & H & _). cbn [bind]. eauto 10. }
    assert (Htwo : forall s1 s2, go_string s1 -> go_string s2 -> nlen s1 < 2 ^ 60 -> nlen s2 < 2 ^ 60 ->
      exists c1 c2 en, (do b <- @b_stmt_execute E1 s1 [] b1; do b <- @b_stmt_execute E1 s2 [] b; Ok (b, true)) = Ok (c1, en) /\
        (do b <- @b_stmt_execute E2 s1 [] b2; do b <- @b_stmt_execute E2 s2 [] b; Ok (b, true)) = Ok (c2, en) /\ locked c1 c2).
    { intros s1 s2 Hs1 Hs2 Hn1 Hn2. destruct (statement_locked s1 b1 b2 Hs1 Hn1 Hl He) as (x1 & x2 & -> & -> & H & Hx). cbn [bind].
      destruct (statement_locked s2 x1 x2 Hs2 Hn2 H Hx) as (c1 & c2 & -> & -> & H' & _). cbn [bind]. eauto 10. }
    unfold tx_begin.
    destruct lvl as [|[[[lvl|lvl|]|[lvl|lvl|]|]|[[lvl|lvl|]|[lvl|lvl|]|]|]];
      first [apply Hone; [split; [apply s2b_go|reflexivity]|reflexivity] | apply Htwo; [split; [apply s2b_go|reflexivity]|split; [apply s2b_go|reflexivity]|reflexivity|reflexivity] |
        do 3 eexists; split; [reflexivity|]; split; [reflexivity|]; unfold locked; cbn [disabled berr buf]; repeat split; try assumption; discriminate].
  - cbn [blk_ok] in Hk. pose proof (open_outcome (@word32 E1) ctx (eq (MExpectOpen ctx [no_error_1])) True True 512 Hk ltac:(lia) eq_refl) as Ho.
    destruct (outcome_locked _ _ _ _ _ (buf b1) (buf b2) Ho ltac:(lia) (or_introl I) (L4 He)) as (q1 & q2 & eo & H1 & H2 & Hd). unfold okm in H1, H2.
    destruct (@expect_open E1 (buf b1) ctx [ONoError true]) as [x1|]; [|discriminate]. destruct (@expect_open E2 (buf b2) ctx [ONoError true]) as [x2|]; [|discriminate].
    cbn [bind] in *. assert (x1 = q1 /\ eo = None) as [-> ->] by (split; congruence). assert (x2 = q2) as -> by congruence.
    do 3 eexists. split; [reflexivity|]. split; [reflexivity|]. unfold locked. cbn [disabled berr buf]. auto.
Qed.

Lemma block_end_locked : forall k b1 b2, locked b1 b2 ->
  exists c1 c2, @block_end E1 k b1 = Ok c1 /\ @block_end E2 k b2 = Ok c2 /\ locked c1 c2.
Proof using HW.
  intros k b1 b2 Hl. pose proof Hl as (L1 & L2 & L3 & L4). destruct k as [lvl|ctx]; cbn [block_end].
  - destruct (berr b1) as [e|] eqn:He.
    + exists b1, b2. unfold b_stmt_execute, guarded. rewrite L1, L2, <- L3, He. auto.
    + destruct (statement_locked (s2b "COMMIT") b1 b2) as (c1 & c2 & H1 & H2 & H & _); [split; [apply s2b_go|reflexivity]|reflexivity|assumption..|]. eauto.
  - do 2 eexists. split; [reflexivity|]. split; [reflexivity|]. unfold locked. cbn [disabled berr buf]. repeat split; try assumption. intros He.
    pose proof (close_outcome (@word32 E1) (eq MExpectClose) True True 512 eq_refl) as Ho.
    destruct (outcome_locked _ _ _ _ _ (buf b1) (buf b2) Ho ltac:(lia) (or_introl I) (L4 He)) as (q1 & q2 & eo & H1 & H2 & Hd). cbv beta in H1, H2.
    injection H1 as -> <-. injection H2 as ->. apply Hd. reflexivity.
Qed.

(* With an error, programs change nothing; otherwise the two builders go the same way. *)
Lemma run_locked : forall pr b1 b2 o1 o2, inner_only pr -> prog_ok (@word32 E1) pr -> prog_settled pr -> locked b1 b2 -> berr b1 = None -> map disabled o1 = map disabled o2 ->
  exists c1 c2 out1 out2, @run E1 pr (b1 :: o1) = Ok (c1 :: o1, out1) /\ @run E2 pr (b2 :: o2) = Ok (c2 :: o2, out2) /\ locked c1 c2 /\
    (berr c1 = None -> out1 = out2 /\ Forall row_variable out1).
Proof using HW.
  assert (Err : forall p1 p2 b1 b2 o1 o2, inner_only p1 -> inner_only p2 -> locked b1 b2 -> berr b1 <> None ->
    exists c1 c2 out1 out2, @run E1 p1 (b1 :: o1) = Ok (c1 :: o1, out1) /\ @run E2 p2 (b2 :: o2) = Ok (c2 :: o2, out2) /\ locked c1 c2 /\
      (berr c1 = None -> out1 = out2 /\ Forall row_variable out1)).
  { intros p1 p2 b1 b2 o1 o2 Hi1 Hi2 Hl He. pose proof Hl as (L1 & L2 & L3 & _).
    destruct (@run_error E1 p1 b1 o1 Hi1 L1 He) as [x Hx]. destruct (@run_error E2 p2 b2 o2 Hi2 L2 ltac:(congruence)) as [y Hy]. exists b1, b2, x, y.
    split; [exact Hx|]. split; [exact Hy|]. split; [exact Hl|]. intros; contradiction. }
  induction pr as [cberr out0|lvl c next IH|lvl name cols row next IH|lvl k body IHb next IHn]; intros b1 b2 o1 o2 Hi Hok Hs Hl He Hm;
    unfold prog_settled in *; cbn [run inner_only prog_ok prog_all] in *.
  - exists b1, b2, out0, out0. auto.
  - destruct Hi as [-> Hi], Hok as [Hc Hok], Hs as [(Q1 & Q2 & Q3) Hs]. cbn [nth_error set_nth].
    destruct (call_locked (set_nth (map disabled (b1 :: o1)) 0 true) (set_nth (map disabled (b2 :: o2)) 0 true) c b1 b2 Hc Q1 Q2 Q3) as (x1 & x2 & -> & -> & Hx); try assumption.
    { cbn [map set_nth]. rewrite Hm. reflexivity. }
    cbn [bind]. destruct (berr x1) as [e|] eqn:Hx1; [apply Err; [assumption..|congruence]|]. apply IH; assumption.
  - destruct Hi as [-> Hi], Hok as (Hn & Hc & Hr & Hok), Hs as [(Q1 & Q2 & Q3) Hs]. cbn [nth_error set_nth].
    destruct (insert_row_locked name cols row b1 b2 Hn Hc Hr Q1 Q2 Q3 Hl He) as (x1 & x2 & o & Hx1 & Hx2 & Hx). rewrite Hx1, Hx2. cbn [bind].
    destruct (berr x1) as [e|] eqn:Hbx; [apply Err; [apply Hi..|assumption|congruence]|].
    destruct (@insert_row_total E1 name cols row b1 Hn Hc Hr Q3 (or_introl Q1) (proj1 Hl) He) as (y & o' & Hy & _ & _ & Hv). rewrite Hx1 in Hy. injection Hy as <- <-. specialize (Hv Hbx).
    apply IH; [apply Hi|apply Hok|apply Hs; exact Hv|assumption..]. destruct Hv as (id & -> & Hid & Hlen). exists id. auto.
  - destruct Hi as (-> & Hib & Hin), Hok as (Hk & Hokb & Hokn), Hs as (_ & Hsb & Hsn). cbn [nth_error set_nth].
    destruct (block_begin_locked k b1 b2 Hk Hl He) as (x1 & x2 & en & Hx1 & Hx2 & Hx). rewrite Hx1, Hx2. cbn [bind].
    destruct (@block_begin_total E1 k b1 Hk (proj1 Hl) He) as (y & en' & Hy & _ & Y1 & Y2 & _). rewrite Hx1 in Hy. injection Hy as <- <-.
    destruct en; [|apply Err; [apply Hin..|assumption|apply Y2; reflexivity]]. specialize (Y1 eq_refl).
    destruct (IHb (mkb (buf x1) (berr x1) false) (mkb (buf x2) (berr x2) false) (mkb (buf x1) (berr x1) true :: o1) (mkb (buf x2) (berr x2) true :: o2) Hib Hokb Hsb)
      as (z1 & z2 & out1 & out2 & -> & -> & Hz & Hout).
    { destruct Hx as (_ & _ & X3 & X4). unfold locked. cbn [disabled berr buf]. auto. }
    { exact Y1. }
    { cbn [map disabled]. rewrite Hm. reflexivity. }
    cbn [bind]. destruct (block_end_locked k (mkb (buf z1) (berr z1) false) (mkb (buf z2) (berr z2) false)) as (w1 & w2 & Hw1 & Hw2 & Hw).
    { destruct Hz as (_ & _ & X3 & X4). unfold locked. cbn [disabled berr buf]. auto. }
    rewrite Hw1, Hw2. cbn [bind set_nth].
    destruct (berr w1) as [e|] eqn:Hbw; [apply Err; [apply Hin..|assumption|congruence]|].
    destruct (@block_end_total E1 k (mkb (buf z1) (berr z1) false) eq_refl) as (v & Hv & _ & Hv2). rewrite Hw1 in Hv. injection Hv as <-. cbn [berr] in Hv2.
    destruct (Hout ltac:(congruence)) as [<- Hov]. apply IHn; [apply Hin|apply Hokn|apply Hsn; exact Hov|assumption..].
    eapply Forall_impl; [|exact Hov]. intros o (id & -> & Hid & Hlen). exists id. auto.
Qed.
End Locked.
