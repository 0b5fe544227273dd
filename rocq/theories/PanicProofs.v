(* What each call does: it appends its message, reports an error or panics; which of these, exactly. *)
From Coq Require Import String List NArith ZArith Arith Bool Lia ZifyN ZifyNat ZifyBool.
From Coq Require Import List.
From Verif Require Import Base GoSlice SliceProofs Varint VarintProofs SpecWire SpecMsg WireProofs Text TextProofs Values AnyModel ExprModel MsgModel Builder
  SpecValue SpecProg SpecUnit SpecError SpecPanic Pure AnyProofs HeadProofs ValueProofs MsgProofs BuilderProofs UnitProofs ShapeProofs ErrorProofs.
Import ListNotations.
Open Scope N_scope.
Open Scope list_scope.

(* ---- five fates ---- *)

Inductive kind := Goes | Dies | Loses (e : err) | Keeps (e : err) | Fails (e : err).
Definition fate (k : kind) (f : slice -> res (slice * option err)) : Prop :=
  match k with
  | Goes => forall p, exists q, f p = Ok (q, None) /\ (len p <= len q)%nat
  | Dies => forall p, f p = Panic
  | Loses e => forall p, f p = Ok (nil_slice, Some e)
  | Keeps e => forall p, exists q, f p = Ok (q, Some e) /\ (len p <= len q)%nat
  | Fails e => forall p, exists q, f p = Ok (q, Some e)
  end.
Definition rewrap (w : err -> err) (k : kind) : kind :=
  match k with Goes => Goes | Dies => Dies | Loses e => Loses (w e) | Keeps e => Keeps (w e) | Fails e => Fails (w e) end.

Lemma fate_ext : forall k f g, (forall p, f p = g p) -> fate k f -> fate k g.
Proof. intros [| |e|e|e] f g H Hf p; rewrite <- H; apply Hf. Qed.

Lemma fate_stop : forall k w f (g : slice -> slice -> res (slice * option err)), fate k f -> k <> Goes ->
  fate (rewrap w k) (fun p => do (q, e) <- f p; match e with Some e => Ok (q, Some (w e)) | None => g p q end).
Proof.
  intros [| |e|e|e] w f g H Hk; [congruence|..]; cbn [rewrap fate] in *; intros p.
  - rewrite H. reflexivity.
  - rewrite H. reflexivity.
  - destruct (H p) as (q & -> & Hl). exists q. auto.
  - destruct (H p) as (q & ->). exists q. auto.
Qed.
Lemma fate_then : forall k w f g, fate Goes f -> fate k g ->
  fate k (fun p => do (q, e) <- f p; match e with Some e => Ok (q, Some (w e)) | None => g q end).
Proof.
  intros k w f g Hf Hg. destruct k as [| |e|e|e]; cbn [fate] in *; intros p; destruct (Hf p) as (q & -> & Hl); cbn [bind]; try apply Hg.
  - destruct (Hg q) as (r & Hr & Hr'). exists r. split; [exact Hr|lia].
  - destruct (Hg q) as (r & Hr & Hr'). exists r. split; [exact Hr|lia].
Qed.

Lemma each_goes : forall {A} (f : A -> slice -> res (slice * option err)) wrap xs j, Forall (fun x => fate Goes (f x)) xs -> fate Goes (each f wrap j xs).
Proof.
  intros A f wrap xs. induction xs as [|x xs IH]; intros j H; [intros p; exists p; split; [reflexivity|lia]|].
  inversion H as [|? ? Hx Hxs]; subst. apply fate_ext with (2 := fate_then Goes (wrap j) (f x) (each f wrap (S j) xs) Hx (IH (S j) Hxs)).
  intros p. rewrite each_cons. reflexivity.
Qed.
Lemma each_fate : forall {A} (f : A -> slice -> res (slice * option err)) wrap before x after k j, Forall (fun y => fate Goes (f y)) before ->
  fate k (f x) -> k <> Goes -> fate (rewrap (wrap (j + length before)%nat) k) (each f wrap j (before ++ x :: after)).
Proof.
  intros A f wrap before x after k. induction before as [|y before IH]; intros j H1 H2 Hk; cbn [app length].
  - rewrite Nat.add_0_r. apply fate_ext with (2 := fate_stop k (wrap j) (f x) (fun _ q => each f wrap (S j) after q) H2 Hk). intros p. rewrite each_cons. reflexivity.
  - inversion H1 as [|? ? Hy Hb]; subst. rewrite <- Nat.add_succ_comm.
    apply fate_ext with (2 := fate_then _ (wrap j) (f y) (each f wrap (S j) (before ++ x :: after)) Hy (IH (S j) Hb H2 Hk)). intros p. rewrite each_cons. reflexivity.
Qed.

Lemma rewrap_goes : forall w k, k <> Goes -> rewrap w k <> Goes.
Proof. intros w [| |e|e|e] H; cbn; congruence. Qed.
Lemma rewrap_id : forall k, rewrap (fun e => e) k = k.
Proof. intros [| |e|e|e]; reflexivity. Qed.

Lemma first_other : forall {A} (R : A -> kind -> Prop) xs, Forall (fun x => exists k, R x k) xs ->
  Forall (fun x => R x Goes) xs \/ exists before x after k, xs = before ++ x :: after /\ Forall (fun x => R x Goes) before /\ k <> Goes /\ R x k.
Proof.
  intros A R xs H. induction H as [|x xs [k Hk] H IH]; [left; constructor|].
  destruct k as [| |e|e|e]; [|right; exists [], x, xs; match type of Hk with R _ ?k => exists k end; split; [reflexivity|split; [constructor|split; [discriminate|exact Hk]]]..].
  destruct IH as [IH|(before & y & after & k & -> & Hb & Hy & Hr)]; [left; constructor; assumption|]. right. exists (x :: before), y, after, k. auto.
Qed.

Section Panics.
Context `{E : Env}.

(* ---- expressions ---- *)

Definition value_kind (v : gvalue) (k : kind) : Prop :=
  match k with Goes => expr_accepted v | Dies => expr_panics v | Loses e => expr_error v e /\ expr_loses v | Keeps e => expr_error v e | Fails _ => False end.
Definition fun_kind (f : exprfun) (k : kind) : Prop :=
  match k with Goes => fun_accepted f | Dies => fun_panics f | Loses e => fun_error f e /\ fun_loses f | Keeps e => fun_error f e | Fails _ => False end.

Lemma outcome_goes : forall {A} (dec : bytes -> option A) tag D Q K (S : Prop) W (f : enc), outcome dec word32 tag D Q K S W f -> S -> W < 2 ^ 61 -> fate Goes (f E).
Proof using.
  intros A dec tag D Q K S W f [(x & bs & pl & _ & _ & _ & _ & Hg)|[[_ HS]|[_ HW]]] s w; [|contradiction|lia].
  intros p. destruct (Hg E eq_refl p) as [sp ->]. eexists. split; [reflexivity|]. unfold len. cbn [data]. rewrite app_length. lia.
Qed.
Lemma expr_goes : forall v tag, 0 < tag < 16 -> fine v -> expr_accepted v -> weight v < 2 ^ 61 -> fate Goes (fun p => append_expr v p tag).
Proof using. intros v tag Ht [H1 H2] Ha Hw. exact (outcome_goes _ _ _ _ _ _ _ _ (expr_outcome word32 v tag Ht H1 H2) Ha Hw). Qed.
Lemma fun_goes : forall f tag, 0 < tag < 16 -> fun_ok word32 f -> fun_accepted f -> fun_weight f < 2 ^ 61 -> fate Goes (fun p => run_fun f p tag).
Proof using. intros f tag Ht [H1 H2] Ha Hw. exact (outcome_goes _ _ _ _ _ _ _ _ (fun_outcome word32 f tag Ht H1 H2) Ha Hw). Qed.
Lemma any_goes : forall v tag, 0 < tag < 16 -> fine v -> arg_accepted v -> weight v < 2 ^ 61 -> fate Goes (fun p => append_any v p tag).
Proof using. intros v tag Ht [H1 H2] Ha Hw. exact (outcome_goes _ _ _ _ _ _ _ _ (any_outcome word32 v tag Ht H1 H2) Ha Hw). Qed.

Definition value_goal (v : gvalue) : Prop := fine v -> decided v -> weight v < 2 ^ 61 ->
  exists k, value_kind v k /\ forall tag, 0 < tag < 16 -> fate k (fun p => append_expr v p tag).
Definition function_goal (f : exprfun) : Prop := fun_ok word32 f -> decided_fun f -> fun_weight f < 2 ^ 61 ->
  exists k, fun_kind f k /\ forall tag, 0 < tag < 16 -> fate k (fun p => run_fun f p tag).

Lemma user_fate : forall u (P : kind -> Prop), decides_expr u ->
  ((exists x, appends_expr u x) -> P Goes) -> (forall e, reports u e -> P (Keeps e)) -> (forall e, loses u e -> P (Loses e)) -> (crashes u -> P Dies) ->
  exists k, P k /\ forall tag, 0 < tag < 16 -> fate k (fun p => u p tag).
Proof using.
  intros u P [H|[[e H]|[[e H]|H]]] P1 P2 P3 P4; [exists Goes|exists (Keeps e)|exists (Loses e)|exists Dies]; (split; [auto|]); intros tag Ht p; try apply H.
  destruct H as [x H]. destruct (H tag ltac:(lia)) as (bs & pl & _ & _ & _ & _ & Hp). destruct (Hp p) as [sp ->]. eexists. split; [reflexivity|].
  unfold len. cbn [data]. rewrite app_length. lia.
Qed.

Lemma reports_raises : forall u e, reports u e -> raises u e.
Proof using. intros u e H p tag. destruct (H p tag) as (q & -> & _). eauto. Qed.
Lemma loses_raises : forall u e, loses u e -> raises u e.
Proof using. intros u e H p tag. rewrite H. eauto. Qed.

Lemma values_first : forall ps, Forall value_goal ps -> Forall fine ps -> Forall decided ps -> total_weight weight ps < 2 ^ 61 ->
  Forall (fun x => exists k, value_kind x k /\ forall tag, 0 < tag < 16 -> fate k (fun p => append_expr x p tag)) ps.
Proof using.
  intros ps H H1 H2 Hw. rewrite Forall_forall in *. intros x Hx. pose proof (weight_in weight x ps Hx). apply H; auto. lia.
Qed.

Lemma params_fate : forall ps, Forall value_goal ps -> Forall fine ps -> Forall decided ps -> total_weight weight ps < 2 ^ 61 ->
  (Forall expr_accepted ps) \/ exists before x after k, ps = before ++ x :: after /\ Forall expr_accepted before /\ k <> Goes /\ value_kind x k /\
    forall wrap tag, 0 < tag < 16 -> fate (rewrap (wrap (length before)) k) (fun p => each (fun v p => append_expr v p tag) wrap 0 ps p).
Proof using.
  intros ps H H1 H2 Hw. destruct (first_other _ _ (values_first ps H H1 H2 Hw)) as [Ha|(before & x & after & k & -> & Hb & Hk & Hx & Hf)].
  - left. eapply Forall_impl; [|exact Ha]. intros x [Hx _]. exact Hx.
  - right. exists before, x, after, k. split; [reflexivity|]. split; [eapply Forall_impl; [|exact Hb]; intros y [Hy _]; exact Hy|]. split; [exact Hk|]. split; [exact Hx|].
    intros wrap tag Ht. apply (each_fate (fun v p => append_expr v p tag) wrap before x after k 0); [|apply Hf; exact Ht|exact Hk].
    eapply Forall_impl; [|exact Hb]. intros y [_ Hy]. apply Hy. exact Ht.
Qed.

Lemma deep_fate : (forall v, value_goal v) /\ (forall f, function_goal f).
Proof using.
  assert (L1 : forall v, match v with VFunc (Some _) | VPtr _ _ => False | _ => True end -> value_goal v).
  { intros v Hl Hf Hs Hw. assert (Acc : expr_accepted v -> exists k, value_kind v k /\ forall tag, 0 < tag < 16 -> fate k (fun p => append_expr v p tag)).
    { intros Ha. exists Goes. split; [exact Ha|]. intros tag Ht. apply expr_goes; assumption. }
    destruct v as [|z|z|z|z|z|n|n|n|n|n|s|b|b|bits|bits|t|d|s collation|b|s|b|s|b|[f|]|i v|a e|a [u|]]; try (apply Acc; exact I); try contradiction.
    - exists Dies. split; [constructor|]. intros tag _ p. reflexivity.
    - destruct e; [exists Dies|exists (Keeps EUnsupported)]; (split; [constructor|]); intros tag _ p; [reflexivity|]. exists p. split; [reflexivity|lia].
    - destruct Hs as [_ Hs]. apply user_fate; try exact Hs.
      + intros H. exact H.
      + intros e H. apply XE_user, reports_raises, H.
      + intros e H. split; [apply XE_user, loses_raises, H|exact (XL_user a u e H)].
      + intros H. apply XP_user, H.
    - exists (Keeps EUnsupported). split; [constructor|]. intros tag _ p. exists p. split; [reflexivity|lia]. }
  assert (L2 : forall f, function_goal f -> value_goal (VFunc (Some f))).
  { intros f H Hf Hs Hw. destruct (H Hf Hs Hw) as (k & Hk & Hd). exists k. split; [|exact Hd].
    destruct k as [| |e|e|e]; cbn [value_kind fun_kind] in *; [exact Hk|constructor; exact Hk|destruct Hk; split; constructor; assumption|constructor; exact Hk|contradiction]. }
  assert (L3 : forall i v, value_goal v -> value_goal (VPtr i v)).
  { intros i v _ Hf Hs Hw.
    assert (Bad : i = true \/ ~ has_expr_method v -> (forall p tag, append_expr (VPtr i v) p tag = Ok (p, Some EUnsupported)) ->
      exists k, value_kind (VPtr i v) k /\ forall tag, 0 < tag < 16 -> fate k (fun p => append_expr (VPtr i v) p tag)).
    { intros H1 H2. exists (Keeps EUnsupported). split; [constructor; exact H1|]. intros tag _ p. exists p. rewrite H2. split; [reflexivity|lia]. }
    assert (Acc : expr_accepted (VPtr i v) -> exists k, value_kind (VPtr i v) k /\ forall tag, 0 < tag < 16 -> fate k (fun p => append_expr (VPtr i v) p tag)).
    { intros Ha. exists Goes. split; [exact Ha|]. intros tag Ht. apply expr_goes; assumption. }
    destruct i; [apply Bad; [left; reflexivity|reflexivity]|].
    destruct v as [|z|z|z|z|z|n|n|n|n|n|s|b|b|bits|bits|t|d|s collation|b|s|b|s|b|[f|]|i v|a e|a [u|]]; try (apply Acc; exact I);
      try (apply Bad; [right; cbn; tauto|reflexivity]).
    destruct Hs as [_ Hs]. apply user_fate; try exact Hs.
    - intros H. exact H.
    - intros e H. apply XE_ptr_user, reports_raises, H.
    - intros e H. split; [apply XE_ptr_user, loses_raises, H|exact (XL_ptr_user a u e H)].
    - intros H. apply XP_ptr_user, H. }
  assert (L4 : forall f, match f with EOperator _ _ | ECall _ _ => False | _ => True end -> function_goal f).
  { intros f Hl Hf Hs Hw. assert (Acc : fun_accepted f -> exists k, fun_kind f k /\ forall tag, 0 < tag < 16 -> fate k (fun p => run_fun f p tag)).
    { intros Ha. exists Goes. split; [exact Ha|]. intros tag Ht. apply fun_goes; assumption. }
    destruct f as [name|name ps|name ps|name|pos|u]; try (apply Acc; exact I); try contradiction. apply user_fate; try exact Hs.
    - intros H. exact H.
    - intros e H. apply XF_user, reports_raises, H.
    - intros e H. split; [apply XF_user, loses_raises, H|exact (FL_user u e H)].
    - intros H. apply FP_user, H. }
  assert (L5 : forall name ps, Forall value_goal ps -> function_goal (EOperator name ps)).
  { intros name ps H Hf Hs Hw. pose proof Hf as [[_ H1] H2]. cbn [fun_weight decided_fun no_known_defect_fun] in *. pose proof (all_fine _ H1 H2) as Hfi.
    destruct (params_fate ps H Hfi (proj1 (all_Forall _ _) Hs) ltac:(lia)) as [Ha|(before & x & after & k & -> & Hb & Hk & Hx & Hd)].
    - exists Goes. split; [apply all_Forall; exact Ha|]. intros tag Ht. apply fun_goes; try assumption. apply all_Forall. exact Ha.
    - exists (rewrap (EParam (length before)) k). split.
      + destruct k as [| |e|e|e]; cbn [rewrap fun_kind value_kind] in *; [congruence|constructor; assumption|destruct Hx; split; constructor; assumption|constructor; assumption|contradiction].
      + intros tag Ht. rewrite <- (rewrap_id (rewrap _ k)).
        apply fate_ext with (2 := fate_stop _ (fun e => e) _ (fun p q => okm (operator_header q (len p) tag name)) (Hd EParam tagOperatorParam ltac:(unfold tagOperatorParam; lia)) (rewrap_goes _ _ Hk)).
        intros p. reflexivity. }
  assert (L6 : forall name ps, Forall value_goal ps -> function_goal (ECall name ps)).
  { intros name ps H Hf Hs Hw. pose proof Hf as [[_ H1] H2]. cbn [fun_weight decided_fun no_known_defect_fun] in *. pose proof (all_fine _ H1 H2) as Hfi.
    destruct (params_fate ps H Hfi (proj1 (all_Forall _ _) Hs) ltac:(lia)) as [Ha|(before & x & after & k & -> & Hb & Hk & Hx & Hd)].
    - exists Goes. split; [apply all_Forall; exact Ha|]. intros tag Ht. apply fun_goes; try assumption. apply all_Forall. exact Ha.
    - exists (rewrap (EParam (length before)) k). split.
      + destruct k as [| |e|e|e]; cbn [rewrap fun_kind value_kind] in *; [congruence|constructor; assumption|destruct Hx; split; constructor; assumption|constructor; assumption|contradiction].
      + intros tag Ht. rewrite <- (rewrap_id (rewrap _ k)).
        apply fate_ext with (2 := fate_stop _ (fun e => e) _ (fun p q => okm (call_header q (len p) tag name)) (Hd EParam tagFunctionCallParam ltac:(unfold tagFunctionCallParam; lia)) (rewrap_goes _ _ Hk)).
        intros p. reflexivity. }
  split.
  - exact (gvalue_deep _ _ L1 L2 L3 L4 L5 L6).
  - exact (exprfun_deep _ _ L1 L2 L3 L4 L5 L6).
Qed.

(* ---- statement arguments ---- *)

Definition arg_kind (v : gvalue) (k : kind) : Prop :=
  match k with Goes => arg_accepted v | Dies => arg_panics v | Fails e => arg_error v e | _ => False end.

Lemma arg_fate : forall v, fine v -> decided v -> weight v < 2 ^ 61 -> exists k, arg_kind v k /\ forall tag, 0 < tag < 16 -> fate k (fun p => append_any v p tag).
Proof using.
  assert (B : forall v, decided v -> arg_behind_pointer v \/ v = VNil \/ (arg_panics v /\ forall p tag, type_switch v p tag = Panic) \/
    exists e, arg_error v e /\ forall p tag, exists q, type_switch v p tag = Ok (q, Some e)).
  { fix B 1. intros v Hs. destruct v as [|z|z|z|z|z|n|n|n|n|n|s|b|b|bits|bits|t|d|s collation|b|s|b|s|b|f|i v|a e|[u|] e]; try (left; exact I).
    - right. left. reflexivity.
    - right. right. right. exists EUnsupported. split; [constructor|]. intros p tag. eexists. reflexivity.
    - assert (Hp : (forall p tag, type_switch (VPtr i v) p tag = type_switch v p tag) \/ v = VNil).
      { destruct v as [|z|z|z|z|z|n|n|n|n|n|s|b|b|bits|bits|t|d|s collation|b|s|b|s|b|f|i' v|a e|[u|] e]; [right; reflexivity|left; intros p tag; destruct i; reflexivity..]. }
      destruct Hp as [Hp| ->].
      + destruct (B v Hs) as [H|[->|[[H1 H2]|(e & H1 & H2)]]].
        * left. exact H.
        * right. right. right. exists EUnsupported. split; [constructor|]. intros p tag. rewrite Hp. eexists. reflexivity.
        * right. right. left. split; [constructor; exact H1|]. intros p tag. rewrite Hp. apply H2.
        * right. right. right. exists e. split; [constructor; exact H1|]. intros p tag. rewrite Hp. apply H2.
      + right. right. right. exists EUnsupported. split; [constructor|]. intros p tag. exists nil_slice. destruct i; reflexivity.
    - destruct a; [|left; reflexivity]. right. right. left. split; [constructor|reflexivity].
    - destruct Hs as [[Hs|[[x Hs]|Hs]] _]; [left; exact Hs|right; right; right; exists x; split; [constructor; exact Hs|exact Hs]|right; right; left; split; [constructor; exact Hs|exact Hs]].
    - right. right. right. exists EUnsupported. split; [constructor|]. intros p tag. eexists. reflexivity. }
  intros v Hf Hs Hw. assert (Acc : arg_accepted v -> exists k, arg_kind v k /\ forall tag, 0 < tag < 16 -> fate k (fun p => append_any v p tag)).
  { intros Ha. exists Goes. split; [exact Ha|]. intros tag Ht. apply any_goes; assumption. }
  destruct (B v Hs) as [H|[->|[[H1 H2]|(e & H1 & H2)]]]; [apply Acc; right; exact H|apply Acc; left; reflexivity| |].
  - exists Dies. split; [exact H1|]. intros tag _ p. destruct H1; apply H2.
  - exists (Fails e). split; [exact H1|]. intros tag _ p. destruct H1; apply H2.
Qed.

Lemma args_fate : forall tag args, 0 < tag < 16 -> values_ok word32 args -> Forall decided args -> total_weight weight args < 2 ^ 61 ->
  (Forall arg_accepted args) \/ exists before x after k, args = before ++ x :: after /\ Forall arg_accepted before /\ k <> Goes /\ arg_kind x k /\ fate k (append_args tag args).
Proof using.
  intros tag args Ht H1 H2 Hw. assert (H : Forall (fun x => exists k, arg_kind x k /\ fate k (fun p => append_any x p tag)) args).
  { unfold values_ok in H1. rewrite Forall_forall in *. intros x Hx. pose proof (weight_in weight x args Hx). destruct (arg_fate x) as (k & K1 & K2); [apply H1, Hx|apply H2, Hx|lia|]. exists k. auto. }
  destruct (first_other _ _ H) as [Ha|(before & x & after & k & -> & Hb & Hk & Hx & Hf)].
  - left. eapply Forall_impl; [|exact Ha]. intros x [Hx _]. exact Hx.
  - right. exists before, x, after, k. split; [reflexivity|]. split; [eapply Forall_impl; [|exact Hb]; intros y [Hy _]; exact Hy|]. split; [exact Hk|]. split; [exact Hx|].
    rewrite <- (rewrap_id k). unfold append_args. apply (each_fate (fun v p => append_any v p tag) (fun _ e => e) before x after k 0); [|exact Hf|exact Hk].
    eapply Forall_impl; [|exact Hb]. intros y [_ Hy]. exact Hy.
Qed.

(* ---- rows and sets ---- *)

Lemma parts_goes : forall H Q K (S : Prop) W (f : enc), parts word32 H Q K S W f -> S -> W < 2 ^ 61 -> fate Goes (f E).
Proof using.
  intros H Q K S W f [(bs & fs & _ & _ & _ & Hg)|[[_ HS]|[_ HW]]] s w; [|contradiction|lia].
  intros p. destruct (Hg E eq_refl p) as [sp ->]. eexists. split; [reflexivity|]. unfold len. cbn [data]. rewrite app_length. lia.
Qed.

Definition row_kind (row : list gvalue) (k : kind) : Prop :=
  match k with Goes => Forall expr_accepted row | Dies => row_panics row | Loses e => row_error row e /\ row_loses row | Keeps e => row_error row e | Fails _ => False end.

Lemma fate_before : forall k f (g : slice -> slice), (forall p, (len p <= len (g p))%nat) -> fate k f -> fate k (fun p => f (g p)).
Proof using.
  intros [| |e|e|e] f g Hg H p; try apply H; cbn [fate] in *; destruct (H (g p)) as (q & Hq & Hl); exists q; specialize (Hg p); (split; [exact Hq|lia]).
Qed.

Lemma row_fate : forall row, values_ok word32 row -> Forall decided row -> row_weight row < 2 ^ 61 -> exists k, row_kind row k /\ fate k (fun p => append_insert_row p row).
Proof using.
  intros row Hr Hs Hw.
  destruct (params_fate row ltac:(apply Forall_forall; intros; apply (proj1 deep_fate)) Hr Hs ltac:(unfold row_weight in Hw; lia)) as [Ha|(before & x & after & k & -> & Hb & Hk & Hx & Hd)].
  - exists Goes. split; [exact Ha|]. exact (parts_goes _ _ _ _ _ _ (row_parts word32 row Hr) Ha Hw).
  - exists (rewrap (EColumnErr (length before)) k). split.
    + destruct k as [| |e|e|e]; cbn [rewrap row_kind value_kind] in *; [congruence|constructor; assumption|destruct Hx; split; constructor; assumption|constructor; assumption|contradiction].
    + rewrite <- (rewrap_id (rewrap _ k)).
      assert (L : forall bs p, (len p <= len (append p bs))%nat) by (intros bs p; rewrite len_append; lia).
      set (g := fun p q : slice => let n := (len q - len p)%nat in do q <- (if (sizev n =? 2)%nat then Ok q else do h <- reslice q (len p + sizev n - 2); do t <- from q (len p); Ok (append h t));
        do (q, _) <- put_uvarint q (len p - 2) (N.of_nat n); Ok (q, @None err)).
      exact (fate_before _ _ _ (L _) (fate_stop _ (fun e => e) _ g (Hd EColumnErr tagTypedRowField ltac:(unfold tagTypedRowField; lia)) (rewrap_goes _ _ Hk))).
Qed.

Lemma set_fate : forall name v, go_string name -> fine v -> decided v -> set_weight (name, v) < 2 ^ 61 -> exists k, value_kind v k /\ fate k (fun p => append_update_set p name v).
Proof using.
  intros name v Hn Hf Hs Hw. destruct (proj1 deep_fate v Hf Hs ltac:(unfold set_weight in Hw; cbn [fst snd] in Hw; lia)) as (k & Hk & Hd).
  specialize (Hd tagUpdateOperationValue ltac:(unfold tagUpdateOperationValue; lia)). exists k. split; [exact Hk|].
  destruct (match k with Goes => true | _ => false end) eqn:G.
  - destruct k; try discriminate. exact (parts_goes _ _ _ _ _ _ (set_parts word32 name v Hn (proj1 Hf) (proj2 Hf)) Hk Hw).
  - rewrite <- (rewrap_id k). apply fate_ext with (2 := fate_stop k (fun e => e) _ (fun p q => okm (set_header q (len p) name)) Hd ltac:(intros ->; discriminate)). reflexivity.
Qed.

(* ---- the parts of calls ---- *)

Definition row_fault (ncols i : nat) (row : list gvalue) (k : kind) : Prop :=
  (length row = ncols /\ row_kind row k) \/ (length row <> ncols /\ k = Keeps (ERowLen i ncols (length row))).

Lemma rows_fate : forall ncols rows i, Forall (values_ok word32) rows -> Forall (Forall decided) rows -> total_weight row_weight rows < 2 ^ 61 ->
  Forall (fun row => length row = ncols /\ Forall expr_accepted row) rows \/
  exists before row after k, rows = before ++ row :: after /\ Forall (fun row => length row = ncols /\ Forall expr_accepted row) before /\ k <> Goes /\
    row_fault ncols (i + length before) row k /\ fate k (insert_rows ncols i rows).
Proof using.
  intros ncols rows. induction rows as [|row rows IH]; intros i H1 H2 Hw; [left; constructor|].
  inversion H1 as [|? ? Hv H1']; subst. inversion H2 as [|? ? Hd H2']; subst. rewrite total_cons in Hw.
  destruct (Nat.eq_dec (length row) ncols) as [Hl|Hl].
  - destruct (row_fate row Hv Hd ltac:(lia)) as (k & Hk & Hf).
    assert (Eq : forall p, insert_rows ncols i (row :: rows) p = do (q, e) <- append_insert_row p row; match e with Some e => Ok (q, Some e) | None => insert_rows ncols (S i) rows q end).
    { intros p. cbn [insert_rows]. rewrite (proj2 (Nat.eqb_eq _ _) Hl). reflexivity. }
    destruct (match k with Goes => true | _ => false end) eqn:G.
    + destruct k; try discriminate. destruct (IH (S i) H1' H2' ltac:(lia)) as [IH'|(before & r & after & k & -> & Hb & Hk' & Hr & Hf')]; [left; constructor; auto|].
      right. exists (row :: before), r, after, k. split; [reflexivity|]. split; [constructor; auto|]. split; [exact Hk'|]. cbn [length]. rewrite <- Nat.add_succ_comm. split; [exact Hr|].
      apply fate_ext with (2 := fate_then k (fun e => e) _ _ Hf Hf'). intros p. rewrite Eq. reflexivity.
    + assert (Hk' : k <> Goes) by (intros ->; discriminate). right. exists [], row, rows, k. split; [reflexivity|]. split; [constructor|]. split; [exact Hk'|]. split; [left; auto|].
      rewrite <- (rewrap_id k). apply fate_ext with (2 := fate_stop k (fun e => e) _ (fun _ q => insert_rows ncols (S i) rows q) Hf Hk'). intros p. rewrite Eq. reflexivity.
  - right. exists [], row, rows, (Keeps (ERowLen i ncols (length row))). split; [reflexivity|]. split; [constructor|]. split; [discriminate|]. cbn [length]. rewrite Nat.add_0_r. split; [right; auto|].
    intros p. exists p. cbn [insert_rows]. rewrite (proj2 (Nat.eqb_neq _ _) Hl). split; [reflexivity|lia].
Qed.

Lemma iops_skip : forall dis ops p e, (forall lvl, ~ In (IOuter lvl) ops) -> run_iops dis ops p (Some e) = Ok (p, Some e).
Proof using.
  intros dis ops p e. induction ops as [|[row|lvl] ops IH]; intros H; cbn [run_iops]; [reflexivity| |destruct (H lvl); left; reflexivity].
  apply IH. intros lvl Hl. apply (H lvl). right. exact Hl.
Qed.
Lemma uops_skip : forall dis ops p e, (forall lvl, ~ In (UOuter lvl) ops) -> run_uops dis ops p (Some e) = Ok (p, Some e).
Proof using.
  intros dis ops p e. induction ops as [|[k v|lvl] ops IH]; intros H; cbn [run_uops]; [reflexivity| |destruct (H lvl); left; reflexivity].
  apply IH. intros lvl Hl. apply (H lvl). right. exact Hl.
Qed.

Lemma iops_fate : forall dis ops, (forall lvl, ~ In (IOuter lvl) ops) -> Forall (values_ok word32) (rows_of ops) -> Forall (Forall decided) (rows_of ops) ->
  total_weight row_weight (rows_of ops) < 2 ^ 61 ->
  Forall iop_accepted ops \/ exists before row after k, ops = before ++ IRow row :: after /\ Forall iop_accepted before /\ k <> Goes /\
    row_kind row k /\ fate k (fun p => run_iops dis ops p None).
Proof using.
  intros dis ops. induction ops as [|[row|lvl] ops IH]; intros H H1 H2 Hw; [left; constructor| |destruct (H lvl); left; reflexivity].
  assert (H' : forall lvl, ~ In (IOuter lvl) ops) by (intros lvl Hl; apply (H lvl); right; exact Hl). cbn [rows_of] in *.
  inversion H1 as [|? ? Hv H1']; subst. inversion H2 as [|? ? Hd H2']; subst. rewrite total_cons in Hw.
  destruct (row_fate row Hv Hd ltac:(lia)) as (k & Hk & Hf).
  assert (Eq : forall p, run_iops dis (IRow row :: ops) p None = do (q, e) <- append_insert_row p row; match e with Some e => Ok (q, Some e) | None => run_iops dis ops q None end).
  { intros p. cbn [run_iops]. destruct (append_insert_row p row) as [[q [e|]]|]; cbn [bind]; [apply iops_skip; exact H'|reflexivity..]. }
  destruct (match k with Goes => true | _ => false end) eqn:G.
  - destruct k; try discriminate. destruct (IH H' H1' H2' ltac:(lia)) as [IH'|(before & r & after & k & -> & Hb & Hk' & Hr & Hf')]; [left; constructor; auto|].
    right. exists (IRow row :: before), r, after, k. split; [reflexivity|]. split; [constructor; auto|]. split; [exact Hk'|]. split; [exact Hr|].
    apply fate_ext with (2 := fate_then k (fun e => e) _ _ Hf Hf'). intros p. rewrite Eq. reflexivity.
  - assert (Hk' : k <> Goes) by (intros ->; discriminate). right. exists [], row, ops, k. split; [reflexivity|]. split; [constructor|]. split; [exact Hk'|]. split; [exact Hk|].
    rewrite <- (rewrap_id k). apply fate_ext with (2 := fate_stop k (fun e => e) _ (fun _ q => run_iops dis ops q None) Hf Hk'). intros p. rewrite Eq. reflexivity.
Qed.

Lemma sets_fate : forall set, sets_ok word32 set -> Forall (fun kv => decided (snd kv)) set -> total_weight set_weight set < 2 ^ 61 ->
  Forall (fun kv => expr_accepted (snd kv)) set \/ exists before name x after k, set = before ++ (name, x) :: after /\ Forall (fun kv => expr_accepted (snd kv)) before /\
    k <> Goes /\ value_kind x k /\ fate k (update_sets set).
Proof using.
  intros set. induction set as [|[name v] set IH]; intros [N1 H1] H2 Hw; [left; constructor|]. cbn [map fst snd] in *.
  inversion N1 as [|? ? Hn N1']; subst. inversion H1 as [|? ? Hv H1']; subst. inversion H2 as [|? ? Hd H2']; subst. cbn [fst snd] in *. rewrite total_cons in Hw.
  destruct (set_fate name v Hn Hv Hd ltac:(lia)) as (k & Hk & Hf).
  destruct (match k with Goes => true | _ => false end) eqn:G.
  - destruct k; try discriminate. destruct (IH (conj N1' H1') H2' ltac:(lia)) as [IH'|(before & n & r & after & k & -> & Hb & Hk' & Hr & Hf')]; [left; constructor; auto|].
    right. exists ((name, v) :: before), n, r, after, k. split; [reflexivity|]. split; [constructor; auto|]. split; [exact Hk'|]. split; [exact Hr|].
    apply fate_ext with (2 := fate_then k (fun e => e) _ _ Hf Hf'). intros p. reflexivity.
  - assert (Hk' : k <> Goes) by (intros ->; discriminate). right. exists [], name, v, set, k. split; [reflexivity|]. split; [constructor|]. split; [exact Hk'|]. split; [exact Hk|].
    rewrite <- (rewrap_id k). apply fate_ext with (2 := fate_stop k (fun e => e) _ (fun _ q => update_sets set q) Hf Hk'). intros p. reflexivity.
Qed.

Lemma uops_fate : forall dis ops, (forall lvl, ~ In (UOuter lvl) ops) -> sets_ok word32 (sets_of ops) -> Forall (fun kv => decided (snd kv)) (sets_of ops) ->
  total_weight set_weight (sets_of ops) < 2 ^ 61 ->
  Forall uop_accepted ops \/ exists before name x after k, ops = before ++ USet name x :: after /\ Forall uop_accepted before /\ k <> Goes /\
    value_kind x k /\ fate k (fun p => run_uops dis ops p None).
Proof using.
  intros dis ops. induction ops as [|[name v|lvl] ops IH]; intros H [N1 H1] H2 Hw; [left; constructor| |destruct (H lvl); left; reflexivity].
  assert (H' : forall lvl, ~ In (UOuter lvl) ops) by (intros lvl Hl; apply (H lvl); right; exact Hl). cbn [sets_of map fst snd] in *.
  inversion N1 as [|? ? Hn N1']; subst. inversion H1 as [|? ? Hv H1']; subst. inversion H2 as [|? ? Hd H2']; subst. cbn [fst snd] in *. rewrite total_cons in Hw.
  destruct (set_fate name v Hn Hv Hd ltac:(lia)) as (k & Hk & Hf).
  assert (Eq : forall p, run_uops dis (USet name v :: ops) p None = do (q, e) <- append_update_set p name v; match e with Some e => Ok (q, Some e) | None => run_uops dis ops q None end).
  { intros p. cbn [run_uops]. destruct (append_update_set p name v) as [[q [e|]]|]; cbn [bind]; [apply uops_skip; exact H'|reflexivity..]. }
  destruct (match k with Goes => true | _ => false end) eqn:G.
  - destruct k; try discriminate. destruct (IH H' (conj N1' H1') H2' ltac:(lia)) as [IH'|(before & n & r & after & k & -> & Hb & Hk' & Hr & Hf')]; [left; constructor; auto|].
    right. exists (USet name v :: before), n, r, after, k. split; [reflexivity|]. split; [constructor; auto|]. split; [exact Hk'|]. split; [exact Hr|].
    apply fate_ext with (2 := fate_then k (fun e => e) _ _ Hf Hf'). intros p. rewrite Eq. reflexivity.
  - assert (Hk' : k <> Goes) by (intros ->; discriminate). right. exists [], name, v, ops, k. split; [reflexivity|]. split; [constructor|]. split; [exact Hk'|]. split; [exact Hk|].
    rewrite <- (rewrap_id k). apply fate_ext with (2 := fate_stop k (fun e => e) _ (fun _ q => run_uops dis ops q None) Hf Hk'). intros p. rewrite Eq. reflexivity.
Qed.

(* ---- calls ---- *)

(* What becomes of a call whose faulty part has a fate. *)
Definition ends (k : kind) (f : slice -> res (slice * option err)) : Prop :=
  match k with Dies => forall p, f p = Panic | Fails e => forall p, exists q, f p = Ok (q, Some e) | _ => False end.
(* It is not patched: the error is reported. *)
Definition plainly (k : kind) : kind := match k with Loses e | Keeps e | Fails e => Fails e | _ => k end.
(* It is patched: a lost slice makes it panic. *)
Definition anyway (k : kind) : kind := match k with Loses _ => Dies | Keeps e => Fails e | _ => k end.

Lemma patch_nil : forall n, patch_length nil_slice n = Panic.
Proof using. intros n. unfold patch_length, put, le32. cbn [length len data nil_slice]. destruct (Nat.leb_spec (n + 4) 0); [lia|reflexivity]. Qed.
Lemma patch_ok : forall p n, (n + 4 <= len p)%nat -> exists q, patch_length p n = Ok q.
Proof using. intros p n H. unfold patch_length, put, le32. cbn [length]. destruct (Nat.leb_spec (n + 4) (len p)); [eauto|lia]. Qed.

Definition heading (h : slice -> res slice) : Prop := forall p, exists q, h p = Ok q /\ (len p + 4 <= len q)%nat.
Lemma emitsh_heading : forall (h : slice -> res slice) bs, emitsh h bs -> heading h.
Proof using.
  intros h bs H p. destruct (H p) as (x & sp & Hx & ->). eexists. split; [reflexivity|]. unfold len. cbn [data]. rewrite !app_length. lia.
Qed.

Lemma ends_plainly : forall h k f (g : slice -> slice -> res (slice * option err)), heading h -> fate k f -> k <> Goes ->
  ends (plainly k) (fun p => do q <- h p; do (q, e) <- f q; match e with Some e => Ok (q, Some e) | None => g p q end).
Proof using.
  intros h k f g Hh Hf Hk. destruct k as [| |e|e|e]; [congruence|..]; cbn [plainly ends fate] in *; intros p; destruct (Hh p) as (q & -> & _); cbn [bind].
  - rewrite Hf. reflexivity.
  - rewrite Hf. cbn [bind]. eauto.
  - destruct (Hf q) as (r & -> & _). cbn [bind]. eauto.
  - destruct (Hf q) as (r & ->). cbn [bind]. eauto.
Qed.
Lemma ends_anyway : forall h k f, heading h -> fate k f -> match k with Goes | Fails _ => False | _ => True end ->
  ends (anyway k) (fun p => do q <- h p; do (q, e) <- f q; do q <- patch_length q (len p); Ok (q, e)).
Proof using.
  intros h k f Hh Hf Hk. destruct k as [| |e|e|e]; [contradiction|..|contradiction]; cbn [anyway ends fate] in *; intros p; destruct (Hh p) as (q & -> & Hl); cbn [bind].
  - rewrite Hf. reflexivity.
  - rewrite Hf. cbn [bind]. rewrite patch_nil. reflexivity.
  - destruct (Hf q) as (r & -> & Hr). cbn [bind]. destruct (patch_ok r (len p) ltac:(lia)) as [x ->]. cbn [bind]. eauto.
Qed.
Lemma ends_ext : forall k f g, (forall p, f p = g p) -> ends k f -> ends k g.
Proof using. intros [| |e|e|e] f g H Hf; try contradiction; intros p; rewrite <- H; apply Hf. Qed.

Definition call_kind (c : call) (k : kind) : Prop :=
  match k with Goes => call_accepted c | Dies => call_panics c | Fails e => call_error c e | _ => False end.

Lemma criteria_fate : forall cr, opt (fun_ok word32) cr -> opt decided_fun cr -> criteria_weight cr < 2 ^ 61 ->
  opt fun_accepted cr \/ exists f k, cr = Some f /\ k <> Goes /\ fun_kind f k /\ forall tag, 0 < tag < 16 -> fate k (fun p => run_fun f p tag).
Proof using.
  intros [f|] H1 H2 Hw; [|left; exact I]. destruct (proj2 deep_fate f H1 H2 Hw) as (k & Hk & Hf).
  destruct (match k with Goes => true | _ => false end) eqn:G; [left; destruct k; try discriminate; exact Hk|].
  right. exists f, k. split; [reflexivity|]. split; [intros ->; discriminate|]. auto.
Qed.
Lemma update_heading : forall name cr, go_string name -> opt (fun_ok word32) cr -> opt fun_accepted cr -> criteria_weight cr < 2 ^ 61 ->
  exists h, heading h /\ forall p, msg_update p name cr = do q <- h p; Ok (q, None).
Proof using.
  intros name cr Hn Hok Ha Hw. pose proof (emitsh_heading _ _ (update_head_ok name (proj2 Hn))) as Hh. destruct cr as [f|].
  - exists (fun p => do q <- update_head name p; do (q, _) <- run_fun f q tagUpdateCriteria; Ok q).
    pose proof (fun_goes f tagUpdateCriteria ltac:(unfold tagUpdateCriteria; lia) Hok Ha Hw) as Hf. split.
    + intros p. destruct (Hh p) as (q & -> & Hl). cbn [bind]. destruct (Hf q) as (r & -> & Hr). cbn [bind]. exists r. split; [reflexivity|lia].
    + intros p. rewrite update_eq. destruct (Hh p) as (q & -> & Hl). cbn [bind]. destruct (Hf q) as (r & -> & Hr). reflexivity.
  - exists (update_head name). split; [exact Hh|]. intros p. rewrite update_eq. reflexivity.
Qed.

Lemma outer_iop : forall ops, (exists lvl, In (IOuter lvl) ops) \/ forall lvl, ~ In (IOuter lvl) ops.
Proof using.
  intros ops. induction ops as [|[row|lvl] ops [[l IH]|IH]]; [right; intros lvl []|left; exists l; right; exact IH|right; intros l [H|H]; [discriminate|exact (IH l H)]|left; exists lvl; left; reflexivity..].
Qed.
Lemma outer_uop : forall ops, (exists lvl, In (UOuter lvl) ops) \/ forall lvl, ~ In (UOuter lvl) ops.
Proof using.
  intros ops. induction ops as [|[k v|lvl] ops [[l IH]|IH]]; [right; intros lvl []|left; exists l; right; exact IH|right; intros l [H|H]; [discriminate|exact (IH l H)]|left; exists lvl; left; reflexivity..].
Qed.

Lemma heading_insert : forall name cols, go_string name -> Forall go_string cols -> heading (fun p => msg_insert p name cols).
Proof using.
  intros name cols [_ Hn] Hc. eapply emitsh_heading, insert_head_ok; [exact Hn|]. eapply Forall_impl; [|exact Hc]. intros x [_ H]. exact H.
Qed.

Lemma call_cases : forall dis c, Forall (fun d => d = true) dis -> call_ok word32 c -> call_decided c -> call_fits c ->
  exists k, call_kind c k /\ (k = Goes \/ ends k (run_call dis c E)).
Proof using.
  intros dis c Hdis Hok Hs Hf. unfold call_fits in Hf.
  destruct c as [stmt args|id stmt|id args|id|name cols rows|name cols ops cberr|name cr set|name cr ops cberr|name cr]; cbn [call_ok call_decided call_weight] in *.
  - destruct Hok as [Hn Ha]. destruct (args_fate tagStmtExecuteArgs args ltac:(unfold tagStmtExecuteArgs; lia) Ha Hs ltac:(unfold name_weight in Hf; lia)) as [H|(before & x & after & k & -> & Hb & Hk & Hx & Hd)]; [exists Goes; auto|].
    exists (plainly k). split; [destruct k as [| |e|e|e]; cbn [plainly call_kind arg_kind] in *; [congruence|constructor; assumption|contradiction..|constructor; assumption]|right].
    apply ends_ext with (2 := ends_plainly _ k _ (fun p q => okm (patch_length q (len p))) (emitsh_heading _ _ (stmt_head_ok stmt ltac:(destruct Hn; lia))) Hd Hk).
    intros p. cbn [run_call]. rewrite stmt_execute_eq. reflexivity.
  - exists Goes. split; [exact I|left; reflexivity].
  - destruct Hok as [Hn Ha]. destruct (args_fate tagExecuteArgs args ltac:(unfold tagExecuteArgs; lia) Ha Hs ltac:(lia)) as [H|(before & x & after & k & -> & Hb & Hk & Hx & Hd)]; [exists Goes; auto|].
    exists (plainly k). split; [destruct k as [| |e|e|e]; cbn [plainly call_kind arg_kind] in *; [congruence|constructor; assumption|contradiction..|constructor; assumption]|right].
    apply ends_ext with (2 := ends_plainly _ k _ (fun p q => okm (patch_length q (len p))) (emitsh_heading _ _ (execute_head_ok id Hn)) Hd Hk).
    intros p. cbn [run_call]. rewrite execute_eq. reflexivity.
  - exists Goes. split; [exact I|left; reflexivity].
  - destruct Hok as (Hn & Hc & Hr). destruct (rows_fate (length cols) rows 0 Hr Hs ltac:(lia)) as [H|(before & row & after & k & -> & Hb & Hk & Hx & Hd)]; [exists Goes; auto|].
    exists (plainly k). split.
    + destruct Hx as [[Hl Hx]|[Hl ->]]; [|cbn [plainly call_kind]; constructor; assumption].
      destruct k as [| |e|e|e]; cbn [plainly call_kind row_kind] in *; [congruence|constructor; assumption|constructor; [assumption..|apply Hx]|constructor; assumption|contradiction].
    + right. apply (ends_plainly (fun p => msg_insert p name cols) k _ (fun p q => okm (patch_length q (len p))) (heading_insert name cols Hn Hc) Hd Hk).
  - destruct Hok as (Hn & Hc & Hr). destruct (outer_iop ops) as [[lvl Ho]|Ho].
    + exists Dies. split; [exact (CP_insert_f_outer name cols ops lvl cberr Ho)|]. right. intros p. cbn [run_call]. unfold do_insert_f. destruct (heading_insert name cols Hn Hc p) as (q & -> & _).
      cbn [bind]. rewrite (run_iops_outer E dis ops lvl Hdis Ho). reflexivity.
    + destruct (iops_fate dis ops Ho Hr Hs ltac:(lia)) as [H|(before & row & after & k & -> & Hb & Hk & Hx & Hd)]; [exists Goes; auto|].
      exists (anyway k). split; [destruct k as [| |e|e|e]; cbn [anyway call_kind row_kind] in *; [congruence|constructor; auto|constructor; [assumption|right; apply Hx]|constructor; assumption|contradiction]|].
      right. apply (ends_anyway (fun p => msg_insert p name cols) k _ (heading_insert name cols Hn Hc) Hd). destruct k; try exact I; contradiction.
  - destruct Hok as (Hn & Hcr & Hset), Hs as [Hs1 Hs2]. destruct (criteria_fate cr Hcr Hs1 ltac:(lia)) as [Ha|(f & k & -> & Hk & Hx & Hd)].
    + destruct (sets_fate set Hset Hs2 ltac:(lia)) as [H|(before & n & x & after & k & -> & Hb & Hk & Hx & Hd)]; [exists Goes; split; [split; assumption|auto]|].
      exists (plainly k). split; [destruct k as [| |e|e|e]; cbn [plainly call_kind value_kind] in *; [congruence|constructor; assumption|constructor; [assumption..|apply Hx]|constructor; assumption|contradiction]|right].
      destruct (update_heading name cr Hn Hcr Ha ltac:(lia)) as (h & Hh & Eq).
      apply ends_ext with (2 := ends_plainly h k _ (fun p q => okm (patch_length q (len p))) Hh Hd Hk).
      intros p. cbn [run_call]. unfold do_update. rewrite Eq. destruct (h p); reflexivity.
    + exists (plainly k). split; [destruct k as [| |e|e|e]; cbn [plainly call_kind fun_kind] in *; [congruence|constructor; assumption|constructor; apply Hx|constructor; assumption|contradiction]|right].
      apply ends_ext with (2 := ends_plainly _ k _ (fun p q => do (p', e) <- update_sets set q; match e with Some e => Ok (p', Some e) | None => okm (patch_length p' (len p)) end)
        (emitsh_heading _ _ (update_head_ok name (proj2 Hn))) (Hd tagUpdateCriteria ltac:(unfold tagUpdateCriteria; lia)) Hk).
      intros p. cbn [run_call]. unfold do_update. rewrite update_eq. destruct (update_head name p) as [q|]; [|reflexivity]. cbn [bind]. destruct (run_fun f q tagUpdateCriteria) as [[r [e|]]|]; reflexivity.
  - destruct Hok as (Hn & Hcr & Hset), Hs as [Hs1 Hs2]. destruct (outer_uop ops) as [[lvl Ho]|Ho].
    + exists Dies. split; [exact (CP_update_f_outer name cr ops lvl cberr Ho)|]. right. intros p. cbn [run_call]. unfold do_update_f. destruct (msg_update p name cr) as [[q e]|]; [|reflexivity].
      cbn [bind]. rewrite (run_uops_outer E dis ops lvl Hdis Ho). reflexivity.
    + destruct (criteria_fate cr Hcr Hs1 ltac:(lia)) as [Ha|(f & k & -> & Hk & Hx & Hd)].
      * destruct (uops_fate dis ops Ho Hset Hs2 ltac:(lia)) as [H|(before & n & x & after & k & -> & Hb & Hk & Hx & Hd)]; [exists Goes; split; [split; assumption|auto]|].
        exists (anyway k). split; [destruct k as [| |e|e|e]; cbn [anyway call_kind value_kind] in *; [congruence|constructor; auto|constructor; [assumption..|right; apply Hx]|constructor; assumption|contradiction]|right].
        destruct (update_heading name cr Hn Hcr Ha ltac:(lia)) as (h & Hh & Eq).
        apply ends_ext with (2 := ends_anyway h k _ Hh Hd ltac:(destruct k; try exact I; contradiction)).
        intros p. cbn [run_call]. unfold do_update_f. rewrite Eq. destruct (h p); reflexivity.
      * exists (anyway k). split; [destruct k as [| |e|e|e]; cbn [anyway call_kind fun_kind] in *; [congruence|constructor; auto|constructor; right; apply Hx|constructor; assumption|contradiction]|right].
        apply ends_ext with (2 := ends_anyway _ k _ (emitsh_heading _ _ (update_head_ok name (proj2 Hn))) (Hd tagUpdateCriteria ltac:(unfold tagUpdateCriteria; lia)) ltac:(destruct k; try exact I; contradiction)).
        intros p. cbn [run_call]. unfold do_update_f. rewrite update_eq. destruct (update_head name p) as [q|] eqn:Hq; [|reflexivity]. cbn [bind].
        pose proof (Hd tagUpdateCriteria ltac:(unfold tagUpdateCriteria; lia)) as F.
        destruct k as [| |e|e|e]; cbn [fate] in F; [congruence|rewrite F; reflexivity| | |contradiction].
        -- rewrite F. cbn [bind]. rewrite uops_skip by exact Ho. reflexivity.
        -- destruct (F q) as (r & -> & _). cbn [bind]. rewrite uops_skip by exact Ho. reflexivity.
  - destruct Hok as (Hn & Hcr). destruct (criteria_fate cr Hcr Hs ltac:(lia)) as [Ha|(f & k & -> & Hk & Hx & Hd)]; [exists Goes; auto|].
    exists (anyway k). split; [destruct k as [| |e|e|e]; cbn [anyway call_kind fun_kind] in *; [congruence|constructor; auto|constructor; right; apply Hx|constructor; assumption|contradiction]|right].
    apply ends_ext with (2 := ends_anyway _ k _ (emitsh_heading _ _ (delete_head_ok name (proj2 Hn))) (Hd tagDeleteCriteria ltac:(unfold tagDeleteCriteria; lia)) ltac:(destruct k; try exact I; contradiction)).
    intros p. cbn [run_call]. rewrite delete_eq. reflexivity.
Qed.

(* ---- and the other way round: what is said to panic or to lose the slice does ---- *)

Lemma before_goes : forall before x after tag, 0 < tag < 16 -> Forall fine (before ++ x :: after) -> Forall expr_accepted before -> total_weight weight (before ++ x :: after) < 2 ^ 61 ->
  Forall (fun y => fate Goes (fun p => append_expr y p tag)) before /\ fine x /\ weight x < 2 ^ 61.
Proof using.
  intros before x after tag Ht Hf Ha Hw. rewrite total_app, total_cons in Hw. apply Forall_app in Hf as [F1 F2]. inversion F2; subst.
  split; [|split; [assumption|lia]]. rewrite Forall_forall in *. intros y Hy. pose proof (weight_in weight y before Hy). apply expr_goes; auto. lia.
Qed.

Lemma operator_first : forall name before x after k, Forall expr_accepted before -> fun_ok word32 (EOperator name (before ++ x :: after)) -> fun_weight (EOperator name (before ++ x :: after)) < 2 ^ 61 ->
  (fine x -> weight x < 2 ^ 61 -> forall tag, 0 < tag < 16 -> fate k (fun p => append_expr x p tag)) -> k <> Goes ->
  forall tag, 0 < tag < 16 -> fate (rewrap (EParam (length before)) k) (fun p => run_fun (EOperator name (before ++ x :: after)) p tag).
Proof using.
  intros name before x after k Hb [[_ H1] H2] Hw Hx Hk tag Ht. cbn [fun_weight no_known_defect_fun] in *.
  destruct (before_goes before x after tagOperatorParam ltac:(unfold tagOperatorParam; lia) (all_fine _ H1 H2) Hb ltac:(lia)) as (Hg & Hf & Hwx).
  pose proof (each_fate (fun v p => append_expr v p tagOperatorParam) EParam before x after k 0 Hg (Hx Hf Hwx tagOperatorParam ltac:(unfold tagOperatorParam; lia)) Hk) as Hd.
  rewrite <- (rewrap_id (rewrap _ k)). apply fate_ext with (2 := fate_stop _ (fun e => e) _ (fun p q => okm (operator_header q (len p) tag name)) Hd (rewrap_goes _ _ Hk)).
  intros p. reflexivity.
Qed.
Lemma function_first : forall name before x after k, Forall expr_accepted before -> fun_ok word32 (ECall name (before ++ x :: after)) -> fun_weight (ECall name (before ++ x :: after)) < 2 ^ 61 ->
  (fine x -> weight x < 2 ^ 61 -> forall tag, 0 < tag < 16 -> fate k (fun p => append_expr x p tag)) -> k <> Goes ->
  forall tag, 0 < tag < 16 -> fate (rewrap (EParam (length before)) k) (fun p => run_fun (ECall name (before ++ x :: after)) p tag).
Proof using.
  intros name before x after k Hb [[_ H1] H2] Hw Hx Hk tag Ht. cbn [fun_weight no_known_defect_fun] in *.
  destruct (before_goes before x after tagFunctionCallParam ltac:(unfold tagFunctionCallParam; lia) (all_fine _ H1 H2) Hb ltac:(lia)) as (Hg & Hf & Hwx).
  pose proof (each_fate (fun v p => append_expr v p tagFunctionCallParam) EParam before x after k 0 Hg (Hx Hf Hwx tagFunctionCallParam ltac:(unfold tagFunctionCallParam; lia)) Hk) as Hd.
  rewrite <- (rewrap_id (rewrap _ k)). apply fate_ext with (2 := fate_stop _ (fun e => e) _ (fun p q => okm (call_header q (len p) tag name)) Hd (rewrap_goes _ _ Hk)).
  intros p. reflexivity.
Qed.

Scheme expr_panics_mut := Induction for expr_panics Sort Prop with fun_panics_mut := Induction for fun_panics Sort Prop.
Scheme expr_loses_mut := Induction for expr_loses Sort Prop with fun_loses_mut := Induction for fun_loses Sort Prop.

Definition value_dies (v : gvalue) : Prop := fine v -> weight v < 2 ^ 61 -> forall tag, 0 < tag < 16 -> fate Dies (fun p => append_expr v p tag).
Definition fun_dies (f : exprfun) : Prop := fun_ok word32 f -> fun_weight f < 2 ^ 61 -> forall tag, 0 < tag < 16 -> fate Dies (fun p => run_fun f p tag).
Definition value_lost (v : gvalue) : Prop := exists e, fine v -> weight v < 2 ^ 61 -> forall tag, 0 < tag < 16 -> fate (Loses e) (fun p => append_expr v p tag).
Definition fun_lost (f : exprfun) : Prop := exists e, fun_ok word32 f -> fun_weight f < 2 ^ 61 -> forall tag, 0 < tag < 16 -> fate (Loses e) (fun p => run_fun f p tag).

Lemma panics_dies : (forall v, expr_panics v -> value_dies v) /\ (forall f, fun_panics f -> fun_dies f).
Proof using.
  assert (L1 : value_dies (VFunc None)) by (intros _ _ tag _ p; reflexivity).
  assert (L2 : forall a, value_dies (VNilPtr a true)) by (intros a _ _ tag _ p; reflexivity).
  assert (L3 : forall a u, crashes u -> value_dies (VUser a (Some u))) by (intros a u H _ _ tag _ p; apply H).
  assert (L4 : forall a u, crashes u -> value_dies (VPtr false (VUser a (Some u)))) by (intros a u H _ _ tag _ p; apply H).
  assert (L5 : forall f, fun_panics f -> fun_dies f -> value_dies (VFunc (Some f))) by (intros f _ H; exact H).
  assert (L6 : forall u, crashes u -> fun_dies (EUserFn u)) by (intros u H _ _ tag _ p; apply H).
  assert (L7 : forall name before x after, Forall expr_accepted before -> expr_panics x -> value_dies x -> fun_dies (EOperator name (before ++ x :: after))).
  { intros name before x after Hb _ Hx H1 H2 tag Ht. exact (operator_first name before x after Dies Hb H1 H2 Hx ltac:(discriminate) tag Ht). }
  assert (L8 : forall name before x after, Forall expr_accepted before -> expr_panics x -> value_dies x -> fun_dies (ECall name (before ++ x :: after))).
  { intros name before x after Hb _ Hx H1 H2 tag Ht. exact (function_first name before x after Dies Hb H1 H2 Hx ltac:(discriminate) tag Ht). }
  split; [exact (expr_panics_mut (fun v _ => value_dies v) (fun f _ => fun_dies f) L1 L2 L3 L4 L5 L6 L7 L8)|exact (fun_panics_mut (fun v _ => value_dies v) (fun f _ => fun_dies f) L1 L2 L3 L4 L5 L6 L7 L8)].
Qed.
Lemma loses_lost : (forall v, expr_loses v -> value_lost v) /\ (forall f, fun_loses f -> fun_lost f).
Proof using.
  assert (L3 : forall a u e, loses u e -> value_lost (VUser a (Some u))) by (intros a u e H; exists e; intros _ _ tag _ p; apply H).
  assert (L4 : forall a u e, loses u e -> value_lost (VPtr false (VUser a (Some u)))) by (intros a u e H; exists e; intros _ _ tag _ p; apply H).
  assert (L5 : forall f, fun_loses f -> fun_lost f -> value_lost (VFunc (Some f))) by (intros f _ H; exact H).
  assert (L6 : forall u e, loses u e -> fun_lost (EUserFn u)) by (intros u e H; exists e; intros _ _ tag _ p; apply H).
  assert (L7 : forall name before x after, Forall expr_accepted before -> expr_loses x -> value_lost x -> fun_lost (EOperator name (before ++ x :: after))).
  { intros name before x after Hb _ [e Hx]. exists (EParam (length before) e). intros H1 H2 tag Ht. exact (operator_first name before x after (Loses e) Hb H1 H2 Hx ltac:(discriminate) tag Ht). }
  assert (L8 : forall name before x after, Forall expr_accepted before -> expr_loses x -> value_lost x -> fun_lost (ECall name (before ++ x :: after))).
  { intros name before x after Hb _ [e Hx]. exists (EParam (length before) e). intros H1 H2 tag Ht. exact (function_first name before x after (Loses e) Hb H1 H2 Hx ltac:(discriminate) tag Ht). }
  split; [exact (expr_loses_mut (fun v _ => value_lost v) (fun f _ => fun_lost f) L3 L4 L5 L6 L7 L8)|exact (fun_loses_mut (fun v _ => value_lost v) (fun f _ => fun_lost f) L3 L4 L5 L6 L7 L8)].
Qed.

Lemma row_first : forall before x after k, Forall expr_accepted before -> values_ok word32 (before ++ x :: after) -> row_weight (before ++ x :: after) < 2 ^ 61 ->
  (fine x -> weight x < 2 ^ 61 -> forall tag, 0 < tag < 16 -> fate k (fun p => append_expr x p tag)) -> k <> Goes ->
  fate (rewrap (EColumnErr (length before)) k) (fun p => append_insert_row p (before ++ x :: after)).
Proof using.
  intros before x after k Hb Hr Hw Hx Hk.
  destruct (before_goes before x after tagTypedRowField ltac:(unfold tagTypedRowField; lia) Hr Hb ltac:(unfold row_weight in Hw; lia)) as (Hg & Hf & Hwx).
  pose proof (each_fate (fun v p => append_expr v p tagTypedRowField) EColumnErr before x after k 0 Hg (Hx Hf Hwx tagTypedRowField ltac:(unfold tagTypedRowField; lia)) Hk) as Hd.
  rewrite <- (rewrap_id (rewrap _ k)).
  assert (L : forall bs p, (len p <= len (append p bs))%nat) by (intros bs p; rewrite len_append; lia).
  set (g := fun p q : slice => let n := (len q - len p)%nat in do q <- (if (sizev n =? 2)%nat then Ok q else do h <- reslice q (len p + sizev n - 2); do t <- from q (len p); Ok (append h t));
    do (q, _) <- put_uvarint q (len p - 2) (N.of_nat n); Ok (q, @None err)).
  exact (fate_before _ _ _ (L _) (fate_stop _ (fun e => e) _ g Hd (rewrap_goes _ _ Hk))).
Qed.
Lemma row_dies : forall row, row_panics row -> values_ok word32 row -> row_weight row < 2 ^ 61 -> fate Dies (fun p => append_insert_row p row).
Proof using. intros row [before x after Hb Hx] Hr Hw. exact (row_first before x after Dies Hb Hr Hw (proj1 panics_dies x Hx) ltac:(discriminate)). Qed.
Lemma row_lost : forall row, row_loses row -> values_ok word32 row -> row_weight row < 2 ^ 61 -> exists e, fate (Loses e) (fun p => append_insert_row p row).
Proof using.
  intros row [before x after Hb Hx] Hr Hw. destruct (proj1 loses_lost x Hx) as [e He].
  exists (EColumnErr (length before) e). exact (row_first before x after (Loses e) Hb Hr Hw He ltac:(discriminate)).
Qed.
Lemma row_goes : forall row, Forall expr_accepted row -> values_ok word32 row -> row_weight row < 2 ^ 61 -> fate Goes (fun p => append_insert_row p row).
Proof using. intros row Ha Hr Hw. exact (parts_goes _ _ _ _ _ _ (row_parts word32 row Hr) Ha Hw). Qed.
Lemma set_goes : forall name v, expr_accepted v -> go_string name -> fine v -> set_weight (name, v) < 2 ^ 61 -> fate Goes (fun p => append_update_set p name v).
Proof using. intros name v Ha Hn Hf Hw. exact (parts_goes _ _ _ _ _ _ (set_parts word32 name v Hn (proj1 Hf) (proj2 Hf)) Ha Hw). Qed.
Lemma set_first : forall name v k, (fine v -> weight v < 2 ^ 61 -> forall tag, 0 < tag < 16 -> fate k (fun p => append_expr v p tag)) -> k <> Goes ->
  fine v -> set_weight (name, v) < 2 ^ 61 -> fate k (fun p => append_update_set p name v).
Proof using.
  intros name v k H Hk Hf Hw. unfold set_weight in Hw. cbn [fst snd] in Hw. specialize (H Hf ltac:(lia) tagUpdateOperationValue ltac:(unfold tagUpdateOperationValue; lia)).
  rewrite <- (rewrap_id k). apply fate_ext with (2 := fate_stop k (fun e => e) _ (fun p q => okm (set_header q (len p) name)) H Hk). reflexivity.
Qed.

Lemma rows_first : forall ncols before row after k i, Forall (fun row => length row = ncols /\ Forall expr_accepted row) before -> length row = ncols ->
  Forall (values_ok word32) (before ++ row :: after) -> total_weight row_weight (before ++ row :: after) < 2 ^ 61 -> fate k (fun p => append_insert_row p row) -> k <> Goes ->
  fate k (insert_rows ncols i (before ++ row :: after)).
Proof using.
  intros ncols before row after k. induction before as [|r before IH]; intros i Hb Hl Hr Hw Hf Hk; cbn [app] in *.
  - rewrite <- (rewrap_id k). apply fate_ext with (2 := fate_stop k (fun e => e) _ (fun _ q => insert_rows ncols (S i) after q) Hf Hk).
    intros p. cbn [insert_rows]. rewrite (proj2 (Nat.eqb_eq _ _) Hl). reflexivity.
  - apply Forall_cons_iff in Hb as [[Hl1 Ha] Hb']. apply Forall_cons_iff in Hr as [Hv Hr']. rewrite total_cons in Hw.
    apply fate_ext with (2 := fate_then k (fun e => e) _ _ (row_goes r Ha Hv ltac:(lia)) (IH (S i) Hb' Hl Hr' ltac:(lia) Hf Hk)).
    intros p. cbn [insert_rows]. rewrite (proj2 (Nat.eqb_eq _ _) Hl1). reflexivity.
Qed.
Lemma sets_first : forall before name v after k, Forall (fun kv => expr_accepted (snd kv)) before ->
  sets_ok word32 (before ++ (name, v) :: after) -> total_weight set_weight (before ++ (name, v) :: after) < 2 ^ 61 -> fate k (fun p => append_update_set p name v) -> k <> Goes ->
  fate k (update_sets (before ++ (name, v) :: after)).
Proof using.
  intros before name v after k. induction before as [|[n x] before IH]; intros Hb [N1 H1] Hw Hf Hk; cbn [app map fst snd] in *.
  - rewrite <- (rewrap_id k). apply fate_ext with (2 := fate_stop k (fun e => e) _ (fun _ q => update_sets after q) Hf Hk). reflexivity.
  - inversion Hb as [|? ? Ha Hb']; subst. inversion N1 as [|? ? Hn N1']; subst. inversion H1 as [|? ? Hv H1']; subst. rewrite total_cons in Hw.
    apply fate_ext with (2 := fate_then k (fun e => e) _ _ (set_goes n x Ha Hn Hv ltac:(lia)) (IH Hb' (conj N1' H1') ltac:(lia) Hf Hk)). reflexivity.
Qed.
Lemma iops_first : forall dis before row after k, (forall lvl, ~ In (IOuter lvl) (before ++ IRow row :: after)) -> Forall iop_accepted before ->
  Forall (values_ok word32) (rows_of (before ++ IRow row :: after)) -> total_weight row_weight (rows_of (before ++ IRow row :: after)) < 2 ^ 61 ->
  (values_ok word32 row -> row_weight row < 2 ^ 61 -> fate k (fun p => append_insert_row p row)) -> k <> Goes ->
  fate k (fun p => run_iops dis (before ++ IRow row :: after) p None).
Proof using.
  intros dis before row after k. assert (Eq : forall r ops p, (forall lvl, ~ In (IOuter lvl) (IRow r :: ops)) ->
    run_iops dis (IRow r :: ops) p None = do (q, e) <- append_insert_row p r; match e with Some e => Ok (q, Some e) | None => run_iops dis ops q None end).
  { intros r ops p H. cbn [run_iops]. destruct (append_insert_row p r) as [[q [e|]]|]; cbn [bind]; [apply iops_skip; intros lvl Hl; apply (H lvl); right; exact Hl|reflexivity..]. }
  induction before as [|[r|lvl] before IH]; intros Ho Hb Hr Hw Hf Hk; cbn [app rows_of] in *; [| |destruct (Ho lvl); left; reflexivity]; inversion Hr as [|? ? Hv Hr']; subst; rewrite total_cons in Hw.
  - rewrite <- (rewrap_id k). apply fate_ext with (2 := fate_stop k (fun e => e) _ (fun _ q => run_iops dis after q None) (Hf Hv ltac:(lia)) Hk). intros p. rewrite Eq by exact Ho. reflexivity.
  - inversion Hb as [|? ? Ha Hb']; subst. assert (Ho' : forall lvl, ~ In (IOuter lvl) (before ++ IRow row :: after)) by (intros lvl Hl; apply (Ho lvl); right; exact Hl).
    apply fate_ext with (2 := fate_then k (fun e => e) _ _ (row_goes r Ha Hv ltac:(lia)) (IH Ho' Hb' Hr' ltac:(lia) Hf Hk)). intros p. rewrite Eq by exact Ho. reflexivity.
Qed.
Lemma uops_first : forall dis before name v after k, (forall lvl, ~ In (UOuter lvl) (before ++ USet name v :: after)) -> Forall uop_accepted before ->
  sets_ok word32 (sets_of (before ++ USet name v :: after)) -> total_weight set_weight (sets_of (before ++ USet name v :: after)) < 2 ^ 61 ->
  (fine v -> set_weight (name, v) < 2 ^ 61 -> fate k (fun p => append_update_set p name v)) -> k <> Goes ->
  fate k (fun p => run_uops dis (before ++ USet name v :: after) p None).
Proof using.
  intros dis before name v after k. assert (Eq : forall n x ops p, (forall lvl, ~ In (UOuter lvl) (USet n x :: ops)) ->
    run_uops dis (USet n x :: ops) p None = do (q, e) <- append_update_set p n x; match e with Some e => Ok (q, Some e) | None => run_uops dis ops q None end).
  { intros n x ops p H. cbn [run_uops]. destruct (append_update_set p n x) as [[q [e|]]|]; cbn [bind]; [apply uops_skip; intros lvl Hl; apply (H lvl); right; exact Hl|reflexivity..]. }
  induction before as [|[n x|lvl] before IH]; intros Ho Hb [N1 H1] Hw Hf Hk; cbn [app sets_of map fst snd] in *; [| |destruct (Ho lvl); left; reflexivity];
    inversion N1 as [|? ? Hn N1']; subst; inversion H1 as [|? ? Hv H1']; subst; rewrite total_cons in Hw.
  - rewrite <- (rewrap_id k). apply fate_ext with (2 := fate_stop k (fun e => e) _ (fun _ q => run_uops dis after q None) (Hf Hv ltac:(lia)) Hk). intros p. rewrite Eq by exact Ho. reflexivity.
  - inversion Hb as [|? ? Ha Hb']; subst. assert (Ho' : forall lvl, ~ In (UOuter lvl) (before ++ USet name v :: after)) by (intros lvl Hl; apply (Ho lvl); right; exact Hl).
    apply fate_ext with (2 := fate_then k (fun e => e) _ _ (set_goes n x Ha Hn Hv ltac:(lia)) (IH Ho' Hb' (conj N1' H1') ltac:(lia) Hf Hk)). intros p. rewrite Eq by exact Ho. reflexivity.
Qed.

Lemma arg_dies : forall v, arg_panics v -> forall tag, fate Dies (fun p => append_any v p tag).
Proof using.
  assert (T : forall v, arg_panics v -> forall p tag, type_switch v p tag = Panic).
  { intros v H. induction H as [m|u m H|i v H IH]; intros p tag; [reflexivity|apply H|]. inversion H; subst; destruct i; exact (IH p tag). }
  intros v H tag p. pose proof (T v H p tag) as Ht. destruct H; exact Ht.
Qed.
Lemma args_first : forall tag before x after, 0 < tag < 16 -> Forall arg_accepted before -> arg_panics x -> values_ok word32 (before ++ x :: after) -> total_weight weight (before ++ x :: after) < 2 ^ 61 ->
  fate Dies (append_args tag (before ++ x :: after)).
Proof using.
  intros tag before x after Ht Hb Hx Hv Hw. unfold append_args. apply (each_fate (fun v p => append_any v p tag) (fun _ e => e) before x after Dies 0); [|apply arg_dies; exact Hx|discriminate].
  unfold values_ok in Hv. apply Forall_app in Hv as [Hv _]. rewrite total_app in Hw. rewrite Forall_forall in *. intros y Hy. pose proof (weight_in weight y before Hy). apply any_goes; [exact Ht|apply Hv, Hy|apply Hb, Hy|lia].
Qed.

(* Panicking, or losing the slice where it is patched. *)
Definition ruins (k : kind) : Prop := match k with Dies | Loses _ => True | _ => False end.
Lemma ruins_anyway : forall h k f, ruins k -> heading h -> fate k f -> ends Dies (fun p => do q <- h p; do (q, e) <- f q; do q <- patch_length q (len p); Ok (q, e)).
Proof using. intros h k f Hk Hh Hf. destruct k; try contradiction; [exact (ends_anyway h Dies f Hh Hf I)|exact (ends_anyway h (Loses e) f Hh Hf I)]. Qed.
Lemma value_ruined : forall v, expr_panics v \/ expr_loses v -> exists k, ruins k /\ k <> Goes /\ (fine v -> weight v < 2 ^ 61 -> forall tag, 0 < tag < 16 -> fate k (fun p => append_expr v p tag)).
Proof using.
  intros v [H|H]; [exists Dies|destruct (proj1 loses_lost v H) as [e He]; exists (Loses e)]; (split; [exact I|]); (split; [discriminate|]); [exact (proj1 panics_dies v H)|exact He].
Qed.
Lemma fun_ruined : forall f, fun_panics f \/ fun_loses f -> exists k, ruins k /\ k <> Goes /\ (fun_ok word32 f -> fun_weight f < 2 ^ 61 -> forall tag, 0 < tag < 16 -> fate k (fun p => run_fun f p tag)).
Proof using.
  intros v [H|H]; [exists Dies|destruct (proj2 loses_lost v H) as [e He]; exists (Loses e)]; (split; [exact I|]); (split; [discriminate|]); [exact (proj2 panics_dies v H)|exact He].
Qed.
Lemma row_ruined : forall row, row_panics row \/ row_loses row -> values_ok word32 row -> row_weight row < 2 ^ 61 -> exists k, ruins k /\ k <> Goes /\ fate k (fun p => append_insert_row p row).
Proof using.
  intros row [H|H] Hv Hw; [exists Dies|destruct (row_lost row H Hv Hw) as [e He]; exists (Loses e)]; (split; [exact I|]); (split; [discriminate|]); [exact (row_dies row H Hv Hw)|exact He].
Qed.

Lemma rows_of_in : forall row ops, In (IRow row) ops -> In row (rows_of ops).
Proof using. intros row ops. induction ops as [|[r|lvl] ops IH]; intros H; [destruct H| |]; cbn [rows_of]; destruct H as [H|H]; try discriminate; [injection H as ->; left; reflexivity|right; auto|auto]. Qed.

Lemma call_dies : forall dis c, Forall (fun d => d = true) dis -> call_ok word32 c -> call_fits c -> call_panics c -> forall p, run_call dis c E p = Panic.
Proof using.
  intros dis c Hdis Hok Hf Hp. unfold call_fits in Hf.
  destruct Hp as [stmt before x after Hb Hx|id before x after Hb Hx|name cols before row after Hb Hl Hx|name cols before row after cberr Hb Hx|name cols ops lvl cberr Ho
    |name f set Hx|name cr before n x after Ha Hb Hx|name f ops cberr Hx|name cr before n x after cberr Ha Hb Hx|name cr ops lvl cberr Ho|name f Hx]; cbn [call_ok call_weight] in *.
  - destruct Hok as [Hn Ha]. pose proof (args_first tagStmtExecuteArgs before x after ltac:(unfold tagStmtExecuteArgs; lia) Hb Hx Ha ltac:(unfold name_weight in Hf; lia)) as Hd.
    apply (ends_ext Dies) with (2 := ends_plainly _ Dies _ (fun p q => okm (patch_length q (len p))) (emitsh_heading _ _ (stmt_head_ok stmt ltac:(destruct Hn; lia))) Hd ltac:(discriminate)).
    intros p. cbn [run_call]. rewrite stmt_execute_eq. reflexivity.
  - destruct Hok as [Hn Ha]. pose proof (args_first tagExecuteArgs before x after ltac:(unfold tagExecuteArgs; lia) Hb Hx Ha ltac:(lia)) as Hd.
    apply (ends_ext Dies) with (2 := ends_plainly _ Dies _ (fun p q => okm (patch_length q (len p))) (emitsh_heading _ _ (execute_head_ok id Hn)) Hd ltac:(discriminate)).
    intros p. cbn [run_call]. rewrite execute_eq. reflexivity.
  - destruct Hok as (Hn & Hc & Hr). assert (Hd : fate Dies (fun p => append_insert_row p row)).
    { apply row_dies; [exact Hx|rewrite Forall_forall in Hr; apply Hr, in_elt|]. pose proof (weight_in row_weight row (before ++ row :: after) (in_elt _ _ _)). lia. }
    exact (ends_plainly (fun p => msg_insert p name cols) Dies _ (fun p q => okm (patch_length q (len p))) (heading_insert name cols Hn Hc)
      (rows_first (length cols) before row after Dies 0 Hb Hl Hr ltac:(lia) Hd ltac:(discriminate)) ltac:(discriminate)).
  - destruct Hok as (Hn & Hc & Hr). destruct (outer_iop (before ++ IRow row :: after)) as [[lvl Ho]|Ho].
    + intros p. cbn [run_call]. unfold do_insert_f. destruct (heading_insert name cols Hn Hc p) as (q & -> & _). cbn [bind]. rewrite (run_iops_outer E dis _ lvl Hdis Ho). reflexivity.
    + pose proof (rows_of_in row (before ++ IRow row :: after) (in_elt _ _ _)) as Hin. pose proof (weight_in row_weight row _ Hin).
      destruct (row_ruined row Hx) as (k & K1 & K2 & K3); [rewrite Forall_forall in Hr; apply Hr, Hin|lia|].
      exact (ruins_anyway (fun p => msg_insert p name cols) k _ K1 (heading_insert name cols Hn Hc) (iops_first dis before row after k Ho Hb Hr ltac:(lia) (fun _ _ => K3) K2)).
  - destruct Hok as (Hn & Hc & Hr). intros p. cbn [run_call]. unfold do_insert_f. destruct (heading_insert name cols Hn Hc p) as (q & -> & _). cbn [bind]. rewrite (run_iops_outer E dis _ lvl Hdis Ho). reflexivity.
  - destruct Hok as (Hn & Hcr & Hset). cbn [opt criteria_weight] in *. pose proof (proj2 panics_dies f Hx Hcr ltac:(lia) tagUpdateCriteria ltac:(unfold tagUpdateCriteria; lia)) as Hd.
    apply (ends_ext Dies) with (2 := ends_plainly _ Dies _ (fun p q => do (p', e) <- update_sets set q; match e with Some e => Ok (p', Some e) | None => okm (patch_length p' (len p)) end)
        (emitsh_heading _ _ (update_head_ok name (proj2 Hn))) Hd ltac:(discriminate)).
    intros p. cbn [run_call]. unfold do_update. rewrite update_eq. destruct (update_head name p) as [q|]; [|reflexivity]. cbn [bind]. destruct (run_fun f q tagUpdateCriteria) as [[r [e|]]|]; reflexivity.
  - destruct Hok as (Hn & Hcr & Hset). destruct (update_heading name cr Hn Hcr Ha ltac:(lia)) as (h & Hh & Eq).
    assert (Hd : fate Dies (fun p => append_update_set p n x)).
    { apply set_first; [exact (proj1 panics_dies x Hx)|discriminate|destruct Hset as [_ H1]; unfold values_ok in H1; rewrite Forall_forall in H1; apply H1; rewrite map_app; apply in_elt|].
      pose proof (weight_in set_weight (n, x) (before ++ (n, x) :: after) (in_elt _ _ _)). lia. }
    apply (ends_ext Dies) with (2 := ends_plainly h Dies _ (fun p q => okm (patch_length q (len p))) Hh (sets_first before n x after Dies Hb Hset ltac:(lia) Hd ltac:(discriminate)) ltac:(discriminate)).
    intros p. cbn [run_call]. unfold do_update. rewrite Eq. destruct (h p); reflexivity.
  - destruct Hok as (Hn & Hcr & Hset). cbn [opt criteria_weight] in *. destruct (fun_ruined f Hx) as (k & K1 & K2 & K3). specialize (K3 Hcr ltac:(lia) tagUpdateCriteria ltac:(unfold tagUpdateCriteria; lia)).
    destruct (outer_uop ops) as [[lvl Ho]|Ho].
    + intros p. cbn [run_call]. unfold do_update_f. destruct (msg_update p name (Some f)) as [[q e]|]; [|reflexivity]. cbn [bind]. rewrite (run_uops_outer E dis ops lvl Hdis Ho). reflexivity.
    + apply (ends_ext Dies) with (2 := ruins_anyway _ k _ K1 (emitsh_heading _ _ (update_head_ok name (proj2 Hn))) K3).
      intros p. cbn [run_call]. unfold do_update_f. rewrite update_eq. destruct (update_head name p) as [q|] eqn:Hq; [|reflexivity]. cbn [bind].
      destruct k as [| |e|e|e]; try contradiction; cbn [fate] in K3; rewrite K3; [reflexivity|]. cbn [bind]. rewrite uops_skip by exact Ho. reflexivity.
  - destruct Hok as (Hn & Hcr & Hset). destruct (outer_uop (before ++ USet n x :: after)) as [[lvl Ho]|Ho].
    + intros p. cbn [run_call]. unfold do_update_f. destruct (msg_update p name cr) as [[q e]|]; [|reflexivity]. cbn [bind]. rewrite (run_uops_outer E dis _ lvl Hdis Ho). reflexivity.
    + destruct (update_heading name cr Hn Hcr Ha ltac:(lia)) as (h & Hh & Eq). destruct (value_ruined x Hx) as (k & K1 & K2 & K3).
      apply (ends_ext Dies) with (2 := ruins_anyway h k _ K1 Hh (uops_first dis before n x after k Ho Hb Hset ltac:(lia) (set_first n x k K3 K2) K2)).
      intros p. cbn [run_call]. unfold do_update_f. rewrite Eq. destruct (h p); reflexivity.
  - intros p. cbn [run_call]. unfold do_update_f. destruct (msg_update p name cr) as [[q e]|]; [|reflexivity]. cbn [bind]. rewrite (run_uops_outer E dis ops lvl Hdis Ho). reflexivity.
  - destruct Hok as (Hn & Hcr). cbn [opt criteria_weight] in *. destruct (fun_ruined f Hx) as (k & K1 & K2 & K3). specialize (K3 Hcr ltac:(lia) tagDeleteCriteria ltac:(unfold tagDeleteCriteria; lia)).
    apply (ends_ext Dies) with (2 := ruins_anyway _ k _ K1 (emitsh_heading _ _ (delete_head_ok name (proj2 Hn))) K3).
    intros p. cbn [run_call]. rewrite delete_eq. reflexivity.
Qed.

(* ---- one step of a program ---- *)

Lemma call_step : forall dis c b, Forall (fun d => d = true) dis -> call_ok word32 c -> call_decided c -> call_fits c -> disabled b = false -> berr b = None ->
  (call_accepted c /\ ~ call_panics c /\ exists b', exec_call dis c b = Ok b' /\ disabled b' = false /\ berr b' = None) \/
  (call_panics c /\ exec_call dis c b = Panic) \/
  exists e b', call_error c e /\ ~ call_panics c /\ exec_call dis c b = Ok b' /\ disabled b' = false /\ berr b' = Some e.
Proof using.
  intros dis c b Hdis Hok Hde Hf Hd He.
  assert (X : exec_call dis c b = do (q, e) <- run_call dis c E (buf b); Ok (mkb q e (disabled b))).
  { unfold exec_call, guarded. rewrite Hd, He. destruct c; reflexivity. }
  assert (N : call_panics c -> exec_call dis c b = Panic) by (intros H; rewrite X, (call_dies dis c Hdis Hok Hf H); reflexivity).
  destruct (call_cases dis c Hdis Hok Hde Hf) as (k & Hk & He').
  destruct k as [| |e|e|e]; cbn [call_kind] in Hk; try contradiction.
  - left. destruct (call_total dis c b Hok Hf (or_intror Hk) Hd He) as (b' & H1 & H2 & H3). split; [exact Hk|]. split; [intros H; rewrite (N H) in H1; discriminate|]. eauto.
  - right. left. auto.
  - right. right. destruct He' as [He'|He']; [discriminate|]. destruct (He' (buf b)) as [q Hq]. exists e, (mkb q (Some e) (disabled b)). rewrite X, Hq in *. cbn [bind] in *.
    split; [exact Hk|]. split; [intros H; discriminate (N H)|]. cbn. auto.
Qed.

Lemma row_step : forall name cols row b, go_string name -> Forall go_string cols -> values_ok word32 row -> Forall decided row -> row_fits name cols row -> disabled b = false -> berr b = None ->
  (Forall expr_accepted row /\ ~ row_panics row /\ exists b' o, b_insert_row name cols row b = Ok (b', o) /\ disabled b' = false /\ berr b' = None) \/
  (row_panics row /\ b_insert_row name cols row b = Panic) \/
  exists e b' o, row_error row e /\ ~ row_panics row /\ b_insert_row name cols row b = Ok (b', o) /\ disabled b' = false /\ berr b' = Some e /\ o = None.
Proof using.
  intros name cols row b Hn Hc Hr Hde Hf Hd He. assert (Hw : row_weight row < 2 ^ 61) by (unfold row_fits, row_size in Hf; lia).
  destruct (heading_insert name cols Hn Hc (buf b)) as (h & Hh & _).
  assert (N : row_panics row -> b_insert_row name cols row b = Panic).
  { intros H. unfold b_insert_row. rewrite Hd, He. cbn zeta. rewrite Hh. cbn [bind]. rewrite (row_dies row H Hr Hw). reflexivity. }
  destruct (row_fate row Hr Hde Hw) as (k & Hk & Hk').
  assert (Err : forall e q, row_error row e -> append_insert_row h row = Ok (q, Some e) -> exists e b' o, row_error row e /\ ~ row_panics row /\ b_insert_row name cols row b = Ok (b', o) /\ disabled b' = false /\ berr b' = Some e /\ o = None).
  { intros e q H1 H2. assert (X : b_insert_row name cols row b = Ok (mkb q (Some e) (disabled b), None)).
    { unfold b_insert_row. rewrite Hd, He. cbn zeta. rewrite Hh. cbn [bind]. rewrite H2. reflexivity. }
    exists e, (mkb q (Some e) (disabled b)), None. split; [exact H1|]. split; [intros H; rewrite (N H) in X; discriminate|]. cbn. auto. }
  destruct k as [| |e|e|e]; cbn [row_kind fate] in *; [| | | |contradiction].
  - left. destruct (insert_row_total name cols row b Hn Hc Hr Hf (or_intror Hk) Hd He) as (b' & o & H1 & H2 & H3 & _). split; [exact Hk|]. split; [intros H; rewrite (N H) in H1; discriminate|]. eexists b', o. auto.
  - right. left. auto.
  - right. right. exact (Err e _ (proj1 Hk) (Hk' h)).
  - right. right. destruct (Hk' h) as (q & Hq & _). exact (Err e q Hk Hq).
Qed.

Lemma row_names : forall name cols row b b' o, disabled b = false -> berr b = None -> b_insert_row name cols row b = Ok (b', o) -> berr b' = None -> row_variable o.
Proof using.
  intros name cols row b b' o Hd He H Hb. destruct (proj2 (insert_row_eq E name cols row b Hd He) b' o H Hb) as [q Hq].
  rewrite (proj1 (insert_row_eq E name cols row b Hd He) q Hq) in H. destruct (b_stmt_execute _ _ _) as [x|]; cbn [bind] in H; [|discriminate]. injection H as <- <-.
  assert (S : Forall (fun x => x < 256) (insert_id q) /\ nlen (insert_id q) <= 23) by (apply id_of_small; apply N.mod_upper_bound; discriminate).
  destruct S as [S1 S2]. exists (insert_id q). split; [reflexivity|]. split; [split; [exact S1|lia]|lia].
Qed.
Lemma variables_results : forall out, Forall row_variable out -> Forall row_result out.
Proof using. intros out H. eapply Forall_impl; [|exact H]. intros o (id & -> & H1 & H2). exists id. auto. Qed.

(* The results of callbacks that return without error. *)
Lemma run_names : forall C R K pr b outer b' st out, prog_all C R K pr -> disabled b = false -> all_disabled outer -> berr b = None ->
  run pr (b :: outer) = Ok (b' :: st, out) -> berr b' = None -> Forall row_variable out.
Proof using.
  intros C R K pr. induction pr as [cberr out0|lvl c next IH|lvl name cols row next IH|lvl k body IHb next IHn]; intros b outer b' st out Ha Hd Ho He H Hb; cbn [run prog_all] in *.
  - injection H as <- <- <-. exact Ha.
  - destruct (nth_error (b :: outer) lvl) as [x|] eqn:Hx; [|discriminate]. destruct lvl as [|lvl]; [|rewrite exec_disabled in H by (eapply only_inner; eassumption); discriminate].
    injection Hx as <-. destruct (exec_call _ c b) as [x|] eqn:Hx; [|discriminate]. cbn [bind set_nth] in H. pose proof (proj1 (exec_keeps E _ _ _ _ Hd Hx)) as Hdx.
    destruct (berr x) eqn:Hex; [|eapply IH; [apply Ha|exact Hdx|exact Ho|exact Hex|exact H|exact Hb]].
    destruct (run_shape E next x outer _ _ Ho Hdx H) as (y & Hy & _ & Hk). injection Hy as <- <-. rewrite Hk in Hb by congruence. congruence.
  - destruct (nth_error (b :: outer) lvl) as [x|] eqn:Hx; [|discriminate]. destruct lvl as [|lvl]; [|rewrite insert_row_disabled in H by (eapply only_inner; eassumption); discriminate].
    injection Hx as <-. destruct (b_insert_row name cols row b) as [[x o]|] eqn:Hx; [|discriminate]. cbn [bind set_nth] in H. pose proof (proj1 (insert_row_keeps E _ _ _ _ _ _ Hd Hx)) as Hdx.
    destruct (berr x) eqn:Hex; [|eapply IH; [apply Ha; exact (row_names _ _ _ _ _ _ Hd He Hx Hex)|exact Hdx|exact Ho|exact Hex|exact H|exact Hb]].
    destruct (run_shape E (next o) x outer _ _ Ho Hdx H) as (y & Hy & _ & Hk). injection Hy as <- <-. rewrite Hk in Hb by congruence. congruence.
  - destruct (nth_error (b :: outer) lvl) as [x|] eqn:Hx; [|discriminate]. destruct lvl as [|lvl]; [|rewrite block_disabled in H by (eapply only_inner; eassumption); discriminate].
    injection Hx as <-. destruct (block_begin k b) as [[x en]|] eqn:Hx; [|discriminate]. cbn [bind set_nth] in H. pose proof (proj1 (block_begin_keeps E _ _ _ _ Hd Hx)) as Hdx.
    assert (Nx : forall o y, disabled y = false -> Forall row_variable o -> run (next o) (y :: outer) = Ok (b' :: st, out) -> Forall row_variable out).
    { intros o y Hdy Hov Hr. destruct (berr y) eqn:Hey; [|exact (IHn o y outer b' st out (proj2 (proj2 Ha) o Hov) Hdy Ho Hey Hr Hb)].
      destruct (run_shape E (next o) y outer _ _ Ho Hdy Hr) as (z & Hz & _ & Hk). injection Hz as <- <-. rewrite Hk in Hb by congruence. congruence. }
    destruct en; [|exact (Nx [] x Hdx (Forall_nil _) H)].
    destruct (run body _) as [[st2 o]|] eqn:Hr; [|discriminate]. cbn [bind] in H.
    assert (Ho1 : all_disabled (mkb (buf x) (berr x) true :: outer)) by (constructor; [reflexivity|exact Ho]).
    destruct (run_shape E body (mkb (buf x) (berr x) false) _ _ _ Ho1 eq_refl Hr) as (y & -> & Hdy & Hyk).
    destruct (block_end_total k (mkb (buf y) (berr y) false) eq_refl) as (z & Hz & Hdz & Hez). rewrite Hz in H. cbn [bind set_nth berr] in *.
    destruct (berr z) eqn:Hezz.
    + destruct (run_shape E (next o) z outer _ _ Ho Hdz H) as (w & Hw & _ & Hk). injection Hw as <- <-. rewrite Hk in Hb by congruence. congruence.
    + apply (Nx o z Hdz); [|exact H]. destruct (berr x) eqn:Hex; [|exact (IHb (mkb (buf x) None false) _ _ _ _ (proj1 (proj2 Ha)) eq_refl Ho1 eq_refl Hr (eq_sym Hez))].
      rewrite Hyk in Hez by (cbn; congruence). cbn in Hez. congruence.
Qed.

(* ---- programs ---- *)

Lemma during_panic : forall pr st t st', during pr st t st' -> run t st' = Panic -> run pr st = Panic.
Proof using.
  intros pr st t st' H.
  induction H as [pr st|lvl c next st x x' t st' Hn Hx H IH|lvl name cols row next st x x' o t st' Hn Hx H IH|lvl k body next st x x1 t st' Hn Hx H IH
    |lvl k body next st x x1 child st2 out x2 t st' Hn Hx Hr Hend H IH|lvl k body next st x x1 t st' Hn Hx H IH]; intros Ht; [exact Ht|..]; cbn [run]; rewrite Hn, Hx; cbn [bind].
  - exact (IH Ht).
  - exact (IH Ht).
  - cbn zeta. rewrite (IH Ht). reflexivity.
  - cbn zeta. rewrite Hr. cbn [bind]. rewrite Hend. exact (IH Ht).
  - exact (IH Ht).
Qed.

Definition sound (pr : prog) (b : builder) : Prop := berr b = None -> prog_ok word32 pr /\ prog_decided pr.

(* The builder of the running callback: not disabled, those around it are, and what is left to run is still in order. *)
Lemma during_sound : forall pr st t st', during pr st t st' -> forall b outer, st = b :: outer -> disabled b = false -> all_disabled outer -> sound pr b ->
  exists b' outer', st' = b' :: outer' /\ disabled b' = false /\ all_disabled outer' /\ sound t b'.
Proof using.
  assert (N : forall b outer lvl x, all_disabled outer -> nth_error (b :: outer) lvl = Some x -> disabled x = false -> lvl = O /\ x = b).
  { intros b outer [|lvl] x Ho Hx Hd; [cbn in Hx; split; congruence|]. pose proof (only_inner b outer lvl x Ho Hx). congruence. }
  assert (NE : forall b dis c b', exec_call dis c b = Ok b' -> disabled b = false).
  { intros b dis c b' H. destruct (disabled b) eqn:Hd; [|reflexivity]. rewrite exec_disabled in H by assumption. discriminate. }
  assert (NR : forall b name cols row r, b_insert_row name cols row b = Ok r -> disabled b = false).
  { intros b name cols row r H. destruct (disabled b) eqn:Hd; [|reflexivity]. rewrite insert_row_disabled in H by assumption. discriminate. }
  assert (NB : forall b k r, block_begin k b = Ok r -> disabled b = false).
  { intros b k r H. destruct (disabled b) eqn:Hd; [|reflexivity]. rewrite block_disabled in H by assumption. discriminate. }
  intros pr st t st' H.
  induction H as [pr st|lvl c next st x x' t st' Hn Hx H IH|lvl name cols row next st x x' o t st' Hn Hx H IH|lvl k body next st x x1 t st' Hn Hx H IH
    |lvl k body next st x x1 child st2 out x2 t st' Hn Hx Hr Hend H IH|lvl k body next st x x1 t st' Hn Hx H IH]; intros b outer -> Hd Ho Hs.
  - exists b, outer. auto.
  - destruct (N _ _ _ _ Ho Hn (NE _ _ _ _ Hx)) as [-> ->]. destruct (exec_keeps E _ _ _ _ Hd Hx) as [K1 K2]. apply (IH x' outer); [reflexivity|exact K1|assumption|].
    intros He. destruct (berr b) eqn:Heb; [rewrite K2 in He by discriminate; congruence|]. destruct (Hs Heb) as [S1 S2]. split; [apply S1|apply S2].
  - destruct (N _ _ _ _ Ho Hn (NR _ _ _ _ _ Hx)) as [-> ->]. destruct (insert_row_keeps E _ _ _ _ _ _ Hd Hx) as [K1 K2]. apply (IH x' outer); [reflexivity|exact K1|assumption|].
    intros He. destruct (berr b) eqn:Heb; [rewrite K2 in He by discriminate; congruence|]. destruct (Hs Heb) as [S1 S2].
    pose proof (row_names _ _ _ _ _ _ Hd Heb Hx He) as Hv. split; [apply S1|apply S2; exact Hv]. destruct Hv as (id & -> & H1 & H2). exists id. auto.
  - destruct (N _ _ _ _ Ho Hn (NB _ _ _ Hx)) as [-> ->]. destruct (block_begin_keeps E _ _ _ _ Hd Hx) as [K1 K2]. eapply IH; [reflexivity|reflexivity|constructor; [reflexivity|assumption]|].
    cbn [berr]. intros He. destruct (berr b) eqn:Heb; [destruct K2; discriminate|]. destruct (Hs Heb) as [S1 S2]. split; [apply S1|apply S2].
  - destruct (N _ _ _ _ Ho Hn (NB _ _ _ Hx)) as [-> ->]. cbn [set_nth] in *. destruct (block_begin_keeps E _ _ _ _ Hd Hx) as [K1 K2].
    assert (Ho1 : all_disabled (mkb (buf x1) (berr x1) true :: outer)) by (constructor; [reflexivity|exact Ho]).
    destruct (run_shape E body (mkb (buf x1) (berr x1) false) _ _ _ Ho1 eq_refl Hr) as (b' & Hb & _ & K3). injection Hb as -> ->.
    destruct (block_end_total k (mkb (buf b') (berr b') false) eq_refl) as (z & Hz & Hdz & Hez). rewrite Hz in Hend. injection Hend as ->. cbn [berr] in *.
    eapply IH; [reflexivity|exact Hdz|assumption|]. intros He. destruct (berr b) eqn:Heb; [destruct K2; discriminate|]. destruct (Hs Heb) as [S1 S2].
    assert (Hv : Forall row_variable out).
    { eapply run_names; [exact (proj1 (proj2 S2))|..|exact Hr|congruence]; [reflexivity|exact Ho1|]. cbn [berr]. destruct (berr x1) eqn:Hx1; [|reflexivity]. rewrite K3 in Hez by discriminate. cbn [berr] in Hez. congruence. }
    split; [exact (proj2 (proj2 S1) out (variables_results out Hv))|exact (proj2 (proj2 S2) out Hv)].
  - destruct (N _ _ _ _ Ho Hn (NB _ _ _ Hx)) as [-> ->]. destruct (block_begin_keeps E _ _ _ _ Hd Hx) as [K1 K2]. apply (IH x1 outer); [reflexivity|exact K1|assumption|].
    intros He. destruct (berr b) eqn:Heb; [destruct K2 as [-> _]; [discriminate|congruence]|]. destruct (Hs Heb) as [S1 S2]. split; [apply S1|apply S2]; constructor.
Qed.

(* A step that is said to panic does. *)
Lemma step_dies : forall t b outer, step_panics (berr b) t -> disabled b = false -> all_disabled outer -> sound t b -> run t (b :: outer) = Panic.
Proof using.
  intros t b outer H Hd Ho Hs. destruct H as [lvl c next|lvl name cols row next|lvl k body next|c next He Hc|name cols row next He Hc].
  - cbn [run]. destruct (nth_error (b :: outer) (S lvl)) as [x|] eqn:Hx; [|reflexivity]. apply only_inner in Hx; [|assumption]. rewrite exec_disabled by assumption. reflexivity.
  - cbn [run]. destruct (nth_error (b :: outer) (S lvl)) as [x|] eqn:Hx; [|reflexivity]. apply only_inner in Hx; [|assumption]. rewrite insert_row_disabled by assumption. reflexivity.
  - cbn [run]. destruct (nth_error (b :: outer) (S lvl)) as [x|] eqn:Hx; [|reflexivity]. apply only_inner in Hx; [|assumption]. rewrite block_disabled by assumption. reflexivity.
  - destruct (Hs He) as [S1 S2]. destruct S1 as [S1 _], S2 as [[S2 S3] _]. cbn [run nth_error].
    destruct (call_step (set_nth (map disabled (b :: outer)) 0 true) c b (all_true outer Ho) S1 S2 S3 Hd He) as [(_ & Hn & _)|[[_ ->]|(e & b' & _ & Hn & _)]]; [contradiction|reflexivity|contradiction].
  - destruct (Hs He) as [S1 S2]. destruct S1 as (N1 & N2 & N3 & _), S2 as [[S2 S3] _]. cbn [run nth_error].
    destruct (row_step name cols row b N1 N2 N3 S2 S3 Hd He) as [(_ & Hn & _)|[[_ ->]|(e & b' & o & _ & Hn & _)]]; [contradiction|reflexivity|contradiction].
Qed.

(* A program that panics has such a step. *)
Lemma run_dies : forall pr b outer, disabled b = false -> all_disabled outer -> sound pr b -> run pr (b :: outer) = Panic ->
  exists t inner enclosing, during pr (b :: outer) t (inner :: enclosing) /\ step_panics (berr inner) t.
Proof using.
  induction pr as [cberr out0|lvl c next IH|lvl name cols row next IH|lvl k body IHb next IHn]; intros b outer Hd Ho Hs H; [discriminate|..].
  - destruct lvl as [|lvl]; [|exists (PCall (S lvl) c next), b, outer; split; [apply D_now|constructor]].
    destruct (exec_call (set_nth (map disabled (b :: outer)) 0 true) c b) as [x|] eqn:Hx.
    + assert (Dx : during (PCall 0 c next) (b :: outer) next (x :: outer)) by (eapply D_after_call; [reflexivity|exact Hx|apply D_now]).
      destruct (during_sound _ _ _ _ Dx b outer eq_refl Hd Ho Hs) as (y & o' & Hy & D1 & D2 & D3). injection Hy as <- <-.
      cbn [run nth_error] in H. rewrite Hx in H. destruct (IH x outer D1 D2 D3 H) as (t & inner & enc & D & S). exists t, inner, enc. split; [eapply D_after_call; [reflexivity|exact Hx|exact D]|exact S].
    + destruct (berr b) eqn:He; [unfold exec_call, guarded in Hx; rewrite Hd, He in Hx; discriminate|]. destruct (Hs He) as [[S1 _] [[S2 S3] _]].
      exists (PCall 0 c next), b, outer. split; [apply D_now|]. apply SP_call; [exact He|].
      destruct (call_step (set_nth (map disabled (b :: outer)) 0 true) c b (all_true outer Ho) S1 S2 S3 Hd He) as [(_ & _ & b' & H1 & _)|[[H1 _]|(e & b' & _ & _ & H1 & _)]]; [congruence|exact H1|congruence].
  - destruct lvl as [|lvl]; [|exists (PInsertRow (S lvl) name cols row next), b, outer; split; [apply D_now|constructor]].
    destruct (b_insert_row name cols row b) as [[x o]|] eqn:Hx.
    + assert (Dx : during (PInsertRow 0 name cols row next) (b :: outer) (next o) (x :: outer)) by (eapply D_after_row; [reflexivity|exact Hx|apply D_now]).
      destruct (during_sound _ _ _ _ Dx b outer eq_refl Hd Ho Hs) as (y & o' & Hy & D1 & D2 & D3). injection Hy as <- <-.
      cbn [run nth_error] in H. rewrite Hx in H. destruct (IH o x outer D1 D2 D3 H) as (t & inner & enc & D & S). exists t, inner, enc. split; [eapply D_after_row; [reflexivity|exact Hx|exact D]|exact S].
    + destruct (berr b) eqn:He; [unfold b_insert_row in Hx; rewrite Hd, He in Hx; discriminate|]. destruct (Hs He) as [(N1 & N2 & N3 & _) [[S2 S3] _]].
      exists (PInsertRow 0 name cols row next), b, outer. split; [apply D_now|]. apply SP_row; [exact He|].
      destruct (row_step name cols row b N1 N2 N3 S2 S3 Hd He) as [(_ & _ & b' & o & H1 & _)|[[H1 _]|(e & b' & o & _ & _ & H1 & _)]]; [congruence|exact H1|congruence].
  - destruct lvl as [|lvl]; [|exists (PBlock (S lvl) k body next), b, outer; split; [apply D_now|constructor]].
    destruct (block_begin k b) as [[x en]|] eqn:Hx.
    + cbn [run nth_error] in H. rewrite Hx in H. cbn [bind] in H. destruct en.
      * assert (Dx : during (PBlock 0 k body next) (b :: outer) body (mkb (buf x) (berr x) false :: mkb (buf x) (berr x) true :: outer)) by (eapply D_inside; [reflexivity|exact Hx|apply D_now]).
        destruct (during_sound _ _ _ _ Dx b outer eq_refl Hd Ho Hs) as (y & o' & Hy & D1 & D2 & D3). injection Hy as <- <-. cbn [set_nth] in H.
        destruct (run body (mkb (buf x) (berr x) false :: mkb (buf x) (berr x) true :: outer)) as [[st2 out]|] eqn:Hr.
        -- destruct (run_shape E body (mkb (buf x) (berr x) false) _ _ _ D2 eq_refl Hr) as (z & -> & _ & _). cbn [bind] in H.
           destruct (block_end_total k (mkb (buf z) (berr z) false) eq_refl) as (w & Hw & _ & _). rewrite Hw in H. cbn [bind set_nth] in H.
           assert (Dw : during (PBlock 0 k body next) (b :: outer) (next out) (w :: outer)) by (eapply D_after_block; [reflexivity|exact Hx|exact Hr|exact Hw|apply D_now]).
           destruct (during_sound _ _ _ _ Dw b outer eq_refl Hd Ho Hs) as (y & o' & Hy & W1 & W2 & W3). injection Hy as <- <-.
           destruct (IHn out w outer W1 W2 W3 H) as (t & inner & enc & D & S). exists t, inner, enc. split; [eapply D_after_block; [reflexivity|exact Hx|exact Hr|exact Hw|exact D]|exact S].
        -- destruct (IHb _ _ D1 D2 D3 Hr) as (t & inner & enc & D & S). exists t, inner, enc. split; [eapply D_inside; [reflexivity|exact Hx|exact D]|exact S].
      * assert (Dx : during (PBlock 0 k body next) (b :: outer) (next []) (x :: outer)) by (eapply D_not_entered; [reflexivity|exact Hx|apply D_now]).
        destruct (during_sound _ _ _ _ Dx b outer eq_refl Hd Ho Hs) as (y & o' & Hy & D1 & D2 & D3). injection Hy as <- <-.
        destruct (IHn [] x outer D1 D2 D3 H) as (t & inner & enc & D & S). exists t, inner, enc. split; [eapply D_not_entered; [reflexivity|exact Hx|exact D]|exact S].
    + exfalso. destruct (berr b) eqn:He; [unfold block_begin in Hx; rewrite Hd, He in Hx; discriminate|]. destruct (Hs He) as [(K1 & _) _].
      destruct (block_begin_total k b K1 Hd He) as (b1 & en & H1 & _). congruence.
Qed.

(* The same for the first error. *)
Lemma step_fails : forall e t b outer b' st out, step_reports e t -> disabled b = false -> all_disabled outer -> berr b = None -> sound t b ->
  run t (b :: outer) = Ok (b' :: st, out) -> berr b' = Some e.
Proof using.
  intros e t b outer b' st out H Hd Ho He Hs Hr. destruct (Hs He) as [S1 S2].
  assert (Stay : forall pr x, disabled x = false -> berr x = Some e -> run pr (x :: outer) = Ok (b' :: st, out) -> berr b' = Some e).
  { intros pr x H1 H2 H3. destruct (run_shape E pr x outer _ _ Ho H1 H3) as (y & Hy & _ & Hk). injection Hy as <- <-. rewrite Hk by congruence. exact H2. }
  destruct H as [c next Hc Hn|name cols row next Hc Hn|level body next Hl ->]; cbn [run nth_error] in Hr.
  - destruct S1 as [S1 _], S2 as [[S2 S3] _]. pose proof (call_gives (set_nth (map disabled (b :: outer)) 0 true) c e (buf b) Hc S1 S3) as G.
    destruct (exec_call _ c b) as [x|] eqn:Hx; [|discriminate]. cbn [bind set_nth] in Hr. apply (Stay next x); [exact (proj1 (exec_keeps E _ _ _ _ Hd Hx))| |exact Hr].
    unfold exec_call, guarded in Hx. rewrite Hd, He in Hx. change (match c with CStmtExecute stmt args => _ | _ => _ end) with (run_call (set_nth (map disabled (b :: outer)) 0 true) c E (buf b)) in Hx.
    destruct (run_call _ c E (buf b)) as [[q eo]|]; [|discriminate]. cbn [bind] in Hx. injection Hx as <-. exact (G q eo eq_refl).
  - destruct S1 as (N1 & N2 & N3 & _), S2 as [[S2 S3] _]. destruct (b_insert_row name cols row b) as [[x o]|] eqn:Hx; [|discriminate]. cbn [bind set_nth] in Hr.
    apply (Stay (next o) x); [exact (proj1 (insert_row_keeps E _ _ _ _ _ _ Hd Hx))| |exact Hr].
    unfold b_insert_row in Hx. rewrite Hd, He in Hx. cbn zeta in Hx. destruct (msg_insert (buf b) name cols) as [p|]; [|discriminate]. cbn [bind] in Hx.
    pose proof (row_gives row e p Hc N3 ltac:(unfold row_fits, row_size, row_weight in S3; lia)) as G.
    destruct (append_insert_row p row) as [[q eo]|] eqn:Hq; [|discriminate]. rewrite (G q eo eq_refl) in Hx. cbn [bind] in Hx. injection Hx as <- _. reflexivity.
  - destruct (level_step_error level b Hl Hd He) as (x & Hx & H1 & H2). rewrite Hx in Hr. cbn [bind set_nth] in Hr. exact (Stay _ x H1 H2 Hr).
Qed.

Lemma during_fails : forall e pr st t st', during pr st t st' -> forall b outer b' st1 out, st = b :: outer -> disabled b = false -> all_disabled outer -> sound pr b ->
  (forall inner enclosing c st2 out, st' = inner :: enclosing -> run t st' = Ok (c :: st2, out) -> berr c = Some e) ->
  run pr st = Ok (b' :: st1, out) -> berr b' = Some e.
Proof using.
  intros e pr st t st' H.
  induction H as [pr st|lvl c next st x x' t st' Hn Hx H IH|lvl name cols row next st x x' o t st' Hn Hx H IH|lvl k body next st x x1 t st' Hn Hx H IH
    |lvl k body next st x x1 child st2 out x2 t st' Hn Hx Hr Hend H IH|lvl k body next st x x1 t st' Hn Hx H IH]; intros b outer b' st1 out' Est Hd Ho Hs Ht Hr'.
  - eapply Ht; eassumption.
  - assert (Dx : during (PCall lvl c next) st next (set_nth st lvl x')) by (eapply D_after_call; [exact Hn|exact Hx|apply D_now]).
    destruct (during_sound _ _ _ _ Dx b outer Est Hd Ho Hs) as (y & o' & Hy & D1 & D2 & D3).
    cbn [run] in Hr'. rewrite Hn, Hx in Hr'. cbn [bind] in Hr'. eapply IH; eassumption.
  - assert (Dx : during (PInsertRow lvl name cols row next) st (next o) (set_nth st lvl x')) by (eapply D_after_row; [exact Hn|exact Hx|apply D_now]).
    destruct (during_sound _ _ _ _ Dx b outer Est Hd Ho Hs) as (y & o' & Hy & D1 & D2 & D3).
    cbn [run] in Hr'. rewrite Hn, Hx in Hr'. cbn [bind] in Hr'. eapply IH; eassumption.
  - assert (Dx : during (PBlock lvl k body next) st body (mkb (buf x1) (berr x1) false :: set_nth st lvl (mkb (buf x1) (berr x1) true))) by (eapply D_inside; [exact Hn|exact Hx|apply D_now]).
    destruct (during_sound _ _ _ _ Dx b outer Est Hd Ho Hs) as (y & o' & Hy & D1 & D2 & D3). injection Hy as <- <-.
    cbn [run] in Hr'. rewrite Hn, Hx in Hr'. cbn [bind] in Hr'. destruct (run body _) as [[st2 out]|] eqn:Hb; [|discriminate]. cbn [bind] in Hr'.
    destruct (run_shape E body (mkb (buf x1) (berr x1) false) _ _ _ D2 eq_refl Hb) as (z & -> & _ & _).
    pose proof (IH _ _ z _ out eq_refl D1 D2 D3 Ht eq_refl) as Hz.
    destruct (block_end_total k (mkb (buf z) (berr z) false) eq_refl) as (w & Hw & Hdw & Hew). cbn [berr] in Hew.
    assert (Dw : during (PBlock lvl k body next) st (next out) (set_nth (set_nth st lvl (mkb (buf x1) (berr x1) true)) lvl w)) by (eapply D_after_block; [exact Hn|exact Hx|exact Hb|exact Hw|apply D_now]).
    destruct (during_sound _ _ _ _ Dw b outer Est Hd Ho Hs) as (y & o' & Hy & W1 & W2 & W3). rewrite Hw in Hr'. cbn [bind] in Hr'. rewrite Hy in Hr'.
    destruct (run_shape E (next out) y o' _ _ W2 W1 Hr') as (v & Hv & _ & Hk). injection Hv as <- <-.
    assert (Hyw : y = w).
    { subst st. destruct lvl as [|lvl]; cbn [set_nth] in Hy; [congruence|]. exfalso. pose proof (only_inner b outer lvl x Ho Hn) as Hdis. rewrite block_disabled in Hx by exact Hdis. discriminate. }
    subst y. rewrite Hk by congruence. congruence.
  - assert (Dw : during (PBlock lvl k body next) st (next out) (set_nth st2 lvl x2)) by (eapply D_after_block; [exact Hn|exact Hx|exact Hr|exact Hend|apply D_now]).
    destruct (during_sound _ _ _ _ Dw b outer Est Hd Ho Hs) as (y & o' & Hy & D1 & D2 & D3).
    cbn [run] in Hr'. rewrite Hn, Hx in Hr'. cbn [bind] in Hr'. rewrite Hr in Hr'. cbn [bind] in Hr'. rewrite Hend in Hr'. cbn [bind] in Hr'. eapply IH; eassumption.
  - assert (Dx : during (PBlock lvl k body next) st (next []) (set_nth st lvl x1)) by (eapply D_not_entered; [exact Hn|exact Hx|apply D_now]).
    destruct (during_sound _ _ _ _ Dx b outer Est Hd Ho Hs) as (y & o' & Hy & D1 & D2 & D3).
    cbn [run] in Hr'. rewrite Hn, Hx in Hr'. cbn [bind] in Hr'. eapply IH; eassumption.
Qed.

Lemma run_fails : forall e pr b outer b' st out, disabled b = false -> all_disabled outer -> berr b = None -> sound pr b -> run pr (b :: outer) = Ok (b' :: st, out) -> berr b' = Some e ->
  exists t inner enclosing, during pr (b :: outer) t (inner :: enclosing) /\ berr inner = None /\ step_reports e t.
Proof using.
  intros e. assert (Stay : forall pr x e1 outer b' st out, all_disabled outer -> disabled x = false -> berr x = Some e1 -> run pr (x :: outer) = Ok (b' :: st, out) -> berr b' = Some e -> e1 = e).
  { intros pr x e1 outer b' st out Ho H1 H2 H3 H4. destruct (run_shape E pr x outer _ _ Ho H1 H3) as (y & Hy & _ & Hk). injection Hy as <- <-. rewrite Hk in H4 by congruence. congruence. }
  induction pr as [cberr out0|lvl c next IH|lvl name cols row next IH|lvl k body IHb next IHn]; intros b outer b' st out Hd Ho He Hs H Hb.
  - cbn [run] in H. injection H as <- _ _. congruence.
  - destruct lvl as [|lvl].
    2: { cbn [run] in H. destruct (nth_error (b :: outer) (S lvl)) as [x|] eqn:Hx; [|discriminate]. apply only_inner in Hx; [|assumption]. rewrite exec_disabled in H by assumption. discriminate. }
    destruct (Hs He) as [[S1 _] [[S2 S3] _]]. cbn [run nth_error] in H.
    destruct (call_step (set_nth (map disabled (b :: outer)) 0 true) c b (all_true outer Ho) S1 S2 S3 Hd He) as [(_ & _ & x & Hx & X1 & X2)|[[_ Hx]|(e1 & x & H1 & H2 & Hx & X1 & X2)]];
      rewrite Hx in H; cbn [bind set_nth] in H; [|discriminate|].
    + assert (Dx : during (PCall 0 c next) (b :: outer) next (x :: outer)) by (eapply D_after_call; [reflexivity|exact Hx|apply D_now]).
      destruct (during_sound _ _ _ _ Dx b outer eq_refl Hd Ho Hs) as (y & o' & Hy & D1 & D2 & D3). injection Hy as <- <-.
      destruct (IH x outer b' st out D1 D2 X2 D3 H Hb) as (t & inner & enc & D & S). exists t, inner, enc. split; [eapply D_after_call; [reflexivity|exact Hx|exact D]|exact S].
    + rewrite (Stay next x e1 outer b' st out Ho X1 X2 H Hb) in *. exists (PCall 0 c next), b, outer. split; [apply D_now|]. split; [exact He|]. constructor; assumption.
  - destruct lvl as [|lvl].
    2: { cbn [run] in H. destruct (nth_error (b :: outer) (S lvl)) as [x|] eqn:Hx; [|discriminate]. apply only_inner in Hx; [|assumption]. rewrite insert_row_disabled in H by assumption. discriminate. }
    destruct (Hs He) as [(N1 & N2 & N3 & _) [[S2 S3] _]]. cbn [run nth_error] in H.
    destruct (row_step name cols row b N1 N2 N3 S2 S3 Hd He) as [(_ & _ & x & o & Hx & X1 & X2)|[[_ Hx]|(e1 & x & o & H1 & H2 & Hx & X1 & X2 & _)]];
      rewrite Hx in H; cbn [bind set_nth] in H; [|discriminate|].
    + assert (Dx : during (PInsertRow 0 name cols row next) (b :: outer) (next o) (x :: outer)) by (eapply D_after_row; [reflexivity|exact Hx|apply D_now]).
      destruct (during_sound _ _ _ _ Dx b outer eq_refl Hd Ho Hs) as (y & o' & Hy & D1 & D2 & D3). injection Hy as <- <-.
      destruct (IH o x outer b' st out D1 D2 X2 D3 H Hb) as (t & inner & enc & D & S). exists t, inner, enc. split; [eapply D_after_row; [reflexivity|exact Hx|exact D]|exact S].
    + rewrite (Stay (next o) x e1 outer b' st out Ho X1 X2 H Hb) in *. exists (PInsertRow 0 name cols row next), b, outer. split; [apply D_now|]. split; [exact He|]. constructor; assumption.
  - destruct lvl as [|lvl].
    2: { cbn [run] in H. destruct (nth_error (b :: outer) (S lvl)) as [x|] eqn:Hx; [|discriminate]. apply only_inner in Hx; [|assumption]. rewrite block_disabled in H by assumption. discriminate. }
    destruct (Hs He) as [(K1 & _) _]. cbn [run nth_error] in H.
    destruct (block_begin_total k b K1 Hd He) as (x & en & Hx & X1 & X2 & X3 & X4). rewrite Hx in H. cbn [bind set_nth] in H. destruct en.
    + assert (Dx : during (PBlock 0 k body next) (b :: outer) body (mkb (buf x) (berr x) false :: mkb (buf x) (berr x) true :: outer)) by (eapply D_inside; [reflexivity|exact Hx|apply D_now]).
      destruct (during_sound _ _ _ _ Dx b outer eq_refl Hd Ho Hs) as (y & o' & Hy & D1 & D2 & D3). injection Hy as <- <-.
      destruct (run body (mkb (buf x) (berr x) false :: mkb (buf x) (berr x) true :: outer)) as [[st2 o]|] eqn:Hr; [|discriminate].
      destruct (run_shape E body (mkb (buf x) (berr x) false) _ _ _ D2 eq_refl Hr) as (z & -> & _ & _). cbn [bind] in H.
      destruct (block_end_total k (mkb (buf z) (berr z) false) eq_refl) as (w & Hw & Hdw & Hew). rewrite Hw in H. cbn [bind set_nth berr] in *.
      destruct (berr z) as [e1|] eqn:Hz.
      * rewrite (Stay (next o) w e1 outer b' st out Ho Hdw Hew H Hb) in *.
        destruct (IHb _ _ z _ o D1 D2 (X2 eq_refl) D3 Hr Hz) as (t & inner & enc & D & S). exists t, inner, enc. split; [eapply D_inside; [reflexivity|exact Hx|exact D]|exact S].
      * rewrite <- Hz in Hw. assert (Dw : during (PBlock 0 k body next) (b :: outer) (next o) (w :: outer)) by (eapply D_after_block; [reflexivity|exact Hx|exact Hr|exact Hw|apply D_now]).
        destruct (during_sound _ _ _ _ Dw b outer eq_refl Hd Ho Hs) as (y & o' & Hy & W1 & W2 & W3). injection Hy as <- <-.
        destruct (IHn o w outer b' st out W1 W2 Hew W3 H Hb) as (t & inner & enc & D & S). exists t, inner, enc. split; [eapply D_after_block; [reflexivity|exact Hx|exact Hr|exact Hw|exact D]|exact S].
    + destruct k as [level|ctx]; [|specialize (X4 ltac:(cbn; discriminate)); discriminate].
      destruct (tx_opening level) as [o|] eqn:Hl; [exfalso; cbn [opening] in X4; rewrite Hl in X4; specialize (X4 ltac:(cbn; discriminate)); discriminate|].
      destruct (level_step_error level b Hl Hd He) as (x' & Hx' & Y1 & Y2). rewrite Hx in Hx'. injection Hx' as <-.
      pose proof (Stay (next []) x EIsolation outer b' st out Ho Y1 Y2 H Hb) as He1. exists (PBlock 0 (KTx level) body next), b, outer.
      split; [apply D_now|]. split; [exact He|]. constructor; [exact Hl|congruence].
Qed.

End Panics.
