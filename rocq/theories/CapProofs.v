(* Whether building fails or not, the array of the builder does not get smaller. *)
From Coq Require Import String List NArith ZArith Arith Bool Lia ZifyN ZifyNat ZifyBool.
From Coq Require Import List.
From Verif Require Import Base GoSlice SliceProofs Varint Text Values AnyModel ExprModel MsgModel Builder
  SpecValue SpecProg ValueProofs BuilderProofs UnitProofs ShapeProofs SpecReuse ReuseProofs.
Import ListNotations.
Local Open Scope nat_scope.

Definition grown (p : slice) (r : res (slice * option err)) : Prop := forall q e, r = Ok (q, e) -> cap p <= cap q.

Lemma grown_okm : forall k p m m', pairs k p p m m' -> grown p (okm m).
Proof. intros k p m m' H q e Hq. destruct m as [x|]; cbn in Hq; [|discriminate]. injection Hq as <- <-. destruct (H I) as (_ & A & _). exact A. Qed.
Lemma grown_fine : forall k p r r', pairs k p p r r' -> (forall q e, r = Ok (q, Some e) -> False) -> grown p r.
Proof. intros k p r r' H Hn q [e|] Hq; [destruct (Hn q e Hq)|]. unfold pairs in H. rewrite Hq in H. destruct (H eq_refl) as (_ & A & _). exact A. Qed.
Lemma grown_bind : forall p m g, grown p m -> (forall q e, cap p <= cap q -> grown q (g (q, e))) -> grown p (bind m g).
Proof.
  intros p m g Hm Hg q e H. destruct m as [[x y]|] eqn:Hx; cbn [bind] in H; [|discriminate]. pose proof (Hm x y eq_refl). pose proof (Hg x y ltac:(assumption) q e H). lia.
Qed.
Lemma grown_slice : forall p (m : res slice) g, (forall q, m = Ok q -> cap p <= cap q) -> (forall q, cap p <= cap q -> grown q (g q)) -> grown p (bind m g).
Proof.
  intros p m g Hm Hg q e H. destruct m as [x|] eqn:Hx; cbn [bind] in H; [|discriminate]. pose proof (Hm x eq_refl). pose proof (Hg x ltac:(assumption) q e H). lia.
Qed.
Lemma grown_self : forall p e, grown p (Ok (p, e)).
Proof. intros p e q f H. injection H as <- <-. lia. Qed.
Lemma grown_mono : forall p p' r, cap p <= cap p' -> grown p' r -> grown p r.
Proof. intros p p' r H Hg q e Hq. specialize (Hg q e Hq). lia. Qed.
Lemma slice_cap : forall k p (m m' : res slice), pairs k p p m m' -> forall q, m = Ok q -> cap p <= cap q.
Proof. intros k p m m' H q Hq. unfold pairs in H. rewrite Hq in H. destruct (H I) as (_ & A & _). exact A. Qed.

Section Code.
Context `{E : Env}.

Lemma any_method_grown : forall v m, value_never_shrinks v -> any_method v = Some m -> forall p tag, grown p (m p tag).
Proof.
  intros v m Hv H p tag. destruct v as [|z|z|z|z|z|n|n|n|n|n|s|b|b|bits|bits|t|d|s c|b|s|b|s|b|f|i v|a e|a e0]; cbn [any_method] in H; try discriminate;
    try (injection H as <-; match goal with
      | |- grown _ (okm (append_any_string _ _ _ _)) => eapply grown_okm; apply any_string_pairs
      | |- grown _ (okm (append_any_bytes _ _ _ _)) => eapply grown_okm; apply any_bytes_pairs
      | |- grown _ (okm (append_any_bytes_string _ _ _ _)) => eapply grown_okm; apply any_bytes_string_pairs end; reflexivity).
  subst a. destruct Hv as [Hv _]. intros q e' Hq. exact (Hv p tag q e' Hq).
Qed.

Lemma expr_method_grown : forall v m, value_never_shrinks v -> expr_method v = Some m -> forall p tag, grown p (m p tag).
Proof.
  intros v m Hv H p tag. destruct v as [|z|z|z|z|z|n|n|n|n|n|s|b|b|bits|bits|t|d|s c|b|s|b|s|b|f|i v|a e|a e0]; cbn [expr_method] in H; try discriminate;
    try (injection H as <-; match goal with
      | |- grown _ (okm (append_expr_string _ _ _ _)) => eapply grown_okm; apply expr_string_pairs
      | |- grown _ (okm (append_expr_bytes _ _ _ _)) => eapply grown_okm; apply expr_bytes_pairs
      | |- grown _ (okm (append_expr_bytes_string _ _ _ _)) => eapply grown_okm; apply expr_bytes_string_pairs end; reflexivity).
  subst e0. destruct Hv as [_ Hv]. intros q e' Hq. exact (Hv p tag q e' Hq).
Qed.

Ltac no_error := let Hx := fresh in intros ? ? Hx; unfold ok, okm in Hx; first [discriminate | match type of Hx with bind ?m _ = _ => destruct m; discriminate end].

Lemma type_switch_grown : forall v, value_never_shrinks v -> v <> VNil -> ~ foreign v -> forall p tag, grown p (type_switch v p tag).
Proof.
  induction v as [|z|z|z|z|z|n|n|n|n|n|s|b|b|bits|bits|t|d|s c|b|s|b|s|b|f|i v IH|a e|a e] using gvalue_ind; intros Hv Hn Hf p tag; try congruence.
  all: try match goal with |- grown _ (type_switch (VUser _ _) _ _) => idtac | |- grown _ (type_switch (VPtr _ _) _ _) => idtac | |- grown _ (type_switch (VFunc _) _ _) => idtac
    | |- grown ?p (type_switch ?v _ ?tag) => apply (grown_fine 9 p _ (type_switch v p tag)); [apply type_switch_pairs; [exact I|reflexivity]|];
         cbn [type_switch any_method]; try (destruct word32); try match goal with |- context [if ?m then Panic else _] => destruct m end; no_error end.
  - destruct Hf. constructor.
  - cbn [type_switch]. cbn [value_never_shrinks] in Hv.
    assert (Hr : grown p (type_switch v p tag)).
    { apply IH; [exact Hv| |]; [intros ->; apply Hf; constructor|intros Hx; apply Hf; constructor; exact Hx]. }
    destruct i; [exact Hr|]. destruct (any_method v) as [m|] eqn:Hm; [|exact Hr]. apply (any_method_grown v m Hv Hm).
  - destruct a as [m|]; [|destruct Hf; constructor]. cbn [type_switch any_method]. apply (any_method_grown (VUser (Some m) e) m Hv eq_refl).
Qed.

Lemma any_grown : forall v, value_never_shrinks v -> ~ foreign v -> forall p tag, grown p (append_any v p tag).
Proof.
  intros v Hv Hf p tag. assert (Hd : v = VNil \/ v <> VNil) by (destruct v; (left; reflexivity) || (right; discriminate)). destruct Hd as [->|Hd].
  - apply (grown_fine 9 p _ (append_any VNil p tag)); [apply any_pairs; [exact I|reflexivity]|]. cbn [append_any]. no_error.
  - replace (append_any v p tag) with (type_switch v p tag) by (destruct v; try reflexivity; congruence). apply type_switch_grown; assumption.
Qed.

Lemma foreign_any : forall v, foreign v -> forall p tag, append_any v p tag = Ok (nil_slice, Some EUnsupported).
Proof.
  assert (G : forall v, foreign v -> forall p tag, v <> VNil /\ any_method v = None /\ type_switch v p tag = Ok (nil_slice, Some EUnsupported)).
  { induction 1 as [m|f|i|i v Hv IH]; intros p tag; (split; [discriminate|]); (split; [reflexivity|]); cbn [type_switch any_method]; try reflexivity.
    - destruct i; reflexivity.
    - destruct (IH p tag) as (_ & -> & ->). destruct i; reflexivity. }
  intros v Hv p tag. destruct (G v Hv p tag) as (Hn & _ & Ht). destruct v; try exact Ht. congruence.
Qed.

Lemma each_grown : forall A (f : A -> slice -> res (slice * option err)) wrap xs j p,
  (forall x p, In x xs -> grown p (f x p)) -> grown p (each f wrap j xs p).
Proof.
  intros A f wrap xs. induction xs as [|x xs IH]; intros j p Hf; cbn [each]; [apply grown_self|].
  apply grown_bind; [apply Hf; left; reflexivity|]. intros q [e|] _; [apply grown_self|]. apply IH. intros y r Hy. apply Hf. right. exact Hy.
Qed.

Definition expr_keeps (v : gvalue) : Prop := value_never_shrinks v -> forall p tag, grown p (append_expr v p tag).
Definition fun_keeps (f : exprfun) : Prop := fun_never_shrinks f -> forall p tag, grown p (run_fun f p tag).

Lemma params_grown : forall ps (t1 : N) wrap hd, Forall expr_keeps ps -> all value_never_shrinks ps ->
  (forall p i q, hd p i = Ok q -> cap p <= cap q) ->
  forall p, grown p (do (p1, e) <- each (fun v p => append_expr v p t1) wrap 0 ps p; match e with Some e => Ok (p1, Some e) | None => okm (hd p1 (len p)) end).
Proof.
  intros ps t1 wrap hd Hps Hv Hhd p. apply all_Forall in Hv. rewrite Forall_forall in Hps, Hv. apply grown_bind.
  - apply each_grown. intros x q Hx. apply Hps; [assumption|]. apply Hv. assumption.
  - intros q [e|] _; [apply grown_self|]. intros r e Hr. destruct (hd q (len p)) as [r'|] eqn:Hh; cbn in Hr; [|discriminate]. injection Hr as <- <-. exact (Hhd _ _ _ Hh).
Qed.

Lemma expr_grown : forall v, expr_keeps v.
Proof.
  apply (gvalue_deep expr_keeps fun_keeps).
  - intros v Hleaf Hv p tag.
    destruct v as [|z|z|z|z|z|n|n|n|n|n|s|b|b|bits|bits|t|d|s c|b|s|b|s|b|[f|]|i v|a e|a e0]; try contradiction.
    all: try match goal with |- grown _ (append_expr (VUser _ _) _ _) => idtac | |- grown _ (append_expr (VNilPtr _ _) _ _) => idtac | |- grown _ (append_expr (VFunc _) _ _) => idtac
    | |- grown ?p (append_expr ?v _ ?tag) => apply (grown_fine 9 p _ (append_expr v p tag)); [apply expr_pairs; [exact I|reflexivity]|];
         cbn [append_expr expr_method]; no_error end.
    + intros q e H. discriminate.
    + cbn [append_expr]. destruct e; [intros q e' H; discriminate|apply grown_self].
    + cbn [append_expr expr_method]. destruct e0 as [m|]; [|apply grown_self]. apply (expr_method_grown (VUser a (Some m)) m Hv eq_refl).
  - intros f Hf Hv p tag. cbn [append_expr]. apply Hf; assumption.
  - intros i v Hi Hv p tag. cbn [append_expr]. cbn [value_never_shrinks] in Hv. destruct i; [apply grown_self|].
    destruct (expr_method v) as [m|] eqn:Hm; [|apply grown_self]. apply (expr_method_grown v m Hv Hm).
  - intros f Hleaf Hv p tag. destruct f as [name|name ps|name ps|name|pos|u]; try contradiction; cbn [run_fun].
    + eapply grown_okm. apply expr_column_pairs. reflexivity.
    + eapply grown_okm. apply expr_variable_pairs. reflexivity.
    + eapply grown_okm. apply expr_placeholder_pairs. reflexivity.
    + intros q e Hq. exact (Hv p tag q e Hq).
  - intros name ps Hps Hv p tag. cbn [run_fun]. apply (params_grown ps tagOperatorParam EParam (fun p i => operator_header p i tag name)); try assumption.
    intros q i r. apply (slice_cap 9 q _ (operator_header q i tag name)). apply operator_header_pairs. reflexivity.
  - intros name ps Hps Hv p tag. cbn [run_fun]. apply (params_grown ps tagFunctionCallParam EParam (fun p i => call_header p i tag name)); try assumption.
    intros q i r. apply (slice_cap 9 q _ (call_header q i tag name)). apply call_header_pairs. reflexivity.
Qed.

Lemma fun_grown : forall f, fun_never_shrinks f -> forall p tag, grown p (run_fun f p tag).
Proof. intros f Hf p tag. exact (expr_grown (VFunc (Some f)) Hf p tag). Qed.

(* ---- messages ---- *)

Lemma patch_grown : forall p n, grown p (okm (patch_length p n)).
Proof. intros p n. eapply grown_okm. apply (patch_pairs 9 p p n eq_refl). Qed.

Lemma args_grown : forall tag args p, Forall value_never_shrinks args -> Forall (fun v => ~ foreign v) args -> grown p (append_args tag args p).
Proof. intros tag args p Ha Hf. rewrite Forall_forall in Ha, Hf. unfold append_args. apply each_grown. intros x q Hx. apply any_grown; auto. Qed.

Lemma stmt_execute_grown : forall stmt args p, Forall value_never_shrinks args -> Forall (fun v => ~ foreign v) args -> grown p (stmt_execute p stmt args).
Proof.
  intros stmt args p Ha Hf. unfold stmt_execute. cbv zeta. apply grown_slice.
  - intros q Hq. destruct (mask_shape _ _ _ Hq) as (_ & _ & C). match type of C with _ = cap (append p ?xs) => destruct (cap_append_mono E p xs) end. lia.
  - intros q _. apply (grown_mono q (append q stmt)); [destruct (cap_append_mono E q stmt); assumption|].
    apply grown_bind; [apply args_grown; assumption|]. intros r [e|] _; [apply grown_self|apply patch_grown].
Qed.

Lemma execute_grown : forall id args p, Forall value_never_shrinks args -> Forall (fun v => ~ foreign v) args -> grown p (msg_execute p id args).
Proof.
  intros id args p Ha Hf. unfold msg_execute. cbv zeta. apply grown_slice.
  - intros q Hq. destruct (mask_shape _ _ _ Hq) as (_ & _ & C). match type of C with _ = cap (append p ?xs) => destruct (cap_append_mono E p xs) end. lia.
  - intros q _. apply grown_bind; [apply args_grown; assumption|]. intros r [e|] _; [apply grown_self|apply patch_grown].
Qed.

Lemma msg_update_prefix : forall p name f, msg_update p name (Some f) = do (q, _) <- msg_update p name None; run_fun f q tagUpdateCriteria.
Proof.
  intros p name f. unfold msg_update. cbv zeta.
  repeat match goal with |- bind ?m _ = _ => destruct m as [[? ?]|]; cbn [bind]; [|reflexivity] | |- bind ?m _ = _ => destruct m as [?|]; cbn [bind]; [|reflexivity] end. reflexivity.
Qed.

Lemma msg_update_grown : forall name cr p, opt fun_never_shrinks cr -> grown p (msg_update p name cr).
Proof.
  intros name cr p Hc. assert (H0 : grown p (msg_update p name None)).
  { apply (grown_fine 9 p _ (msg_update p name None)); [apply msg_update_pairs; [exact I|reflexivity]|]. intros q e. unfold msg_update. cbv zeta.
    repeat match goal with |- bind ?m _ = _ -> _ => destruct m as [[? ?]|]; cbn [bind]; [|discriminate] | |- bind ?m _ = _ -> _ => destruct m as [?|]; cbn [bind]; [|discriminate] end. discriminate. }
  destruct cr as [f|]; [|exact H0]. rewrite msg_update_prefix. apply grown_bind; [exact H0|]. intros q e _. apply fun_grown. exact Hc.
Qed.

Lemma uvarint_shape : forall p off x q i, put_uvarint p off x = Ok (q, i) -> cap p <= cap q.
Proof. intros p off x q i H. pose proof (put_uvarint_pairs 9 p p off x eq_refl) as P. unfold pairs in P. rewrite H in P. destruct (P I) as (_ & A & _). exact A. Qed.

Lemma grown_nat : forall p (m : res (slice * nat)) g, (forall q i, m = Ok (q, i) -> cap p <= cap q) -> (forall q i, cap p <= cap q -> grown q (g (q, i))) -> grown p (bind m g).
Proof.
  intros p m g Hm Hg q e H. destruct m as [[x y]|] eqn:Hx; cbn [bind] in H; [|discriminate]. pose proof (Hm x y eq_refl). pose proof (Hg x y ltac:(assumption) q e H). lia.
Qed.
Ltac gs := match goal with
  | |- grown _ (bind (put_uvarint _ _ _) _) => apply grown_nat; [intros ? ?; apply uvarint_shape|intros ? ? _; cbv beta iota zeta]
  | |- grown _ (bind (put _ _ _) _) => apply grown_slice; [intros ? Hg; destruct (put_shape _ _ _ _ Hg) as (_ & _ & ->); lia|intros ? _; cbv zeta]
  | |- grown _ (bind (copy_at _ _ _) _) => apply grown_slice; [intros ? Hg; destruct (copy_shape _ _ _ _ Hg) as (_ & ->); lia|intros ? _; cbv zeta]
  | |- grown _ (bind (patch_length _ _) _) => apply grown_slice; [intros ?; eapply slice_cap; apply (patch_pairs 9); reflexivity|intros ? _; cbv zeta]
  end.

Lemma msg_delete_grown : forall name cr p, opt fun_never_shrinks cr -> grown p (msg_delete p name cr).
Proof.
  intros name cr p Hc. unfold msg_delete. cbv zeta.
  match goal with |- context [for_append p ?n] => apply (grown_mono p (for_append p n)); [rewrite cap_for_append; destruct (Nat.leb_spec (len p + n) (cap p)); pose proof (len_le_cap p); lia|] end.
  do 6 gs. apply grown_bind; [destruct cr as [f|]; [apply fun_grown; exact Hc|apply grown_self]|]. intros r e _. gs. apply grown_self.
Qed.

Lemma row_grown : forall row p, Forall value_never_shrinks row -> grown p (append_insert_row p row).
Proof.
  intros row p Hr. rewrite Forall_forall in Hr. unfold append_insert_row. cbv zeta.
  match goal with |- context [append p ?xs] => apply (grown_mono p (append p xs)); [destruct (cap_append_mono E p xs); assumption|] end.
  apply grown_bind; [apply each_grown; intros x q Hx; apply expr_grown; auto|]. intros q [e|] _; [apply grown_self|]. apply grown_slice.
  - intros r Hq. destruct (_ =? 2); [injection Hq as <-; lia|].
    destruct (reslice q _) as [h|] eqn:Hh; [|discriminate]. destruct (reslice_shape _ _ _ Hh) as (_ & _ & V). cbn [bind] in Hq.
    destruct (from q _) as [t|]; [|discriminate]. cbn [bind] in Hq. injection Hq as <-. destruct (cap_append_mono E h t). lia.
  - intros r _. gs. apply grown_self.
Qed.

Lemma update_set_grown : forall name v p, value_never_shrinks v -> grown p (append_update_set p name v).
Proof.
  intros name v p Hv. unfold append_update_set. apply grown_bind; [apply expr_grown; assumption|]. intros q [e|] _; [apply grown_self|].
  eapply grown_okm. apply set_header_pairs. reflexivity.
Qed.

Lemma insert_rows_grown : forall ncols rows i p, Forall (Forall value_never_shrinks) rows -> grown p (insert_rows ncols i rows p).
Proof.
  intros ncols rows. induction rows as [|row rows IH]; intros i p Hr; cbn [insert_rows]; [apply grown_self|]. inversion Hr as [|? ? H1 H2]; subst.
  destruct (length row =? ncols); [|apply grown_self]. apply grown_bind; [apply row_grown; assumption|]. intros q [e|] _; [apply grown_self|apply IH; assumption].
Qed.

Lemma sets_grown : forall set p, Forall value_never_shrinks (map snd set) -> grown p (update_sets set p).
Proof.
  induction set as [|[k v] set IH]; intros p Hr; cbn [update_sets]; [apply grown_self|]. inversion Hr as [|? ? H1 H2]; subst.
  apply grown_bind; [apply update_set_grown; assumption|]. intros q [e|] _; [apply grown_self|apply IH; assumption].
Qed.

Lemma iops_grown : forall dis ops p e, Forall (Forall value_never_shrinks) (rows_of ops) -> grown p (run_iops dis ops p e).
Proof.
  intros dis. induction ops as [|[row|lvl] ops IH]; intros p e Hr; cbn [run_iops rows_of] in *; [apply grown_self| |].
  - inversion Hr as [|? ? H1 H2]; subst. destruct e as [e|]; [apply IH; assumption|]. apply grown_bind; [apply row_grown; assumption|]. intros q e _. apply IH. assumption.
  - destruct (use_outer dis lvl); cbn [bind]; [apply IH; assumption|intros q x H; discriminate].
Qed.
Lemma uops_grown : forall dis ops p e, Forall value_never_shrinks (map snd (sets_of ops)) -> grown p (run_uops dis ops p e).
Proof.
  intros dis. induction ops as [|[k v|lvl] ops IH]; intros p e Hr; cbn [run_uops sets_of map] in *; [apply grown_self| |].
  - inversion Hr as [|? ? H1 H2]; subst. destruct e as [e|]; [apply IH; assumption|]. apply grown_bind; [apply update_set_grown; assumption|]. intros q e _. apply IH. assumption.
  - destruct (use_outer dis lvl); cbn [bind]; [apply IH; assumption|intros q x H; discriminate].
Qed.

Lemma insert_cap : forall p name cols q, msg_insert p name cols = Ok q -> cap p <= cap q.
Proof. intros p name cols q. eapply slice_cap. apply msg_insert_pairs. reflexivity. Qed.

Lemma call_grown : forall dis c p, call_never_shrinks c -> no_foreign_args c -> grown p (call_code dis c p).
Proof.
  intros dis c p Hc Hf. destruct c as [stmt args|id stmt|id args|id|name cols rows|name cols ops e|name cr set|name cr ops e|name cr]; cbn [call_code call_never_shrinks no_foreign_args] in *.
  - apply stmt_execute_grown; assumption.
  - eapply grown_okm. apply prepare_pairs. reflexivity.
  - apply execute_grown; assumption.
  - eapply grown_okm. apply deallocate_pairs. reflexivity.
  - unfold do_insert. apply grown_slice; [apply insert_cap|]. intros q _. apply grown_bind; [apply insert_rows_grown; assumption|].
    intros r [e|] _; [apply grown_self|apply patch_grown].
  - unfold do_insert_f. apply grown_slice; [apply insert_cap|]. intros q _. apply grown_bind; [apply iops_grown; assumption|]. intros r x _. gs. apply grown_self.
  - destruct Hc as [H1 H2]. unfold do_update. apply grown_bind; [apply msg_update_grown; assumption|]. intros q [e|] _; [apply grown_self|].
    apply grown_bind; [apply sets_grown; assumption|]. intros r [e|] _; [apply grown_self|apply patch_grown].
  - destruct Hc as [H1 H2]. unfold do_update_f. apply grown_bind; [apply msg_update_grown; assumption|]. intros q x _.
    apply grown_bind; [apply uops_grown; assumption|]. intros r y _. gs. apply grown_self.
  - apply msg_delete_grown. assumption.
Qed.

(* ---- builders ---- *)

Lemma exec_cap : forall dis c b b', call_never_shrinks c -> no_foreign_args c -> exec_call dis c b = Ok b' -> cap (buf b) <= cap (buf b').
Proof.
  intros dis c b b' Hc Hf H. unfold exec_call, guarded in H. destruct (disabled b); [discriminate|]. destruct (berr b); [injection H as <-; lia|].
  pose proof (call_grown dis c (buf b) Hc Hf) as G. unfold call_code in G. destruct (match c with CStmtExecute stmt args => _ | _ => _ end) as [[p e]|] eqn:Hp; [|discriminate].
  cbn [bind] in H. injection H as <-. exact (G p e eq_refl).
Qed.
Lemma stmt_cap : forall s b b', b_stmt_execute s [] b = Ok b' -> cap (buf b) <= cap (buf b').
Proof. intros s b b' H. exact (exec_cap [] (CStmtExecute s []) b b' (Forall_nil _) (Forall_nil _) H). Qed.

Lemma insert_row_cap : forall name cols row b b' o, Forall value_never_shrinks row -> b_insert_row name cols row b = Ok (b', o) -> cap (buf b) <= cap (buf b').
Proof.
  intros name cols row b b' o Hr H. unfold b_insert_row in H. destruct (disabled b); [discriminate|]. destruct (berr b); [injection H as <- <-; lia|]. cbv zeta in H.
  destruct (msg_insert _ _ _) as [p|] eqn:H1; [|discriminate]. apply insert_cap in H1. cbn [bind] in H.
  destruct (append_insert_row p row) as [[p1 e]|] eqn:H2; [|discriminate]. pose proof (row_grown row p Hr p1 e H2) as G. cbn [bind] in H.
  destruct e as [e|]; [injection H as <- <-; cbn [buf]; lia|].
  destruct (patch_length p1 _) as [p2|] eqn:H3; [|discriminate]. pose proof (slice_cap 9 p1 _ _ (patch_pairs 9 p1 p1 _ eq_refl) _ H3) as G3. cbn [bind] in H.
  destruct (b_stmt_execute _ [] _) as [b2|] eqn:H4; [|discriminate]. apply stmt_cap in H4. cbn [buf bind] in *. injection H as <- <-. lia.
Qed.

Lemma block_begin_cap : forall k b b' en, block_begin k b = Ok (b', en) -> cap (buf b) <= cap (buf b').
Proof.
  intros k b b' en H. unfold block_begin in H. destruct (disabled b); [discriminate|]. destruct (berr b); [injection H as <- <-; lia|]. destruct k as [lvl|ctx].
  - assert (One : forall s b b' en, (do b1 <- b_stmt_execute s [] b; Ok (b1, true)) = Ok (b', en) -> cap (buf b) <= cap (buf b')).
    { intros s x x' y Hx. destruct (b_stmt_execute s [] x) as [b1|] eqn:H1; [|discriminate]. injection Hx as <- <-. exact (stmt_cap _ _ _ H1). }
    assert (Two : forall s t b b' en, (do b1 <- b_stmt_execute s [] b; do b2 <- b_stmt_execute t [] b1; Ok (b2, true)) = Ok (b', en) -> cap (buf b) <= cap (buf b')).
    { intros s t x x' y Hx. destruct (b_stmt_execute s [] x) as [b1|] eqn:H1; [|discriminate]. cbn [bind] in Hx. apply One in Hx. apply stmt_cap in H1. lia. }
    unfold tx_begin in H. cbv zeta in H. destruct lvl as [|[[[l|l|]|[l|l|]|]|[[l|l|]|[l|l|]|]|]]; try (injection H as <- <-; cbn [buf]; lia); first [exact (One _ _ _ _ H)|exact (Two _ _ _ _ _ H)].
  - destruct (expect_open _ _ _) as [p|] eqn:H1; [|discriminate]. cbn [bind] in H. injection H as <- <-. cbn [buf].
    exact (slice_cap 9 (buf b) _ _ (expect_open_pairs ctx (buf b) (buf b) eq_refl) _ H1).
Qed.

Lemma block_end_cap : forall k b b', block_end k b = Ok b' -> cap (buf b) <= cap (buf b').
Proof.
  intros [lvl|ctx] b b' H; cbn [block_end] in H; [exact (stmt_cap _ _ _ H)|]. injection H as <-. cbn [buf]. unfold expect_close.
  match goal with |- context [append (buf b) ?xs] => destruct (cap_append_mono E (buf b) xs); assumption end.
Qed.

Lemma run_cap : forall pr b outer st out, prog_keeps pr -> all_disabled outer -> disabled b = false -> run pr (b :: outer) = Ok (st, out) ->
  exists b', st = b' :: outer /\ disabled b' = false /\ cap (buf b) <= cap (buf b').
Proof.
  induction pr as [cberr out0|lvl c next IH|lvl name cols row next IH|lvl k body IHb next IHn]; intros b outer st out Hk Hout Hd H; cbn [run] in H; cbn [prog_keeps] in Hk.
  - exists b. injection H as <- <-. auto.
  - destruct lvl as [|lvl].
    2: { destruct (nth_error (b :: outer) (S lvl)) as [x|] eqn:Hx; [|discriminate]. apply only_inner in Hx; [|assumption].
         rewrite exec_disabled in H by assumption. discriminate. }
    cbn [nth_error set_nth map] in H. destruct (exec_call _ c b) as [b1|] eqn:H1; [|discriminate]. cbn [bind] in H. destruct Hk as [[K1 K2] K3].
    pose proof (exec_cap _ c b b1 K1 K2 H1) as C1.
    assert (D1 : disabled b1 = false). { unfold exec_call, guarded in H1. rewrite Hd in H1. destruct (berr b); [injection H1 as <-; assumption|].
      match type of H1 with bind ?x _ = _ => destruct x as [[? ?]|] end; [|discriminate]. injection H1 as <-. reflexivity. }
    destruct (IH b1 outer st out K3 Hout D1 H) as (b' & ? & ? & ?). exists b'. repeat split; try assumption. lia.
  - destruct lvl as [|lvl].
    2: { destruct (nth_error (b :: outer) (S lvl)) as [x|] eqn:Hx; [|discriminate]. apply only_inner in Hx; [|assumption].
         rewrite insert_row_disabled in H by assumption. discriminate. }
    cbn [nth_error set_nth] in H. destruct (b_insert_row name cols row b) as [[b1 o]|] eqn:Hb1; [|discriminate]. cbn [bind] in H. destruct Hk as [K1 K2].
    pose proof (insert_row_keeps E _ _ _ _ _ _ Hd Hb1) as [Hd1 _]. pose proof (insert_row_cap _ _ _ _ _ _ K1 Hb1).
    destruct (IH o b1 outer st out (K2 o) Hout Hd1 H) as (b' & ? & ? & ?). exists b'. repeat split; try assumption. lia.
  - destruct lvl as [|lvl].
    2: { destruct (nth_error (b :: outer) (S lvl)) as [x|] eqn:Hx; [|discriminate]. apply only_inner in Hx; [|assumption].
         rewrite block_disabled in H by assumption. discriminate. }
    cbn [nth_error set_nth] in H. destruct (block_begin k b) as [[b1 en]|] eqn:Hb1; [|discriminate]. cbn [bind] in H. destruct Hk as [K1 K2].
    pose proof (block_begin_keeps E _ _ _ _ Hd Hb1) as [Hd1 _]. pose proof (block_begin_cap _ _ _ _ Hb1) as C1. destruct en.
    + destruct (run body _) as [[st2 out2]|] eqn:Hbody; [|discriminate]. cbn [bind] in H.
      apply IHb in Hbody; [|assumption|constructor; [reflexivity|assumption]|reflexivity]. destruct Hbody as (ch & -> & Hch & C2). cbn [buf] in C2.
      cbn [set_nth] in H. destruct (block_end k _) as [b2|] eqn:Hb2; [|discriminate]. cbn [bind] in H. pose proof (block_end_cap _ _ _ Hb2) as C3. cbn [buf] in C3.
      assert (Hd2 : disabled b2 = false) by (refine (block_end_disabled E k _ b2 _ Hb2); reflexivity).
      destruct (IHn out2 b2 outer st out (K2 out2) Hout Hd2 H) as (b' & ? & ? & ?). exists b'. repeat split; try assumption. lia.
    + destruct (IHn [] b1 outer st out (K2 []) Hout Hd1 H) as (b' & ? & ? & ?). exists b'. repeat split; try assumption. lia.
Qed.

(* ---- a foreign argument ---- *)

Lemma args_foreign : forall tag before x after p q, foreign x -> append_args tag before p = Ok (q, None) ->
  append_args tag (before ++ x :: after) p = Ok (nil_slice, Some EUnsupported).
Proof.
  intros tag before x after p q Hx. unfold append_args. generalize 0. revert p. induction before as [|v before IH]; intros p n H; cbn [each app] in *.
  - rewrite foreign_any by assumption. reflexivity.
  - destruct (append_any v p tag) as [[p1 [e|]]|]; cbn [bind] in *; try discriminate. apply IH. assumption.
Qed.

Lemma stmt_foreign : forall stmt before x after p q, foreign x -> stmt_execute p stmt before = Ok (q, None) ->
  stmt_execute p stmt (before ++ x :: after) = Ok (nil_slice, Some EUnsupported).
Proof.
  intros stmt before x after p q Hx. unfold stmt_execute. cbv zeta. destruct (mask_truncate _ _) as [r|]; [|discriminate]. cbn [bind]. intros H.
  destruct (append_args tagStmtExecuteArgs before (append r stmt)) as [[r1 [e|]]|] eqn:Ha; cbn [bind] in H; try discriminate.
  rewrite (args_foreign _ _ x after _ _ Hx Ha). reflexivity.
Qed.
Lemma execute_foreign : forall id before x after p q, foreign x -> msg_execute p id before = Ok (q, None) ->
  msg_execute p id (before ++ x :: after) = Ok (nil_slice, Some EUnsupported).
Proof.
  intros id before x after p q Hx. unfold msg_execute. cbv zeta. destruct (mask_truncate _ _) as [r|]; [|discriminate]. cbn [bind]. intros H.
  destruct (append_args tagExecuteArgs before r) as [[r1 [e|]]|] eqn:Ha; cbn [bind] in H; try discriminate.
  rewrite (args_foreign _ _ x after _ _ Hx Ha). reflexivity.
Qed.

End Code.
