(* A call with []byte arguments in memory does what the call with their contents does. *)
From Coq Require Import String List NArith ZArith Arith Bool Lia.
From Coq Require Import List.
From Verif Require Import Base GoSlice Varint Text Values AnyModel ExprModel MsgModel Builder SpecValue ValueProofs SpecMem Mem MemModel MemProofs MemRef MemBuild MemUse MemArg SpecArg.
Import ListNotations.
Local Open Scope nat_scope.

(* ------------------------------------------------------------ octets *)

Section Octets.
Context `{E : Env}.

(* The two encoders of octets, up to where the bytes come from. *)
Definition any_octets (p : hslice) (tag : N) (n : nat) (contentType : N) (copy : hslice -> nat -> H nat) : H hslice :=
  let n0 := (1 + sizev n + n)%nat in
  let n0 := if (contentType =? ContentTypePlain)%N then n0 else (n0 + (1 + size_varint contentType))%nat in
  let n1 := (3 + sizev n0 + n0)%nat in
  let n2 := (3 + sizev n1 + n1)%nat in
  let* (p, b) := h_for_append p (1 + sizev n2 + n2) in
  let* i := h_put_uvarint b 1 (N.of_nat n2) in
  let* _ := h_put b 0 [hdr tag wireBytes] in
  let* b := h_from b (1 + i) in
  let* i := h_put_uvarint b 3 (N.of_nat n1) in
  let* _ := h_put b 0 [hdr tagAnyType wireVarint] in
  let* _ := h_put b 1 [Any_SCALAR] in
  let* _ := h_put b 2 [hdr tagAnyScalar wireBytes] in
  let* b := h_from b (3 + i) in
  let* i := h_put_uvarint b 3 (N.of_nat n0) in
  let* _ := h_put b 0 [hdr tagScalarType wireVarint] in
  let* _ := h_put b 1 [Scalar_V_OCTETS] in
  let* _ := h_put b 2 [hdr tagScalarOctets wireBytes] in
  let* b := h_from b (3 + i) in
  let* b := (if (contentType =? ContentTypePlain)%N then hret b else
      let* i := h_put_uvarint b 1 contentType in
      let* _ := h_put b 0 [hdr tagOctetContentType wireVarint] in
      h_from b (1 + i)) in
  let* i := h_put_uvarint b 1 (N.of_nat n) in
  let* _ := h_put b 0 [hdr tagOctetValue wireBytes] in
  let* _ := copy b (1 + i)%nat in
  hret p.

Definition expr_octets (p : hslice) (tag : N) (n : nat) (contentType : N) (copy : hslice -> nat -> H nat) : H hslice :=
  let n0 := (1 + sizev n + n)%nat in
  let n0 := if (contentType =? 0)%N then n0 else (n0 + (1 + size_varint contentType))%nat in
  let n1 := (3 + sizev n0 + n0)%nat in
  let n2 := (3 + sizev n1 + n1)%nat in
  let* (p, b) := h_for_append p (1 + sizev n2 + n2) in
  let* i := h_put_uvarint b 1 (N.of_nat n2) in
  let* _ := h_put b 0 [hdr tag wireBytes] in
  let* b := h_from b (1 + i) in
  let* i := h_put_uvarint b 3 (N.of_nat n1) in
  let* _ := h_put b 0 [hdr tagExprType wireVarint] in
  let* _ := h_put b 1 [Expr_LITERAL] in
  let* _ := h_put b 2 [hdr tagExprLiteral wireBytes] in
  let* b := h_from b (3 + i) in
  let* i := h_put_uvarint b 3 (N.of_nat n0) in
  let* _ := h_put b 0 [hdr tagScalarType wireVarint] in
  let* _ := h_put b 1 [Scalar_V_OCTETS] in
  let* _ := h_put b 2 [hdr tagScalarOctets wireBytes] in
  let* b := h_from b (3 + i) in
  let* b := (if (contentType =? 0)%N then hret b else
      let* i := h_put_uvarint b 1 contentType in
      let* _ := h_put b 0 [hdr tagOctetContentType wireVarint] in
      h_from b (1 + i)) in
  let* i := h_put_uvarint b 1 (N.of_nat n) in
  let* _ := h_put b 0 [hdr tagOctetValue wireBytes] in
  let* _ := copy b (1 + i)%nat in
  hret p.

Lemma any_by_value p tag x c : h_append_any_bytes_string p tag x c = any_octets p tag (length x) c (fun b i => h_copy b i x).
Proof. reflexivity. Qed.
Lemma any_by_ref p tag s c : h_append_any_bytes_from p tag s c = any_octets p tag (hlen s) c (fun b i => h_copy_from b i s).
Proof. reflexivity. Qed.
Lemma expr_by_value p tag x c : h_append_expr_bytes_string p tag x c = expr_octets p tag (length x) c (fun b i => h_copy b i x).
Proof. reflexivity. Qed.
Lemma expr_by_ref p tag s c : h_append_expr_bytes_from p tag s c = expr_octets p tag (hlen s) c (fun b i => h_copy_from b i s).
Proof. reflexivity. Qed.
End Octets.

(* ------------------------------------------------------------ induction over values with values inside *)

Section Deep.
Variables (G : rvalue -> Prop) (F : rfun -> Prop).
Hypotheses (HV : forall v, G (RVal v)) (HR : forall k s, G (RRef k s)) (HP : forall i v, G v -> G (RPtr i v))
  (HF : forall f, F f -> G (RFunc f)) (HE : forall f, F (RFun f))
  (HO : forall name ps, Forall G ps -> F (ROperator name ps)) (HC : forall name ps, Forall G ps -> F (RCall name ps)).

Fixpoint rvalue_deep (v : rvalue) : G v :=
  match v with
  | RVal v => HV v
  | RRef k s => HR k s
  | RPtr i v => HP i v (rvalue_deep v)
  | RFunc f => HF f (rfun_deep f)
  end
with rfun_deep (f : rfun) : F f :=
  let deep := fix go l : Forall G l := match l with [] => Forall_nil _ | x :: l => Forall_cons _ (rvalue_deep x) (go l) end in
  match f with
  | RFun f => HE f
  | ROperator name ps => HO name ps (deep ps)
  | RCall name ps => HC name ps (deep ps)
  end.
End Deep.

Local Ltac tlia := lia || (repeat match goal with T : tl ?s ?b ?k |- _ => pose proof (tl_len s b k T); clear T end; lia).
Local Ltac tls := first [eassumption|apply tl_refl].
Local Ltac prim := first
 [ eapply ref_put; [eassumption|tls|reflexivity|tlia]
 | eapply ref_put_uvarint; [eassumption|tls|reflexivity|tlia]
 | eapply ref_copy; [eassumption|tls|reflexivity|left; tlia]
 | apply ref_append; [eassumption|tlia]
 | apply ref_for_append; [eassumption|tlia]
 | apply ref_mask_truncate; [eassumption|tlia] ].
Local Ltac open R := cbv beta in R;
  repeat match goal with
  | R : _ /\ _ |- _ => destruct R
  | R : sl2 _ _ _ _ _ _ |- _ => destruct R
  | R : sg _ _ _ _ _ _ |- _ => destruct R
  | a : (_ * _)%type |- _ => destruct a
  end; cbn [fst snd length] in *;
  repeat match goal with R : ?x = ?y |- _ => is_var x; subst x end.
Local Ltac post := cbv beta;
  let m := fresh "m" in let a := fresh "a" in let b := fresh "b" in let R := fresh "R" in
  intros m a b R; open R; cbv beta iota.

Section Args.
Context `{E : Env}.
Variables (m0 : mem) (s0 : hslice) (lo : nat) (P : ufun -> Prop).
Hypothesis Plow : forall u, P u -> low lo u.
Local Notation sl := (sl m0 s0 lo).
Local Notation sg := (sg m0 s0 lo).
Local Notation sl2 := (sl2 m0 s0 lo).
Local Notation refines := (refines m0 s0 lo).

(* However the bytes are copied, the code before that is the same and leaves the rest of memory alone. *)
Definition reach (f : (hslice -> nat -> H nat) -> hres hslice) : Prop :=
  (exists m', outside m0 s0 lo m' /\ forall c, f c = HPanic m') \/
  (exists p b i m', outside m0 s0 lo m' /\ forall c, f c = (let* _ := c b i in hret p) m').

Lemma reach_bind {A B} (r : res A) (h : H B) (g : B -> (hslice -> nat -> H nat) -> H hslice) m R :
  refines r (h m) R -> (forall m' a b, R m' a b -> reach (fun c => g b c m')) -> reach (fun c => hbind h (fun b => g b c) m).
Proof.
  intros Hr Hg. destruct r as [a|].
  - destruct Hr as [b [m' [Eh HR]]]. unfold hbind. rewrite Eh. eapply Hg; exact HR.
  - destruct Hr as [m' [Eh O]]. left. exists m'. split; [exact O|]. intros c. unfold hbind. rewrite Eh. reflexivity.
Qed.

Lemma reach_from s b k j m (g : hslice -> (hslice -> nat -> H nat) -> H hslice) : tl s b k -> k + j <= hlen s ->
  (forall b', tl s b' (k + j) -> reach (fun c => g b' c m)) -> reach (fun c => hbind (h_from b j) (fun b => g b c) m).
Proof.
  intros T L HQ. destruct (from_tl s b k j m T L) as [b' [Eb T']]. unfold hbind. rewrite Eb. auto.
Qed.

Lemma reach_ext f f' : (forall c, f c = f' c) -> reach f' -> reach f.
Proof.
  intros Ef [[m' [O Hp]]|[p [b [i [m' [O Hc]]]]]]; [left; exists m'|right; exists p, b, i, m']; (split; [exact O|]); intros c; rewrite Ef; auto.
Qed.

Local Ltac rstep :=
  lazymatch goal with
  | |- reach (fun c => hbind (hret ?b) (fun x => @?g x c) ?m) => change (reach (fun c => g b c m)); cbv beta
  | |- reach (fun c => hbind (hbind ?h ?k) ?g ?m) => idtac
  | |- reach (fun c => hbind (h_from ?b ?j) (fun x => @?g x c) ?m) => eapply (reach_from _ b _ j m (fun x c => g x c)); [eassumption|lia|intros ? ?]
  | |- reach (fun c => hbind ?h (fun x => @?g x c) ?m) => eapply (reach_bind _ h (fun x c => g x c) m); [prim|post]
  end.
Local Ltac assoc := match goal with
  | |- reach (fun c => hbind (hbind ?h ?k) (fun x => @?g x c) ?m) =>
      apply (reach_ext _ (fun c => hbind h (fun y => hbind (k y) (fun x => g x c)) m)); [intros c; apply hbind_assoc|]
  end.
Local Ltac reached := match goal with S : MemProofs.sl _ _ _ ?m _ _ |- reach (fun c => hbind (c _ _) _ ?m) =>
  right; do 4 eexists; split; [eapply sl_outside; exact S|intros c; reflexivity] end.

Lemma any_reach m p s tag n ct : sg m p s -> reach (fun c => any_octets s tag n ct c m).
Proof.
  intros [S L]. unfold any_octets. cbv zeta. do 14 rstep. destruct (ct =? ContentTypePlain)%N.
  - do 3 rstep. reached.
  - assoc. do 1 rstep. assoc. do 4 rstep. reached.
Qed.

Lemma expr_reach m p s tag n ct : sg m p s -> reach (fun c => expr_octets s tag n ct c m).
Proof.
  intros [S L]. unfold expr_octets. cbv zeta. do 14 rstep. destruct (ct =? 0)%N.
  - do 3 rstep. reached.
  - assoc. do 1 rstep. assoc. do 4 rstep. reached.
Qed.

(* The bytes that end up in the message are those there at some moment before the message is finished. *)
Lemma reach_read f (src : hslice) : reach f ->
  exists m', outside m0 s0 lo m' /\ f (fun b i => h_copy_from b i src) = f (fun b i => h_copy b i (contents m' src)).
Proof.
  intros [[m' [O Hp]]|[p [b [i [m' [O Hc]]]]]]; exists m'; (split; [exact O|]); [rewrite !Hp|rewrite !Hc]; reflexivity.
Qed.

(* ------------------------------------------------------------ references nothing of the call changes *)

Definition steady (t : hslice) : Prop :=
  wf m0 t /\ forall m', outside m0 s0 lo m' -> contents m' t = contents m0 t.

Lemma steady_len t m' : steady t -> outside m0 s0 lo m' -> length (contents m' t) = hlen t.
Proof. intros [[W1 W2] Hc] O. rewrite Hc by exact O. apply sub_length. lia. Qed.

Lemma any_eq m p s tag t ct : sg m p s -> steady t ->
  h_append_any_bytes_from s tag t ct m = h_append_any_bytes_string s tag (contents m0 t) ct m.
Proof.
  intros S T. rewrite any_by_ref. destruct (reach_read _ t (any_reach m p s tag (hlen t) ct S)) as [m' [O ->]].
  rewrite any_by_value, <- (proj2 T m' O), (steady_len t m' T O). reflexivity.
Qed.

Lemma expr_eq m p s tag t ct : sg m p s -> steady t ->
  h_append_expr_bytes_from s tag t ct m = h_append_expr_bytes_string s tag (contents m0 t) ct m.
Proof.
  intros S T. rewrite expr_by_ref. destruct (reach_read _ t (expr_reach m p s tag (hlen t) ct S)) as [m' [O ->]].
  rewrite expr_by_value, <- (proj2 T m' O), (steady_len t m' T O). reflexivity.
Qed.

(* ------------------------------------------------------------ values *)

Lemma okm_eq h h' m : h m = h' m -> h_okm h m = h_okm h' m.
Proof. intros Eh. unfold h_okm, hbind. rewrite Eh. reflexivity. Qed.

Fixpoint switch_eq v m p s tag : value_refs steady v -> sg m p s ->
  r_type_switch v s tag m = h_type_switch (value_now m0 v) s tag m.
Proof.
  intros Q S. destruct v as [v|k t|i v|f]; cbn [value_refs] in Q.
  - reflexivity.
  - destruct k; cbn [r_type_switch value_now octets_now octets_type]; unfold h_type_switch, h_any_method, h_append_any_bytes;
      apply okm_eq, (any_eq m p); assumption.
  - pose proof (switch_eq v m p s tag Q S) as IH. destruct v as [v|k t|i' v|f]; [reflexivity|..].
    + change (r_type_switch (RPtr i (RRef k t)) s tag) with (r_type_switch (RRef k t) s tag). rewrite IH. destruct i, k; reflexivity.
    + change (r_type_switch (RPtr i (RPtr i' v)) s tag) with (r_type_switch (RPtr i' v) s tag). rewrite IH. destruct i; reflexivity.
    + destruct i; reflexivity.
  - reflexivity.
Qed.

Lemma append_any_eq v m p s tag : value_refs steady v -> sg m p s ->
  r_append_any v s tag m = h_append_any (value_now m0 v) s tag m.
Proof.
  intros Q S. destruct v as [v|k t|i v|f]; [reflexivity|..]; unfold r_append_any, h_append_any.
  - rewrite (switch_eq (RRef k t) m p s tag Q S). destruct k; reflexivity.
  - apply (switch_eq (RPtr i v) m p s tag Q S).
  - reflexivity.
Qed.

Lemma eq_bind {A B C} (r : res C) (h1 h2 : H A) (g1 g2 : A -> H B) m R :
  h1 m = h2 m -> refines r (h2 m) R -> (forall m' a b, R m' a b -> g1 b m' = g2 b m') -> hbind h1 g1 m = hbind h2 g2 m.
Proof.
  intros Eh Hr Hg. unfold hbind. rewrite Eh. destruct r as [a|].
  - destruct Hr as [b [m' [-> HR]]]. eapply Hg; exact HR.
  - destruct Hr as [m' [-> _]]. reflexivity.
Qed.

(* The two sides of a bind that start with the same step. *)
Local Ltac estep :=
  lazymatch goal with
  | |- hbind (h_from ?b ?j) _ ?m = hbind (h_from ?b ?j) _ ?m =>
      match goal with T : tl ?s b ?k |- _ => let b' := fresh "b" in let T' := fresh "T" in
        destruct (from_tl s b k j m T ltac:(lia)) as [b' [? T']]; unfold hbind at 1 2;
        match goal with Eb : h_from b j m = _ |- _ => rewrite Eb end; cbv beta iota end
  | |- hbind ?h _ ?m = hbind ?h _ ?m => eapply eq_bind; [reflexivity|prim|post]
  end.
Local Ltac then_eq := match goal with
  | e : option err |- (match ?e with Some _ => _ | None => _ end) _ = _ => destruct e; [reflexivity|]
  end.

Definition vusers (v : rvalue) : Prop := value_users P (value_now m0 v).
Definition fusers (f : rfun) : Prop := fun_users P (fun_now m0 f).
Local Notation vok v := (value_refs steady v /\ vusers v).
Local Notation fok f := (fun_refs steady f /\ fusers f).

Lemma each_eq (f : rvalue -> hslice -> H (hslice * option err)) (g : gvalue -> slice -> res (slice * option err)) h wrap vs :
  Forall (fun v => forall m p s, sg m p s -> f v s m = h (value_now m0 v) s m /\ refines (g (value_now m0 v) p) (h (value_now m0 v) s m) sl2) vs ->
  forall j m p s, sg m p s -> h_each f wrap j vs s m = h_each h wrap j (map (value_now m0) vs) s m.
Proof.
  induction 1 as [|v vs Hv _ IH]; intros j m p s S; cbn [h_each map]; [reflexivity|].
  destruct (Hv m p s S) as [Ef R]. eapply eq_bind; [exact Ef|exact R|post]. then_eq. eapply IH. split; eauto.
Qed.

Definition expr_goal v := value_refs steady v -> vusers v -> forall m p s tag, sg m p s ->
  r_append_expr v s tag m = h_append_expr (value_now m0 v) s tag m.
Definition fun_goal f := fun_refs steady f -> fusers f -> forall m p s tag, sg m p s ->
  r_run_fun f s tag m = h_run_fun (fun_now m0 f) s tag m.

Lemma exprs_eq vs : Forall expr_goal vs -> Forall (fun v => vok v) vs -> forall tag wrap j m p s, sg m p s ->
  h_each (fun v p => r_append_expr v p tag) wrap j vs s m = h_each (fun v p => h_append_expr v p tag) wrap j (map (value_now m0) vs) s m.
Proof.
  intros F V tag wrap j m p s S. eapply (each_eq _ (fun v p => append_expr v p tag)); [|exact S].
  rewrite Forall_forall in *. intros v Hv m' p' s' S'. destruct (V v Hv). split.
  - eapply F; eassumption.
  - apply (ref_append_expr m0 s0 lo P Plow); assumption.
Qed.

Lemma params_ok ps : all (value_refs steady) ps -> all (value_users P) (map (value_now m0) ps) -> Forall (fun v => vok v) ps.
Proof.
  intros A B. apply all_Forall in A, B. rewrite Forall_forall in *. intros v Hv. split; [auto|]. apply B, in_map, Hv.
Qed.

Lemma expr_fun_eq : (forall v, expr_goal v) /\ (forall f, fun_goal f).
Proof.
  assert (HV : forall v, expr_goal (RVal v)) by (intros v _ _ m p s tag _; reflexivity).
  assert (HR : forall k t, expr_goal (RRef k t)).
  { intros k t T _ m p s tag S. destruct k; cbn [r_append_expr value_now octets_now octets_type];
      unfold h_append_expr, h_expr_method, h_append_expr_bytes; apply okm_eq, (expr_eq m p); assumption. }
  assert (HP : forall i v, expr_goal v -> expr_goal (RPtr i v)).
  { intros i v _ T _ m p s tag S. destruct v as [v|k t|i' v|f]; cbn [value_refs] in T; [destruct i; reflexivity| |destruct i; reflexivity|destruct i; reflexivity].
    destruct i, k; cbn [r_append_expr value_now octets_now octets_type];
      unfold h_append_expr, h_expr_method, h_append_expr_bytes; try reflexivity; apply okm_eq, (expr_eq m p); assumption. }
  assert (HF : forall f, fun_goal f -> expr_goal (RFunc f)) by (intros f Hf; exact Hf).
  assert (HE : forall f, fun_goal (RFun f)) by (intros f _ _ m p s tag _; reflexivity).
  assert (HO : forall name ps, Forall expr_goal ps -> fun_goal (ROperator name ps)).
  { intros name ps F Q U m p s tag S. cbn [fun_refs] in Q. unfold fusers in U. cbn [fun_now fun_users] in U.
    cbn [r_run_fun fun_now h_run_fun]. cbv zeta. eapply eq_bind.
    - eapply exprs_eq; [exact F|apply params_ok; assumption|exact S].
    - apply (ref_exprs m0 s0 lo P Plow); [apply all_Forall; exact U|exact S].
    - post. reflexivity. }
  assert (HC : forall name ps, Forall expr_goal ps -> fun_goal (RCall name ps)).
  { intros name ps F Q U m p s tag S. cbn [fun_refs] in Q. unfold fusers in U. cbn [fun_now fun_users] in U.
    cbn [r_run_fun fun_now h_run_fun]. cbv zeta. eapply eq_bind.
    - eapply exprs_eq; [exact F|apply params_ok; assumption|exact S].
    - apply (ref_exprs m0 s0 lo P Plow); [apply all_Forall; exact U|exact S].
    - post. reflexivity. }
  split; [exact (rvalue_deep _ _ HV HR HP HF HE HO HC)|exact (rfun_deep _ _ HV HR HP HF HE HO HC)].
Qed.

Lemma append_expr_eq v m p s tag : vok v -> sg m p s -> r_append_expr v s tag m = h_append_expr (value_now m0 v) s tag m.
Proof. intros [Q U]. apply expr_fun_eq; assumption. Qed.
Lemma run_fun_eq f m p s tag : fok f -> sg m p s -> r_run_fun f s tag m = h_run_fun (fun_now m0 f) s tag m.
Proof. intros [Q U]. apply expr_fun_eq; assumption. Qed.

Lemma now_users vs : Forall (fun v => vok v) vs -> Forall (value_users P) (map (value_now m0) vs).
Proof. intros V. apply Forall_forall. intros x Hx. apply in_map_iff in Hx as [v [<- Hv]]. rewrite Forall_forall in V. apply V, Hv. Qed.

(* ------------------------------------------------------------ messages *)

Lemma append_args_eq tag args m p s : Forall (fun v => vok v) args -> sg m p s ->
  r_append_args tag args s m = h_append_args tag (map (value_now m0) args) s m.
Proof.
  intros V S. unfold r_append_args, h_append_args. eapply (each_eq _ (fun v p => append_any v p tag)); [|exact S].
  rewrite Forall_forall in *. intros v Hv m' p' s' S'. destruct (V v Hv). split.
  - eapply append_any_eq; eassumption.
  - apply (ref_append_any m0 s0 lo P Plow); assumption.
Qed.

Lemma stmt_execute_eq stmt args m p s : Forall (fun v => vok v) args -> sg m p s ->
  r_stmt_execute s stmt args m = h_stmt_execute s stmt (map (value_now m0) args) m.
Proof.
  intros V [S L]. unfold r_stmt_execute, h_stmt_execute. cbv zeta. do 3 estep.
  eapply eq_bind; [eapply append_args_eq; [exact V|split; [eassumption|tlia]]
    |apply (ref_append_args m0 s0 lo P Plow); [apply now_users; exact V|split; [eassumption|tlia]]|post]. reflexivity.
Qed.

Lemma msg_execute_eq id args m p s : Forall (fun v => vok v) args -> sg m p s ->
  r_msg_execute s id args m = h_msg_execute s id (map (value_now m0) args) m.
Proof.
  intros V [S L]. unfold r_msg_execute, h_msg_execute. cbv zeta. do 2 estep.
  eapply eq_bind; [eapply append_args_eq; [exact V|split; [eassumption|tlia]]
    |apply (ref_append_args m0 s0 lo P Plow); [apply now_users; exact V|split; [eassumption|tlia]]|post]. reflexivity.
Qed.

Lemma criteria_eq f tag m p s : opt (fun f => fok f) f -> sg m p s ->
  r_criteria f s tag m = match option_map (fun_now m0) f with None => hret (s, None) | Some f => h_run_fun f s tag end m.
Proof. intros V S. destruct f as [f|]; cbn [option_map r_criteria opt] in *; [eapply run_fun_eq; eassumption|reflexivity]. Qed.

Lemma opt_users f : opt (fun f => fok f) f -> opt (fun_users P) (option_map (fun_now m0) f).
Proof. destruct f; cbn; tauto. Qed.

Lemma msg_delete_eq name f m p s : opt (fun f => fok f) f -> sg m p s ->
  r_msg_delete s name f m = h_msg_delete s name (option_map (fun_now m0) f) m.
Proof.
  intros V [S L]. unfold r_msg_delete, h_msg_delete. cbv zeta. do 7 estep.
  eapply eq_bind; [eapply criteria_eq; [exact V|split; [eassumption|tlia]]
    |apply (ref_criteria m0 s0 lo P Plow); [apply opt_users; exact V|split; [eassumption|tlia]]|post]. reflexivity.
Qed.

Lemma msg_update_eq name f m p s : opt (fun f => fok f) f -> sg m p s ->
  r_msg_update s name f m = h_msg_update s name (option_map (fun_now m0) f) m.
Proof.
  intros V [S L]. unfold r_msg_update, h_msg_update. cbv zeta. do 9 estep.
  eapply criteria_eq; [exact V|split; [eassumption|tlia]].
Qed.

Lemma append_insert_row_eq row m p s : Forall (fun v => vok v) row -> sg m p s ->
  r_append_insert_row s row m = h_append_insert_row s (map (value_now m0) row) m.
Proof.
  intros V [S L]. unfold r_append_insert_row, h_append_insert_row. cbv zeta. estep.
  eapply eq_bind; [eapply exprs_eq; [|exact V|split; [eassumption|tlia]]
    |apply (ref_exprs m0 s0 lo P Plow); [apply now_users; exact V|split; [eassumption|tlia]]|post]; [|reflexivity].
  apply Forall_forall. intros v _. apply expr_fun_eq.
Qed.

Lemma append_update_set_eq name v m p s : vok v -> sg m p s ->
  r_append_update_set s name v m = h_append_update_set s name (value_now m0 v) m.
Proof.
  intros V S. unfold r_append_update_set, h_append_update_set. cbv zeta.
  eapply eq_bind; [eapply append_expr_eq; eassumption|apply (ref_append_expr m0 s0 lo P Plow); [apply V|exact S]|post]. reflexivity.
Qed.

Lemma insert_rows_eq ncols rows : Forall (Forall (fun v => vok v)) rows -> forall i m p s, sg m p s ->
  r_insert_rows ncols i rows s m = h_insert_rows ncols i (map (map (value_now m0)) rows) s m.
Proof.
  induction 1 as [|row rows V _ IH]; intros i m p s S; cbn [r_insert_rows h_insert_rows map]; [reflexivity|].
  rewrite map_length. destruct (_ =? _); [|reflexivity].
  eapply eq_bind; [eapply append_insert_row_eq; eassumption|apply (ref_append_insert_row m0 s0 lo P Plow); [apply now_users; exact V|exact S]|post].
  then_eq. eapply IH. split; eauto.
Qed.

Lemma do_insert_eq name columns rows m p s : Forall (Forall (fun v => vok v)) rows -> sg m p s ->
  r_do_insert name columns rows s m = h_do_insert name columns (map (map (value_now m0)) rows) s m.
Proof.
  intros V S. unfold r_do_insert, h_do_insert. cbv zeta. eapply eq_bind; [reflexivity|apply ref_msg_insert; exact S|post].
  eapply eq_bind; [eapply insert_rows_eq; [exact V|split; eassumption]|apply (ref_insert_rows m0 s0 lo P Plow); [|split; eassumption]|post; reflexivity].
  apply Forall_forall. intros x Hx. apply in_map_iff in Hx as [row [<- Hr]]. apply now_users. rewrite Forall_forall in V. apply V, Hr.
Qed.

Local Notation now_set := (map (fun kv : bytes * rvalue => (fst kv, value_now m0 (snd kv)))).

Lemma set_users set : Forall (fun kv : bytes * rvalue => vok (snd kv)) set -> Forall (fun kv : bytes * gvalue => value_users P (snd kv)) (now_set set).
Proof. intros V. apply Forall_forall. intros x Hx. apply in_map_iff in Hx as [kv [<- Hv]]. rewrite Forall_forall in V. apply V, Hv. Qed.

Lemma update_sets_eq set : Forall (fun kv : bytes * rvalue => vok (snd kv)) set -> forall m p s, sg m p s ->
  r_update_sets set s m = h_update_sets (now_set set) s m.
Proof.
  induction 1 as [|[k v] set V _ IH]; intros m p s S; cbn [r_update_sets h_update_sets map fst snd] in *; [reflexivity|].
  eapply eq_bind; [eapply append_update_set_eq; eassumption|apply (ref_append_update_set m0 s0 lo P Plow); [apply V|exact S]|post].
  then_eq. eapply IH. split; eauto.
Qed.

Lemma do_update_eq name f set m p s : opt (fun f => fok f) f -> Forall (fun kv : bytes * rvalue => vok (snd kv)) set -> sg m p s ->
  r_do_update name f set s m = h_do_update name (option_map (fun_now m0) f) (now_set set) s m.
Proof.
  intros Vf V S. unfold r_do_update, h_do_update. cbv zeta.
  eapply eq_bind; [eapply msg_update_eq; eassumption|apply (ref_msg_update m0 s0 lo P Plow); [apply opt_users; exact Vf|exact S]|post].
  then_eq. eapply eq_bind; [eapply update_sets_eq; [exact V|split; eauto]|apply (ref_update_sets m0 s0 lo P Plow); [apply set_users; exact V|split; eauto]|post]. reflexivity.
Qed.

Definition iop_ok (o : riop) : Prop := match o with RRow row => Forall (fun v => vok v) row | RIOuter _ => True end.
Definition uop_ok (o : ruop) : Prop := match o with RSet _ v => vok v | RUOuter _ => True end.

Lemma run_iops_eq dis ops : Forall iop_ok ops -> forall e m p s, sl m p s -> (e = None -> lo <= hlen s) ->
  r_run_iops dis ops s e m = h_run_iops dis (map (iop_now m0) ops) s e m.
Proof.
  induction 1 as [|[row|lvl] ops V _ IH]; intros e m p s S L; cbn [r_run_iops h_run_iops map iop_now iop_ok] in *; [reflexivity| |].
  - destruct e; [eapply IH; [exact S|discriminate]|].
    eapply eq_bind; [eapply append_insert_row_eq; [exact V|split; eauto]
      |apply (ref_append_insert_row m0 s0 lo P Plow); [apply now_users; exact V|split; eauto]|post]. eapply IH; eassumption.
  - eapply eq_bind; [reflexivity|eapply (ref_use_outer m0 s0 lo); exact S|]. cbv beta. intros m' a b ->. eapply IH; eassumption.
Qed.

Lemma run_uops_eq dis ops : Forall uop_ok ops -> forall e m p s, sl m p s -> (e = None -> lo <= hlen s) ->
  r_run_uops dis ops s e m = h_run_uops dis (map (uop_now m0) ops) s e m.
Proof.
  induction 1 as [|[name v|lvl] ops V _ IH]; intros e m p s S L; cbn [r_run_uops h_run_uops map uop_now uop_ok] in *; [reflexivity| |].
  - destruct e; [eapply IH; [exact S|discriminate]|].
    eapply eq_bind; [eapply append_update_set_eq; [exact V|split; eauto]
      |apply (ref_append_update_set m0 s0 lo P Plow); [apply V|split; eauto]|post]. eapply IH; eassumption.
  - eapply eq_bind; [reflexivity|eapply (ref_use_outer m0 s0 lo); exact S|]. cbv beta. intros m' a b ->. eapply IH; eassumption.
Qed.

Lemma iops_users ops : Forall iop_ok ops -> Forall (iop_users P) (map (iop_now m0) ops).
Proof.
  intros V. apply Forall_forall. intros x Hx. apply in_map_iff in Hx as [o [<- Ho]]. rewrite Forall_forall in V. specialize (V o Ho).
  destruct o; cbn [iop_now iop_users iop_ok] in *; [apply now_users; exact V|exact I].
Qed.
Lemma uops_users ops : Forall uop_ok ops -> Forall (uop_users P) (map (uop_now m0) ops).
Proof.
  intros V. apply Forall_forall. intros x Hx. apply in_map_iff in Hx as [o [<- Ho]]. rewrite Forall_forall in V. specialize (V o Ho).
  destruct o; cbn [uop_now uop_users uop_ok] in *; [apply V|exact I].
Qed.

Lemma do_insert_f_eq dis name columns ops m p s : Forall iop_ok ops -> sg m p s ->
  r_do_insert_f dis name columns ops s m = h_do_insert_f dis name columns (map (iop_now m0) ops) s m.
Proof.
  intros V S. unfold r_do_insert_f, h_do_insert_f. cbv zeta. eapply eq_bind; [reflexivity|apply ref_msg_insert; exact S|post].
  eapply eq_bind; [eapply run_iops_eq; [exact V|eassumption|auto]|apply (ref_run_iops m0 s0 lo P Plow); [apply iops_users; exact V|eassumption|auto|auto]|post].
  reflexivity.
Qed.

Lemma do_update_f_eq dis name f ops m p s : opt (fun f => fok f) f -> Forall uop_ok ops -> sg m p s ->
  r_do_update_f dis name f ops s m = h_do_update_f dis name (option_map (fun_now m0) f) (map (uop_now m0) ops) s m.
Proof.
  intros Vf V S. unfold r_do_update_f, h_do_update_f. cbv zeta.
  eapply eq_bind; [eapply msg_update_eq; eassumption|apply (ref_msg_update m0 s0 lo P Plow); [apply opt_users; exact Vf|exact S]|post].
  eapply eq_bind; [eapply run_uops_eq; [exact V|eassumption|assumption]|apply (ref_run_uops m0 s0 lo P Plow); [apply uops_users; exact V|eassumption|assumption|assumption]|post].
  reflexivity.
Qed.

Local Notation rb := (rb m0 s0 lo).

Lemma guarded_eq b hb f g m : rb m b hb -> (forall p s, sg m p s -> f s m = g s m) -> h_guarded hb f m = h_guarded hb g m.
Proof.
  intros [Eb [D [Dh [S [L K]]]]] Hf. unfold h_guarded. rewrite Dh, <- Eb. destruct (berr b) eqn:Be; [reflexivity|].
  unfold hbind. rewrite (Hf (buf b) (hbuf hb)); [reflexivity|]. split; auto.
Qed.

Lemma exec_call_eq dis c b hb m : call_refs steady c -> call_users P (call_now m0 c) -> rb m b hb ->
  r_exec_call dis c hb m = h_exec_call dis (call_now m0 c) hb m.
Proof.
  assert (Vs : forall vs, Forall (value_refs steady) vs -> Forall (value_users P) (map (value_now m0) vs) -> Forall (fun v => vok v) vs).
  { intros vs A B. rewrite Forall_forall in *. intros v Hv. split; [auto|]. apply B, in_map, Hv. }
  assert (Vf : forall f, opt (fun_refs steady) f -> opt (fun_users P) (option_map (fun_now m0) f) -> opt (fun f => fok f) f).
  { intros [f|]; cbn; auto. }
  intros Q U R. destruct c; cbn [call_refs call_now call_users] in *; [| | | | | | |reflexivity];
    unfold r_exec_call, h_exec_call; eapply guarded_eq; try exact R; intros p s S.
  - eapply stmt_execute_eq; eauto.
  - eapply msg_execute_eq; eauto.
  - eapply do_insert_eq; [|exact S]. rewrite Forall_forall in *. intros row Hr. apply Vs; [auto|]. apply U, in_map, Hr.
  - eapply do_insert_f_eq; [|exact S]. rewrite Forall_forall in *. intros o Ho. specialize (Q o Ho). specialize (U _ (in_map (iop_now m0) _ _ Ho)).
    destruct o; cbn in *; auto.
  - destruct Q as [Q1 Q2], U as [U1 U2]. eapply do_update_eq; [auto| |exact S]. rewrite Forall_forall in *. intros kv Hk. split; [auto|].
    apply (U2 _ (in_map (fun kv => (fst kv, value_now m0 (snd kv))) _ _ Hk)).
  - destruct Q as [Q1 Q2], U as [U1 U2]. eapply do_update_f_eq; [auto| |exact S]. rewrite Forall_forall in *. intros o Ho. specialize (Q2 o Ho).
    specialize (U2 _ (in_map (uop_now m0) _ _ Ho)). destruct o; cbn in *; auto.
  - eapply msg_delete_eq; [auto|exact S].
Qed.

Lemma b_insert_row_eq name columns row b hb m : Forall (value_refs steady) row -> Forall (value_users P) (map (value_now m0) row) -> rb m b hb ->
  r_b_insert_row name columns row hb m = h_b_insert_row name columns (map (value_now m0) row) hb m.
Proof.
  intros Q U R. assert (V : Forall (fun v => vok v) row).
  { rewrite Forall_forall in *. intros v Hv. split; [auto|]. apply U, in_map, Hv. }
  pose proof R as [Eb [D [Dh [S [L K]]]]]. unfold r_b_insert_row, h_b_insert_row. rewrite Dh, <- Eb.
  destruct (berr b) eqn:Be; [reflexivity|]. cbv zeta.
  eapply eq_bind; [reflexivity|apply ref_msg_insert; split; eauto|post].
  eapply eq_bind; [eapply append_insert_row_eq; [exact V|split; eassumption]|apply (ref_append_insert_row m0 s0 lo P Plow); [exact U|split; eassumption]|post].
  reflexivity.
Qed.

Local Notation rst := (rst m0 s0 lo).

Lemma run_eq pr : prog_refs steady pr -> prog_users P (prog_now m0 pr) -> forall m st hst, rst m st hst ->
  r_run pr hst m = h_run (prog_now m0 pr) hst m.
Proof.
  induction pr as [e out|lvl c next IH|lvl name columns row next IH|lvl k body IHb next IH];
    cbn [prog_refs prog_now prog_users]; intros Q U m st hst R; cbn [r_run h_run].
  - reflexivity.
  - destruct U as [Uc Un], Q as [Qc Qn].
    destruct (rst_nth m0 s0 lo m st hst lvl R) as [[b [o [hb [ho [-> [-> [-> [Rb [F [Fh L]]]]]]]]]]|[[E1 E2]|[b [hb [E1 [E2 [D Dh]]]]]]].
    + cbn [nth_error map set_nth].
      eapply eq_bind; [eapply exec_call_eq; eassumption|apply (ref_exec_call m0 s0 lo P Plow); [exact Uc|exact Rb]|]. cbv beta. intros m' b' hb' R'.
      eapply (IH Qn Un m' (b' :: o)). exists b', o, hb', ho. auto 10.
    + rewrite E2. reflexivity.
    + rewrite E2. unfold hbind. replace (r_exec_call _ c hb m) with (@HPanic hbuilder m); [unfold h_exec_call, h_guarded; rewrite Dh; reflexivity|].
      destruct c; unfold r_exec_call, h_exec_call, h_guarded; rewrite Dh; reflexivity.
  - destruct U as [Uc Un], Q as [Qc Qn].
    destruct (rst_nth m0 s0 lo m st hst lvl R) as [[b [o [hb [ho [-> [-> [-> [Rb [F [Fh L]]]]]]]]]]|[[E1 E2]|[b [hb [E1 [E2 [D Dh]]]]]]].
    + cbn [nth_error set_nth].
      eapply eq_bind; [eapply b_insert_row_eq; eassumption|apply (ref_b_insert_row m0 s0 lo P Plow); [exact Uc|exact Rb]|]. cbv beta.
      intros m' [b' f] [hb' f'] [R' [Ef Uf]]. cbn [fst snd] in *. subst f'.
      eapply (IH f (Qn f) (Un f Uf) m' (b' :: o)). exists b', o, hb', ho. auto 10.
    + rewrite E2. reflexivity.
    + rewrite E2. unfold r_b_insert_row, h_b_insert_row. rewrite Dh. reflexivity.
  - destruct U as [Ub Un], Q as [Qb Qn].
    destruct (rst_nth m0 s0 lo m st hst lvl R) as [[b [o [hb [ho [-> [-> [-> [Rb [F [Fh L]]]]]]]]]]|[[E1 E2]|[b [hb [E1 [E2 [D Dh]]]]]]].
    + cbn [nth_error set_nth].
      eapply eq_bind; [reflexivity|apply (ref_block_begin m0 s0 lo P Plow); exact Rb|]. cbv beta.
      intros m1 [b1 e] [hb1 e'] [R1 [Ee _]]. cbn [fst snd] in *. subst e'.
      destruct e; [|eapply (IH [] (Qn []) (Un [] (Forall_nil _)) m1 (b1 :: o)); exists b1, o, hb1, ho; auto 10].
      cbv zeta.
      assert (Rc : rst m1 (mkb (buf b1) (berr b1) false :: mkb (buf b1) (berr b1) true :: o) (mkhb (hbuf hb1) (hberr hb1) false :: mkhb (hbuf hb1) (hberr hb1) true :: ho)).
      { destruct R1 as [Eb [D [Dh [S [Lb K]]]]]. eexists _, _, _, _. split; [reflexivity|]. split; [reflexivity|].
        split; [unfold MemBuild.rb; cbn; repeat match goal with |- _ /\ _ => split end; auto|].
        repeat (split; [constructor; auto|]). cbn [length]. congruence. }
      eapply eq_bind; [eapply IHb; eassumption|apply (ref_run m0 s0 lo P Plow); [exact Ub|exact Rc]|].
      cbv beta. intros m2 [st2 out] [hst2 out'] [[R2 [Eo Uo]] Ln]. cbn [fst snd] in *. subst out'.
      destruct R2 as [c [o2 [hc [ho2 [-> [-> [Rc2 [F2 [Fh2 L2]]]]]]]]].
      eapply eq_bind; [reflexivity|apply (ref_block_end m0 s0 lo P Plow k (mkb (buf c) (berr c) false)); destruct Rc2 as [Eb [D [Dh [S [Lb K]]]]];
        unfold MemBuild.rb; cbn; repeat match goal with |- _ /\ _ => split end; auto|].
      cbv beta. intros m3 b3 hb3 R3. cbn [length] in Ln. destruct o2 as [|x o3]; [discriminate|]. destruct ho2 as [|hx ho3]; [discriminate|]. cbn [length set_nth] in *.
      eapply (IH out (Qn out) (Un out Uo) m3 (b3 :: o3)). exists b3, o3, hb3, ho3. inversion F2; inversion Fh2; subst. injection L2 as L2. auto 10.
    + rewrite E2. reflexivity.
    + rewrite E2. unfold h_block_begin. rewrite Dh. reflexivity.
Qed.

End Args.

(* ------------------------------------------------------------ what stays steady *)

Lemma steady_apart m s lo t : wf m t -> apart s t -> steady m s lo t.
Proof. intros W A. split; [exact W|]. intros m' O. eapply outside_contents; eassumption. Qed.

Lemma steady_clear m s t : wf m t -> clear_of s t -> steady m s (hlen s) t.
Proof.
  intros W C. split; [exact W|]. intros m' [L O]. unfold contents. destruct (Nat.eq_dec (hlen t) 0) as [Z|Z]; [rewrite Z; reflexivity|].
  pose proof W as [W1 W2]. destruct (O (arr t)) as [O1 O2]; [apply wf_arr; [exact W|lia]|].
  apply list_ext; rewrite !sub_length by lia; [reflexivity|]. intros i Hi. rewrite !nth_sub by lia. apply O2.
  unfold owns. intros [Ea Hr]. destruct C as [C|[C|[C|C]]]; [lia|congruence|lia|lia].
Qed.

Lemma rb_start `{E : Env} m b lo : wf m (hbuf b) -> hdisabled b = false -> lo <= hlen (hbuf b) ->
  rb m (hbuf b) lo m (bview m b) b.
Proof.
  intros W D L. unfold rb, bview; cbn [berr disabled buf]. split; [reflexivity|]. split; [reflexivity|]. split; [exact D|].
  split; [apply sl_start; exact W|auto].
Qed.

Lemma call_users_all (P : ufun -> Prop) : (forall u, P u) -> forall c, call_users P c.
Proof. intros Pa c. exact (proj1 (users_all P Pa (PCall 0 c (Ret None [])))). Qed.

Section Weaken.
Variables Q Q' : hslice -> Prop.
Hypothesis QQ : forall t, Q t -> Q' t.

Lemma refs_weaken : (forall v, value_refs Q v -> value_refs Q' v) /\ (forall f, fun_refs Q f -> fun_refs Q' f).
Proof.
  assert (HL : forall ps, Forall (fun v => value_refs Q v -> value_refs Q' v) ps -> all (value_refs Q) ps -> all (value_refs Q') ps).
  { intros ps F A. apply all_Forall in A. apply all_Forall. rewrite Forall_forall in *. auto. }
  split; [apply (rvalue_deep (fun v => value_refs Q v -> value_refs Q' v) (fun f => fun_refs Q f -> fun_refs Q' f))
    |apply (rfun_deep (fun v => value_refs Q v -> value_refs Q' v) (fun f => fun_refs Q f -> fun_refs Q' f))]; cbn [value_refs fun_refs]; auto.
Qed.
Lemma values_weaken vs : Forall (value_refs Q) vs -> Forall (value_refs Q') vs.
Proof. apply Forall_impl. apply refs_weaken. Qed.
Lemma criteria_weaken f : opt (fun_refs Q) f -> opt (fun_refs Q') f.
Proof. destruct f; cbn; auto. apply refs_weaken. Qed.

Lemma call_weaken c : call_refs Q c -> call_refs Q' c.
Proof.
  destruct c; cbn [call_refs]; auto using values_weaken, criteria_weaken.
  - apply Forall_impl. exact values_weaken.
  - apply Forall_impl. intros [row|l]; cbn; auto using values_weaken.
  - intros [A B]. split; [apply criteria_weaken; exact A|]. eapply Forall_impl; [|exact B]. intros kv. apply refs_weaken.
  - intros [A B]. split; [apply criteria_weaken; exact A|]. eapply Forall_impl; [|exact B]. intros [k v|l]; cbn; auto. apply refs_weaken.
Qed.

Lemma prog_weaken pr : prog_refs Q pr -> prog_refs Q' pr.
Proof.
  induction pr as [e out|lvl c next IH|lvl name columns row next IH|lvl k body IHb next IH]; cbn [prog_refs]; auto.
  - intros [A B]. split; [apply call_weaken; exact A|auto].
  - intros [A B]. split; [apply values_weaken; exact A|auto].
  - intros [A B]. split; auto.
Qed.
End Weaken.

(* Writing through t changes nothing of a slice apart from it. *)
Lemma contents_write m s t o xs : wf m s -> wf m t -> apart s t -> o + length xs <= hcap t ->
  contents (write m (arr t) (off t + o) xs) s = contents m s.
Proof.
  intros [S1 S2] [T1 T2] A L. unfold contents. destruct (Nat.eq_dec (hlen s) 0) as [Z|Z]; [rewrite Z; reflexivity|].
  rewrite array_write by lia. destruct (Nat.eqb_spec (arr s) (arr t)) as [Ea|]; [|reflexivity].
  unfold apart in A. rewrite Ea in *.
  assert (Lo : length (ow (array m (arr t)) (off t + o) xs) = length (array m (arr t))) by (apply ow_length; lia).
  apply list_ext; rewrite !sub_length by lia; [reflexivity|].
  intros i Hi. rewrite !nth_sub by lia. rewrite nth_ow by lia.
  destruct (Nat.leb_spec (off t + o) (off s + i)), (Nat.ltb_spec (off s + i) (off t + o + length xs)); cbn [andb]; try reflexivity.
  lia.
Qed.

Section Overlap.
Context `{E : Env}.

(* In what follows the message is begun in the very memory the argument is in: its first four bytes are zero when the
   argument is read. *)
Lemma overlap_args m s k tag t : wf m s -> wf m t -> arr t = arr s -> off t = off s -> 4 <= hlen t -> 4 <= hlen s ->
  firstn 4 (contents m s) = [0; 0; 0; 0]%N ->
  forall m1 p1 s1, sg m s 4 m1 p1 s1 ->
  exists x, length x = hlen t /\ firstn 4 x = [0; 0; 0; 0]%N /\
    r_append_any (RRef k t) s1 tag m1 = h_append_any (match k with OBytes => VBytes | OXml => VXml | OJson => VJson | OGeometry => VGeometry end (Some x)) s1 tag m1.
Proof.
  intros Ws Wt Ea Eo L4 Ls Z m1 p1 s1 S.
  destruct (reach_read m s 4 _ t (any_reach m s 4 m1 p1 s1 tag (hlen t) (octets_type k) S)) as [m' [O Er]].
  assert (At : arr t < length m) by (apply wf_arr; [exact Wt|destruct Wt; lia]).
  destruct (proj2 O (arr t) At) as [O1 O2]. pose proof Wt as [W1 W2]. pose proof Ws as [W3 W4].
  assert (Lx : length (contents m' t) = hlen t) by (apply sub_length; lia).
  exists (contents m' t). split; [exact Lx|]. split.
  - rewrite <- Z. apply list_ext.
    + rewrite !firstn_length, Lx. unfold contents. rewrite sub_length; lia.
    + rewrite firstn_length, Lx, Nat.min_l by lia. intros i Hi. rewrite !nth_firstn by lia. unfold contents. rewrite !nth_sub by lia.
      rewrite O2; [rewrite Ea, Eo; reflexivity|]. unfold owns. intros [_ Hr]. lia.
  - rewrite <- any_by_ref in Er. rewrite <- Lx, <- any_by_value in Er.
    destruct k; cbn [r_append_any octets_type] in *; unfold h_append_any, h_type_switch, h_any_method, h_append_any_bytes; apply okm_eq; exact Er.
Qed.
End Overlap.
