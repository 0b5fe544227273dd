(* Goroutines whose calls read []byte arguments in memory that none of them writes. *)
From Coq Require Import String List NArith ZArith Arith Bool Lia.
From Coq Require Import List.
From Verif Require Import Base GoSlice Varint Text Values AnyModel ExprModel MsgModel Builder SpecValue ValueProofs SpecMem Mem MemModel MemUse MemArg SpecArg MemPipes Fine FineModel FineRun FineMore FineArg SpecShare FineAll.
From Verif Require MemArgProofs MemProofs.
Import ListNotations.
Local Open Scope nat_scope.

Section Args.
Variable m0 : mem.
Variable may : nat -> nat -> Prop.
Local Notation more := (more m0 may).

(* A slice that may be read. *)
Definition open_ (t : hslice) : Prop := valid m0 t /\ forall i, off t <= i < off t + hlen t -> may (arr t) i.

Lemma more_g_read t : open_ t -> more (g_read t) (Return (contents m0 t)).
Proof. intros [[W1 W2] M]. apply more_loads; [lia|exact M]. Qed.

Lemma open_len t : open_ t -> length (contents m0 t) = hlen t.
Proof. intros [[W1 W2] _]. apply MemProofs.sub_length. lia. Qed.

Section Calls.
Context `{E : Env}.

Lemma more_copy b i t : open_ t -> more (g_copy_from b i t) (g_copy b i (contents m0 t)).
Proof.
  intros O. unfold g_copy_from. change (g_copy b i (contents m0 t)) with (gbind (Return (contents m0 t)) (fun xs => g_copy b i xs)).
  apply more_bind; [apply more_g_read; exact O|intros xs; apply more_refl].
Qed.

Local Ltac mstep :=
  match goal with
  | |- more ?c ?c => apply more_refl
  | |- more (gbind ?c _) (gbind ?c _) => apply more_same; intros ?; try match goal with a : (hslice * hslice)%type |- _ => destruct a end
  | |- forall _, _ => intro
  end.

Lemma more_any p tag t ct : open_ t -> more (g_append_any_bytes_from p tag t ct) (g_append_any_bytes_string p tag (contents m0 t) ct).
Proof.
  intros O. unfold g_append_any_bytes_from, g_append_any_bytes_string. rewrite (open_len t O). cbv zeta. repeat mstep.
  apply more_bind; [apply more_copy; exact O|intros; apply more_refl].
Qed.

Lemma more_expr p tag t ct : open_ t -> more (g_append_expr_bytes_from p tag t ct) (g_append_expr_bytes_string p tag (contents m0 t) ct).
Proof.
  intros O. unfold g_append_expr_bytes_from, g_append_expr_bytes_string. rewrite (open_len t O). cbv zeta. repeat mstep.
  apply more_bind; [apply more_copy; exact O|intros; apply more_refl].
Qed.

Lemma more_okm c d : more c d -> more (g_okm c) (g_okm d).
Proof. intros M. unfold g_okm. apply more_bind; [exact M|intros; apply more_refl]. Qed.

(* ------------------------------------------------------------ values *)

Fixpoint more_switch v s tag : value_refs open_ v -> more (q_type_switch v s tag) (g_type_switch (value_now m0 v) s tag).
Proof.
  intros Q. destruct v as [v|k t|i v|f]; cbn [value_refs] in Q.
  - apply more_refl.
  - destruct k; cbn [q_type_switch value_now octets_now octets_type]; unfold g_type_switch, g_any_method, g_append_any_bytes;
      apply more_okm, more_any; assumption.
  - pose proof (more_switch v s tag Q) as IH. destruct v as [v|k t|i' v|f]; [apply more_refl|..].
    + destruct i, k; exact IH.
    + destruct i; exact IH.
    + destruct i; apply more_refl.
  - apply more_refl.
Qed.

Lemma more_append_any v s tag : value_refs open_ v -> more (q_append_any v s tag) (g_append_any (value_now m0 v) s tag).
Proof.
  intros Q. destruct v as [v|k t|i v|f]; [apply more_refl|..]; unfold q_append_any, g_append_any.
  - pose proof (more_switch (RRef k t) s tag Q) as M. destruct k; exact M.
  - apply (more_switch (RPtr i v) s tag Q).
  - apply more_refl.
Qed.

Lemma more_each (f : rvalue -> hslice -> go (hslice * option err)) g wrap vs :
  Forall (fun v => forall s, more (f v s) (g (value_now m0 v) s)) vs ->
  forall j s, more (g_each f wrap j vs s) (g_each g wrap j (map (value_now m0) vs) s).
Proof.
  induction 1 as [|v vs Hv _ IH]; intros j s; cbn [g_each map]; [apply more_refl|].
  apply more_bind; [apply Hv|]. intros [p [e|]]; [apply more_refl|apply IH].
Qed.

Definition expr_goal v := value_refs open_ v -> forall s tag, more (q_append_expr v s tag) (g_append_expr (value_now m0 v) s tag).
Definition fun_goal f := fun_refs open_ f -> forall s tag, more (q_run_fun f s tag) (g_run_fun (fun_now m0 f) s tag).

Lemma more_exprs vs : Forall expr_goal vs -> Forall (value_refs open_) vs -> forall tag wrap j s,
  more (g_each (fun v p => q_append_expr v p tag) wrap j vs s) (g_each (fun v p => g_append_expr v p tag) wrap j (map (value_now m0) vs) s).
Proof.
  intros F V tag wrap j s. apply more_each. rewrite Forall_forall in *. intros v Hv s'. apply F; auto.
Qed.

Lemma more_values : (forall v, expr_goal v) /\ (forall f, fun_goal f).
Proof.
  assert (HV : forall v, expr_goal (RVal v)) by (intros v _ s tag; apply more_refl).
  assert (HR : forall k t, expr_goal (RRef k t)).
  { intros k t T s tag. destruct k; cbn [q_append_expr value_now octets_now octets_type];
      unfold g_append_expr, g_expr_method, g_append_expr_bytes; apply more_okm, more_expr; assumption. }
  assert (HP : forall i v, expr_goal v -> expr_goal (RPtr i v)).
  { intros i v _ T s tag. destruct v as [v|k t|i' v|f]; cbn [value_refs] in T; [destruct i; apply more_refl| |destruct i; apply more_refl|destruct i; apply more_refl].
    destruct i; [apply more_refl|]; destruct k; [apply more_refl|..]; cbn [q_append_expr value_now octets_now octets_type];
      unfold g_append_expr, g_expr_method, g_append_expr_bytes; apply more_okm, more_expr; assumption. }
  assert (HF : forall f, fun_goal f -> expr_goal (RFunc f)) by (intros f Hf; exact Hf).
  assert (HE : forall f, fun_goal (RFun f)) by (intros f _ s tag; apply more_refl).
  assert (HO : forall name ps, Forall expr_goal ps -> fun_goal (ROperator name ps)).
  { intros name ps F Q s tag. cbn [fun_refs] in Q. cbn [q_run_fun fun_now g_run_fun]. cbv zeta. apply more_bind.
    - apply more_exprs; [exact F|apply all_Forall; exact Q].
    - intros; apply more_refl. }
  assert (HC : forall name ps, Forall expr_goal ps -> fun_goal (RCall name ps)).
  { intros name ps F Q s tag. cbn [fun_refs] in Q. cbn [q_run_fun fun_now g_run_fun]. cbv zeta. apply more_bind.
    - apply more_exprs; [exact F|apply all_Forall; exact Q].
    - intros; apply more_refl. }
  split; [exact (MemArgProofs.rvalue_deep _ _ HV HR HP HF HE HO HC)|exact (MemArgProofs.rfun_deep _ _ HV HR HP HF HE HO HC)].
Qed.

(* ------------------------------------------------------------ messages *)

Lemma more_args tag args s : Forall (value_refs open_) args -> more (q_append_args tag args s) (g_append_args tag (map (value_now m0) args) s).
Proof.
  intros V. apply more_each. rewrite Forall_forall in *. intros v Hv s'. apply more_append_any; auto.
Qed.

Lemma more_stmt_execute s stmt args : Forall (value_refs open_) args -> more (q_stmt_execute s stmt args) (g_stmt_execute s stmt (map (value_now m0) args)).
Proof.
  intros V. unfold q_stmt_execute, g_stmt_execute. cbv zeta. do 3 (apply more_same; intro). apply more_bind; [apply more_args; exact V|intros; apply more_refl].
Qed.

Lemma more_execute s id args : Forall (value_refs open_) args -> more (q_msg_execute s id args) (g_msg_execute s id (map (value_now m0) args)).
Proof.
  intros V. unfold q_msg_execute, g_msg_execute. cbv zeta. do 2 (apply more_same; intro). apply more_bind; [apply more_args; exact V|intros; apply more_refl].
Qed.

Lemma more_criteria f s tag : opt (fun_refs open_) f ->
  more (q_criteria f s tag) (match option_map (fun_now m0) f with None => Return (s, None) | Some f => g_run_fun f s tag end).
Proof. destruct f as [f|]; cbn [opt option_map q_criteria]; intros Q; [apply more_values; exact Q|apply more_refl]. Qed.

Lemma more_delete s name f : opt (fun_refs open_) f -> more (q_msg_delete s name f) (g_msg_delete s name (option_map (fun_now m0) f)).
Proof.
  intros Q. unfold q_msg_delete, g_msg_delete. cbv zeta. repeat first [apply more_bind; [apply more_criteria; exact Q|intros; apply more_refl]|mstep].
Qed.

Lemma more_update s name f : opt (fun_refs open_) f -> more (q_msg_update s name f) (g_msg_update s name (option_map (fun_now m0) f)).
Proof.
  intros Q. unfold q_msg_update, g_msg_update. cbv zeta. repeat first [apply more_criteria; exact Q|mstep].
Qed.

Lemma more_insert_row s row : Forall (value_refs open_) row -> more (q_append_insert_row s row) (g_append_insert_row s (map (value_now m0) row)).
Proof.
  intros V. unfold q_append_insert_row, g_append_insert_row. cbv zeta. apply more_same. intro p. apply more_bind; [|intros; apply more_refl].
  apply more_exprs; [apply Forall_forall; intros; apply more_values|exact V].
Qed.

Lemma more_update_set s name v : value_refs open_ v -> more (q_append_update_set s name v) (g_append_update_set s name (value_now m0 v)).
Proof.
  intros V. unfold q_append_update_set, g_append_update_set. cbv zeta. apply more_bind; [apply more_values; exact V|intros; apply more_refl].
Qed.

Lemma more_insert_rows ncols rows : Forall (Forall (value_refs open_)) rows -> forall i s,
  more (q_insert_rows ncols i rows s) (g_insert_rows ncols i (map (map (value_now m0)) rows) s).
Proof.
  induction 1 as [|row rows V _ IH]; intros i s; cbn [q_insert_rows g_insert_rows map]; [apply more_refl|].
  rewrite map_length. destruct (_ =? _); [|apply more_refl].
  apply more_bind; [apply more_insert_row; exact V|]. intros [p [e|]]; [apply more_refl|apply IH].
Qed.

Lemma more_do_insert name columns rows s : Forall (Forall (value_refs open_)) rows ->
  more (q_do_insert name columns rows s) (g_do_insert name columns (map (map (value_now m0)) rows) s).
Proof.
  intros V. unfold q_do_insert, g_do_insert. cbv zeta. apply more_same. intro p. apply more_bind; [apply more_insert_rows; exact V|intros; apply more_refl].
Qed.

Lemma more_update_sets set : Forall (fun kv : bytes * rvalue => value_refs open_ (snd kv)) set -> forall s,
  more (q_update_sets set s) (g_update_sets (map (fun kv => (fst kv, value_now m0 (snd kv))) set) s).
Proof.
  induction 1 as [|[k v] set V _ IH]; intros s; cbn [q_update_sets g_update_sets map fst snd]; [apply more_refl|].
  apply more_bind; [apply more_update_set; exact V|]. intros [p [e|]]; [apply more_refl|apply IH].
Qed.

Lemma more_do_update name f set s : opt (fun_refs open_) f -> Forall (fun kv : bytes * rvalue => value_refs open_ (snd kv)) set ->
  more (q_do_update name f set s) (g_do_update name (option_map (fun_now m0) f) (map (fun kv => (fst kv, value_now m0 (snd kv))) set) s).
Proof.
  intros Q V. unfold q_do_update, g_do_update. cbv zeta. apply more_bind; [apply more_update; exact Q|]. intros [p [e|]]; [apply more_refl|].
  apply more_bind; [apply more_update_sets; exact V|intros; apply more_refl].
Qed.

Lemma more_iops dis ops : Forall (iop_refs open_) ops -> forall s e, more (q_run_iops dis ops s e) (g_run_iops dis (map (iop_now m0) ops) s e).
Proof.
  induction 1 as [|[row|lvl] ops V _ IH]; intros s e; cbn [q_run_iops g_run_iops map iop_now]; [apply more_refl| |].
  - destruct e as [e|]; [apply IH|]. apply more_bind; [apply more_insert_row; exact V|]. intros [p e]. apply IH.
  - apply more_same. intros _. apply IH.
Qed.

Lemma more_uops dis ops : Forall (uop_refs open_) ops -> forall s e, more (q_run_uops dis ops s e) (g_run_uops dis (map (uop_now m0) ops) s e).
Proof.
  induction 1 as [|[k v|lvl] ops V _ IH]; intros s e; cbn [q_run_uops g_run_uops map uop_now]; [apply more_refl| |].
  - destruct e as [e|]; [apply IH|]. apply more_bind; [apply more_update_set; exact V|]. intros [p e]. apply IH.
  - apply more_same. intros _. apply IH.
Qed.

Lemma more_do_insert_f dis name columns ops s : Forall (iop_refs open_) ops ->
  more (q_do_insert_f dis name columns ops s) (g_do_insert_f dis name columns (map (iop_now m0) ops) s).
Proof.
  intros V. unfold q_do_insert_f, g_do_insert_f. cbv zeta. apply more_same. intro p. apply more_bind; [apply more_iops; exact V|intros; apply more_refl].
Qed.

Lemma more_do_update_f dis name f ops s : opt (fun_refs open_) f -> Forall (uop_refs open_) ops ->
  more (q_do_update_f dis name f ops s) (g_do_update_f dis name (option_map (fun_now m0) f) (map (uop_now m0) ops) s).
Proof.
  intros Q V. unfold q_do_update_f, g_do_update_f. cbv zeta. apply more_bind; [apply more_update; exact Q|]. intros [p e].
  apply more_bind; [apply more_uops; exact V|intros; apply more_refl].
Qed.

(* ------------------------------------------------------------ programs *)

Lemma more_guarded b f g : (forall s, more (f s) (g s)) -> more (g_guarded b f) (g_guarded b g).
Proof.
  intros M. unfold g_guarded. destruct (hdisabled b); [apply more_refl|]. destruct (hberr b); [apply more_refl|].
  apply more_bind; [apply M|intros; apply more_refl].
Qed.

Lemma more_exec_call dis c b : call_refs open_ c -> more (q_exec_call dis c b) (g_exec_call dis (call_now m0 c) b).
Proof.
  intros Q. destruct c; cbn [call_refs call_now] in *; [| | | | | | |apply more_refl]; unfold q_exec_call, g_exec_call; apply more_guarded; intros s.
  - apply more_stmt_execute, Q.
  - apply more_execute, Q.
  - apply more_do_insert, Q.
  - apply more_do_insert_f, Q.
  - apply more_do_update; apply Q.
  - apply more_do_update_f; apply Q.
  - apply more_delete, Q.
Qed.

Lemma more_b_insert_row name columns row b : Forall (value_refs open_) row ->
  more (q_b_insert_row name columns row b) (g_b_insert_row name columns (map (value_now m0) row) b).
Proof.
  intros V. unfold q_b_insert_row, g_b_insert_row. destruct (hdisabled b); [apply more_refl|]. destruct (hberr b); [apply more_refl|].
  cbv zeta. apply more_same. intro p. apply more_bind; [apply more_insert_row; exact V|intros; apply more_refl].
Qed.

Lemma more_run pr : prog_refs open_ pr -> forall st, more (q_run pr st) (g_run (prog_now m0 pr) st).
Proof.
  induction pr as [e out|lvl c next IH|lvl name columns row next IH|lvl k body IHb next IH];
    cbn [prog_refs prog_now]; intros Q st; cbn [q_run g_run]; [apply more_refl| | |];
    destruct Q as [Q1 Q2]; (destruct (nth_error st lvl) as [b|]; [|apply more_refl]).
  - apply more_bind; [apply more_exec_call; exact Q1|]. intros b'. apply IH; exact Q2.
  - apply more_bind; [apply more_b_insert_row; exact Q1|]. intros [b' f]. apply IH, Q2.
  - apply more_same. intros [b1 []]; [|apply IH, Q2]. cbv zeta. apply more_bind; [apply IHb; exact Q1|].
    intros [[|child st2] out]; [apply more_refl|]. apply more_same. intros b2. apply IH, Q2.
Qed.

Lemma more_act b a : act_refs open_ a -> more (q_act b a) (g_act b (act_now m0 a)).
Proof.
  destruct a as [a|pr]; cbn [act_refs act_now q_act]; intros Q; [apply more_refl|].
  unfold g_act. destruct b as [b|]; [|apply more_refl]. cbv zeta. apply more_bind; [|intros; apply more_refl].
  apply more_try, more_bind; [apply more_run; exact Q|intros; apply more_refl].
Qed.

Lemma more_life acts : Forall (act_refs open_) acts -> forall b, more (q_life b acts) (g_life b (map (act_now m0) acts)).
Proof.
  induction 1 as [|a acts Q _ IH]; intros b; cbn [q_life g_life map]; [apply more_refl|].
  apply more_bind; [apply more_act; exact Q|]. intros [b' s]. apply more_bind; [apply IH|intros; apply more_refl].
Qed.

End Calls.
End Args.

(* An element of one of the slices that satisfy Q. *)
Definition element_of (Q : hslice -> Prop) (a x : nat) : Prop := exists t, Q t /\ arr t = a /\ off t <= x < off t + hlen t.

Lemma act_weaken (Q Q' : hslice -> Prop) : (forall t, Q t -> Q' t) -> forall a, act_refs Q a -> act_refs Q' a.
Proof. intros W [a|pr]; cbn [act_refs]; [auto|]. apply MemArgProofs.prog_weaken. exact W. Qed.

Lemma inv_starts_with `{E : Env} m acts (Q : nat -> hslice -> Prop) :
  (forall i, Forall (act_refs (fun t => valid m t /\ Q i t)) (acts i)) ->
  inv m (fun i => element_of (Q i)) (fun i _ o => o = Some (alone None (map (act_now m) (acts i)))) [] (starts_with m acts).
Proof.
  intros V. exists (fun _ _ => None). split; [|split; [|split; [|split; [|split]]]]; try discriminate; try contradiction; auto.
  intros i. exists (g_life None (map (act_now m) (acts i))). split.
  - cbn [starts_with doing]. apply more_life. eapply Forall_impl; [|exact (V i)]. apply act_weaken.
    intros t [W Ht]. split; [exact W|]. intros x Hx. exists t. auto.
  - apply life_safe. exact I.
Qed.

