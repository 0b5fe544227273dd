(* Calls with encoders that have state run each of them once, and do what they would with the encoders of those moments. *)
From Coq Require Import String List NArith ZArith Arith Bool Lia.
From Coq Require Import List.
From Verif Require Import Base GoSlice Varint Values AnyModel ExprModel MsgModel Builder Stateful SpecOnce.
Import ListNotations.
Open Scope list_scope.

Section World.
Variable W : Type.
Variable d : W.
Context `{E : Env}.
Notation sfun := (sfun W). Notation svalue := (svalue W). Notation sexpr := (sexpr W).
Notation M := (M W). Notation chain := (chain W). Notation supply := (supply W).
Notation frz := (frz W d). Notation frz_fun := (frz_fun W d).

Lemma chain_app : forall l w w1 l' w2, chain w l w1 -> chain w1 l' w2 -> chain w (l ++ l') w2.
Proof. intros l w w1 l' w2 H H'. induction H as [|f w p tag l w1 H IH]; [exact H'|]. cbn [app]. eapply Chain_call. apply IH. exact H'. Qed.

Definition sim {A X} (good : A -> Prop) (m : M A) (enc : list sfun) (fz : supply X) (pure : X -> res A) : Prop := forall w r w' l, m w = (r, w', l) ->
  chain w l w' /\
  (exists rest, enc = map fst l ++ rest /\ (forall a, r = Ok a -> good a -> rest = [])) /\
  forall more, pure (fst (fz (map snd l ++ more))) = r /\ (forall a, r = Ok a -> good a -> snd (fz (map snd l ++ more)) = more).

Definition fine (a : slice * option err) : Prop := snd a = None.

Lemma sim_eq : forall A X (good : A -> Prop) m m' enc (fz : supply X) pure pure', sim good m enc fz pure -> (forall w, m' w = m w) -> (forall x, pure' x = pure x) -> sim good m' enc fz pure'.
Proof. intros A X good m m' enc fz pure pure' H Em Ep w r w' l Hm. rewrite Em in Hm. destruct (H _ _ _ _ Hm) as (C & P & F). split; [exact C|]. split; [exact P|]. intros more. rewrite Ep. apply F. Qed.

Lemma sim_map : forall A B X Y (good : B -> Prop) m enc (f : A -> supply X) (g : X -> Y) (x : A) (pure : Y -> res B), sim good m enc (f x) (fun y => pure (g y)) -> sim good m enc (frz_map W f g x) pure.
Proof. intros A B X Y good m enc f g x pure H w r w' l Hm. destruct (H _ _ _ _ Hm) as (C & P & F). split; [exact C|]. split; [exact P|]. intros more. exact (F more). Qed.

(* no encoder in it *)
Lemma sim_lift : forall A (good : A -> Prop) r0, sim good (lift W r0) [] (fun ws => (tt, ws)) (fun _ => r0).
Proof. intros A good r0 w r w' l H. injection H as <- <- <-. split; [constructor|]. split; [exists []; auto|]. auto. Qed.

(* it fails before any encoder *)
Lemma sim_fails : forall A X (good : A -> Prop) m enc (fz : supply X) pure r0, (forall w, m w = (r0, w, [])) -> (forall ws, pure (fst (fz ws)) = r0) -> (forall a, r0 = Ok a -> ~ good a) -> sim good m enc fz pure.
Proof.
  intros A X good m enc fz pure r0 Hm Hp Hg w r w' l H. rewrite Hm in H. injection H as <- <- <-. split; [constructor|]. split.
  - exists enc. split; [reflexivity|]. intros a Ha G. elim (Hg a Ha G).
  - intros more. split; [apply Hp|]. intros a Ha G. elim (Hg a Ha G).
Qed.

Lemma sim_pre : forall A B X (good : B -> Prop) (r0 : res A) (f : A -> M B) enc (fz : supply X) (pure : A -> X -> res B),
  (forall a, sim good (f a) enc fz (pure a)) -> sim good (mbind W (lift W r0) f) enc fz (fun x => bind r0 (fun a => pure a x)).
Proof.
  intros A B X good [a|] f enc fz pure H.
  - apply (sim_eq _ _ _ (f a) _ _ _ (pure a)); [apply H| |reflexivity]. intros w. unfold mbind, lift. cbn. destruct (f a w) as [[r w'] l]. reflexivity.
  - eapply sim_fails; [reflexivity|reflexivity|discriminate].
Qed.

Lemma sim_post : forall A B X (good : A -> Prop) (good' : B -> Prop) m (h : A -> res B) (f : A -> M B) enc (fz : supply X) pure,
  sim good m enc fz pure -> (forall a w, f a w = (h a, w, [])) -> (forall a b, h a = Ok b -> good' b -> good a) ->
  sim good' (mbind W m f) enc fz (fun x => bind (pure x) h).
Proof.
  intros A B X good good' m h f enc fz pure H Hf Hg w r w' l Hm. unfold mbind in Hm. destruct (m w) as [[r0 w0] l0] eqn:Hw. destruct (H _ _ _ _ Hw) as (C & (rest & P1 & P2) & F).
  destruct r0 as [a|].
  - rewrite Hf, app_nil_r in Hm. injection Hm as <- <- <-. split; [exact C|]. split.
    + exists rest. split; [exact P1|]. intros b Hb G. exact (P2 a eq_refl (Hg a b Hb G)).
    + intros more. destruct (F more) as [F1 F2]. rewrite F1. split; [reflexivity|]. intros b Hb G. exact (F2 a eq_refl (Hg a b Hb G)).
  - injection Hm as <- <- <-. split; [exact C|]. split; [exists rest; split; [exact P1|discriminate]|]. intros more. rewrite (proj1 (F more)). split; [reflexivity|discriminate].
Qed.

Definition frz_both {X Y} (f : supply X) (g : supply Y) : supply (X * Y) := fun ws => let x := f ws in let y := g (snd x) in ((fst x, fst y), snd y).

Lemma sim_seq : forall B X Y (good : B -> Prop) (m : M (slice * option err)) (f : slice * option err -> M B) enc1 enc2 (fz1 : supply X) (fz2 : supply Y) pure1 (pure2 : slice * option err -> Y -> res B),
  sim fine m enc1 fz1 pure1 ->
  (forall p, sim good (f (p, None)) enc2 fz2 (pure2 (p, None))) ->
  (forall p e, exists r0, (forall w, f (p, Some e) w = (r0, w, [])) /\ (forall ws, pure2 (p, Some e) (fst (fz2 ws)) = r0) /\ (forall b, r0 = Ok b -> ~ good b)) ->
  sim good (mbind W m f) (enc1 ++ enc2) (frz_both fz1 fz2) (fun xy => bind (pure1 (fst xy)) (fun a => pure2 a (snd xy))).
Proof.
  intros B X Y good m f enc1 enc2 fz1 fz2 pure1 pure2 H1 H2 H3 w r w' l Hm. unfold mbind in Hm. destruct (m w) as [[r0 w0] l0] eqn:Hw.
  destruct (H1 _ _ _ _ Hw) as (C & (rest & P1 & P2) & F). destruct r0 as [[p [e|]]|].
  - destruct (H3 p e) as (r1 & K1 & K2 & K3). rewrite K1, app_nil_r in Hm. injection Hm as <- <- <-. split; [exact C|]. split.
    + exists (rest ++ enc2). rewrite P1, app_assoc. split; [reflexivity|]. intros b Hb G. elim (K3 b Hb G).
    + intros more. unfold frz_both. cbn [fst snd]. rewrite (proj1 (F more)). cbn [bind]. split; [apply K2|]. intros b Hb G. elim (K3 b Hb G).
  - destruct (f (p, None) w0) as [[r1 w1] l1] eqn:Hf. injection Hm as <- <- <-. destruct (H2 p _ _ _ _ Hf) as (C' & (rest' & P1' & P2') & F').
    specialize (P2 _ eq_refl eq_refl). subst rest. rewrite app_nil_r in P1. split; [exact (chain_app _ _ _ _ _ C C')|]. split.
    + exists rest'. rewrite P1, P1', map_app, app_assoc. split; [reflexivity|exact P2'].
    + intros more. rewrite map_app, <- app_assoc. unfold frz_both. cbn [fst snd]. destruct (F (map snd l1 ++ more)) as [F1 F2]. rewrite F1, (F2 _ eq_refl eq_refl). exact (F' more).
  - injection Hm as <- <- <-. split; [exact C|]. split; [exists (rest ++ enc2); rewrite P1, app_assoc; split; [reflexivity|discriminate]|].
    intros more. unfold frz_both. cbn [fst snd]. rewrite (proj1 (F more)). split; [reflexivity|discriminate].
Qed.

(* loops *)
Lemma sim_each : forall A B (f : A -> slice -> M (slice * option err)) (g : B -> slice -> res (slice * option err)) (enc : A -> list sfun) (fz : A -> supply B) wrap xs,
  (forall x, In x xs -> forall p, sim fine (f x p) (enc x) (fz x) (fun y => g y p)) ->
  forall j p, sim fine (s_each W f wrap j xs p) (flat_map enc xs) (frz_list W fz xs) (fun ys => each g wrap j ys p).
Proof.
  intros A B f g enc fz wrap xs H. induction xs as [|x xs IH]; intros j p.
  - intros w r w' l Hm. injection Hm as <- <- <-. split; [constructor|]. split; [exists []; auto|]. auto.
  - cbn [flat_map]. pose proof (sim_seq _ _ _ fine (f x p) (fun a : slice * option err => let (q, e) := a in match e with Some e => mret W (q, Some (wrap j e)) | None => s_each W f wrap (S j) xs q end)
      (enc x) (flat_map enc xs) (fz x) (frz_list W fz xs) (fun y => g y p) (fun a ys => match snd a with Some e => Ok (fst a, Some (wrap j e)) | None => each g wrap (S j) ys (fst a) end)) as K.
    specialize (K (H x (or_introl eq_refl) p)). specialize (K (fun q => IH (fun y Hy => H y (or_intror Hy)) (S j) q)).
    assert (K3 : forall (p : slice) (e : err), exists r0 : res (slice * option err), (forall w, mret W (p, Some (wrap j e)) w = (r0, w, [])) /\ (forall ws : list W, Ok (p, Some (wrap j e)) = r0) /\ (forall b, r0 = Ok b -> ~ fine b)).
    { intros q e. eexists. split; [reflexivity|]. split; [reflexivity|]. intros b Hb G. injection Hb as <-. discriminate. }
    specialize (K K3). intros w r w' l Hm. destruct (K w r w' l Hm) as (C & P & F). split; [exact C|]. split; [exact P|]. intros more. specialize (F more). unfold frz_both in F. cbn [fst snd] in F.
    cbn [frz_list fst snd each]. destruct F as [F1 F2]. split; [|exact F2]. rewrite <- F1. destruct (g _ p) as [[q [e|]]|]; reflexivity.
Qed.

(* user code *)
Lemma sim_user : forall f p tag X (fz : supply X) pure, (forall w more, pure (fst (fz (w :: more))) = fst (f w p tag)) -> (forall w more, snd (fz (w :: more)) = more) ->
  sim fine (call_user W f p tag) [f] fz pure.
Proof.
  intros f p tag X fz pure H1 H2 w r w' l Hm. unfold call_user in Hm. destruct (f w p tag) as [r0 w0] eqn:Hf. injection Hm as <- <- <-. split.
  - apply Chain_call with (p := p) (tag := tag). rewrite Hf. constructor.
  - split; [exists []; auto|]. intros more. cbn [map fst snd app]. rewrite H1, H2, Hf. auto.
Qed.

Lemma any_method_frz : forall v ws, any_method (fst (frz v ws)) = match v with SVal _ v => any_method v | SUser _ a _ => option_map (as_in W (hd d ws)) a | _ => None end.
Proof. intros [v|i v|a e|f] ws; reflexivity. Qed.
Lemma expr_method_frz : forall v ws, expr_method (fst (frz v ws)) = match v with SVal _ v => expr_method v | SUser _ _ e => option_map (as_in W (hd d ws)) e | _ => None end.
Proof. intros [v|i v|a e|f] ws; reflexivity. Qed.

Lemma unsupported_fails : forall X q (fz : supply X) enc pure m, (forall w, m w = (Ok (q, Some EUnsupported), w, [])) -> (forall ws, pure (fst (fz ws)) = Ok (q, Some EUnsupported)) -> sim fine m enc fz pure.
Proof. intros X q fz enc pure m Hm Hp. eapply sim_fails; [exact Hm|exact Hp|]. intros a Ha G. injection Ha as <-. discriminate. Qed.
Lemma sim_lift_as : forall A X (good : A -> Prop) r0 (fz : supply X) pure, (forall ws, pure (fst (fz ws)) = r0 /\ snd (fz ws) = ws) -> sim good (lift W r0) [] fz pure.
Proof. intros A X good r0 fz pure H w r w' l Hm. injection Hm as <- <- <-. split; [constructor|]. split; [exists []; auto|]. intros more. destruct (H more) as [H1 H2]. auto. Qed.

Lemma sim_user_any : forall a e p tag, sim fine (match option_map (call_user W) a with Some m => m p tag | None => mret W (nil_slice, Some EUnsupported) end) (encoder W a) (frz (SUser W a e)) (fun y => type_switch y p tag).
Proof.
  intros [f|] e p tag; cbn [option_map encoder].
  - apply sim_user; reflexivity.
  - eapply unsupported_fails; reflexivity.
Qed.

Lemma sim_switch : forall v p tag, sim fine (s_type_switch W v p tag) (encoders W true v) (frz v) (fun y => type_switch y p tag).
Proof.
  induction v as [v|i v IH|a e|f]; intros p tag.
  - apply sim_lift_as. auto.
  - cbn [s_type_switch encoders]. destruct i.
    + intros w r w' l Hm. destruct (IH p tag w r w' l Hm) as (C & P & F). split; [exact C|]. split; [exact P|]. intros more. exact (F more).
    + destruct v as [v|i v|a e|f]; cbn [s_any_method].
      * destruct (any_method v) as [m|] eqn:Hm; cbn [option_map encoders].
        { apply sim_lift_as. intros ws. cbn [SpecOnce.frz fst snd type_switch]. rewrite Hm. auto. }
        { apply sim_lift_as. intros ws. cbn [SpecOnce.frz fst snd type_switch]. rewrite Hm. auto. }
      * intros w r w' l Hm. destruct (IH p tag w r w' l Hm) as (C & P & F). split; [exact C|]. split; [exact P|]. intros more. exact (F more).
      * destruct a as [f|]; cbn [option_map encoders encoder].
        { apply sim_user; reflexivity. }
        { eapply unsupported_fails; reflexivity. }
      * eapply unsupported_fails; reflexivity.
  - apply sim_user_any.
  - eapply unsupported_fails; reflexivity.
Qed.

Lemma sim_any : forall v p tag, sim fine (s_append_any W v p tag) (encoders W true v) (frz v) (fun y => append_any y p tag).
Proof.
  intros v p tag. destruct v as [v|i v|a e|f].
  - apply sim_lift_as. auto.
  - exact (sim_switch (SPtr W i v) p tag).
  - exact (sim_switch (SUser W a e) p tag).
  - exact (sim_switch (SFunc W f) p tag).
Qed.

Section Induction.
Variables (P : svalue -> Prop) (Q : sexpr -> Prop).
Hypothesis HV : forall v, P (SVal W v).
Hypothesis HP : forall i v, P v -> P (SPtr W i v).
Hypothesis HU : forall a e, P (SUser W a e).
Hypothesis HF : forall f, Q f -> P (SFunc W f).
Hypothesis HE : forall f, Q (SFun W f).
Hypothesis HO : forall n l, Forall P l -> Q (SOperator W n l).
Hypothesis HC : forall n l, Forall P l -> Q (SCall W n l).
Hypothesis HUF : forall f, Q (SUserFn W f).
Fixpoint sv_ind (v : svalue) : P v :=
  match v with
  | SVal _ v => HV v
  | SPtr _ i v => HP i v (sv_ind v)
  | SUser _ a e => HU a e
  | SFunc _ f => HF f (sf_ind f)
  end
with sf_ind (f : sexpr) : Q f :=
  match f with
  | SFun _ f => HE f
  | SOperator _ n l => HO n l ((fix go l : Forall P l := match l with [] => Forall_nil P | v :: l => Forall_cons v (sv_ind v) (go l) end) l)
  | SCall _ n l => HC n l ((fix go l : Forall P l := match l with [] => Forall_nil P | v :: l => Forall_cons v (sv_ind v) (go l) end) l)
  | SUserFn _ f => HUF f
  end.
Lemma both_ind : (forall v, P v) /\ (forall f, Q f).
Proof. split; [exact sv_ind|exact sf_ind]. Qed.
End Induction.

Lemma sim_finish : forall X (m : M (slice * option err)) enc (fz : supply X) pure (f : slice -> res slice), sim fine m enc fz pure ->
  sim fine (mbind W m (fun a : slice * option err => let (q, e) := a in match e with Some e => mret W (q, Some e) | None => mokm W (f q) end)) enc fz
    (fun x => bind (pure x) (fun a : slice * option err => let (q, e) := a in match e with Some e => Ok (q, Some e) | None => okm (f q) end)).
Proof.
  intros X m enc fz pure f H. eapply (sim_post _ _ _ fine fine m (fun a : slice * option err => let (q, e) := a in match e with Some e => Ok (q, Some e) | None => okm (f q) end)); [exact H| |].
  - intros [q [e|]] w; reflexivity.
  - intros [q [e|]] b Hb G; [injection Hb as <-; discriminate|reflexivity].
Qed.

Lemma sim_exprs : (forall v p tag, sim fine (s_append_expr W v p tag) (encoders W false v) (frz v) (fun y => append_expr y p tag)) /\
  (forall f p tag, sim fine (s_run_fun W f p tag) (fun_encoders W f) (frz_fun f) (fun y => run_fun y p tag)).
Proof.
  apply both_ind.
  - intros v p tag. apply sim_lift_as. auto.
  - intros i v IH p tag. cbn [s_append_expr encoders]. destruct i.
    + eapply unsupported_fails; reflexivity.
    + destruct v as [v|i v|a e|f]; cbn [s_expr_method].
      * destruct (expr_method v) as [m|] eqn:Hm; cbn [option_map encoders].
        { apply sim_lift_as. intros ws. cbn [SpecOnce.frz fst snd append_expr]. rewrite Hm. auto. }
        { eapply unsupported_fails; [reflexivity|]. intros ws. cbn [SpecOnce.frz fst snd append_expr]. rewrite Hm. reflexivity. }
      * eapply unsupported_fails; reflexivity.
      * destruct e as [f|]; cbn [option_map encoders encoder].
        { apply sim_user; reflexivity. }
        { eapply unsupported_fails; reflexivity. }
      * eapply unsupported_fails; reflexivity.
  - intros a [f|] p tag; cbn [s_append_expr encoders encoder].
    + apply sim_user; reflexivity.
    + eapply unsupported_fails; reflexivity.
  - intros f IH p tag w r w' l Hm. destruct (IH p tag w r w' l Hm) as (C & P & F). split; [exact C|]. split; [exact P|]. intros more. exact (F more).
  - intros f p tag. apply sim_lift_as. auto.
  - intros n l IH p tag. cbn [s_run_fun fun_encoders]. rewrite Forall_forall in IH.
    pose proof (sim_finish _ _ _ _ _ (fun q => operator_header q (len p) tag n) (sim_each _ _ (fun v p => s_append_expr W v p tagOperatorParam) (fun v p => append_expr v p tagOperatorParam) (encoders W false) frz EParam l (fun x Hx q => IH x Hx q _) 0 p)) as K.
    intros w r w' lg Hm. destruct (K w r w' lg Hm) as (C & P & F). split; [exact C|]. split; [exact P|]. intros more. exact (F more).
  - intros n l IH p tag. cbn [s_run_fun fun_encoders]. rewrite Forall_forall in IH.
    pose proof (sim_finish _ _ _ _ _ (fun q => call_header q (len p) tag n) (sim_each _ _ (fun v p => s_append_expr W v p tagFunctionCallParam) (fun v p => append_expr v p tagFunctionCallParam) (encoders W false) frz EParam l (fun x Hx q => IH x Hx q _) 0 p)) as K.
    intros w r w' lg Hm. destruct (K w r w' lg Hm) as (C & P & F). split; [exact C|]. split; [exact P|]. intros more. exact (F more).
  - intros f p tag. apply sim_user; reflexivity.
Qed.

Lemma sim_expr : forall v p tag, sim fine (s_append_expr W v p tag) (encoders W false v) (frz v) (fun y => append_expr y p tag).
Proof. exact (proj1 sim_exprs). Qed.
Lemma sim_fun : forall f p tag, sim fine (s_run_fun W f p tag) (fun_encoders W f) (frz_fun f) (fun y => run_fun y p tag).
Proof. exact (proj2 sim_exprs). Qed.

Lemma sim_args : forall tag args p, sim fine (s_append_args W tag args p) (flat_map (encoders W true) args) (frz_row W d args) (fun ys => append_args tag ys p).
Proof. intros tag args p. exact (sim_each _ _ (fun v p => s_append_any W v p tag) (fun v p => append_any v p tag) (encoders W true) frz (fun _ e => e) args (fun x _ q => sim_any x q tag) 0 p). Qed.

Lemma sim_criteria : forall c p tag, sim fine (s_criteria W c p tag) (criteria_encoders W c) (frz_option W frz_fun c) (fun y => match y with None => Ok (p, None) | Some f => run_fun f p tag end).
Proof.
  intros [f|] p tag; cbn [s_criteria criteria_encoders].
  - intros w r w' l Hm. destruct (sim_fun f p tag w r w' l Hm) as (C & P & F). split; [exact C|]. split; [exact P|]. intros more. exact (F more).
  - apply (sim_lift_as _ _ fine (Ok (p, None))). auto.
Qed.

Lemma sim_stmt : forall p stmt args, sim fine (s_stmt_execute W p stmt args) (flat_map (encoders W true) args) (frz_row W d args) (fun ys => stmt_execute p stmt ys).
Proof.
  intros p stmt args. unfold s_stmt_execute, stmt_execute. cbv zeta. apply sim_pre with (pure := fun q ys => bind (append_args tagStmtExecuteArgs ys (append q stmt)) _). intros q. apply sim_finish. apply sim_args.
Qed.
Lemma sim_execute : forall p id args, sim fine (s_msg_execute W p id args) (flat_map (encoders W true) args) (frz_row W d args) (fun ys => msg_execute p id ys).
Proof.
  intros p id args. unfold s_msg_execute, msg_execute. cbv zeta. apply sim_pre with (pure := fun q ys => bind (append_args tagExecuteArgs ys q) _). intros q. apply sim_finish. apply sim_args.
Qed.
Lemma sim_keep : forall X (m : M (slice * option err)) enc (fz : supply X) pure (f : slice -> res slice), sim fine m enc fz pure ->
  sim fine (mbind W m (fun a : slice * option err => let (q, e) := a in mbind W (lift W (f q)) (fun q => mret W (q, e)))) enc fz
    (fun x => bind (pure x) (fun a : slice * option err => let (q, e) := a in bind (f q) (fun q => Ok (q, e)))).
Proof.
  intros X m enc fz pure f H. eapply (sim_post _ _ _ fine fine m (fun a : slice * option err => let (q, e) := a in bind (f q) (fun q => Ok (q, e)))); [exact H| |].
  - intros [q e] w. unfold mbind, lift, mret. destruct (f q); reflexivity.
  - intros [q e] b Hb G. destruct (f q); [|discriminate]. injection Hb as <-. exact G.
Qed.

Lemma sim_delete : forall p name c, sim fine (s_msg_delete W p name c) (criteria_encoders W c) (frz_option W frz_fun c) (fun y => msg_delete p name y).
Proof.
  intros p name c. unfold s_msg_delete, msg_delete. cbv zeta.
  eapply sim_pre. intros [q1 k1]. eapply sim_pre. intros q2. eapply sim_pre. intros q3. eapply sim_pre. intros q4. eapply sim_pre. intros [q5 k5]. eapply sim_pre. intros q6.
  apply (sim_keep _ _ _ _ _ (fun q => patch_length q (len p))). apply sim_criteria.
Qed.

Lemma sim_row : forall p row, sim fine (s_append_insert_row W p row) (row_encoders W row) (frz_row W d row) (fun ys => append_insert_row p ys).
Proof.
  intros p row. unfold s_append_insert_row, append_insert_row. cbv zeta.
  eapply (sim_post _ _ _ fine fine).
  - exact (sim_each _ _ (fun v p => s_append_expr W v p tagTypedRowField) (fun v p => append_expr v p tagTypedRowField) (encoders W false) frz EColumnErr row (fun x _ q => sim_expr x q _) 0 _).
  - intros [q [e|]] w; [reflexivity|]. unfold mbind, lift, mret. 
    destruct (if (_ =? 2)%nat then _ else _); [|reflexivity]. cbn [bind]. destruct (put_uvarint _ _ _) as [[? ?]|]; reflexivity.
  - intros [q [e|]] b Hb G; [injection Hb as <-; discriminate|reflexivity].
Qed.

Lemma sim_update : forall p name c, sim fine (s_msg_update W p name c) (criteria_encoders W c) (frz_option W frz_fun c) (fun y => msg_update p name y).
Proof.
  intros p name c. unfold s_msg_update.
  assert (K : forall y, msg_update p name y = bind (msg_update p name None) (fun a : slice * option err => match y with None => Ok (fst a, None) | Some f => run_fun f (fst a) tagUpdateCriteria end)).
  { intros y. unfold msg_update. cbv zeta. repeat (match goal with |- bind ?x _ = _ => destruct x as [?|] end; cbn [bind]; [|reflexivity]; try match goal with a : (_ * _)%type |- _ => destruct a end).
    reflexivity. }
  eapply sim_eq; [|reflexivity|exact K]. apply sim_pre with (pure := fun a y => match y with None => Ok (fst a, None) | Some f => run_fun f (fst a) tagUpdateCriteria end). intros [q e]. apply sim_criteria.
Qed.

Lemma sim_set : forall p name v, sim fine (s_append_update_set W p name v) (encoders W false v) (frz v) (fun y => append_update_set p name y).
Proof. intros p name v. unfold s_append_update_set, append_update_set. cbv zeta. apply sim_finish. apply sim_expr. Qed.

Lemma fine_fails : forall (p : slice) (e : err), exists r0 : res (slice * option err), (forall w, mret W (p, Some e) w = (r0, w, [])) /\ (forall ws : list W, Ok (p, Some e) = r0) /\ (forall b, r0 = Ok b -> ~ fine b).
Proof. intros p e. eexists. split; [reflexivity|]. split; [reflexivity|]. intros b Hb G. injection Hb as <-. discriminate. Qed.

(* a loop that ends at the first error, as a sequence of its first round and the others *)
Lemma sim_next : forall A B (x : A) (xs : list A) (fz : A -> supply B) (enc : A -> list sfun) (m : M (slice * option err)) (f : slice * option err -> M (slice * option err)) pure1 pure2 pure,
  sim fine m (enc x) (fz x) pure1 ->
  (forall p, sim fine (f (p, None)) (flat_map enc xs) (frz_list W fz xs) (pure2 (p, None))) ->
  (forall p e, exists r0, (forall w, f (p, Some e) w = (r0, w, [])) /\ (forall ws, pure2 (p, Some e) (fst (frz_list W fz xs ws)) = r0) /\ (forall b, r0 = Ok b -> ~ fine b)) ->
  (forall y ys, pure (y :: ys) = bind (pure1 y) (fun a => pure2 a ys)) ->
  sim fine (mbind W m f) (flat_map enc (x :: xs)) (frz_list W fz (x :: xs)) pure.
Proof.
  intros A B x xs fz enc m f pure1 pure2 pure H1 H2 H3 Hp w r w' l Hm. destruct (sim_seq _ _ _ fine m f _ _ _ _ pure1 pure2 H1 H2 H3 w r w' l Hm) as (C & P & F). split; [exact C|]. split; [exact P|].
  intros more. destruct (F more) as [F1 F2]. split; [|exact F2]. cbn [frz_list fst]. rewrite Hp. exact F1.
Qed.

Lemma sim_rows : forall n rows i p, sim fine (s_insert_rows W n i rows p) (flat_map (row_encoders W) rows) (frz_list W (frz_row W d) rows) (fun ys => insert_rows n i ys p).
Proof.
  intros n. induction rows as [|row rows IH]; intros i p.
  - apply (sim_lift_as _ _ fine (Ok (p, None))). auto.
  - cbn [s_insert_rows]. assert (L : forall ws, length (fst (frz_row W d row ws)) = length row).
    { unfold frz_row. clear. induction row as [|v row IH]; intros ws; [reflexivity|]. cbn [frz_list fst length]. rewrite IH. reflexivity. }
    destruct (length row =? n)%nat eqn:Hn.
    + intros w r w' l Hm. destruct (sim_seq _ _ _ fine _ _ _ _ _ _ _ (fun a ys => let (q, e) := a in match e with Some e => Ok (q, Some e) | None => insert_rows n (S i) ys q end) (sim_row p row) (IH (S i)) fine_fails w r w' l Hm) as (C & P & F).
      split; [exact C|]. split; [exact P|]. intros more. destruct (F more) as [F1 F2]. split; [|exact F2]. unfold frz_both in F1. cbn [fst snd] in F1. cbn [frz_list fst insert_rows]. rewrite L, Hn. exact F1.
    + eapply sim_fails; [reflexivity| |].
      * intros ws. cbn [frz_list fst insert_rows]. rewrite L, Hn. reflexivity.
      * intros a Ha G. injection Ha as <-. discriminate.
Qed.

Lemma sim_insert : forall name columns rows p, sim fine (s_do_insert W name columns rows p) (flat_map (row_encoders W) rows) (frz_list W (frz_row W d) rows) (fun ys => do_insert name columns ys p).
Proof. intros. unfold s_do_insert, do_insert. cbv zeta. eapply sim_pre. intros q. apply sim_finish. apply sim_rows. Qed.

Lemma sim_sets : forall set p, sim fine (s_update_sets W set p) (flat_map (fun kv => encoders W false (snd kv)) set) (frz_list W (frz_set W d) set) (fun ys => update_sets ys p).
Proof.
  induction set as [|[k v] set IH]; intros p.
  - apply (sim_lift_as _ _ fine (Ok (p, None))). auto.
  - cbn [s_update_sets]. refine (sim_next _ _ (k, v) set (frz_set W d) (fun kv => encoders W false (snd kv)) _ _ (fun y : bytes * gvalue => append_update_set p (fst y) (snd y)) (fun a ys => let (q, e) := a in match e with Some e => Ok (q, Some e) | None => update_sets ys q end) _ _ IH fine_fails _).
    + unfold frz_set. cbn [fst snd]. apply sim_map. cbn [fst snd]. apply sim_set.
    + intros [k' v'] ys. reflexivity.
Qed.

Lemma sim_do_update : forall name c set p, sim fine (s_do_update W name c set p) (criteria_encoders W c ++ flat_map (fun kv => encoders W false (snd kv)) set)
  (frz_both (frz_option W frz_fun c) (frz_list W (frz_set W d) set)) (fun y => do_update name (fst y) (snd y) p).
Proof.
  intros name c set p. unfold s_do_update, do_update. cbv zeta.
  refine (sim_seq _ _ _ fine _ _ _ _ _ _ (fun y => msg_update p name y) (fun a ys => let (q, e) := a in match e with Some e => Ok (q, Some e) | None => bind (update_sets ys q) (fun a : slice * option err => let (q, e) := a in match e with Some e => Ok (q, Some e) | None => okm (patch_length q (len p)) end) end) (sim_update p name c) _ _); [|exact fine_fails].
  intros q. apply sim_finish. apply sim_sets.
Qed.

(* a callback that goes on after an error runs no encoder any more *)
Lemma iops_stopped : forall dis ops p e, exists r0, (forall w, s_run_iops W dis ops p (Some e) w = (r0, w, [])) /\ (forall ws, run_iops dis (fst (frz_list W (frz_iop W d) ops ws)) p (Some e) = r0) /\ (forall b, r0 = Ok b -> ~ fine b).
Proof.
  intros dis ops p e. induction ops as [|[row|lvl] ops IH].
  - exists (Ok (p, Some e)). split; [reflexivity|]. split; [reflexivity|]. intros b Hb G. injection Hb as <-. discriminate.
  - destruct IH as (r0 & A & B & C). exists r0. split; [exact A|]. split; [|exact C]. intros ws. exact (B _).
  - destruct IH as (r0 & A & B & C). exists (bind (use_outer dis lvl) (fun _ => r0)). cbn [s_run_iops]. split; [|split].
    + intros w. unfold mbind, lift. destruct (use_outer dis lvl); [|reflexivity]. rewrite A. reflexivity.
    + intros ws. cbn [frz_list fst frz_iop run_iops snd]. destruct (use_outer dis lvl); [|reflexivity]. cbn [bind]. apply B.
    + intros b Hb. destruct (use_outer dis lvl); [|discriminate]. exact (C b Hb).
Qed.
Lemma uops_stopped : forall dis ops p e, exists r0, (forall w, s_run_uops W dis ops p (Some e) w = (r0, w, [])) /\ (forall ws, run_uops dis (fst (frz_list W (frz_uop W d) ops ws)) p (Some e) = r0) /\ (forall b, r0 = Ok b -> ~ fine b).
Proof.
  intros dis ops p e. induction ops as [|[name v|lvl] ops IH].
  - exists (Ok (p, Some e)). split; [reflexivity|]. split; [reflexivity|]. intros b Hb G. injection Hb as <-. discriminate.
  - destruct IH as (r0 & A & B & C). exists r0. split; [exact A|]. split; [|exact C]. intros ws. exact (B _).
  - destruct IH as (r0 & A & B & C). exists (bind (use_outer dis lvl) (fun _ => r0)). cbn [s_run_uops]. split; [|split].
    + intros w. unfold mbind, lift. destruct (use_outer dis lvl); [|reflexivity]. rewrite A. reflexivity.
    + intros ws. cbn [frz_list fst frz_uop run_uops snd]. destruct (use_outer dis lvl); [|reflexivity]. cbn [bind]. apply B.
    + intros b Hb. destruct (use_outer dis lvl); [|discriminate]. exact (C b Hb).
Qed.

Lemma sim_iops : forall dis ops p, sim fine (s_run_iops W dis ops p None) (flat_map (fun o => match o with SRow _ row => row_encoders W row | SIOuter _ _ => [] end) ops) (frz_list W (frz_iop W d) ops) (fun ys => run_iops dis ys p None).
Proof.
  intros dis. induction ops as [|[row|lvl] ops IH]; intros p.
  - apply (sim_lift_as _ _ fine (Ok (p, None))). auto.
  - intros w r w' l Hm. cbn [s_run_iops] in Hm.
    destruct (sim_seq _ _ _ fine (s_append_insert_row W p row) (fun a : slice * option err => let (q, e) := a in s_run_iops W dis ops q e) _ _ _ _ _ (fun a ys => let (q, e) := a in run_iops dis ys q e) (sim_row p row) IH (iops_stopped dis ops) w r w' l Hm) as (C & P & F).
    split; [exact C|]. split; [exact P|]. exact F.
  - cbn [s_run_iops flat_map app]. intros w r w' l Hm. unfold mbind, lift in Hm. destruct (use_outer dis lvl) eqn:U.
    + destruct (s_run_iops W dis ops p None w) as [[r0 w0] l0] eqn:Hr. injection Hm as <- <- <-. destruct (IH p _ _ _ _ Hr) as (C & P & F). split; [exact C|]. split; [exact P|].
      intros more. cbn [frz_list frz_iop fst snd run_iops]. rewrite U. cbn [bind app]. exact (F more).
    + injection Hm as <- <- <-. split; [constructor|]. split; [eexists; split; [reflexivity|discriminate]|]. intros more. cbn [frz_list frz_iop fst snd run_iops]. rewrite U. split; [reflexivity|discriminate].
Qed.

Lemma sim_uops : forall dis ops p, sim fine (s_run_uops W dis ops p None) (flat_map (fun o => match o with SSet _ _ v => encoders W false v | SUOuter _ _ => [] end) ops) (frz_list W (frz_uop W d) ops) (fun ys => run_uops dis ys p None).
Proof.
  intros dis. induction ops as [|[name v|lvl] ops IH]; intros p.
  - apply (sim_lift_as _ _ fine (Ok (p, None))). auto.
  - intros w r w' l Hm. cbn [s_run_uops] in Hm.
    destruct (sim_seq _ _ _ fine (s_append_update_set W p name v) (fun a : slice * option err => let (q, e) := a in s_run_uops W dis ops q e) _ _ _ _ _ (fun a ys => let (q, e) := a in run_uops dis ys q e) (sim_set p name v) IH (uops_stopped dis ops) w r w' l Hm) as (C & P & F).
    split; [exact C|]. split; [exact P|]. exact F.
  - cbn [s_run_uops flat_map app]. intros w r w' l Hm. unfold mbind, lift in Hm. destruct (use_outer dis lvl) eqn:U.
    + destruct (s_run_uops W dis ops p None w) as [[r0 w0] l0] eqn:Hr. injection Hm as <- <- <-. destruct (IH p _ _ _ _ Hr) as (C & P & F). split; [exact C|]. split; [exact P|].
      intros more. cbn [frz_list frz_uop fst snd run_uops]. rewrite U. cbn [bind app]. exact (F more).
    + injection Hm as <- <- <-. split; [constructor|]. split; [eexists; split; [reflexivity|discriminate]|]. intros more. cbn [frz_list frz_uop fst snd run_uops]. rewrite U. split; [reflexivity|discriminate].
Qed.

Lemma sim_insert_f : forall dis name columns ops p, sim fine (s_do_insert_f W dis name columns ops p) (flat_map (fun o => match o with SRow _ row => row_encoders W row | SIOuter _ _ => [] end) ops)
  (frz_list W (frz_iop W d) ops) (fun ys => do_insert_f dis name columns ys p).
Proof. intros. unfold s_do_insert_f, do_insert_f. cbv zeta. eapply sim_pre. intros q. apply (sim_keep _ _ _ _ _ (fun q => patch_length q (len p))). apply sim_iops. Qed.

Lemma sim_update_f : forall dis name c ops p, sim fine (s_do_update_f W dis name c ops p) (criteria_encoders W c ++ flat_map (fun o => match o with SSet _ _ v => encoders W false v | SUOuter _ _ => [] end) ops)
  (frz_both (frz_option W frz_fun c) (frz_list W (frz_uop W d) ops)) (fun y => do_update_f dis name (fst y) (snd y) p).
Proof.
  intros dis name c ops p. unfold s_do_update_f, do_update_f. cbv zeta.
  refine (sim_seq _ _ _ fine _ _ _ _ _ _ (fun y => msg_update p name y) (fun a ys => let (q, e) := a in bind (run_uops dis ys q e) (fun a : slice * option err => let (q, e) := a in bind (patch_length q (len p)) (fun q => Ok (q, e)))) (sim_update p name c) _ _).
  - intros q. apply (sim_keep _ _ _ _ _ (fun q => patch_length q (len p))). apply sim_uops.
  - intros q e. destruct (uops_stopped dis ops q e) as (r0 & A & B & C). exists (bind r0 (fun a : slice * option err => let (q, e) := a in bind (patch_length q (len p)) (fun q => Ok (q, e)))). split; [|split].
    + intros w. unfold mbind. rewrite A. destruct r0 as [[q1 e1]|]; [|reflexivity]. unfold lift, mret. cbn [bind]. destruct (patch_length q1 (len p)); reflexivity.
    + intros ws. rewrite B. reflexivity.
    + intros b Hb. destruct r0 as [[q1 e1]|]; [|discriminate]. cbn [bind] in Hb. destruct (patch_length q1 (len p)); [|discriminate]. injection Hb as <-. exact (C _ eq_refl).
Qed.

(* one call *)
Definition call_frz (c : scall W) : supply call := fun ws =>
  match c with
  | SStmtExecute _ stmt args => let y := frz_row W d args ws in (CStmtExecute stmt (fst y), snd y)
  | SExecute _ id args => let y := frz_row W d args ws in (CExecute id (fst y), snd y)
  | SInsert _ name columns rows => let y := frz_list W (frz_row W d) rows ws in (CInsert name columns (fst y), snd y)
  | SInsertF _ name columns ops cberr => let y := frz_list W (frz_iop W d) ops ws in (CInsertF name columns (fst y) cberr, snd y)
  | SUpdate _ name criteria set => let y := frz_both (frz_option W frz_fun criteria) (frz_list W (frz_set W d) set) ws in (CUpdate name (fst (fst y)) (snd (fst y)), snd y)
  | SUpdateF _ name criteria ops cberr => let y := frz_both (frz_option W frz_fun criteria) (frz_list W (frz_uop W d) ops) ws in (CUpdateF name (fst (fst y)) (snd (fst y)) cberr, snd y)
  | SDelete _ name criteria => let y := frz_option W frz_fun criteria ws in (CDelete name (fst y), snd y)
  | SOther _ c => (c, ws)
  end.
Lemma call_frz_is : forall c ws, fst (call_frz c ws) = frz_call W d c ws.
Proof. intros [] ws; reflexivity. Qed.

Lemma sim_call : forall dis c b, disabled b = false -> berr b = None -> sim (fun b => berr b = None) (s_exec_call W dis c b) (call_encoders W c) (call_frz c) (fun y => exec_call dis y b).
Proof.
  intros dis c b Hd He.
  assert (K : forall X (fz : supply X) enc (m : slice -> M (slice * option err)) (pure : X -> slice -> res (slice * option err)),
    sim fine (m (buf b)) enc fz (fun x => pure x (buf b)) -> sim (fun b => berr b = None) (s_guarded W b m) enc fz (fun x => guarded b (pure x))).
  { intros X fz enc m pure H. unfold s_guarded, guarded. rewrite Hd, He. eapply (sim_post _ _ _ fine (fun b => berr b = None) (m (buf b)) (fun a : slice * option err => let (q, e) := a in Ok (mkb q e false))); [exact H| |].
    - intros [q e] w. reflexivity.
    - intros [q e] b' Hb G. injection Hb as <-. exact G. }
  destruct c as [stmt args|id args|name columns rows|name columns ops cberr|name c set|name c ops cberr|name c|c]; unfold s_exec_call, exec_call.
  - exact (sim_map _ _ _ _ _ _ _ (frz_row W d) (CStmtExecute stmt) args (fun y => exec_call dis y b) (K _ _ _ (fun p => s_stmt_execute W p stmt args) (fun ys p => stmt_execute p stmt ys) (sim_stmt (buf b) stmt args))).
  - exact (sim_map _ _ _ _ _ _ _ (frz_row W d) (CExecute id) args (fun y => exec_call dis y b) (K _ _ _ (fun p => s_msg_execute W p id args) (fun ys p => msg_execute p id ys) (sim_execute (buf b) id args))).
  - exact (sim_map _ _ _ _ _ _ _ (frz_list W (frz_row W d)) (CInsert name columns) rows (fun y => exec_call dis y b) (K _ _ _ (s_do_insert W name columns rows) (do_insert name columns) (sim_insert name columns rows (buf b)))).
  - exact (sim_map _ _ _ _ _ _ _ (frz_list W (frz_iop W d)) (fun y => CInsertF name columns y cberr) ops (fun y => exec_call dis y b) (K _ _ _ (s_do_insert_f W dis name columns ops) (do_insert_f dis name columns) (sim_insert_f dis name columns ops (buf b)))).
  - exact (sim_map unit _ _ _ _ _ _ (fun _ => frz_both (frz_option W frz_fun c) (frz_list W (frz_set W d) set)) (fun y => CUpdate name (fst y) (snd y)) tt (fun y => exec_call dis y b)
      (K _ _ _ (s_do_update W name c set) (fun y => do_update name (fst y) (snd y)) (sim_do_update name c set (buf b)))).
  - exact (sim_map unit _ _ _ _ _ _ (fun _ => frz_both (frz_option W frz_fun c) (frz_list W (frz_uop W d) ops)) (fun y => CUpdateF name (fst y) (snd y) cberr) tt (fun y => exec_call dis y b)
      (K _ _ _ (s_do_update_f W dis name c ops) (fun y => do_update_f dis name (fst y) (snd y)) (sim_update_f dis name c ops (buf b)))).
  - exact (sim_map _ _ _ _ _ _ _ (frz_option W frz_fun) (CDelete name) c (fun y => exec_call dis y b) (K _ _ _ (fun p => s_msg_delete W p name c) (fun y p => msg_delete p name y) (sim_delete (buf b) name c))).
  - apply sim_lift_as. auto.
Qed.

Lemma sim_insert_row : forall name columns row b, disabled b = false -> berr b = None ->
  sim (fun a => berr (fst a) = None) (s_insert_row W name columns row b) (row_encoders W row) (frz_row W d row) (fun ys => b_insert_row name columns ys b).
Proof.
  intros name columns row b Hd He. unfold s_insert_row, b_insert_row. rewrite Hd, He. cbv zeta. eapply sim_pre. intros q.
  eapply (sim_post _ _ _ fine (fun a => berr (fst a) = None)); [apply sim_row| |].
  - intros [q1 [e|]] w; [reflexivity|]. unfold mbind, lift, mret. destruct (patch_length q1 (len (buf b))); [|reflexivity]. cbn [bind]. destruct (b_stmt_execute _ _ _); reflexivity.
  - intros [q1 [e|]] x Hx G; [injection Hx as <-; discriminate|reflexivity].
Qed.
End World.
