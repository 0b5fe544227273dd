(* C89: panics recovered inside of the callbacks of InsertF and UpdateF. *)
From Coq Require Import String List NArith ZArith Arith Bool Lia ZifyN ZifyNat ZifyBool.
From Coq Require Import List.
From Verif Require Import Base GoSlice SpecWire SpecMsg WireProofs Pure Text Values MsgModel Builder SpecValue SpecProg SpecUnit SpecError SpecPanic
  HeadProofs MsgProofs BuilderProofs PanicProofs Recover RecoverRow.
From Verif Require ThmBuilder.
Import ListNotations.
Open Scope N_scope.
Open Scope list_scope.
Local Notation length := List.length.

(* The callback makes calls with the parts xs, in order, besides calls that panic and whose panics it recovers from:
   uses of builders, and calls with parts that may panic. *)
Inductive makes_parts {X} (may_panic : X -> Prop) : callback X -> list X -> Prop :=
| MP_end : makes_parts may_panic End []
| MP_do x next xs : makes_parts may_panic next xs -> makes_parts may_panic (Do (Part x) next) (x :: xs)
| MP_try stale x next xs : makes_parts may_panic (next false) xs -> makes_parts may_panic (Try stale (Part x) next) (x :: xs)
| MP_try_panics stale x next xs : may_panic x -> makes_parts may_panic (next true) xs -> makes_parts may_panic (Try stale (Part x) next) xs
| MP_try_outer stale lvl next xs : makes_parts may_panic (next true) xs -> makes_parts may_panic (Try stale (Outer lvl) next) xs.

(* Every part the callback may use, and whether it does so in a function that recovers. *)
Fixpoint callback_all {X} (P : bool -> op X -> Prop) (cb : callback X) : Prop :=
  match cb with
  | End => True
  | Do o next => P false o /\ callback_all P next
  | Try _ o next => P true o /\ forall panicked, callback_all P (next panicked)
  end.
Definition ok_part {X} (P : X -> Prop) (o : op X) : Prop := match o with Part x => P x | Outer _ => True end.

(* A part is encoded in one way wherever it is put, or is not accepted, or does not fit a message. *)
Definition adds_or_not (w : bool) (Q : Prop) (W : N) (f : ValueProofs.enc) : Prop :=
  (exists bs, ValueProofs.good w f bs) \/ ValueProofs.bad w f Q True \/ (bigm w f /\ 2 ^ 61 <= W).
Lemma parts_adds : forall w H Q S W f, parts w H Q True S W f -> adds_or_not w Q W f.
Proof. intros w H Q S W f [(bs & fs & _ & _ & _ & G)|[[B _]|B]]; [left; eauto|right; left; exact B|right; right; exact B]. Qed.

Section Generic.
Context `{E : Env} {X : Type} (enc : Env -> X -> slice -> res (slice * option err)) (dis : list bool).
Hypothesis Hdis : forall lvl, nth_error dis lvl <> Some false.
Variables (ok quiet : X -> Prop) (weighs : X -> N).
Hypothesis Henc : forall x, ok x -> adds_or_not word32 (quiet x) (weighs x) (fun E p => enc E x p).

Fixpoint in_turn (xs : list X) (p : slice) : res (slice * option err) :=
  match xs with
  | [] => Ok (p, None)
  | x :: xs => do (p, e) <- enc E x p; match e with None => in_turn xs p | Some e => Ok (p, Some e) end
  end.

Lemma outer_panics : forall lvl p e, do_op (enc E) dis (Outer lvl) p e = Panic.
Proof using Hdis. intros lvl p e. cbn [do_op]. unfold use_outer. specialize (Hdis lvl). destruct (nth_error dis lvl) as [[|]|]; try reflexivity. congruence. Qed.

Lemma stuck : forall cb p e q, run_callback (enc E) dis cb p (Some e) <> Ok (q, None).
Proof using Hdis.
  induction cb as [|o next IH|stale o next IH]; intros p e q; cbn [run_callback]; [discriminate| |].
  - destruct o as [x|lvl]; [cbn [do_op bind]; apply IH|rewrite outer_panics; discriminate].
  - destruct o as [x|lvl]; [cbn [do_op]; apply IH|rewrite outer_panics; apply IH].
Qed.

Lemma recovered : forall cb p q, callback_all (fun _ => ok_part ok) cb -> run_callback (enc E) dis cb p None = Ok (q, None) -> 
  (len p <= len q)%nat /\ (nlen (data q) < 2 ^ 32 ->
  exists xs bs, makes_parts (fun x => ~ (quiet x /\ weighs x < 2 ^ 61)) cb xs /\ Forall ok xs /\ data q = data p ++ bs /\ forall p', exists sp, in_turn xs p' = Ok (mk (data p' ++ bs) sp, None)).
Proof using Hdis Henc.
  (* one part that was added *)
  assert (One : forall x p r q, ok x -> enc E x p = Ok (r, None) -> (len r <= len q)%nat -> (len p <= len q)%nat /\ (nlen (data q) < 2 ^ 32 ->
    exists bs, data r = data p ++ bs /\ forall p', exists sp, enc E x p' = Ok (mk (data p' ++ bs) sp, None))).
  { intros x p r q Hx Hr Hq. destruct (Henc x Hx) as [(bs & G)|[[B _]|[B _]]].
    - destruct (G E eq_refl p) as [sp Hsp]. rewrite Hsp in Hr. injection Hr as <-. split; [unfold len in *; cbn [data] in *; rewrite app_length in Hq; lia|]. intros _. exists bs. split; [reflexivity|].
      intros p'. exact (G E eq_refl p').
    - destruct (B E eq_refl p r Hr).
    - destruct (B E eq_refl p r Hr) as [B1 B2]. split; [lia|]. intros Hl. unfold nlen, len in *. lia. }
  induction cb as [|o next IH|stale o next IH]; intros p q Hok H; cbn [run_callback callback_all] in *.
  - injection H as <-. split; [lia|]. intros _. exists [], []. split; [constructor|]. split; [constructor|]. rewrite app_nil_r. split; [reflexivity|]. intros p'. exists (spare p'). rewrite app_nil_r. destruct p'; reflexivity.
  - destruct Hok as [Ho Hok]. destruct o as [x|lvl]; [|rewrite outer_panics in H; discriminate]. cbn [do_op ok_part] in *.
    destruct (enc E x p) as [[r [e|]]|] eqn:Hr; cbn [bind] in H; [destruct (stuck _ _ _ _ H)| |discriminate].
    destruct (IH r q Hok H) as [L1 G1]. destruct (One x p r q Ho Hr L1) as [L2 G2]. split; [exact L2|]. intros Hl.
    destruct (G1 Hl) as (xs & bs & M & F & D & T). destruct (G2 Hl) as (bs0 & D0 & T0).
    exists (x :: xs), (bs0 ++ bs). split; [constructor; exact M|]. split; [constructor; assumption|]. split; [rewrite D, D0, app_assoc; reflexivity|].
    intros p'. destruct (T0 p') as [sp0 T0']. cbn [in_turn]. rewrite T0'. cbn [bind]. destruct (T (mk (data p' ++ bs0) sp0)) as [sp ->]. cbn [data]. exists sp. rewrite app_assoc. reflexivity.
  - destruct Hok as [Ho Hok]. destruct o as [x|lvl]; cbn [ok_part] in Ho.
    + cbn [do_op] in H. destruct (enc E x p) as [[r [e|]]|] eqn:Hr; [destruct (stuck _ _ _ _ H)| |].
      * destruct (IH false r q (Hok false) H) as [L1 G1]. destruct (One x p r q Ho Hr L1) as [L2 G2]. split; [exact L2|]. intros Hl.
        destruct (G1 Hl) as (xs & bs & M & F & D & T). destruct (G2 Hl) as (bs0 & D0 & T0).
        exists (x :: xs), (bs0 ++ bs). split; [constructor; exact M|]. split; [constructor; assumption|]. split; [rewrite D, D0, app_assoc; reflexivity|].
        intros p'. destruct (T0 p') as [sp0 T0']. cbn [in_turn]. rewrite T0'. cbn [bind]. destruct (T (mk (data p' ++ bs0) sp0)) as [sp ->]. cbn [data]. exists sp. rewrite app_assoc. reflexivity.
      * destruct (IH true _ q (Hok true) H) as [L1 G1]. split; [exact L1|]. intros Hl. destruct (G1 Hl) as (xs & bs & M & F & D & T). exists xs, bs.
        split; [apply MP_try_panics; [|exact M]|auto]. intros [Hq Hw].
        destruct (Henc x Ho) as [(b0 & G)|[[_ B]|[_ B]]]; [destruct (G E eq_refl p); congruence|destruct (B Hq E eq_refl p) as (? & ? & ? & _); congruence|lia].
    + rewrite outer_panics in H. destruct (IH true _ q (Hok true) H) as [L1 G1]. split; [exact L1|]. intros Hl. destruct (G1 Hl) as (xs & bs & M & F & D & T). exists xs, bs. split; [apply MP_try_outer; exact M|auto].
Qed.

Variable tried : X -> Prop.
Hypothesis Htried : forall x p q e, tried x -> enc E x p = Ok (q, e) -> (len p <= len q)%nat.

Lemma returns : forall cb p e, callback_all (fun recovers o => match o with Part x => if recovers then tried x else ok x /\ quiet x /\ weighs x < 2 ^ 61 | Outer _ => recovers = true end) cb ->
  exists q e', run_callback (enc E) dis cb p e = Ok (q, e') /\ (len p <= len q)%nat.
Proof using Hdis Henc Htried.
  induction cb as [|o next IH|stale o next IH]; intros p e Hc; cbn [run_callback callback_all] in *; [eauto| |].
  - destruct Hc as [Ho Hc]. destruct o as [x|lvl]; [|discriminate]. destruct Ho as (Hx & Hq & Hw). cbn [do_op]. destruct e as [e|]; cbn [bind]; [apply IH; exact Hc|].
    assert (G : exists r e', enc E x p = Ok (r, e') /\ (len p <= len r)%nat).
    { destruct (Henc x Hx) as [(b0 & G)|[[_ B]|[_ B]]]; [|destruct (B Hq E eq_refl p) as (r & e & Hr & Hl); eauto|lia].
      destruct (G E eq_refl p) as [sp ->]. do 2 eexists. split; [reflexivity|]. unfold len. cbn [data]. rewrite app_length. lia. }
    destruct G as (r & e' & -> & L). cbn [bind]. destruct (IH r e' Hc) as (q & e2 & -> & L2). exists q, e2. split; [reflexivity|lia].
  - destruct Hc as [Ho Hc]. destruct o as [x|lvl].
    + cbn [do_op]. destruct e as [e|]; [apply IH; apply Hc|]. destruct (enc E x p) as [[r e']|] eqn:Hr.
      * destruct (IH false r e' (Hc false)) as (q & e2 & -> & L2). exists q, e2. split; [reflexivity|]. pose proof (Htried _ _ _ _ Ho Hr). lia.
      * destruct (IH true (smudge stale p) None (Hc true)) as (q & e2 & -> & L2). exists q, e2. split; [reflexivity|]. exact L2.
    + rewrite outer_panics. destruct (IH true (smudge stale p) e (Hc true)) as (q & e2 & -> & L2). exists q, e2. split; [reflexivity|]. exact L2.
Qed.

End Generic.

Lemma iops_in_turn : forall (E : Env) dis rows p q, in_turn (fun E row p => append_insert_row p row) rows p = Ok (q, None) -> run_iops dis (map IRow rows) p None = Ok (q, None).
Proof.
  intros E dis. induction rows as [|row rows IH]; intros p q H; cbn [in_turn map run_iops] in *; [exact H|]. destruct (append_insert_row p row) as [[r [e|]]|]; cbn [bind] in *; try discriminate. apply IH. exact H.
Qed.
Lemma uops_in_turn : forall (E : Env) dis sets p q, in_turn (fun E kv p => append_update_set p (fst kv) (snd kv)) sets p = Ok (q, None) ->
  run_uops dis (map (fun kv => USet (fst kv) (snd kv)) sets) p None = Ok (q, None).
Proof.
  intros E dis. induction sets as [|[k v] sets IH]; intros p q H; cbn [in_turn map run_uops fst snd] in *; [exact H|]. destruct (append_update_set p k v) as [[r [e|]]|]; cbn [bind] in *; try discriminate. apply IH. exact H.
Qed.
Lemma patch_data : forall p n q sp, patch_length p n = Ok q -> exists q', patch_length (mk (data p) sp) n = Ok q' /\ data q' = data q.
Proof.
  intros p n q sp H. unfold patch_length, put, len in *. cbn [data]. destruct (_ <=? _)%nat; [|discriminate]. injection H as <-. eexists. split; reflexivity.
Qed.
Lemma rows_of_rows : forall rows, rows_of (map IRow rows) = rows.
Proof. induction rows as [|r rows IH]; cbn; congruence. Qed.
Lemma sets_of_sets : forall sets, sets_of (map (fun kv => USet (fst kv) (snd kv)) sets) = sets.
Proof. induction sets as [|[k v] sets IH]; cbn; congruence. Qed.

Definition set_ok (w32 : bool) (kv : bytes * gvalue) : Prop := go_string (fst kv) /\ well_formed w32 (snd kv) /\ no_known_defect w32 (snd kv).
(* A row, or a set, that cannot be sure to come to an end without panic. *)
Definition row_may_panic (row : list gvalue) : Prop := ~ (Forall panic_free row /\ row_weight row < 2 ^ 61).
Definition set_may_panic (kv : bytes * gvalue) : Prop := ~ (panic_free (snd kv) /\ set_weight kv < 2 ^ 61).

(* C89: whatever panics the callback of InsertF recovers from, and whatever it does then: if there is no error, one message has been appended,
   with the rows of the Row calls that returned, in order, and the builder is as before otherwise. *)
Theorem C89_recovered_rows_leave_nothing : forall (E : Env) dis b name cols cb b', (forall lvl, nth_error dis lvl <> Some false) ->
  disabled b = false -> berr b = None -> go_string name -> Forall go_string cols -> callback_all (fun _ => ok_part (values_ok word32)) cb ->
  insert_with dis name cols cb b = Ok b' -> berr b' = None -> nlen (data (buf b')) < 2 ^ 32 ->
  exists bs rows ess, disabled b' = false /\ data (buf b') = data (buf b) ++ bs /\ makes_parts row_may_panic cb rows /\
    dstream bs = Some [MInsert name (Some table_model) cols ess] /\ Forall2 (Forall2 expr_denotes) rows ess.
Proof.
  intros E dis b name cols cb b' Hdis Hd He Hn Hc Hok H He' Hl. unfold insert_with, guarded in H. rewrite Hd, He in H.
  destruct (msg_insert (buf b) name cols) as [p|] eqn:Hp; [|discriminate]. cbn [bind] in H.
  destruct (run_callback _ dis cb p None) as [[q e]|] eqn:Hr; [|discriminate]. cbn [bind] in H. destruct (patch_length q _) as [q'|] eqn:Hq; [|discriminate]. cbn [bind] in H. injection H as <-. cbn [berr buf disabled] in *. subst e.
  destruct (recovered (fun E row p => append_insert_row p row) dis Hdis (values_ok word32) _ _ (fun row H => parts_adds _ _ _ _ _ _ (row_parts word32 row H)) cb p q Hok Hr) as [_ G].
  destruct G as (rows & bs & M & F & D & T); [pose proof (patch_len _ _ _ Hq); unfold nlen, len in *; lia|].
  destruct (T p) as [sp Hs]. apply (iops_in_turn E dis) in Hs. rewrite <- D in Hs. destruct (patch_data _ _ _ sp Hq) as (q2 & Hq2 & D2).
  assert (X : exec_call dis (CInsertF name cols (map IRow rows) None) b = Ok (mkb q2 None false)).
  { unfold exec_call, guarded. rewrite Hd, He. unfold do_insert_f. rewrite Hp. cbn [bind]. rewrite Hs. cbn [bind]. rewrite Hq2. reflexivity. }
  apply BuilderProofs.call_step in X; [|cbn; rewrite rows_of_rows; auto|exact Hd]. destruct X as (_ & _ & X). destruct (X He eq_refl) as [_ X']. cbn [buf] in X'. rewrite D2 in X'.
  destruct (X' Hl) as (out & Hout & m & Hm & Hsay). inversion Hm; subst. match goal with Hx : Forall2 (Forall2 expr_denotes) _ ?l |- _ => rename Hx into Hess; rename l into ess end. rewrite rows_of_rows in Hess.
  exists out, rows, ess. split; [reflexivity|]. split; [exact Hout|]. split; [exact M|]. split; [exact (says_dstream _ _ Hsay)|exact Hess].
Qed.

(* C89: the same for UpdateF. *)
Theorem C89_recovered_sets_leave_nothing : forall (E : Env) dis b name cr cb b', (forall lvl, nth_error dis lvl <> Some false) ->
  disabled b = false -> berr b = None -> go_string name -> opt (fun_ok word32) cr -> callback_all (fun _ => ok_part (set_ok word32)) cb ->
  update_with dis name cr cb b = Ok b' -> berr b' = None -> nlen (data (buf b')) < 2 ^ 32 ->
  exists bs sets c ss, disabled b' = false /\ data (buf b') = data (buf b) ++ bs /\ makes_parts set_may_panic cb sets /\
    dstream bs = Some [MUpdate name (Some table_model) c ss] /\ criteria_denotes cr c /\ Forall2 set_denotes sets ss.
Proof.
  intros E dis b name cr cb b' Hdis Hd He Hn Hc Hok H He' Hl. unfold update_with, guarded in H. rewrite Hd, He in H.
  destruct (msg_update (buf b) name cr) as [[p e0]|] eqn:Hp; [|discriminate]. cbn [bind] in H.
  destruct (run_callback _ dis cb p e0) as [[q e]|] eqn:Hr; [|discriminate]. cbn [bind] in H. destruct (patch_length q _) as [q'|] eqn:Hq; [|discriminate]. cbn [bind] in H. injection H as <-. cbn [berr buf disabled] in *. subst e.
  destruct e0 as [e0|]; [destruct (stuck (fun E kv p => append_update_set p (fst kv) (snd kv)) dis Hdis _ _ _ _ Hr)|].
  destruct (recovered (fun E kv p => append_update_set p (fst kv) (snd kv)) dis Hdis (set_ok word32) (fun kv => panic_free (snd kv)) set_weight) with (cb := cb) (p := p) (q := q) as [_ G]; [|exact Hok|exact Hr|].
  { intros [k v] (H1 & H2 & H3). exact (parts_adds _ _ _ _ _ _ (set_parts word32 k v H1 H2 H3)). }
  destruct G as (sets & bs & M & F & D & T); [pose proof (patch_len _ _ _ Hq); unfold nlen, len in *; lia|].
  destruct (T p) as [sp Hs]. apply (uops_in_turn E dis) in Hs. rewrite <- D in Hs. destruct (patch_data _ _ _ sp Hq) as (q2 & Hq2 & D2).
  assert (X : exec_call dis (CUpdateF name cr (map (fun kv => USet (fst kv) (snd kv)) sets) None) b = Ok (mkb q2 None false)).
  { unfold exec_call, guarded. rewrite Hd, He. unfold do_update_f. rewrite Hp. cbn [bind]. rewrite Hs. cbn [bind]. rewrite Hq2. reflexivity. }
  apply BuilderProofs.call_step in X; [| |exact Hd].
  2: { cbn. rewrite sets_of_sets. split; [exact Hn|]. split; [exact Hc|]. split; [|apply Forall_map]; (eapply Forall_impl; [|exact F]); intros kv (H1 & H2 & H3); auto. }
  destruct X as (_ & _ & X). destruct (X He eq_refl) as [_ X']. cbn [buf] in X'. rewrite D2 in X'.
  destruct (X' Hl) as (out & Hout & m & Hm & Hsay). inversion Hm; subst. match goal with Hx : Forall2 set_denotes _ ?l, Hy : criteria_denotes cr ?c0 |- _ => rename Hx into Hss; rename l into ss; rename Hy into Hcr; rename c0 into c end. rewrite sets_of_sets in Hss.
  exists out, sets, c, ss. split; [reflexivity|]. split; [exact Hout|]. split; [exact M|]. split; [exact (says_dstream _ _ Hsay)|]. split; [exact Hcr|exact Hss].
Qed.

(* What a callback may do for the call to return: panics other than those of its rows are recovered from, and of its rows too if they have been
   given in a function that recovers. A row given to Row must not make it lose the message (see C54). *)
Definition steady_row (w32 recovers : bool) (o : op (list gvalue)) : Prop :=
  match o with
  | Outer _ => recovers = true
  | Part row => values_ok w32 row /\ row_weight row < 2 ^ 61 /\ (if recovers then Forall decided row /\ ~ row_loses row else Forall panic_free row)
  end.
Definition steady_set (w32 recovers : bool) (o : op (bytes * gvalue)) : Prop :=
  match o with
  | Outer _ => recovers = true
  | Part kv => set_ok w32 kv /\ set_weight kv < 2 ^ 61 /\ (if recovers then decided (snd kv) /\ ~ expr_loses (snd kv) else panic_free (snd kv))
  end.

Lemma callback_impl : forall X (P Q : bool -> op X -> Prop) cb, (forall r o, P r o -> Q r o) -> callback_all P cb -> callback_all Q cb.
Proof. intros X P Q cb H. induction cb as [|o next IH|stale o next IH]; cbn [callback_all]; firstorder. Qed.

(* C89: so recovering is enough: the call returns, and the builder can be used again. *)
Theorem C89_recovering_inserts_return : forall (E : Env) dis b name cols cb, (forall lvl, nth_error dis lvl <> Some false) ->
  disabled b = false -> go_string name -> Forall go_string cols -> callback_all (steady_row word32) cb ->
  exists b', insert_with dis name cols cb b = Ok b' /\ disabled b' = false.
Proof.
  intros E dis b name cols cb Hdis Hd Hn Hc Hcb. unfold insert_with, guarded. rewrite Hd. destruct (berr b); [eauto|].
  destruct (insert_head_ok name cols (proj2 Hn) ltac:(eapply Forall_impl; [|exact Hc]; intros a Ha; exact (proj2 Ha)) (buf b)) as (h & sp & Hh & ->). cbn [bind].
  destruct (returns (fun E row p => append_insert_row p row) dis Hdis (values_ok word32) _ _ (fun row H => parts_adds _ _ _ _ _ _ (row_parts word32 row H))
    (fun row => values_ok word32 row /\ row_weight row < 2 ^ 61 /\ Forall decided row /\ ~ row_loses row)) with (cb := cb)
    (p := mk (data (buf b) ++ h ++ 18 :: plen 1 (plen 1 name) ++ pvar 2 2 ++ pcolumns cols) sp) (e := @None err) as (q & e' & -> & L).
  - intros row p q e (H1 & H2 & H3 & H4) Hr. destruct (row_fate row H1 H3 H2) as ([| |x|x|x] & Hk & Hf); cbn [row_kind fate] in *; try tauto; specialize (Hf p).
    + destruct Hf as (r & Hq & Hl). rewrite Hq in Hr. congruence.
    + congruence.
    + destruct Hf as (r & Hq & Hl). rewrite Hq in Hr. congruence.
  - eapply callback_impl; [|exact Hcb]. intros [|] [row|lvl]; cbn; tauto.
  - cbn [bind]. destruct (patch_some q (len (buf b))) as [q' ->]; [|cbn [bind]; eauto].
    unfold len in *. cbn [data] in L. rewrite !app_length in L. lia.
Qed.
Theorem C89_recovering_updates_return : forall (E : Env) dis b name cr cb, (forall lvl, nth_error dis lvl <> Some false) ->
  disabled b = false -> go_string name -> opt (fun_ok word32) cr -> opt panic_free_fun cr -> name_weight name + criteria_weight cr < 2 ^ 61 -> callback_all (steady_set word32) cb ->
  exists b', update_with dis name cr cb b = Ok b' /\ disabled b' = false.
Proof.
  intros E dis b name cr cb Hdis Hd Hn Hc Hq Hw Hcb. unfold update_with, guarded. rewrite Hd. destruct (berr b); [eauto|].
  assert (G : exists p e, msg_update (buf b) name cr = Ok (p, e) /\ (len (buf b) + 4 <= len p)%nat).
  { destruct (update_parts word32 name cr Hn Hc) as [(bs & fs & _ & _ & _ & G)|[[[_ B] _]|[_ B]]]; [| |lia].
    - destruct (G E eq_refl (buf b)) as (h & sp & Hh & ->). do 2 eexists. split; [reflexivity|]. unfold len. cbn [data]. rewrite !app_length. lia.
    - destruct (B (conj I Hq) E eq_refl (buf b)) as (q & e & -> & L). do 2 eexists. split; [reflexivity|]. exact (L I). }
  destruct G as (p & e & -> & L0). cbn [bind].
  destruct (returns (fun E kv p => append_update_set p (fst kv) (snd kv)) dis Hdis (set_ok word32) (fun kv => panic_free (snd kv)) set_weight) with
    (tried := fun kv => set_ok word32 kv /\ set_weight kv < 2 ^ 61 /\ decided (snd kv) /\ ~ expr_loses (snd kv)) (cb := cb) (p := p) (e := e) as (q & e' & -> & L).
  - intros [k v] (H1 & H2 & H3). exact (parts_adds _ _ _ _ _ _ (set_parts word32 k v H1 H2 H3)).
  - intros [k v] r q x ((H1 & H2) & H3 & H4 & H5) Hr. cbn [fst snd] in *. destruct (set_fate k v H1 H2 H4 H3) as ([| |y|y|y] & Hk & Hf); cbn [value_kind fate] in *; try tauto; specialize (Hf r).
    + destruct Hf as (z & Hz & Hl). rewrite Hz in Hr. congruence.
    + congruence.
    + destruct Hf as (z & Hz & Hl). rewrite Hz in Hr. congruence.
  - eapply callback_impl; [|exact Hcb]. intros [|] [kv|lvl]; cbn; tauto.
  - cbn [bind]. destruct (patch_some q (len (buf b))) as [q' ->]; [lia|cbn [bind]; eauto].
Qed.

(* ---- a case ---- *)
#[local] Existing Instance ThmBuilder.plain.
Definition marks (n : nat) : N := 170.
(* A row; a row that panics, and then a use of the pipe, both recovered from; in the end another row, only if both panicked. *)
Definition careful : callback (list gvalue) :=
  Do (Part [VInt 1%Z]) (Try marks (Part [VInt 9%Z; VNilPtr true true]) (fun p1 => Try marks (Outer 0) (fun p2 => if p1 && p2 then Do (Part [VInt 2%Z]) End else End))).
Definition careful_sets : callback (bytes * gvalue) :=
  Do (Part (s2b "a", VInt 1%Z)) (Try marks (Part (s2b "b", VNilPtr true true)) (fun p1 => Try marks (Outer 0) (fun p2 => if p1 && p2 then Do (Part (s2b "c", VInt 2%Z)) End else End))).

Lemma careful_part : values_ok false [VInt 1%Z] /\ values_ok false [VInt 2%Z] /\ values_ok false [VInt 9%Z; VNilPtr true true] /\ ~ row_loses [VInt 9%Z; VNilPtr true true].
Proof.
  split; [ThmBuilder.ok|]. split; [ThmBuilder.ok|]. split; [ThmBuilder.ok|]. intros H. inversion H as [before x after Hb Hx Heq].
  destruct before as [|? [|? [|]]]; cbn in Heq; inversion Heq; subst; inversion Hx.
Qed.
Example careful_meets : callback_all (fun _ => ok_part (values_ok false)) careful /\ callback_all (steady_row false) careful /\ (forall lvl, nth_error [true] lvl <> Some false) /\
  exists b', insert_with [true] (s2b "t") [s2b "c"] careful (new_pipe 0) = Ok b' /\ berr b' = None /\ nlen (data (buf b')) < 2 ^ 32 /\
    dstream (data (buf b')) = Some [MInsert (s2b "t") (Some table_model) [s2b "c"] [[XLiteral (SSint 1%Z)]; [XLiteral (SSint 2%Z)]]].
Proof.
  destruct careful_part as (P1 & P2 & P9 & NL).
  split; [|split; [|split]].
  - cbn [callback_all careful ok_part]. split; [exact P1|]. split; [exact P9|]. intros p1. split; [exact I|]. intros p2. destruct (p1 && p2); cbn; auto.
  - cbn [callback_all careful steady_row]. split; [split; [exact P1|]; split; [vm_compute; reflexivity|repeat constructor]|].
    split; [split; [exact P9|]; split; [vm_compute; reflexivity|]; split; [repeat constructor|exact NL]|]. intros p1. split; [reflexivity|]. intros p2. destruct (p1 && p2); [|exact I].
    cbn [callback_all steady_row]. split; [|exact I]. split; [exact P2|]. split; [vm_compute; reflexivity|repeat constructor].
  - intros [|[|l]]; cbn; discriminate.
  - eexists. split; [vm_compute; reflexivity|]. split; [reflexivity|]. split; [vm_compute; reflexivity|]. vm_compute. reflexivity.
Qed.
Example careful_sets_meet : callback_all (fun _ => ok_part (set_ok false)) careful_sets /\ callback_all (steady_set false) careful_sets /\
  exists b', update_with [true] (s2b "t") None careful_sets (new_pipe 0) = Ok b' /\ berr b' = None /\ nlen (data (buf b')) < 2 ^ 32 /\
    exists ss, dstream (data (buf b')) = Some [MUpdate (s2b "t") (Some table_model) None ss] /\ length ss = 2%nat.
Proof.
  assert (P : set_ok false (s2b "a", VInt 1%Z) /\ set_ok false (s2b "b", VNilPtr true true) /\ set_ok false (s2b "c", VInt 2%Z)).
  { unfold set_ok. cbn [fst snd]. repeat match goal with |- _ /\ _ => split end; ThmBuilder.ok. }
  destruct P as (P1 & P2 & P3). split; [|split].
  - cbn [callback_all careful_sets ok_part]. split; [exact P1|]. split; [exact P2|]. intros p1. split; [exact I|]. intros p2. destruct (p1 && p2); cbn; auto.
  - cbn [callback_all careful_sets steady_set snd]. split; [split; [exact P1|]; split; [vm_compute; reflexivity|exact I]|].
    split; [split; [exact P2|]; split; [vm_compute; reflexivity|]; split; [exact I|intros H; inversion H]|]. intros p1. split; [reflexivity|]. intros p2. destruct (p1 && p2); [|exact I].
    cbn [callback_all steady_set snd]. split; [|exact I]. split; [exact P3|]. split; [vm_compute; reflexivity|exact I].
  - eexists. split; [vm_compute; reflexivity|]. split; [reflexivity|]. split; [vm_compute; reflexivity|]. eexists. split; vm_compute; reflexivity.
Qed.

Print Assumptions C89_recovered_rows_leave_nothing.
Print Assumptions C89_recovered_sets_leave_nothing.
Print Assumptions C89_recovering_inserts_return.
Print Assumptions C89_recovering_updates_return.
