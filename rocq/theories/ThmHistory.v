(* C66, C67: using one XPipe again and again. *)
From Coq Require Import String List NArith ZArith Arith Bool Lia ZifyN ZifyNat ZifyBool.
From Coq Require Import List.
From Verif Require Import Base GoSlice SliceProofs Varint SpecWire SpecMsg WireProofs Text Values MsgModel Builder
  SpecValue SpecProg SpecUnit MsgProofs BuilderProofs UnitProofs ShapeProofs History SpecHistory.
From Verif Require ThmBuilder.
Import ListNotations.
Open Scope N_scope.
Open Scope list_scope.

(* ---- running to the end or to a panic ---- *)

Definition outcome_of (x : ended) : res (list builder * list (option exprfun)) :=
  match x with Done st out => Ok (st, out) | Stopped _ => Panic end.

Lemma run_to_run : forall (E : Env) pr st, run pr st = outcome_of (run_to pr st).
Proof.
  intros E. induction pr as [cberr out0|lvl c next IH|lvl name cols row next IH|lvl k body IHb next IHn]; intros st; cbn [run run_to].
  - reflexivity.
  - destruct (nth_error st lvl) as [b|]; [|reflexivity]. destruct (exec_call _ c b) as [b'|]; cbn [bind]; [apply IH|reflexivity].
  - destruct (nth_error st lvl) as [b|]; [|reflexivity]. destruct (b_insert_row name cols row b) as [[b' f]|]; cbn [bind]; [apply IH|reflexivity].
  - destruct (nth_error st lvl) as [b|]; [|reflexivity]. destruct (block_begin k b) as [[b1 [|]]|]; cbn [bind]; [|apply IHn|reflexivity].
    rewrite IHb. destruct (run_to body _) as [[|child st2] out|st2]; cbn [outcome_of bind]; try reflexivity.
    destruct (block_end k _) as [b2|]; cbn [bind]; [apply IHn|reflexivity].
Qed.

Lemma do_op_built : forall (E : Env) pr b b', disabled b = false -> do_op (Build pr) b = (b', Fine) ->
  exists out, run pr [b] = Ok ([b'], out).
Proof.
  intros E pr b b' Hd H. cbn [do_op] in H. pose proof (run_to_run E pr [b]) as Hr. destruct (run_to pr [b]) as [st out|st]; [|discriminate].
  cbn [outcome_of] in Hr. destruct (run_shape E pr b [] _ _ (Forall_nil _) Hd Hr) as (b2 & -> & _ & _). exists out. rewrite Hr. cbn [hd] in H. congruence.
Qed.

(* ---- what a pipe holds ---- *)

Definition holding (b : builder) (prs : list prog) : Prop :=
  disabled b = false /\
  (berr b = None -> nlen (data (buf b)) < 2 ^ 32 ->
   exists units : list (list msg * list bytes),
     Forall2 (fun pr u => exists out, prog_msgs pr (fst u) (snd u) out) prs units /\
     says (data (buf b)) (concat (map fst units)) /\ ids_between 0 (len (buf b)) (concat (map snd units))).

Lemma empty_holding : forall b, empty b -> holding b [].
Proof.
  intros b (Hb & He & Hd). split; [exact Hd|]. intros _ _. exists []. cbn. rewrite Hb. split; [constructor|]. split; [apply says_nil|apply ids_nil].
Qed.

Lemma build_holding : forall (E : Env) pr b b' prs, prog_ok word32 pr -> holding b prs -> do_op (Build pr) b = (b', Fine) -> holding b' (prs ++ [pr]).
Proof.
  intros E pr b b' prs Hp (Hd & Hh) H. destruct (do_op_built E pr b b' Hd H) as (out & Hr).
  destruct (run_step pr b [] _ _ Hp (Forall_nil _) Hd Hr) as (_ & b2 & Hb2 & Sd & Se & Sg). assert (b2 = b') by congruence. subst b2.
  split; [exact Sd|]. intros He Hl. assert (Heb : berr b = None).
  { destruct (berr b) eqn:Hx; [|reflexivity]. rewrite Se in He by congruence. congruence. }
  destruct (Sg Heb He) as [Hle Hg]. destruct (Hg Hl) as (bs & Hbs & ms & ids & Hs & Hm & Hi).
  assert (Hlb : nlen (data (buf b)) < 2 ^ 32) by (unfold nlen, len in *; lia).
  destruct (Hh Heb Hlb) as (units & F & S & I). exists (units ++ [(ms, ids)]). split; [|split].
  - apply Forall2_app; [exact F|]. constructor; [|constructor]. exists out. exact Hm.
  - rewrite map_app, concat_app. cbn [map fst concat]. rewrite app_nil_r, Hbs. apply says_app; assumption.
  - rewrite map_app, concat_app. cbn [map snd concat]. rewrite app_nil_r. apply (ids_app 0 (len (buf b))); [lia|exact Hle|exact I|exact Hi].
Qed.

Lemma history_app : forall (E : Env) ops1 ops2 b, exists b1, history (ops1 ++ ops2) b = history ops1 b ++ history ops2 b1 /\
  (ops1 = [] -> b1 = b).
Proof.
  intros E. induction ops1 as [|o ops1 IH]; intros ops2 b; [exists b; auto|]. cbn [history app]. destruct (do_op o b) as [b' s].
  destruct (IH ops2 b') as (b1 & H & _). exists b1. rewrite H. split; [reflexivity|discriminate].
Qed.

Lemma history_length : forall (E : Env) ops b, length (history ops b) = length ops.
Proof. intros E. induction ops as [|o ops IH]; intros b; [reflexivity|]. cbn [history]. destruct (do_op o b). cbn. f_equal. apply IH. Qed.

(* Without panics, the pipe holds what is pending. *)
Lemma history_holding : forall (E : Env) ops last b prs, Forall (op_ok word32) ops -> holding b prs -> ~ In Panicked (history ops b) ->
  exists b', holding b' (pending prs ops) /\ history (ops ++ last) b = history ops b ++ history last b'.
Proof.
  intros E. induction ops as [|o ops IH]; intros last b prs Hok Hh Hn; [exists b; auto|]. inversion Hok as [|? ? Ho Hops]; subst. cbn [history app] in *.
  destruct (do_op o b) as [b' s] eqn:Hdo. assert (Hs : s <> Panicked) by (intros ->; apply Hn; left; reflexivity).
  assert (Hn' : ~ In Panicked (history ops b')) by (intros Hin; apply Hn; right; exact Hin).
  assert (Hk : holding b' (match o with Build pr => prs ++ [pr] | Send => prs | Reset => [] end)).
  { destruct o as [pr| |].
    - assert (s = Fine) as -> by (cbn [do_op] in Hdo; destruct (run_to pr [b]); congruence). exact (build_holding E pr b b' prs Ho Hh Hdo).
    - cbn [do_op] in Hdo. assert (b' = b) as -> by (destruct (send b) as [[?|?]|]; congruence). exact Hh.
    - cbn [do_op] in Hdo. destruct (reset b) as [b2|] eqn:Hr; [|congruence]. assert (b' = b2) as -> by congruence. apply empty_holding. exact (reset_empty b b2 Hr). }
  destruct (IH last b' _ Hops Hk Hn') as (b2 & H2 & Hh2). exists b2. split; [|rewrite Hh2; reflexivity]. destruct o; exact H2.
Qed.

Lemma holding_sent : forall (E : Env) b prs bs, holding b prs -> history [Send] b = [Sent bs] -> nlen bs < 2 ^ 32 -> holds bs prs.
Proof.
  intros E b prs bs (Hd & Hh) H Hl. cbn [history do_op] in H. unfold send in H. rewrite Hd in H. destruct (berr b) eqn:He; [discriminate|].
  assert (bs = data (buf b)) by congruence. subst bs. destruct (Hh eq_refl Hl) as (units & F & S & I). exists units. split; [exact F|].
  split; [exact (says_dstream _ _ S)|exact (ids_nodup _ _ _ I)].
Qed.

(* ---- C66 ---- *)

(* C66: what Send hands over is exactly what was built since New or the last Reset, in order, however often and
   whenever Send was called before. *)
Theorem C66_send_is_what_was_built : forall (E : Env) n ops before bs, Forall (op_ok word32) ops ->
  history (ops ++ [Send]) (new_pipe n) = before ++ [Sent bs] -> ~ In Panicked before -> nlen bs < 2 ^ 32 ->
  holds bs (pending [] ops).
Proof.
  intros E n ops before bs Hok H Hn Hl.
  assert (Hb : before = history ops (new_pipe n)).
  { destruct (history_app E ops [Send] (new_pipe n)) as (b1 & Hh & _). rewrite Hh in H.
    assert (Hone : exists s, history [Send] b1 = [s]) by (cbn [history]; destruct (do_op Send b1); eauto).
    destruct Hone as [s Hs]. rewrite Hs in H. apply app_inj_tail in H. symmetry. apply H. }
  subst before. destruct (history_holding E ops [Send] (new_pipe n) [] Hok (empty_holding _ (new_empty n)) Hn) as (b' & Hh & He).
  rewrite He in H. apply app_inv_head in H. exact (holding_sent E b' _ bs Hh H Hl).
Qed.

(* C66: and after a Reset that did not panic nothing of what went before matters, not even recovered panics. *)
Theorem C66_reset_forgets : forall (E : Env) n old ops before between bs, Forall (op_ok word32) ops ->
  history (old ++ Reset :: ops ++ [Send]) (new_pipe n) = before ++ Fine :: between ++ [Sent bs] -> length before = length old ->
  ~ In Panicked between -> nlen bs < 2 ^ 32 -> holds bs (pending [] ops).
Proof.
  intros E n old ops before between bs Hok H Hlen Hn Hl. destruct (history_app E old (Reset :: ops ++ [Send]) (new_pipe n)) as (b1 & Hh & _).
  rewrite Hh in H.
  assert (Hsplit : forall (A : Type) (a c b d : list A), length a = length c -> a ++ b = c ++ d -> b = d).
  { intros A. induction a as [|x a IH]; intros [|y c] b d Hx Hy; try discriminate; [exact Hy|]. cbn in *. injection Hx as Hx. injection Hy as _ Hy. eauto. }
  apply Hsplit in H; [|rewrite history_length; symmetry; exact Hlen]. cbn [history] in H. destruct (do_op Reset b1) as [b2 s] eqn:Hr.
  cbn [do_op] in Hr. destruct (reset b1) as [b3|] eqn:Hr3; [|assert (s = Panicked) by congruence; congruence].
  assert (b3 = b2) by congruence. subst b3. injection H as _ H.
  assert (Hb : between = history ops b2).
  { destruct (history_app E ops [Send] b2) as (b4 & Hh4 & _). rewrite Hh4 in H.
    assert (Hone : exists s, history [Send] b4 = [s]) by (cbn [history]; destruct (do_op Send b4); eauto).
    destruct Hone as [s1 Hs1]. rewrite Hs1 in H. apply app_inj_tail in H. symmetry. apply H. }
  subst between. destruct (history_holding E ops [Send] b2 [] Hok (empty_holding _ (reset_empty b1 b2 Hr3)) Hn) as (b' & Hh' & He).
  rewrite He in H. apply app_inv_head in H. exact (holding_sent E b' _ bs Hh' H Hl).
Qed.

(* C66: a returned error is returned by every further Send, whatever is built, until the pipe is reset. *)
Theorem C66_error_until_reset : forall (E : Env) n old ops before e between s,
  history (old ++ [Send] ++ ops ++ [Send]) (new_pipe n) = before ++ [SendError e] ++ between ++ [s] -> length before = length old ->
  ~ In Reset ops -> s = SendError e \/ In Panicked between.
Proof.
  intros E n old ops before e between s H Hlen Hn. destruct (history_app E old ([Send] ++ ops ++ [Send]) (new_pipe n)) as (b1 & Hh & _).
  rewrite Hh in H.
  assert (Hsplit : forall (A : Type) (a c b d : list A), length a = length c -> a ++ b = c ++ d -> b = d).
  { intros A. induction a as [|x a IH]; intros [|y c] b d Hx Hy; try discriminate; [exact Hy|]. cbn in *. injection Hx as Hx. injection Hy as _ Hy. eauto. }
  apply Hsplit in H; [|rewrite history_length; symmetry; exact Hlen]. clear Hsplit Hh Hlen. cbn [history app] in H. destruct (do_op Send b1) as [b2 s2] eqn:Hs. injection H as -> H.
  assert (Hb : b2 = b1 /\ disabled b1 = false /\ berr b1 = Some e).
  { cbn [do_op] in Hs. unfold send in Hs. destruct (disabled b1); [congruence|]. destruct (berr b1); split; try split; congruence. }
  destruct Hb as (-> & Hd & He). clear Hs. revert b1 between H Hd He. induction ops as [|o ops IH]; intros b1 between H Hd He.
  - cbn [app history do_op] in H. unfold send in H. rewrite Hd, He in H. destruct between as [|x [|y l]]; cbn in H; try discriminate. left. congruence.
  - cbn [app history] in H. destruct (do_op o b1) as [b2 s2] eqn:Hs. destruct between as [|x between].
    { cbn in H. injection H as _ H. apply (f_equal (@length _)) in H. rewrite history_length, app_length in H. cbn in H. lia. }
    cbn in H. injection H as -> H. assert (Hno : ~ In Reset ops) by (intros Hi; apply Hn; right; exact Hi).
    assert (Hx : b2 = b1 \/ x = Panicked).
    { destruct o as [pr| |].
      - destruct x; try (right; reflexivity); cbn [do_op] in Hs.
        + destruct (do_op_built E pr b1 b2 Hd Hs) as (out & Hr). destruct (run_shape E pr b1 [] _ _ (Forall_nil _) Hd Hr) as (b3 & Hb3 & _ & Hk).
          left. assert (b3 = b2) by congruence. subst b3. apply Hk. congruence.
        + destruct (run_to pr [b1]); discriminate.
        + destruct (run_to pr [b1]); discriminate.
      - left. cbn [do_op] in Hs. destruct (send b1) as [[?|?]|]; congruence.
      - exfalso. apply Hn. left. reflexivity. }
    destruct Hx as [->|Hx]; [|right; left; exact Hx].
    destruct (IH Hno b1 between H Hd He) as [Hr|Hr]; [left; exact Hr|right; right; exact Hr].
Qed.

(* C66: "a Send hands over what was built since the last Send" is false: nothing but Reset empties the pipe (the line of
   Send that would is a comment), so a second unit of work on the same pipe repeats the first. *)
Definition add_row (v : Z) : prog := PCall 0 (CInsert (s2b "t") [s2b "a"] [[VInt v]]) (Ret None []).
Theorem C66_send_without_reset_repeats : exists bs1 bs2,
  @history ThmBuilder.plain [Build (add_row 1); Send; Build (add_row 2); Send] (new_pipe 64) = [Fine; Sent bs1; Fine; Sent bs2] /\
  dstream bs1 = Some [MInsert (s2b "t") (Some table_model) [s2b "a"] [[XLiteral (SSint 1)]]] /\
  dstream bs2 = Some [MInsert (s2b "t") (Some table_model) [s2b "a"] [[XLiteral (SSint 1)]];
                      MInsert (s2b "t") (Some table_model) [s2b "a"] [[XLiteral (SSint 2)]]].
Proof. do 2 eexists. split; [vm_compute; reflexivity|]. split; vm_compute; reflexivity. Qed.

(* ---- C67 ---- *)

Lemma stop_call_open : forall (E : Env) c b, disabled b = false -> match c with CInsertF _ _ _ _ | CUpdateF _ _ _ _ => False | _ => True end ->
  disabled (stop_call c b) = false.
Proof.
  intros E c b Hd Hc. unfold stop_call. rewrite Hd. destruct (berr b); [exact Hd|]. destruct c; try exact Hd; try contradiction.
  - destruct (msg_insert _ _ _); [reflexivity|exact Hd].
  - destruct (msg_update _ _ _) as [[? [?|]]|]; [exact Hd|reflexivity|exact Hd].
Qed.

Lemma no_callbacks_open : forall (E : Env) pr b, no_callbacks pr -> disabled b = false -> forall st, run_to pr [b] = Stopped st ->
  exists b', st = [b'] /\ disabled b' = false.
Proof.
  intros E. induction pr as [cberr out0|lvl c next IH|lvl name cols row next IH|lvl k body IHb next IHn]; intros b Hn Hd st H; cbn [run_to no_callbacks] in *.
  - discriminate.
  - destruct Hn as [Hc Hn]. destruct lvl as [|lvl]; cbn [nth_error] in H.
    2: { destruct lvl; cbn in H; assert (st = [b]) as -> by congruence; eauto. }
    destruct (exec_call _ c b) as [b'|] eqn:Hb.
    + cbn [set_nth] in H. refine (IH b' Hn _ st H). apply (exec_keeps E _ c b b' Hd Hb).
    + cbn [set_nth] in H. assert (st = [stop_call c b]) as -> by congruence. eexists. split; [reflexivity|]. apply stop_call_open; assumption.
  - destruct lvl as [|lvl]; cbn [nth_error] in H.
    2: { destruct lvl; cbn in H; assert (st = [b]) as -> by congruence; eauto. }
    destruct (b_insert_row name cols row b) as [[b' f]|] eqn:Hb.
    + cbn [set_nth] in H. refine (IH f b' (Hn f) _ st H). apply (insert_row_keeps E _ _ _ _ _ _ Hd Hb).
    + cbn [set_nth] in H. assert (st = [stop_row name cols b]) as -> by congruence. eexists. split; [reflexivity|].
      unfold stop_row. rewrite Hd. destruct (berr b); [exact Hd|]. destruct (msg_insert _ _ _); [reflexivity|exact Hd].
  - contradiction.
Qed.

(* C67: recovering from a panic outside of callbacks: Reset works, and (C66_reset_forgets) makes the pipe as new. *)
Theorem C67_reset_after_panic_partial : forall (E : Env) b pr, disabled b = false -> no_callbacks pr ->
  exists s, history [Build pr; Reset] b = [s; Fine].
Proof.
  intros E b pr Hd Hn. cbn [history do_op]. pose proof (run_to_run E pr [b]) as Hr. destruct (run_to pr [b]) as [st out|st] eqn:Ht.
  - cbn [outcome_of] in Hr. destruct (run_shape E pr b [] _ _ (Forall_nil _) Hd Hr) as (b' & -> & Hd' & _). cbn [hd]. unfold reset. rewrite Hd'.
    unfold reslice. cbn [Nat.leb bind]. eauto.
  - destruct (no_callbacks_open E pr b Hn Hd st Ht) as (b' & -> & Hd'). cbn [hd]. unfold reset. rewrite Hd'. unfold reslice. cbn [Nat.leb bind]. eauto.
Qed.

(* C67: a StmtExecute, Prepare, Execute, Deallocate or Delete that panics is as if it was not made. *)
Theorem C67_plain_calls_leave_nothing_partial : forall (E : Env) b c ops,
  match c with CStmtExecute _ _ | CPrepare _ _ | CExecute _ _ | CDeallocate _ | CDelete _ _ => True | _ => False end ->
  panics b (one_call c) -> history (Build (one_call c) :: ops) b = Panicked :: history ops b.
Proof.
  intros E b c ops Hc Hp. unfold panics in Hp. cbn [history do_op]. rewrite (run_to_run E) in Hp. unfold one_call in *. cbn [run_to nth_error] in *.
  destruct (exec_call _ c b); [discriminate|]. cbn [set_nth hd]. assert (Hs : stop_call c b = b).
  { unfold stop_call. destruct (disabled b); [reflexivity|]. destruct (berr b); [reflexivity|]. destruct c; try contradiction; reflexivity. }
  rewrite Hs. reflexivity.
Qed.

Lemma disabled_dead : forall (E : Env) ops b, disabled b = true -> Forall calls_something ops -> history ops b = map (fun _ => Panicked) ops.
Proof.
  intros E. induction ops as [|o ops IH]; intros b Hd Hc; [reflexivity|]. inversion Hc as [|? ? Ho Hops]; subst. cbn [history map].
  assert (Hs : do_op o b = (b, Panicked)).
  { destruct o as [pr| |]; cbn [do_op].
    - destruct pr as [cberr out|lvl c next|lvl name cols row next|lvl k body next]; cbn [calls_something] in Ho; [contradiction|..]; cbn [run_to].
      + destruct lvl as [|[|lvl]]; cbn [nth_error]; try reflexivity. rewrite exec_disabled by exact Hd. cbn [set_nth hd].
        unfold stop_call. rewrite Hd. reflexivity.
      + destruct lvl as [|[|lvl]]; cbn [nth_error]; try reflexivity. rewrite insert_row_disabled by exact Hd. cbn [set_nth hd].
        unfold stop_row. rewrite Hd. reflexivity.
      + destruct lvl as [|[|lvl]]; cbn [nth_error]; try reflexivity. rewrite block_disabled by exact Hd. reflexivity.
    - unfold send. rewrite Hd. reflexivity.
    - unfold reset. rewrite Hd. reflexivity. }
  rewrite Hs. f_equal. apply IH; assumption.
Qed.

(* The stack after a panic is as deep as before. *)
Lemma set_nth_length : forall (A : Type) (l : list A) n x, length (set_nth l n x) = length l.
Proof. intros A. induction l as [|y l IH]; intros [|n] x; cbn; auto. Qed.

(* Programs stopped by a panic leave enclosing builders as they were. *)
Lemma stopped_outer : forall (E : Env) pr b outer st, all_disabled outer -> disabled b = false -> run_to pr (b :: outer) = Stopped st ->
  exists b', st = b' :: outer.
Proof.
  intros E. induction pr as [cberr out0|lvl c next IH|lvl name cols row next IH|lvl k body IHb next IHn]; intros b outer st Ho Hd H; cbn [run_to] in *.
  - discriminate.
  - destruct lvl as [|lvl].
    + cbn [nth_error] in H. destruct (exec_call _ c b) as [b'|] eqn:Hb; cbn [set_nth] in H.
      * apply (IH b' outer st Ho); [|exact H]. apply (exec_keeps E _ c b b' Hd Hb).
      * assert (st = stop_call c b :: outer) as -> by congruence. eauto.
    + cbn [nth_error] in H. destruct (nth_error outer lvl) as [x|] eqn:Hx; [|assert (st = b :: outer) as -> by congruence; eauto].
      assert (Hdx : disabled x = true) by (apply nth_error_In in Hx; unfold all_disabled in Ho; rewrite Forall_forall in Ho; auto).
      rewrite exec_disabled in H by exact Hdx. unfold stop_call in H. rewrite Hdx in H. exists b. apply (f_equal (fun e => match e with Stopped s => s | _ => [] end)) in H.
      cbn [set_nth] in H. rewrite <- H. f_equal. clear - Hx. revert lvl Hx. induction outer as [|y l IH]; intros [|lvl] Hx; cbn in *; try discriminate; [congruence|f_equal; auto].
  - destruct lvl as [|lvl].
    + cbn [nth_error] in H. destruct (b_insert_row name cols row b) as [[b' f]|] eqn:Hb; cbn [set_nth] in H.
      * apply (IH f b' outer st Ho); [|exact H]. apply (insert_row_keeps E _ _ _ _ _ _ Hd Hb).
      * assert (st = stop_row name cols b :: outer) as -> by congruence. eauto.
    + cbn [nth_error] in H. destruct (nth_error outer lvl) as [x|] eqn:Hx; [|assert (st = b :: outer) as -> by congruence; eauto].
      assert (Hdx : disabled x = true) by (apply nth_error_In in Hx; unfold all_disabled in Ho; rewrite Forall_forall in Ho; auto).
      rewrite insert_row_disabled in H by exact Hdx. unfold stop_row in H. rewrite Hdx in H. exists b. apply (f_equal (fun e => match e with Stopped s => s | _ => [] end)) in H.
      cbn [set_nth] in H. rewrite <- H. f_equal. clear - Hx. revert lvl Hx. induction outer as [|y l IH]; intros [|lvl] Hx; cbn in *; try discriminate; [congruence|f_equal; auto].
  - destruct lvl as [|lvl].
    2: { cbn [nth_error] in H. destruct (nth_error outer lvl) as [x|] eqn:Hx; [|assert (st = b :: outer) as -> by congruence; eauto].
      assert (Hdx : disabled x = true) by (apply nth_error_In in Hx; unfold all_disabled in Ho; rewrite Forall_forall in Ho; auto).
      rewrite block_disabled in H by exact Hdx. assert (st = b :: outer) as -> by congruence. eauto. }
    cbn [nth_error] in H. destruct (block_begin k b) as [[b1 [|]]|] eqn:Hb; cbn [set_nth] in H.
    + pose proof (block_begin_keeps E k b b1 true Hd Hb) as [Hd1 _].
      assert (Ho1 : all_disabled (mkb (buf b1) (berr b1) true :: outer)) by (constructor; [reflexivity|exact Ho]).
      pose proof (run_to_run E body (mkb (buf b1) (berr b1) false :: mkb (buf b1) (berr b1) true :: outer)) as Hr.
      destruct (run_to body _) as [[|child st2] out|st2] eqn:Hbody.
      * cbn [outcome_of] in Hr. destruct (run_shape E body (mkb (buf b1) (berr b1) false) _ _ _ Ho1 eq_refl Hr) as (? & ? & _). discriminate.
      * cbn [outcome_of] in Hr. destruct (run_shape E body (mkb (buf b1) (berr b1) false) _ _ _ Ho1 eq_refl Hr) as (ch & Hch & Hdc & _). injection Hch as -> ->.
        destruct (block_end k _) as [b2|] eqn:Hend; cbn [set_nth] in H.
        -- apply (IHn out b2 outer st Ho); [|exact H]. exact (block_end_disabled E k (mkb (buf ch) (berr ch) false) b2 eq_refl Hend).
        -- eexists. assert (Hx : forall s, Stopped s = Stopped st -> st = s) by congruence. apply Hx in H. exact H.
      * destruct (IHb (mkb (buf b1) (berr b1) false) _ _ Ho1 eq_refl Hbody) as (b' & ->). cbn [tl] in H. eexists. assert (Hx : forall s, Stopped s = Stopped st -> st = s) by congruence. apply Hx in H. exact H.
    + pose proof (block_begin_keeps E k b b1 false Hd Hb) as [Hd1 _]. exact (IHn [] b1 outer st Ho Hd1 H).
    + assert (st = b :: outer) as -> by congruence. eauto.
Qed.

(* C67: after a panic in the callback of Tx or ExpectFailOnError (whatever was done before and in it) every use of the pipe
   panics, for ever: also Send, and also Reset. *)
Theorem C67_callback_panic_is_final_refuted : forall (E : Env) b k body ops, disabled b = false -> match k with KTx _ => True | KExpectFailOnError ctx => ctx < 2 end ->
  panics b (one_block k body) -> Forall calls_something ops ->
  history (Build (one_block k body) :: ops) b = Panicked :: map (fun _ => Panicked) ops.
Proof.
  intros E b k body ops Hd Hk Hp Hc. unfold panics in Hp. rewrite (run_to_run E) in Hp. unfold one_block in *. cbn [history do_op run_to nth_error] in *.
  destruct (berr b) eqn:He.
  { exfalso. unfold block_begin in Hp. rewrite Hd, He in Hp. discriminate. }
  destruct (block_begin_total k b Hk Hd He) as (b1 & en & Hb & Hd1 & _). rewrite Hb in *. destruct en; [|discriminate]. cbn [set_nth] in *.
  assert (Ho1 : all_disabled [mkb (buf b1) (berr b1) true]) by (constructor; [reflexivity|constructor]).
  pose proof (run_to_run E body [mkb (buf b1) (berr b1) false; mkb (buf b1) (berr b1) true]) as Hr.
  destruct (run_to body _) as [[|child st2] out|st2] eqn:Hbody.
  - cbn [outcome_of] in Hr. destruct (run_shape E body (mkb (buf b1) (berr b1) false) _ _ _ Ho1 eq_refl Hr) as (? & ? & _). discriminate.
  - exfalso. destruct (block_end_total k (mkb (buf child) (berr child) false) eq_refl) as (b2 & H2 & _). rewrite H2 in Hp. discriminate.
  - destruct (stopped_outer E body (mkb (buf b1) (berr b1) false) _ _ Ho1 eq_refl Hbody) as (b' & ->). cbn [tl hd]. f_equal. apply disabled_dead; [reflexivity|exact Hc].
Qed.

(* The same for the callback of InsertF. *)
Theorem C67_rows_callback_panic_is_final_refuted : forall (E : Env) b name cols rows cberr ops, disabled b = false -> go_string name -> Forall go_string cols ->
  panics b (one_call (CInsertF name cols rows cberr)) -> Forall calls_something ops ->
  history (Build (one_call (CInsertF name cols rows cberr)) :: ops) b = Panicked :: map (fun _ => Panicked) ops.
Proof.
  intros E b name cols rows cberr ops Hd Hn Hcs Hp Hc. unfold panics in Hp. rewrite (run_to_run E) in Hp. unfold one_call in *. cbn [history do_op run_to nth_error] in *.
  destruct (exec_call _ _ b) as [b'|] eqn:Hx; [discriminate|]. destruct (berr b) eqn:He.
  { exfalso. unfold exec_call, guarded in Hx. rewrite Hd, He in Hx. discriminate. }
  cbn [set_nth hd]. f_equal. apply disabled_dead; [|exact Hc]. unfold stop_call. rewrite Hd, He.
  destruct (@HeadProofs.insert_head_ok name cols (proj2 Hn) (Forall_impl _ (fun a H => proj2 H) Hcs) (buf b)) as (h & sp & Hlen & Hq). rewrite Hq. reflexivity.
Qed.

(* The value func(nil): evaluating it panics. *)
Definition nil_func : gvalue := VFunc None.

(* C67: the same for the callback of UpdateF: the call panics, and would not if its callback did nothing. *)
Theorem C67_sets_callback_panic_is_final_refuted : forall (E : Env) b name criteria sets cberr ops, disabled b = false ->
  panics b (one_call (CUpdateF name criteria sets cberr)) -> ~ panics b (one_call (CUpdateF name criteria [] cberr)) -> Forall calls_something ops ->
  history (Build (one_call (CUpdateF name criteria sets cberr)) :: ops) b = Panicked :: map (fun _ => Panicked) ops.
Proof.
  intros E b name criteria sets cberr ops Hd Hp Hq Hc. unfold panics in Hp, Hq. rewrite (run_to_run E) in Hp, Hq. unfold one_call in *. cbn [history do_op run_to nth_error] in *.
  destruct (exec_call _ (CUpdateF name criteria sets cberr) b) as [b'|] eqn:Hx; [discriminate|]. destruct (berr b) eqn:He.
  { exfalso. unfold exec_call, guarded in Hx. rewrite Hd, He in Hx. discriminate. }
  cbn [set_nth hd]. f_equal. apply disabled_dead; [|exact Hc]. unfold stop_call. rewrite Hd, He.
  destruct (msg_update (buf b) name criteria) as [[p e]|] eqn:Hm; [reflexivity|].
  exfalso. apply Hq. unfold exec_call, guarded, do_update_f. rewrite Hd, He, Hm. reflexivity.
Qed.

(* C67: a panic in the middle of Insert leaves half a message in the pipe, which the next Send hands over. In a new pipe the
   bytes are not even messages. *)
Theorem C67_half_a_message_refuted : exists bs,
  @history ThmBuilder.plain [Build (PCall 0 (CInsert (s2b "t") [s2b "a"] [[VInt 1]; [nil_func]]) (Ret None [])); Build (PCall 0 (CStmtExecute (s2b "SELECT 1") []) (Ret None [])); Send] (new_pipe 64) =
    [Panicked; Fine; Sent bs] /\ dstream bs = None.
Proof. eexists. split; [vm_compute; reflexivity|]. vm_compute. reflexivity. Qed.

(* In a pipe used before, the length is left over from the earlier message at that place: here half of the rows are
   inserted, though the call that was to insert them panicked. *)
Theorem C67_half_the_rows_refuted : exists bs1 bs2,
  @history ThmBuilder.plain [Build (add_row 1); Send; Reset;
      Build (PCall 0 (CInsert (s2b "t") [s2b "a"] [[VInt 2]; [nil_func]]) (Ret None [])); Send] (new_pipe 64) =
    [Fine; Sent bs1; Fine; Panicked; Sent bs2] /\
  dstream bs2 = Some [MInsert (s2b "t") (Some table_model) [s2b "a"] [[XLiteral (SSint 2)]]].
Proof. do 2 eexists. split; [vm_compute; reflexivity|]. vm_compute. reflexivity. Qed.

(* ---- the hypotheses can be met ---- *)

Definition parent_and_child : prog :=
  PInsertRow 0 (s2b "parent") [s2b "x"] [VInt 1] (fun o => match o with Some f => PCall 0 (CInsert (s2b "child") [s2b "p"] [[VFunc (Some f)]]) (Ret None [o]) | None => Ret None [] end).


Lemma parent_ok : prog_ok false parent_and_child.
Proof. unfold parent_and_child. ThmBuilder.ok. destruct o as [f|]; ThmBuilder.ok; apply (ThmBuilder.bound_row (Some f)); assumption. Qed.
Example reuse_meets : exists before bs, let ops := [Build (add_row 1); Send; Reset; Build parent_and_child; Send; Build parent_and_child] in
  Forall (op_ok (@word32 ThmBuilder.plain)) ops /\ @history ThmBuilder.plain (ops ++ [Send]) (new_pipe 3) = before ++ [Sent bs] /\
  ~ In Panicked before /\ nlen bs = 212 /\ pending [] ops = [parent_and_child; parent_and_child] /\
  dstream bs = Some [
    MInsert (s2b "parent") (Some table_model) [s2b "x"] [[XLiteral (SSint 1)]]; statement (s2b "SET @id$34 = LAST_INSERT_ID()");
    MInsert (s2b "child") (Some table_model) [s2b "p"] [[XVariable (s2b "@id$34")]];
    MInsert (s2b "parent") (Some table_model) [s2b "x"] [[XLiteral (SSint 1)]]; statement (s2b "SET @id$139 = LAST_INSERT_ID()");
    MInsert (s2b "child") (Some table_model) [s2b "p"] [[XVariable (s2b "@id$139")]]].
Proof.
  eexists [_; _; _; _; _; _], _. cbv zeta. split; [|split; [vm_compute; reflexivity|split; [|split; [vm_compute; reflexivity|split; [reflexivity|vm_compute; reflexivity]]]]].
  - change (@word32 ThmBuilder.plain) with false. repeat apply Forall_cons; try apply Forall_nil; cbn [op_ok]; try exact I; try exact parent_ok. unfold add_row. ThmBuilder.ok.
  - cbn [In]. intros H. repeat (destruct H as [H|H]; [discriminate|]). exact H.
Qed.

(* Programs that panic: outside of callbacks, in the callback of a transaction, in the callback of InsertF. *)
Example panic_meets :
  no_callbacks (PCall 0 (CUpdate (s2b "t") None [(s2b "a", VInt 1); (s2b "b", nil_func)]) (Ret None [])) /\
  @history ThmBuilder.plain [Build (PCall 0 (CUpdate (s2b "t") None [(s2b "a", VInt 1); (s2b "b", nil_func)]) (Ret None []))] (new_pipe 9) = [Panicked] /\
  @panics ThmBuilder.plain (new_pipe 9) (one_call (CDelete (s2b "t") (Some (ECall (s2b "f") [nil_func])))) /\
  @panics ThmBuilder.plain (new_pipe 9) (one_block (KTx 4) (PCall 0 (CDeallocate 1) (PCall 0 (CExecute 1 [VNilPtr true true]) (Ret None [])))) /\
  @panics ThmBuilder.plain (new_pipe 9) (one_call (CInsertF (s2b "t") [s2b "a"] [IRow [VInt 1]; IRow [nil_func]] None)) /\
  @panics ThmBuilder.plain (new_pipe 9) (one_call (CUpdateF (s2b "t") None [USet (s2b "a") (VInt 1); USet (s2b "b") nil_func] None)) /\
  ~ @panics ThmBuilder.plain (new_pipe 9) (one_call (CUpdateF (s2b "t") None [] None)).
Proof.
  split; [cbn; auto|]. split; [vm_compute; reflexivity|]. split; [vm_compute; reflexivity|]. split; [vm_compute; reflexivity|]. split; [vm_compute; reflexivity|].
  split; [vm_compute; reflexivity|]. vm_compute. discriminate.
Qed.

(* A pipe in which an Insert was refused: the error stays until Reset. *)
Example error_meets : exists e bs,
  @history ThmBuilder.plain ([Build (PCall 0 (CInsert (s2b "t") [s2b "a"] [[]]) (Ret None []))] ++ [Send] ++ [Build (add_row 1)] ++ [Send]) (new_pipe 9) = [Fine] ++ [SendError e] ++ [Fine] ++ [SendError e] /\
  @history ThmBuilder.plain [Build (PCall 0 (CInsert (s2b "t") [s2b "a"] [[]]) (Ret None [])); Send; Reset; Build (add_row 1); Send] (new_pipe 9) = [Fine; SendError e; Fine; Fine; Sent bs].
Proof. do 2 eexists. split; vm_compute; reflexivity. Qed.

Print Assumptions C66_send_is_what_was_built.
Print Assumptions C66_reset_forgets.
Print Assumptions C66_error_until_reset.
Print Assumptions C66_send_without_reset_repeats.
Print Assumptions C67_reset_after_panic_partial.
Print Assumptions C67_plain_calls_leave_nothing_partial.
Print Assumptions C67_callback_panic_is_final_refuted.
Print Assumptions C67_rows_callback_panic_is_final_refuted.
Print Assumptions C67_sets_callback_panic_is_final_refuted.
Print Assumptions C67_half_a_message_refuted.
Print Assumptions C67_half_the_rows_refuted.
