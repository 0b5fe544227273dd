(* C89: panics recovered inside of the callbacks of InsertF and UpdateF, when arguments may also be values that are encoded wrongly. *)
From Coq Require Import String List NArith ZArith Arith Bool Lia ZifyN ZifyNat ZifyBool.
From Coq Require Import List.
From Verif Require Import Base GoSlice SpecWire SpecMsg WireProofs Text Values MsgModel Builder SpecValue SpecProg SpecUnit
  HeadProofs ValueProofs MsgProofs BuilderProofs PanicProofs Recover RecoverRow ThmRecoverRow SpecTyped TypedProofs TypedRunProofs TypedFrameProofs.
From Verif Require ThmValues ThmBuilder ThmDefects ThmTyped.
Import ListNotations.
Open Scope N_scope.
Open Scope list_scope.

Definition typed_set (w32 : bool) (kv : bytes * gvalue) : Prop := go_string (fst kv) /\ well_formed w32 (snd kv).

Lemma lays_adds : forall w Q S W f, lays Message w Q True S W f -> adds_or_not w Q W f.
Proof. intros w Q S W f [(bs & _ & _ & G)|[[B _]|[B HW]]]; [left; eauto|right; left; exact B|right; right; split; [exact B|exact HW]]. Qed.

(* C89: whatever the arguments, whatever panics the callback of InsertF recovers from, and whatever it does then: if there is no error, what has been
   appended is what InsertF with a callback that gives the rows of the Row calls that returned, in order, appends to the same builder. That is one
   frame, and unless a value of these rows is encoded wrongly it is the message with these rows. *)
Theorem C89_recovered_rows_whatever_the_values : forall (E : Env) dis b name cols cb b', (forall lvl, nth_error dis lvl <> Some false) ->
  disabled b = false -> berr b = None -> go_string name -> Forall go_string cols -> callback_all (fun _ => ok_part (typed_values word32)) cb ->
  insert_with dis name cols cb b = Ok b' -> berr b' = None -> nlen (data (buf b')) < 2 ^ 32 ->
  exists bs rows f b2, disabled b' = false /\ data (buf b') = data (buf b) ++ bs /\ makes_parts row_may_panic cb rows /\
    exec_call dis (CInsertF name cols (map IRow rows) None) b = Ok b2 /\ berr b2 = None /\ data (buf b2) = data (buf b') /\
    dframes bs = Some [f] /\ call_frame word32 (CInsertF name cols (map IRow rows) None) f.
Proof.
  intros E dis b name cols cb b' Hdis Hd He Hn Hc Hok H He' Hl. unfold insert_with, guarded in H. rewrite Hd, He in H.
  destruct (msg_insert (buf b) name cols) as [p|] eqn:Hp; [|discriminate]. cbn [bind] in H.
  destruct (run_callback _ dis cb p None) as [[q e]|] eqn:Hr; [|discriminate]. cbn [bind] in H. destruct (patch_length q _) as [q'|] eqn:Hq; [|discriminate]. cbn [bind] in H. injection H as <-. cbn [berr buf disabled] in *. subst e.
  destruct (recovered (fun E row p => append_insert_row p row) dis Hdis (typed_values word32) _ _ (fun row H => lays_adds _ _ _ _ _ (row_lays word32 row H)) cb p q Hok Hr) as [_ G].
  destruct G as (rows & bs & M & F & D & T); [pose proof (patch_len _ _ _ Hq); unfold nlen, len in *; lia|].
  destruct (T p) as [sp Hs]. apply (iops_in_turn E dis) in Hs. rewrite <- D in Hs. destruct (patch_data _ _ _ sp Hq) as (q2 & Hq2 & D2).
  assert (X : exec_call dis (CInsertF name cols (map IRow rows) None) b = Ok (mkb q2 None false)).
  { unfold exec_call, guarded. rewrite Hd, He. unfold do_insert_f. rewrite Hp. cbn [bind]. rewrite Hs. cbn [bind]. rewrite Hq2. reflexivity. }
  pose proof X as Y. apply frame_call_step in Y; [|cbn; rewrite rows_of_rows; auto|exact Hd]. destruct Y as (_ & _ & Y). destruct (Y He eq_refl) as [_ Y']. cbn [buf] in Y'. rewrite D2 in Y'.
  destruct (Y' Hl) as (out & Hout & f & Hf & Hc2).
  exists out, rows, f, (mkb q2 None false). split; [reflexivity|]. split; [exact Hout|]. split; [exact M|]. split; [exact X|]. split; [reflexivity|]. split; [exact D2|].
  split; [exact (framed_dframes _ _ Hf)|exact Hc2].
Qed.

(* C89: the same for UpdateF. *)
Theorem C89_recovered_sets_whatever_the_values : forall (E : Env) dis b name cr cb b', (forall lvl, nth_error dis lvl <> Some false) ->
  disabled b = false -> berr b = None -> go_string name -> opt (well_formed_fun word32) cr -> callback_all (fun _ => ok_part (typed_set word32)) cb ->
  update_with dis name cr cb b = Ok b' -> berr b' = None -> nlen (data (buf b')) < 2 ^ 32 ->
  exists bs sets f b2, disabled b' = false /\ data (buf b') = data (buf b) ++ bs /\ makes_parts set_may_panic cb sets /\
    exec_call dis (CUpdateF name cr (map (fun kv => USet (fst kv) (snd kv)) sets) None) b = Ok b2 /\ berr b2 = None /\ data (buf b2) = data (buf b') /\
    dframes bs = Some [f] /\ call_frame word32 (CUpdateF name cr (map (fun kv => USet (fst kv) (snd kv)) sets) None) f.
Proof.
  intros E dis b name cr cb b' Hdis Hd He Hn Hc Hok H He' Hl. unfold update_with, guarded in H. rewrite Hd, He in H.
  destruct (msg_update (buf b) name cr) as [[p e0]|] eqn:Hp; [|discriminate]. cbn [bind] in H.
  destruct (run_callback _ dis cb p e0) as [[q e]|] eqn:Hr; [|discriminate]. cbn [bind] in H. destruct (patch_length q _) as [q'|] eqn:Hq; [|discriminate]. cbn [bind] in H. injection H as <-. cbn [berr buf disabled] in *. subst e.
  destruct e0 as [e0|]; [destruct (stuck (fun E kv p => append_update_set p (fst kv) (snd kv)) dis Hdis _ _ _ _ Hr)|].
  destruct (recovered (fun E kv p => append_update_set p (fst kv) (snd kv)) dis Hdis (typed_set word32) (fun kv => panic_free (snd kv)) set_weight) with (cb := cb) (p := p) (q := q) as [_ G]; [|exact Hok|exact Hr|].
  { intros [k v] (H1 & H2). exact (lays_adds _ _ _ _ _ (set_lays word32 k v H1 H2)). }
  destruct G as (sets & bs & M & F & D & T); [pose proof (patch_len _ _ _ Hq); unfold nlen, len in *; lia|].
  destruct (T p) as [sp Hs]. apply (uops_in_turn E dis) in Hs. rewrite <- D in Hs. destruct (patch_data _ _ _ sp Hq) as (q2 & Hq2 & D2).
  assert (X : exec_call dis (CUpdateF name cr (map (fun kv => USet (fst kv) (snd kv)) sets) None) b = Ok (mkb q2 None false)).
  { unfold exec_call, guarded. rewrite Hd, He. unfold do_update_f. rewrite Hp. cbn [bind]. rewrite Hs. cbn [bind]. rewrite Hq2. reflexivity. }
  pose proof X as Y. apply frame_call_step in Y; [| |exact Hd].
  2: { cbn. rewrite sets_of_sets. split; [exact Hn|]. split; [exact Hc|]. split; [|apply Forall_map]; (eapply Forall_impl; [|exact F]); intros kv (H1 & H2); auto. }
  destruct Y as (_ & _ & Y). destruct (Y He eq_refl) as [_ Y']. cbn [buf] in Y'. rewrite D2 in Y'.
  destruct (Y' Hl) as (out & Hout & f & Hf & Hc2).
  exists out, sets, f, (mkb q2 None false). split; [reflexivity|]. split; [exact Hout|]. split; [exact M|]. split; [exact X|]. split; [reflexivity|]. split; [exact D2|].
  split; [exact (framed_dframes _ _ Hf)|exact Hc2].
Qed.

(* ---- the hypotheses can be met ---- *)
#[local] Existing Instance ThmBuilder.plain.

(* A row with a long variable name; a row that panics, recovered from; another row, only if it panicked. *)
Definition wrong_careful : callback (list gvalue) :=
  Do (Part [VFunc (Some (EVariable ThmValues.long_name))])
    (Try marks (Part [VInt 9%Z; VNilPtr true true]) (fun panicked => if panicked then Do (Part [VInt 2%Z]) End else End)).
Definition wrong_careful_sets : callback (bytes * gvalue) :=
  Do (Part (s2b "a", ThmDefects.least)) (Try marks (Outer 0) (fun panicked => if panicked then Do (Part (s2b "c", VInt 2%Z)) End else End)).
Example wrong_careful_meets : (forall lvl, nth_error [true] lvl <> Some false) /\
  callback_all (fun _ => ok_part (typed_values false)) wrong_careful /\ ~ callback_all (fun _ => ok_part (values_ok false)) wrong_careful /\
  callback_all (fun _ => ok_part (typed_set false)) wrong_careful_sets /\ ~ callback_all (fun _ => ok_part (set_ok false)) wrong_careful_sets /\
  (exists b', insert_with [true] (s2b "t") [s2b "c"] wrong_careful (new_pipe 0) = Ok b' /\ berr b' = None /\ nlen (data (buf b')) < 2 ^ 32) /\
  (exists b', update_with [true] (s2b "t") None wrong_careful_sets (new_pipe 0) = Ok b' /\ berr b' = None /\ nlen (data (buf b')) < 2 ^ 32).
Proof.
  pose proof ThmTyped.long_name_string as Hn. pose proof (ThmDefects.least_well_formed false) as Hl.
  split; [intros [|[|l]]; cbn; discriminate|]. split; [|split; [|split; [|split; [|split]]]].
  - cbn [callback_all wrong_careful ok_part]. unfold typed_values. split; [constructor; [exact Hn|constructor]|]. split; [ThmBuilder.ok|]. intros [|]; cbn; [|exact Logic.I]. split; [|exact Logic.I]. ThmBuilder.ok.
  - cbn [callback_all wrong_careful ok_part]. intros [H _]. inversion_clear H as [|? ? [_ H1] _]. vm_compute in H1. apply H1. reflexivity.
  - cbn [callback_all wrong_careful_sets ok_part]. unfold typed_set. cbn [fst snd]. split; [split; [ThmBuilder.ok|exact Hl]|]. split; [exact Logic.I|].
    intros [|]; cbn [callback_all ok_part fst snd]; [|exact Logic.I]. split; [|exact Logic.I]. split; ThmBuilder.ok.
  - cbn [callback_all wrong_careful_sets ok_part]. intros [(_ & _ & H) _]. cbn in H. lia.
  - eexists. split; [vm_compute; reflexivity|]. split; [reflexivity|]. vm_compute. reflexivity.
  - eexists. split; [vm_compute; reflexivity|]. split; [reflexivity|]. vm_compute. reflexivity.
Qed.

Print Assumptions C89_recovered_rows_whatever_the_values.
Print Assumptions C89_recovered_sets_whatever_the_values.
