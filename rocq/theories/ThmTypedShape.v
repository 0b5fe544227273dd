(* Transactions, expectation blocks and InsertRow (C13, C15, C17) when arguments may also be values that are encoded wrongly. *)
From Coq Require Import String List NArith ZArith Arith Bool Lia ZifyN ZifyNat ZifyBool.
From Coq Require Import List.
From Verif Require Import Base GoSlice SpecWire SpecMsg WireProofs Text Values MsgModel Builder
  SpecValue SpecProg SpecUnit SpecTyped ThmValues ThmBuilder ThmDefects ThmTyped.
Import ListNotations.
Open Scope N_scope.
Open Scope list_scope.

(* ---- the types of frames that can be read ---- *)

Definition msg_type (m : msg) : option N :=
  match m with
  | MStmtExecute _ _ => Some 12
  | MExpectOpen _ _ => Some 24
  | MExpectClose => Some 25
  | _ => None
  end.
Lemma dmsg_type ty pl m t : dmsg ty pl = Some m -> msg_type m = Some t -> ty = t.
Proof.
  intros H Ht. destruct ty as [|p]; [discriminate|]. unfold dmsg in H.
  repeat match type of H with context [match ?q with _ => _ end] => is_var q; destruct q as [q|q|]; try discriminate H end;
  unfold dcapabilities_set, dauth_start, dauth_continue, dreset, dstmt_execute, dinsert, dupdate, ddelete, dexpect_open, dexpect_close, dprepare, dexecute, ddeallocate, obind in H;
  repeat match type of H with context [match ?x with _ => _ end] => destruct x; try discriminate H end;
  injection H as <-; cbn [msg_type] in Ht; congruence.
Qed.
Lemma statement_type f s : reads f (statement s) -> fst f = 12.
Proof. intros H. exact (dmsg_type _ _ _ _ H eq_refl). Qed.

(* ---- C13 ---- *)

(* C13: whatever the arguments of the calls in it, a transaction is the statements of its level, the messages of the callback, and COMMIT. *)
Theorem C13_bracketed_whatever_the_values : forall (E : Env) b level body bs, empty b -> typed_prog word32 body ->
  delivers b (one_block (KTx level) body) bs -> nlen bs < 2 ^ 32 ->
  exists opening fs0 inner g ids out, tx_opening level = Some opening /\ bs = concat (map frame (fs0 ++ inner ++ [g])) /\
    Forall2 reads fs0 (map statement opening) /\ prog_frames word32 body inner ids out /\ reads g (statement (s2b "COMMIT")).
Proof.
  intros E b level body bs He Hok Hd Hl.
  assert (Hok' : typed_prog word32 (one_block (KTx level) body)) by (cbn [one_block typed_prog]; repeat split; [exact Hok|]; intros; constructor).
  destruct (C120_only_its_own_message E b _ bs He Hok' Hd Hl) as (fs & ids & out & Hbs & _ & Hp & _).
  unfold one_block in Hp. inversion Hp as [| | |? ? ? open fs0 fs1 ids1 out1 g fs2 ids2 ? Ho H0 H1 Hg H2]; subst.
  inversion H2; subst. cbn [opening closing] in *. destruct (tx_opening level) as [l|] eqn:Hlv; [|discriminate]. injection Ho as <-.
  exists l, fs0, fs1, g, ids1, out1. rewrite app_nil_r. auto.
Qed.

(* ---- C15 ---- *)

Lemma nested_app : forall a b, nested a -> nested b -> nested (a ++ b).
Proof.
  intros a b Ha Hb. induction Ha as [|f fs H1 H2 Ha IH|o body c fs Ho Hbo IHb Hc Ha IH]; cbn [app]; [assumption|constructor; assumption|].
  rewrite <- app_assoc. cbn [app]. constructor; assumption.
Qed.
Lemma call_type_plain c : call_type c <> 24 /\ call_type c <> 25.
Proof. destruct c; split; discriminate. Qed.
Lemma frames_nested : forall w pr fs ids out, prog_frames w pr fs ids out -> nested fs.
Proof.
  intros w pr fs ids out H.
  induction H as [|c next f fs ids out [Hc _] H IH|name cols row next id f g fs ids out [Hr _] Hg H IH|k body next open fs0 fs1 ids1 out1 g fs2 ids2 out Ho H0 H1 IH1 Hg H2 IH2].
  - constructor.
  - destruct (call_type_plain c). constructor; [congruence..|exact IH].
  - apply statement_type in Hg. constructor; [rewrite Hr; discriminate..|]. constructor; [rewrite Hg; discriminate..|exact IH].
  - destruct k as [level|ctx]; cbn [opening closing] in *.
    + destruct (tx_opening level) as [l|]; [|discriminate]. injection Ho as <-. apply nested_app.
      * clear - H0. remember (map statement l) as ms eqn:Hms. revert l Hms. induction H0 as [|f m fs ms Hf H IH]; intros l Hms; [constructor|].
        destruct l as [|s l]; [discriminate|]. cbn [map] in Hms. injection Hms as -> ->. apply statement_type in Hf.
        constructor; [rewrite Hf; discriminate..|]. exact (IH l eq_refl).
      * apply nested_app; [exact IH1|]. apply statement_type in Hg. cbn [app]. constructor; [rewrite Hg; discriminate..|exact IH2].
    + injection Ho as <-. inversion H0 as [|f m ? ? Hf Hn]; subst. inversion Hn; subst. cbn [app]. apply N_block; try assumption.
      * exact (dmsg_type _ _ _ _ Hf eq_refl).
      * exact (dmsg_type _ _ _ _ Hg eq_refl).
Qed.

(* C15: whatever the arguments, every expectation block that is opened is closed, in the order of nesting, and no other is closed. *)
Theorem C15_balanced_whatever_the_values : forall (E : Env) b pr bs, empty b -> typed_prog word32 pr -> delivers b pr bs -> nlen bs < 2 ^ 32 ->
  exists fs, bs = concat (map frame fs) /\ nested fs.
Proof.
  intros E b pr bs He Hok Hd Hl. destruct (C120_only_its_own_message E b pr bs He Hok Hd Hl) as (fs & ids & out & Hbs & _ & Hp & _).
  exists fs. split; [exact Hbs|exact (frames_nested _ _ _ _ _ Hp)].
Qed.

(* C15: and ExpectFailOnError puts the messages of its callback into one block with the condition "no error". *)
Theorem C15_expect_fail_whatever_the_values : forall (E : Env) b context body bs, empty b -> context < 2 -> typed_prog word32 body ->
  delivers b (one_block (KExpectFailOnError context) body) bs -> nlen bs < 2 ^ 32 ->
  exists f inner g ids out, bs = concat (map frame (f :: inner ++ [g])) /\ reads f (MExpectOpen context [CNoError (s2b "1")]) /\
    prog_frames word32 body inner ids out /\ reads g MExpectClose.
Proof.
  intros E b context body bs He Hc Hok Hd Hl.
  assert (Hok' : typed_prog word32 (one_block (KExpectFailOnError context) body)) by (cbn [one_block typed_prog]; repeat split; [exact Hc|exact Hok|]; intros; constructor).
  destruct (C120_only_its_own_message E b _ bs He Hok' Hd Hl) as (fs & ids & out & Hbs & _ & Hp & _).
  unfold one_block in Hp. inversion Hp as [| | |? ? ? open fs0 fs1 ids1 out1 g fs2 ids2 ? Ho H0 H1 Hg H2]; subst.
  inversion H2; subst. cbn [opening closing] in *. injection Ho as <-. inversion H0 as [|f m ? ? Hf Hn]; subst. inversion Hn; subst.
  exists f, fs1, g, ids1, out1. rewrite app_nil_r. auto.
Qed.

(* ---- C17 ---- *)

(* C17: whatever the arguments, also of the row itself, an InsertRow is an insert message and then the assignment of the id to the variable that
   the rest of the program gets, and no other InsertRow of the program uses that variable. *)
Theorem C17_insert_row_whatever_the_values : forall (E : Env) b name cols row next bs, empty b -> typed_prog word32 (PInsertRow 0 name cols row next) ->
  delivers b (PInsertRow 0 name cols row next) bs -> nlen bs < 2 ^ 32 ->
  exists id f g fs ids out, bs = concat (map frame (f :: g :: fs)) /\ row_frame word32 name cols row f /\
    reads g (statement (s2b "SET " ++ id ++ s2b " = LAST_INSERT_ID()")) /\
    prog_frames word32 (next (Some (EVariable id))) fs ids out /\ NoDup (id :: ids).
Proof.
  intros E b name cols row next bs He Hok Hd Hl. destruct (C120_only_its_own_message E b _ bs He Hok Hd Hl) as (fs & ids & out & Hbs & _ & Hp & Hn).
  inversion Hp as [| |? ? ? ? id f g fs' ids' ? Hf Hg H|]; subst. exists id, f, g, fs', ids', out. auto.
Qed.

(* ---- the hypotheses can be met ---- *)

(* Two rows with wrong values, the second in an expectation block of its own. *)
Definition wrong_rows : prog :=
  PInsertRow 0 (s2b "t") [s2b "ago"] [least] (fun v =>
    PBlock 0 (KExpectFailOnError 1) (PInsertRow 0 (s2b "u") [s2b "ago"] [least] (fun w => Ret None [])) (fun _ => Ret None [])).
Example wrong_rows_meet : typed_prog (@word32 plain) wrong_rows /\ ~ prog_ok (@word32 plain) wrong_rows.
Proof.
  split.
  - unfold wrong_rows. change (@word32 plain) with false. pose proof (least_well_formed false).
    cbn [typed_prog]. unfold typed_values. ok; try assumption.
  - unfold wrong_rows. cbn [prog_ok]. intros (_ & _ & H & _). inversion_clear H as [|? ? [_ H1] _]. cbn in H1. lia.
Qed.
Example wrong_rows_sent : exists bs fs, @delivers plain (new_pipe 0) (one_block (KTx 5) wrong_rows) bs /\ dframes bs = Some fs /\ map fst fs = [12; 18; 12; 24; 18; 12; 25; 12].
Proof. eexists _, _. split; [eexists _, _; split; vm_compute; reflexivity|]. split; [vm_compute; reflexivity|]. vm_compute. reflexivity. Qed.

Print Assumptions C13_bracketed_whatever_the_values.
Print Assumptions C15_balanced_whatever_the_values.
Print Assumptions C15_expect_fail_whatever_the_values.
Print Assumptions C17_insert_row_whatever_the_values.
