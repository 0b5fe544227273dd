(* C75 and C88: what a server reads with the .proto files, and what expressions stand for, when arguments may also be values that are encoded wrongly. *)
From Coq Require Import String List NArith ZArith Arith Bool Lia ZifyN ZifyNat ZifyBool.
From Coq Require Import List.
From Verif Require Import Base GoSlice SpecWire SpecMsg Text Values MsgModel Builder SpecValue SpecProg SpecUnit SpecSchema SpecProto SpecNames ProtoProofs
  SpecTyped TypedProofs TypedRunProofs TypedFrameProofs.
From Verif Require Alias Operators ThmAlias ThmValues ThmBuilder ThmTyped.
Import ListNotations.
Open Scope N_scope.
Open Scope list_scope.

(* A server that reads with the .proto files reads the frame as this message: its name, and the values of its fields. *)
Definition server_reads_frame (f : N * bytes) (m : msg) : Prop :=
  message_name (fst f) client_messages = Some (fst (name_msg m)) /\ decode false (fst (name_msg m)) (snd f) = Some (snd (name_msg m)).

Definition named (f : N * bytes) : Prop := exists name, message_name (fst f) client_messages = Some name.
Lemma reads_named : forall f m, SpecTyped.reads f m -> named f.
Proof. intros f m H. eexists. exact (proj1 (read_msg false _ _ _ H)). Qed.
Lemma frames_named : forall w pr fs ids out, prog_frames w pr fs ids out -> Forall named fs.
Proof.
  intros w pr fs ids out H. induction H as [|c next f fs ids out [Hc _] _ IH|name cols row next id f g fs ids out [Hr _] Hg _ IH|k body next open fs0 fs1 ids1 out1 g fs2 ids2 out _ Ho _ IH1 Hg _ IH2].
  - constructor.
  - constructor; [|exact IH]. unfold named. rewrite Hc. destruct c; eexists; reflexivity.
  - constructor; [unfold named; rewrite Hr; eexists; reflexivity|]. constructor; [exact (reads_named _ _ Hg)|exact IH].
  - apply Forall_app. split; [clear - Ho; induction Ho; constructor; [eapply reads_named; eassumption|assumption]|].
    apply Forall_app. split; [exact IH1|]. constructor; [exact (reads_named _ _ Hg)|exact IH2].
Qed.

(* C75, whatever the values: a server that reads with the .proto files finds as many frames as the program has messages, each of a type that has a name there. What it reads
   is what the program says wherever the message of the program holds no value that is encoded wrongly. *)
Theorem C75_whatever_the_values : forall (E : Env) b pr bs, empty b -> typed_prog word32 pr -> delivers b pr bs -> nlen bs < 2 ^ 32 ->
  exists fs ids out, dframes bs = Some fs /\ prog_frames word32 pr fs ids out /\
    Forall (fun f => exists name, message_name (fst f) client_messages = Some name) fs /\
    forall f m, In f fs -> SpecTyped.reads f m -> server_reads_frame f m.
Proof.
  intros E b pr bs He Hok Hd Hl. destruct (ThmTyped.C120_only_its_own_message E b pr bs He Hok Hd Hl) as (fs & ids & out & _ & Hf & Hp & _).
  exists fs, ids, out. split; [exact Hf|]. split; [exact Hp|]. split; [exact (frames_named _ _ _ _ _ Hp)|].
  intros f m _ H. exact (read_msg false _ _ _ H).
Qed.

(* C88, whatever the values: what Delete sends for In at any later time is what it sends for the operands of the time when In was called. *)
Theorem C88_operands_are_sent_whatever_the_values : forall (E : Env) m a b v vs later f, ThmAlias.memoryless a -> Forall ThmAlias.memoryless (map (Alias.element m) b) ->
  ThmAlias.encoded_as m a v -> Forall2 (ThmAlias.encoded_as m) (map (Alias.element m) b) vs -> ThmAlias.encoded_as later (Alias.In m a b) (VFunc (Some f)) ->
  forall pipe name bs, delivers pipe (one_call (CDelete name (Some f))) bs <-> delivers pipe (one_call (CDelete name (Some (Operators.In v vs)))) bs.
Proof.
  intros E m a b v vs later f Ha Hb Hv Hvs Hf. destruct (ThmAlias.C88_operators_keep_their_operands m a b Ha Hb) as (v' & vs' & Hv' & Hvs' & K).
  assert (v' = v) as -> by exact (ThmAlias.encoded_once _ _ _ _ Hv' Hv).
  assert (vs' = vs) as ->.
  { clear - Hvs Hvs'. revert vs' Hvs'. induction Hvs as [|x w l ws Hx H IH]; intros vs' H'; inversion H'; subst; [reflexivity|].
    f_equal; [eapply ThmAlias.encoded_once; eassumption|apply IH; assumption]. }
  pose proof (ThmAlias.encoded_once _ _ _ _ Hf (proj1 (K later))) as Q. injection Q as ->. intros pipe name bs. tauto.
Qed.

(* ---- the hypotheses can be met ---- *)
#[local] Existing Instance ThmBuilder.plain.

(* A Delete with a variable name that is too long, and a statement after it. *)
Definition wrong_then_right : prog := PCall 0 (CDelete (s2b "u") (Some (EVariable ThmValues.long_name))) (one_call (CStmtExecute (s2b "DO 1") [])).
Example wrong_then_right_meets : exists bs, empty (new_pipe 0) /\ typed_prog word32 wrong_then_right /\ ~ prog_ok word32 wrong_then_right /\
  delivers (new_pipe 0) wrong_then_right bs /\ nlen bs < 2 ^ 32.
Proof.
  eexists. split; [split; [reflexivity|split; reflexivity]|].
  split; [unfold wrong_then_right, one_call; cbn [typed_prog typed_call]; split; [split; [ThmBuilder.ok|exact ThmTyped.long_name_string]|split; [split; [ThmBuilder.ok|constructor]|constructor]]|].
  split; [unfold wrong_then_right; cbn [prog_ok call_ok]; intros ((_ & H) & _); vm_compute in H; destruct H as [_ H]; apply H; reflexivity|].
  split; [unfold delivers; do 2 eexists; split; vm_compute; reflexivity|]. vm_compute. reflexivity.
Qed.
(* Long variable names among the operands, and another memory later. *)
Definition wrong_operand := Alias.AVal (VFunc (Some (EVariable ThmValues.long_name))).
Example wrong_operands_meet : let m := {| Alias.element := fun _ => wrong_operand; Alias.content := fun _ => [] |} in
  let later := {| Alias.element := fun _ => Alias.AVal (VInt 7%Z); Alias.content := fun _ => [] |} in
  let v := VFunc (Some (EVariable ThmValues.long_name)) in
  ThmAlias.memoryless wrong_operand /\ Forall ThmAlias.memoryless (map (Alias.element m) [0%nat; 1%nat]) /\ ThmAlias.encoded_as m wrong_operand v /\
  Forall2 (ThmAlias.encoded_as m) (map (Alias.element m) [0%nat; 1%nat]) [v; v] /\
  ThmAlias.encoded_as later (Alias.In m wrong_operand [0%nat; 1%nat]) (VFunc (Some (Operators.In v [v; v]))).
Proof.
  assert (H : forall m, ThmAlias.encoded_as m wrong_operand (VFunc (Some (EVariable ThmValues.long_name)))) by (intros m; exists 1%nat; reflexivity).
  cbv zeta. split; [constructor|]. split; [repeat constructor|]. split; [apply H|]. split; [constructor; [apply H|constructor; [apply H|constructor]]|]. exists 2%nat. reflexivity.
Qed.

Print Assumptions C75_whatever_the_values.
Print Assumptions C88_operands_are_sent_whatever_the_values.
