(* C60: which error a call reports, when its values may also be values that are encoded wrongly. *)
From Coq Require Import String List NArith ZArith Arith Bool Lia ZifyN ZifyNat ZifyBool.
From Coq Require Import List.
From Verif Require Import Base GoSlice SpecWire SpecMsg Text Values AnyModel ExprModel MsgModel Builder
  SpecValue SpecProg SpecUnit SpecError ValueProofs MsgProofs BuilderProofs UnitProofs ShapeProofs ErrorProofs SpecTyped TypedProofs TypedRunProofs TypedErrorProofs ThmTyped.
From Verif Require ThmValues ThmDefects ThmBuilder ThmError.
Import ListNotations.
Open Scope N_scope.
Open Scope list_scope.

Lemma typed_error : forall (E : Env) b c e, empty b -> typed_call word32 c -> call_fits c -> call_quiet c -> call_error c e -> fails b (one_call c) e.
Proof.
  intros E b c e (_ & Hb & Hd) Hok Hf Hq He. set (dis := set_nth (map disabled [b]) 0 true).
  destruct (typed_call_total dis c b Hok Hf (or_introl Hq) Hd Hb) as (b1 & H1 & H2 & _).
  exists b1. eexists. split; [cbn [one_call run nth_error]; fold dis; rewrite H1; reflexivity|].
  unfold exec_call, guarded in H1. rewrite Hd, Hb in H1.
  change (match c with CStmtExecute stmt args => stmt_execute (buf b) _ _ | _ => _ end) with (run_call dis c E (buf b)) in H1.
  pose proof (TypedErrorProofs.call_gives dis c e (buf b) He Hok Hf) as Hg. destruct (run_call dis c E (buf b)) as [[q eo]|]; cbn [bind] in H1; [|discriminate].
  rewrite (Hg q eo eq_refl) in H1. assert (b1 = mkb q (Some e) false) by congruence. subst b1. reflexivity.
Qed.

(* C60, whatever the values: the error of a call is the one of its first faulty part, with the position of that part. *)
Theorem C60_error_whatever_the_values : forall (E : Env) b c e, empty b -> typed_call word32 c -> call_fits c -> call_quiet c ->
  call_error c e -> fails b (one_call c) e /\ forall bs, ~ delivers b (one_call c) bs.
Proof.
  intros E b c e Hb Hok Hf Hq He. pose proof (typed_error E b c e Hb Hok Hf Hq He) as H. split; [exact H|].
  intros bs (b1 & out1 & R1 & S1). destruct H as (b2 & out2 & R2 & S2). rewrite R1 in R2. injection R2 as -> ->. congruence.
Qed.

Theorem C60_row_error_whatever_the_values : forall (E : Env) b name cols row e, empty b -> go_string name -> Forall go_string cols ->
  typed_values word32 row -> row_fits name cols row -> Forall panic_free row -> row_error row e -> fails b (one_row name cols row) e.
Proof.
  intros E b name cols row e (_ & Hb & Hd) Hn Hc Hr Hf Hq He. destruct (typed_insert_row_total name cols row b Hn Hc Hr Hf (or_introl Hq) Hd Hb) as (b1 & o & H1 & H2 & _).
  exists b1. eexists. split; [cbn [one_row run nth_error]; rewrite H1; reflexivity|].
  unfold b_insert_row in H1. rewrite Hd, Hb in H1. cbn zeta in H1. destruct (msg_insert (buf b) name cols) as [p1|]; cbn [bind] in H1; [|discriminate].
  assert (Hw : total_weight weight row < 2 ^ 61) by (unfold row_fits, row_size, row_weight in Hf; lia).
  pose proof (TypedErrorProofs.row_gives row e p1 He Hr Hw) as Hg. destruct (append_insert_row p1 row) as [[p2 eo]|]; cbn [bind] in H1; [|discriminate].
  rewrite (Hg p2 eo eq_refl) in H1. assert (b1 = mkb p2 (Some e) false) by congruence. subst b1. reflexivity.
Qed.

(* Conversely, a call is sent, or its error is that of a faulty part of it. *)
Theorem C60_every_failure_whatever_the_values : forall (E : Env) b c, empty b -> typed_call word32 c -> call_fits c -> call_quiet c -> call_settled c ->
  (exists bs, delivers b (one_call c) bs) \/ exists e, call_error c e /\ fails b (one_call c) e.
Proof.
  intros E b c Hb Hok Hf Hq Hs. destruct (call_named c Hq Hs) as [Ha|[e He]].
  - left. apply C08_accepted_are_sent_whatever_the_values; cbn; auto.
  - right. exists e. split; [exact He|]. apply typed_error; assumption.
Qed.

(* ---- the hypotheses can be met ---- *)

(* Values that are encoded wrongly are no faults: the error is that of the value after them. *)
Definition wrong_then_faulty : call :=
  CInsert (s2b "t") [s2b "a"; s2b "b"] [[ThmDefects.least; VFunc (Some (EVariable ThmValues.long_name))]; [ThmDefects.least; VUser None (Some ThmError.boom)]].
Example wrong_error_meets : call_error wrong_then_faulty (EColumnErr 1 (EUser 7)) /\ typed_call false wrong_then_faulty /\ ~ call_ok false wrong_then_faulty /\
  call_fits wrong_then_faulty /\ call_quiet wrong_then_faulty /\ call_settled wrong_then_faulty.
Proof.
  pose proof long_name_string as Hn. pose proof (ThmDefects.least_well_formed false) as Hl. split; [|split; [|split; [|split; [|split]]]].
  - apply (CE_insert _ _ [[ThmDefects.least; VFunc (Some (EVariable ThmValues.long_name))]] [ThmDefects.least; VUser None (Some ThmError.boom)] []); [repeat constructor|reflexivity|].
    apply (RE [ThmDefects.least] _ []); [repeat constructor|]. constructor. apply ThmError.boom_raises.
  - unfold wrong_then_faulty. cbn [typed_call]. split; [ThmBuilder.ok|]. split; [ThmBuilder.ok|].
    constructor; [constructor; [exact Hl|constructor; [exact Hn|constructor]]|]. constructor; [|constructor]. constructor; [exact Hl|]. constructor; [|constructor].
    ThmBuilder.ok; try (right; unfold ThmError.boom; congruence).
  - intros (_ & _ & H). inversion_clear H as [|? ? H1 _]. inversion_clear H1 as [|? ? [_ H2] _]. cbn in H2. destruct H2 as [H2 _]. apply H2. reflexivity.
  - vm_compute. reflexivity.
  - cbn. repeat constructor. intros p tag. exists p. eexists. split; [reflexivity|apply Nat.le_refl].
  - assert (Hb : answers dexpr ThmError.boom) by (right; eexists; apply ThmError.boom_raises). cbn. repeat first [exact Hb|exact I|constructor].
Qed.

Print Assumptions C60_error_whatever_the_values.
Print Assumptions C60_row_error_whatever_the_values.
Print Assumptions C60_every_failure_whatever_the_values.
