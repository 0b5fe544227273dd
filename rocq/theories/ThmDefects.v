(* What the hypothesis no_known_defect of C01, C02, C03 and C08 leaves out: without it they are false. *)
From Coq Require Import String List NArith ZArith Arith Bool Lia ZifyN ZifyNat ZifyBool.
From Coq Require Import List.
From Verif Require Import Base GoSlice SliceProofs Varint VarintProofs SpecWire SpecMsg WireProofs Pure Text TextProofs Values AnyModel ExprModel MsgModel Builder
  AnyProofs StringProofs SpecValue SpecProg SpecUnit ValueProofs ThmValues ThmBuilder.
Import ListNotations.
Open Scope N_scope.
Open Scope list_scope.

Ltac Zify.zify_post_hook ::= Z.div_mod_to_equations.

Definition least : gvalue := VDuration (- 2 ^ 63).
Lemma least_well_formed : forall w, well_formed w least.
Proof. intros w. cbn. unfold in_int. cbn. lia. Qed.

(* A duration arrives as the text the code makes of it, right or wrong. *)
Lemma duration_arrives : forall w d tag, 1 <= tag <= 15 ->
  arrives dany (argument (VDuration d) tag) w tag (SOctets (duration_text w d) None) /\
  arrives dexpr (expression (VDuration d) tag) w tag (XLiteral (SOctets (duration_text w d) None)).
Proof.
  intros w d tag Ht. destruct (duration_text_bytes w d) as [B L].
  assert (Hok : scalar_ok (SOctets (duration_text w d) None)) by (cbn; split; [assumption|]; split; [lia|exact I]).
  destruct (pany_ok tag _ ltac:(lia) Hok) as (pl & A1 & A2). destruct (plit_ok tag _ ltac:(lia) Hok) as (pl2 & B1 & B2). split.
  - exists (pany tag (SOctets (duration_text w d) None)), pl. split; [apply A1|]. split; [exact A2|]. intros E HE p.
    destruct (emits_any_duration tag d (duration_text w d) ltac:(lia) L) with (p := p) as [sp H].
    + intros q. rewrite <- HE. apply append_duration_text.
    + exists sp. unfold argument, append_any, type_switch, okm. rewrite H. reflexivity.
  - exists (plit tag (SOctets (duration_text w d) None)), pl2. split; [apply B1|]. split; [exact B2|]. intros E HE p.
    destruct (emits_expr_duration tag d (duration_text w d) ltac:(lia) L) with (p := p) as [sp H].
    + intros q. rewrite <- HE. apply append_duration_text.
    + exists sp. unfold expression, append_expr, okm. rewrite H. reflexivity.
Qed.

(* At most one thing arrives. *)
Lemma arrives_unique : forall {A} (dec : bytes -> option A) f w tag x y, arrives dec f w tag x -> arrives dec f w tag y -> x = y.
Proof.
  intros A dec f w tag x y (b1 & p1 & H1 & H2 & H3) (b2 & p2 & G1 & G2 & G3).
  destruct (H3 (env0 w) eq_refl (mk [] [])) as [s1 E1]. destruct (G3 (env0 w) eq_refl (mk [] [])) as [s2 E2].
  rewrite E1 in E2. cbn [data app] in E2. assert (b1 = b2) by congruence. subst b2. rewrite H1 in G1. assert (p1 = p2) by congruence. congruence.
Qed.

(* C01 as stated is false: the least duration is accepted, and what arrives is not its value. *)
Theorem C01_refuted : forall w tag, 1 <= tag <= 15 -> well_formed w least /\ arg_accepted least /\ weight least < 2 ^ 61 /\
  exists s, arrives dany (argument least tag) w tag s /\ ~ any_denotes least s.
Proof.
  intros w tag Ht. split; [apply least_well_formed|]. split; [right; exact I|]. split; [vm_compute; reflexivity|].
  exists (SOctets (duration_text w (- 2 ^ 63)) None). pose proof (proj1 (duration_arrives w (- 2 ^ 63) tag Ht)) as Ha. split; [exact Ha|].
  intros H. unfold least in H. inversion H as [v s Hl| | |]; subst. inversion Hl; subst. exact (proj2 (proj1 C23_refuted w) tag _ Ht Ha ltac:(assumption)).
Qed.

(* C02 as stated is false: so for literals. *)
Theorem C02_refuted : forall w tag, 1 <= tag <= 15 -> well_formed w least /\ is_literal least /\ weight least < 2 ^ 61 /\
  exists s, arrives dexpr (expression least tag) w tag (XLiteral s) /\ ~ lit_denotes least s.
Proof.
  intros w tag Ht. split; [apply least_well_formed|]. split; [exact I|]. split; [vm_compute; reflexivity|].
  exists (SOctets (duration_text w (- 2 ^ 63)) None). destruct (duration_arrives w (- 2 ^ 63) tag Ht) as [Ha He]. split; [exact He|].
  intros Hl. unfold least in Hl. inversion Hl; subst. exact (proj2 (proj1 C23_refuted w) tag _ Ht Ha ltac:(assumption)).
Qed.

(* C03 as stated is false: a variable with a name of 124 bytes or more arrives as nothing at all. *)
Theorem C03_refuted : forall w name tag, 1 <= tag <= 15 -> go_string name -> 123 < nlen name < 2 ^ 60 ->
  well_formed_fun w (EVariable name) /\ fun_accepted (EVariable name) /\ fun_weight (EVariable name) < 2 ^ 61 /\
  forall e, ~ arrives dexpr (function (EVariable name) tag) w tag e.
Proof.
  intros w name tag Ht Hn [H1 H2]. split; [exact Hn|]. split; [exact I|]. split; [cbn [fun_weight]; lia|]. apply C22_refuted; assumption.
Qed.

(* C08 as stated is false: no error is recorded, and what is sent is no message; or it is one that says something else. *)
Definition long_criteria : prog := one_call (CDelete (s2b "t") (Some (EOperator (s2b "==") [VFunc (Some (EColumn (s2b "a"))); VFunc (Some (EVariable long_name))]))).
Definition longest_ago : prog := one_call (CStmtExecute (s2b "SELECT ?") [least]).
Theorem C08_refuted :
  (exists bs, @delivers plain (new_pipe 0) long_criteria bs /\ dstream bs = None) /\
  (exists bs ms, @delivers plain (new_pipe 0) longest_ago bs /\ dstream bs = Some ms /\ forall ids out, ~ prog_msgs longest_ago ms ids out).
Proof.
  split.
  - eexists. split; [eexists _, _; split; vm_compute; reflexivity|]. vm_compute. reflexivity.
  - eexists _, [MStmtExecute (s2b "SELECT ?") [SOctets (duration_text false (- 2 ^ 63)) None]].
    split; [eexists _, _; split; vm_compute; reflexivity|]. split; [vm_compute; reflexivity|].
    intros ids out H. unfold longest_ago, one_call in H. inversion H; subst.
    match goal with Hc : call_denotes _ _ |- _ => inversion Hc; subst end.
    match goal with Hf : Forall2 any_denotes _ _ |- _ => inversion Hf; subst end.
    destruct (C01_refuted false 1 ltac:(lia)) as (_ & _ & _ & s & Ha & Hn).
    pose proof (arrives_unique _ _ _ _ _ _ Ha (proj1 (duration_arrives false (- 2 ^ 63) 1 ltac:(lia)))) as ->. contradiction.
Qed.

Print Assumptions C01_refuted.
Print Assumptions C02_refuted.
Print Assumptions C03_refuted.
Print Assumptions C08_refuted.
