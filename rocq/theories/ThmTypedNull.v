(* C05: NULL is sent exactly for nil, also for durations that are encoded wrongly. *)
From Coq Require Import String List NArith ZArith Arith Bool Lia ZifyN ZifyNat ZifyBool.
From Coq Require Import List.
From Verif Require Import Base GoSlice SliceProofs SpecWire SpecMsg WireProofs Pure Text TextProofs Values AnyModel ExprModel MsgModel AnyProofs StringProofs SpecValue ValueProofs ThmValues
  TypedProofs.
From Verif Require ThmDefects.
Import ListNotations.
Open Scope N_scope.
Open Scope list_scope.

Fixpoint deep_duration (v : gvalue) (d : Z) : Prop := match v with VDuration x => x = d | VPtr _ v => deep_duration v d | _ => False end.

Lemma defect_or_not : forall w v, arg_behind_pointer v -> no_known_defect w v \/ exists d, deep_duration v d.
Proof. intros w v. induction v; intros H; cbn in *; try (left; exact Logic.I); try contradiction; eauto. Qed.
Lemma deep_switch : forall v d, deep_duration v d -> ~ is_nil v /\ forall (E : Env) p tag, type_switch v p tag = okm (append_any_duration p tag d).
Proof.
  intros v d. induction v; intros H; cbn [deep_duration] in H; try contradiction.
  - subst. split; [intros []|reflexivity].
  - destruct (IHv H) as [N S]. split; [exact N|]. intros E p tag. rewrite <- S. destruct iface; [reflexivity|].
    destruct v as [| | | | | | | | | | | | | | | | | | | | | | | | | | |[]]; reflexivity.
Qed.
Lemma arrives_once : forall {A} (dec : bytes -> option A) enc w tag x y, arrives dec enc w tag x -> arrives dec enc w tag y -> x = y.
Proof.
  intros A dec enc w tag x y (bs & pl & D & X & F) (bs2 & pl2 & D2 & X2 & F2). set (E0 := {| fresh := fun _ _ => []; word32 := w |}).
  destruct (F E0 eq_refl (mk [] [])) as [x1 G1]. destruct (F2 E0 eq_refl (mk [] [])) as [x2 G2]. rewrite G1 in G2. cbn in G2. congruence.
Qed.
Lemma duration_arrives : forall w d tag, 1 <= tag <= 15 ->
  arrives dany (fun E p => okm (append_any_duration p tag d)) w tag (SOctets (duration_text w d) None) /\
  arrives dexpr (expression (VDuration d) tag) w tag (XLiteral (SOctets (duration_text w d) None)).
Proof.
  intros w d tag Ht. destruct (duration_scalar w d) as [D1 D2]. split.
  - destruct (pany_ok tag _ ltac:(lia) D1) as (pl & [_ R] & Hd). exists (pany tag (SOctets (duration_text w d) None)), pl. split; [exact R|]. split; [exact Hd|].
    intros E HE p. subst w. destruct (emits_any_duration tag d (duration_text word32 d) ltac:(lia) D2 (append_duration_text d) p) as [sp ->]. exists sp. reflexivity.
  - destruct (plit_ok tag _ ltac:(lia) D1) as (pl & [_ R] & Hd). exists (plit tag (SOctets (duration_text w d) None)), pl. split; [exact R|]. split; [exact Hd|].
    intros E HE p. subst w. unfold expression. cbn [append_expr]. destruct (emits_expr_duration tag d (duration_text word32 d) ltac:(lia) D2 (append_duration_text d) p) as [sp ->]. exists sp. reflexivity.
Qed.

(* C05, whatever the values: of the arguments that are accepted, exactly the nil ones arrive as NULL. *)
Theorem C05_null_whatever_the_values : forall w v tag, 1 <= tag <= 15 -> well_formed w v ->
  arg_accepted v -> weight v < 2 ^ 61 -> (is_nil v <-> arrives dany (argument v tag) w tag SNull).
Proof.
  intros w v tag Ht Hw Ha Hl. assert (C : no_known_defect w v \/ exists d, deep_duration v d) by (destruct Ha as [->|Ha]; [left; exact Logic.I|apply defect_or_not; exact Ha]).
  destruct C as [Hd|[d Hd]]; [apply C05_null_exactly_for_nil; assumption|]. destruct (deep_switch v d Hd) as [N S]. split; [intros H; contradiction|].
  intros H. exfalso. assert (A : arrives dany (argument v tag) w tag (SOctets (duration_text w d) None)).
  { destruct (duration_arrives w d tag Ht) as [(bs & pl & D & X & F) _]. exists bs, pl. split; [exact D|]. split; [exact X|]. intros E HE p. destruct (F E HE p) as [sp Hp]. exists sp.
    rewrite <- Hp, <- S. unfold argument. destruct v; try contradiction; reflexivity. }
  pose proof (arrives_once _ _ _ _ _ _ H A). discriminate.
Qed.

(* The same for values of expressions. *)
Theorem C05_null_expressions_whatever_the_values : forall w v tag, 1 <= tag <= 15 -> well_formed w v ->
  v = VNil \/ is_literal v -> weight v < 2 ^ 61 -> (is_nil v <-> arrives dexpr (expression v tag) w tag (XLiteral SNull)).
Proof.
  intros w v tag Ht Hw Ha Hl. assert (C : no_known_defect w v \/ exists d, v = VDuration d) by (destruct v; cbn in *; eauto; destruct Ha as [Ha|Ha]; try discriminate; try contradiction).
  destruct C as [Hd|[d ->]]; [apply C05_null_exactly_for_nil_expressions; assumption|]. split; [intros []|].
  intros H. exfalso. pose proof (arrives_once _ _ _ _ _ _ H (proj2 (duration_arrives w d tag Ht))). discriminate.
Qed.

(* ---- the hypotheses can be met ---- *)
Example null_meets : well_formed false (VPtr false ThmDefects.least) /\ arg_accepted (VPtr false ThmDefects.least) /\ weight (VPtr false ThmDefects.least) < 2 ^ 61 /\
  ~ no_known_defect false (VPtr false ThmDefects.least) /\ well_formed true ThmDefects.least /\ is_literal ThmDefects.least.
Proof.
  split; [exact (ThmDefects.least_well_formed false)|]. split; [right; exact Logic.I|]. split; [vm_compute; reflexivity|]. split; [cbn; intros [H _]; apply H; reflexivity|].
  split; [exact (ThmDefects.least_well_formed true)|exact Logic.I].
Qed.

Print Assumptions C05_null_whatever_the_values.
Print Assumptions C05_null_expressions_whatever_the_values.
