(* Properties of the encoding of single values: C01-C06, C22-C24, C26, C51. *)
From Coq Require Import String List NArith ZArith Arith Bool Lia ZifyN ZifyNat ZifyBool.
From Coq Require Import List.
From Verif Require Import Base GoSlice SliceProofs Varint VarintProofs SpecWire SpecMsg WireProofs Pure Text TextProofs Values AnyModel ExprModel
  AnyProofs StringProofs SpecValue ValueProofs.
Import ListNotations.
Open Scope N_scope.
Open Scope list_scope.

Ltac Zify.zify_post_hook ::= Z.div_mod_to_equations.

(* ---- what it means that a value arrives ---- *)

(* Encoding v under the field number tag appends to any buffer, in any environment with ints of
   this width, the same bytes, which are one field of that number holding a message that decodes
   to x. *)
Definition arrives {A} (decode : bytes -> option A) (encode : Env -> slice -> res (slice * option err)) (w32 : bool) (tag : N) (x : A) : Prop :=
  exists bs payload,
    dfields bs = Some [(tag, WLen payload)] /\ decode payload = Some x /\
    forall E : Env, @word32 E = w32 -> forall p, exists spare, encode E p = Ok (mk (data p ++ bs) spare, None).

Definition argument (v : gvalue) (tag : N) : Env -> slice -> res (slice * option err) := fun E p => append_any v p tag.
Definition expression (v : gvalue) (tag : N) : Env -> slice -> res (slice * option err) := fun E p => append_expr v p tag.
Definition function (f : exprfun) (tag : N) : Env -> slice -> res (slice * option err) := fun E p => run_fun f p tag.

(* Encoding never reports success. *)
Definition refused (encode : Env -> slice -> res (slice * option err)) (w32 : bool) : Prop :=
  forall E : Env, @word32 E = w32 -> forall p q, encode E p <> Ok (q, None).
(* Encoding returns an error. *)
Definition rejected (encode : Env -> slice -> res (slice * option err)) (w32 : bool) : Prop :=
  forall E : Env, @word32 E = w32 -> forall p, exists q e, encode E p = Ok (q, Some e).

Lemma outcome_arrives : forall {A} (dec : bytes -> option A) w tag D Q K (S : Prop) W f,
  outcome dec w tag D Q K S W f -> S -> W < 2 ^ 61 -> exists x, D x /\ arrives dec f w tag x.
Proof.
  intros A dec w tag D Q K S W f [(x & bs & pl & H1 & H2 & H3 & H4 & H5)|[[_ H]|[_ H]]] HS HW; [|contradiction|lia].
  exists x. split; [exact H1|]. exists bs, pl. split; [apply H2|]. split; [exact H3|]. exact H5.
Qed.
Lemma outcome_success : forall {A} (dec : bytes -> option A) w tag D Q K S W f,
  outcome dec w tag D Q K S W f -> forall E p q, @word32 E = w -> f E p = Ok (q, None) -> nlen (data q) < 2 ^ 62 ->
  exists x, D x /\ arrives dec f w tag x.
Proof.
  intros A dec w tag D Q K S W f [(x & bs & pl & H1 & H2 & H3 & H4 & H5)|[[[B _] _]|[B _]]] E p q HE Hq Hl.
  - exists x. split; [exact H1|]. exists bs, pl. split; [apply H2|]. split; [exact H3|]. exact H5.
  - exfalso. exact (B E HE p q Hq).
  - destruct (B E HE p q Hq). lia.
Qed.
Lemma outcome_rejected : forall {A} (dec : bytes -> option A) w tag D (Q K : Prop) S W f,
  outcome dec w tag D Q K S W f -> (forall x, ~ D x) -> W < 2 ^ 61 -> refused f w /\ (Q -> rejected f w).
Proof.
  intros A dec w tag D Q K S W f [(x & bs & pl & H1 & _)|[[[B1 B2] _]|[_ H]]] HD HW; [destruct (HD x H1)| |lia].
  split; [exact B1|]. intros q E HE p. destruct (B2 q E HE p) as (r & e & Hr & _). eauto.
Qed.

(* ---- C01 ---- *)

Theorem C01_arguments_survive : forall w v tag, 1 <= tag <= 15 -> well_formed w v -> no_known_defect w v ->
  arg_accepted v -> weight v < 2 ^ 61 -> exists s, any_denotes v s /\ arrives dany (argument v tag) w tag s.
Proof.
  intros w v tag Ht Hw Hd Ha Hl. refine (outcome_arrives _ _ _ _ _ _ _ _ _ (any_outcome w v tag _ Hw Hd) Ha Hl). lia.
Qed.

(* Nothing is sent wrongly, whatever the value. *)
Theorem C01_arguments_sent_are_right : forall w v tag, 1 <= tag <= 15 -> well_formed w v -> no_known_defect w v ->
  forall (E : Env) p q, word32 = w -> append_any v p tag = Ok (q, None) -> nlen (data q) < 2 ^ 62 ->
  exists s, any_denotes v s /\ arrives dany (argument v tag) w tag s.
Proof.
  intros w v tag Ht Hw Hd E p q HE Hq Hl.
  refine (outcome_success _ _ _ _ _ _ _ _ _ (any_outcome w v tag _ Hw Hd) E p q HE Hq Hl). lia.
Qed.

(* What arrives for each kind of argument, spelled out. *)
Theorem C01_kinds : forall w tag, 1 <= tag <= 15 ->
  (forall z, in_int 8 z -> arrives dany (argument (VInt8 z) tag) w tag (SSint z)) /\
  (forall z, in_int 16 z -> arrives dany (argument (VInt16 z) tag) w tag (SSint z)) /\
  (forall z, in_int 32 z -> arrives dany (argument (VInt32 z) tag) w tag (SSint z)) /\
  (forall z, in_int 64 z -> arrives dany (argument (VInt64 z) tag) w tag (SSint z)) /\
  (forall z, in_int (if w then 32 else 64) z -> arrives dany (argument (VInt z) tag) w tag (SSint z)) /\
  (forall n, n < 2 ^ 8 -> arrives dany (argument (VUint8 n) tag) w tag (SUint n)) /\
  (forall n, n < 2 ^ 16 -> arrives dany (argument (VUint16 n) tag) w tag (SUint n)) /\
  (forall n, n < 2 ^ 32 -> arrives dany (argument (VUint32 n) tag) w tag (SUint n)) /\
  (forall n, n < 2 ^ 64 -> arrives dany (argument (VUint64 n) tag) w tag (SUint n)) /\
  (forall n, n < 2 ^ (if w then 32 else 64) -> arrives dany (argument (VUint n) tag) w tag (SUint n)) /\
  (forall b, arrives dany (argument (VBool b) tag) w tag (SBool b)) /\
  (forall x, x < 2 ^ 32 -> arrives dany (argument (VFloat32 x) tag) w tag (SFloat x)) /\
  (forall x, x < 2 ^ 64 -> arrives dany (argument (VFloat64 x) tag) w tag (SDouble x)) /\
  (forall s, go_string s -> nlen s < 2 ^ 60 -> arrives dany (argument (VString s) tag) w tag (SString s None)) /\
  (forall s, go_string s -> nlen s < 2 ^ 60 -> arrives dany (argument (VBytes (Some s)) tag) w tag (SOctets s None)).
Proof.
  intros w tag Ht.
  assert (H : forall v s, well_formed w v -> no_known_defect w v -> arg_accepted v -> weight v < 2 ^ 61 ->
    (forall s', any_denotes v s' -> s' = s) -> arrives dany (argument v tag) w tag s).
  { intros v s Hw Hd Ha Hl Hs. destruct (C01_arguments_survive w v tag Ht Hw Hd Ha Hl) as (s' & H1 & H2).
    rewrite <- (Hs s' H1). exact H2. }
  assert (D : forall v s, match v with VPtr _ _ | VNilPtr _ _ | VUser _ _ => False | _ => True end -> (forall s', lit_denotes v s' -> s' = s) ->
    forall s', any_denotes v s' -> s' = s).
  { intros v s Hv Hl s' Hs. inversion Hs; subst; cbn in Hv; try contradiction. auto. }
  repeat apply conj; intros; (apply H;
    [assumption || exact I|exact I|right; exact I|cbn [weight]; lia|apply D; [exact I|]; intros s' Hs; inversion Hs; reflexivity]).
Qed.

(* Non-vacuity: an int64 behind two pointers. *)
Example C01_example : well_formed false (VPtr false (VPtr false (VInt64 (-5)))) /\ no_known_defect false (VPtr false (VPtr false (VInt64 (-5)))) /\
  arg_accepted (VPtr false (VPtr false (VInt64 (-5)))) /\ any_denotes (VPtr false (VPtr false (VInt64 (-5)))) (SSint (-5)).
Proof.
  split; [|split; [|split]].
  - cbn [well_formed]. unfold in_int. cbn. lia.
  - exact I.
  - right. exact I.
  - apply A_ptr, A_ptr, A_lit. constructor.
Qed.

(* ---- C02, C03 ---- *)

(* C02: a value that stands for a scalar arrives as a literal holding it. *)
Theorem C02_literals_survive : forall w v tag, 1 <= tag <= 15 -> well_formed w v -> no_known_defect w v ->
  v = VNil \/ is_literal v -> weight v < 2 ^ 61 ->
  exists s, lit_denotes v s /\ arrives dexpr (expression v tag) w tag (XLiteral s).
Proof.
  intros w v tag Ht Hw Hd Ha Hl. destruct (outcome_arrives _ _ _ _ _ _ _ _ _ (expr_outcome w v tag ltac:(lia) Hw Hd)) as (e & H1 & H2).
  - destruct Ha as [->|Ha]; [exact I|]. destruct v; try contradiction; exact I.
  - exact Hl.
  - assert (Hlit : exists s, e = XLiteral s /\ lit_denotes v s).
    { inversion H1; subst; [eauto|..]; destruct Ha as [Ha|[]]; discriminate. }
    destruct Hlit as (s & -> & Hs). exists s. split; [exact Hs|exact H2].
Qed.

(* C03: expressions of any shape arrive as the tree they stand for. *)
Theorem C03_expressions_survive : forall w f tag, 1 <= tag <= 15 -> well_formed_fun w f -> no_known_defect_fun w f ->
  fun_accepted f -> fun_weight f < 2 ^ 61 -> exists e, fun_denotes f e /\ arrives dexpr (function f tag) w tag e.
Proof.
  intros w f tag Ht Hw Hd Ha Hl. refine (outcome_arrives _ _ _ _ _ _ _ _ _ (fun_outcome w f tag _ Hw Hd) Ha Hl). lia.
Qed.
Theorem C03_values_survive : forall w v tag, 1 <= tag <= 15 -> well_formed w v -> no_known_defect w v ->
  expr_accepted v -> weight v < 2 ^ 61 -> exists e, expr_denotes v e /\ arrives dexpr (expression v tag) w tag e.
Proof.
  intros w v tag Ht Hw Hd Ha Hl. refine (outcome_arrives _ _ _ _ _ _ _ _ _ (expr_outcome w v tag _ Hw Hd) Ha Hl). lia.
Qed.
Theorem C03_expressions_sent_are_right : forall w v tag, 1 <= tag <= 15 -> well_formed w v -> no_known_defect w v ->
  forall (E : Env) p q, word32 = w -> append_expr v p tag = Ok (q, None) -> nlen (data q) < 2 ^ 62 ->
  exists e, expr_denotes v e /\ arrives dexpr (expression v tag) w tag e.
Proof.
  intros w v tag Ht Hw Hd E p q HE Hq Hl.
  refine (outcome_success _ _ _ _ _ _ _ _ _ (expr_outcome w v tag _ Hw Hd) E p q HE Hq Hl). lia.
Qed.

(* (a + 1) in a list with a nested call *)
Definition sample : exprfun :=
  EOperator (s2b "in") [VFunc (Some (EOperator (s2b "+") [VFunc (Some (EColumn (s2b "a"))); VInt 1]));
    VFunc (Some (ECall (s2b "CONCAT") [VString (s2b "x"); VNil; VFunc (Some (EVariable (s2b "@v")))])); VUint8 7].
Definition sample_tree : expr :=
  XOperator (s2b "in") [XOperator (s2b "+") [XColumn (s2b "a"); XLiteral (SSint 1)];
    XCall (s2b "CONCAT") [XLiteral (SString (s2b "x") None); XLiteral SNull; XVariable (s2b "@v")]; XLiteral (SUint 7)].
Ltac side := repeat match goal with
  | |- _ /\ _ => split
  | |- True => exact I
  | |- go_string _ => split; [repeat constructor|reflexivity]
  | |- _ = true -> _ => let H := fresh in intros H; discriminate H
  | |- ?P => progress (unfold in_int, in_uint; cbn)
  | |- _ => lia
  end.
Example C03_example : well_formed_fun false sample /\ no_known_defect_fun false sample /\ fun_accepted sample /\ fun_weight sample < 2 ^ 61 /\
  fun_denotes sample sample_tree.
Proof.
  split; [|split; [|split; [|split]]].
  - cbn -[s2b go_string]. side.
  - cbn. repeat split; lia || discriminate.
  - cbn. tauto.
  - reflexivity.
  - apply F_operator. repeat constructor.
Qed.

(* ---- C04 ---- *)

Definition signed (v : gvalue) (z : Z) : Prop := In v [VInt z; VInt8 z; VInt16 z; VInt32 z; VInt64 z].
Definition unsigned (v : gvalue) (n : N) : Prop := In v [VUint n; VUint8 n; VUint16 n; VUint32 n; VUint64 n].

(* Encoding appends bs. *)
Definition writes (encode : Env -> slice -> res (slice * option err)) (w32 : bool) (bs : bytes) : Prop :=
  forall E : Env, @word32 E = w32 -> forall p, exists spare, encode E p = Ok (mk (data p ++ bs) spare, None).

Lemma writes_m : forall w (m : forall E : Env, slice -> res slice) (f : Env -> slice -> res (slice * option err)) bs,
  (forall E, @word32 E = w -> @emits (m E) bs) -> (forall E p, @word32 E = w -> f E p = okm (m E p)) -> writes f w bs.
Proof. intros w m f bs H He E HE p. destruct (H E HE p) as [sp Hp]. exists sp. rewrite He by assumption. unfold okm. rewrite Hp. reflexivity. Qed.

Lemma ints_write : forall w v z tag, 1 <= tag <= 15 -> signed v z -> well_formed w v ->
  writes (argument v tag) w (pany tag (SSint z)) /\ writes (expression v tag) w (plit tag (SSint z)).
Proof.
  intros w v z tag Ht Hs Hw. assert (Ht' : 0 < tag < 16) by lia.
  assert (H64 : (- 2 ^ 63 <= z < 2 ^ 63)%Z).
  { cbn in Hs. destruct Hs as [<-|[<-|[<-|[<-|[<-|[]]]]]]; cbn [well_formed] in Hw; unfold in_int in Hw; [destruct w|..]; cbn in Hw; lia. }
  split.
  - cbn in Hs. destruct Hs as [<-|[<-|[<-|[<-|[<-|[]]]]]]; cbn [well_formed] in Hw; unfold in_int in Hw.
    + apply (writes_m w (fun E p => if w then append_any_int32 p tag z else append_any_int64 p tag z)).
      * intros E _. destruct w; [apply emits_any_int32|apply emits_any_int64]; assumption.
      * intros E p HE. unfold argument, append_any, type_switch. rewrite HE. destruct w; reflexivity.
    + apply (writes_m w (fun E p => Ok (append_any_int8 p tag z))); [intros E _; apply emits_any_int8; assumption|reflexivity].
    + apply (writes_m w (fun E p => append_any_int16 p tag z)); [intros E _; apply emits_any_int16; assumption|reflexivity].
    + apply (writes_m w (fun E p => append_any_int32 p tag z)); [intros E _; apply emits_any_int32; assumption|reflexivity].
    + apply (writes_m w (fun E p => append_any_int64 p tag z)); [intros E _; apply emits_any_int64; assumption|reflexivity].
  - apply (writes_m w (fun E p => append_expr_int64 p tag z)); [intros E _; apply emits_expr_int64; assumption|].
    intros E p _. cbn in Hs. destruct Hs as [<-|[<-|[<-|[<-|[<-|[]]]]]]; reflexivity.
Qed.
Lemma uints_write : forall w v n tag, 1 <= tag <= 15 -> unsigned v n -> well_formed w v ->
  writes (argument v tag) w (pany tag (SUint n)) /\ writes (expression v tag) w (plit tag (SUint n)).
Proof.
  intros w v n tag Ht Hs Hw. assert (Ht' : 0 < tag < 16) by lia.
  assert (H64 : n < 2 ^ 64).
  { cbn in Hs. destruct Hs as [<-|[<-|[<-|[<-|[<-|[]]]]]]; cbn [well_formed] in Hw; unfold in_uint in Hw; [destruct w|..]; lia. }
  split.
  - cbn in Hs. destruct Hs as [<-|[<-|[<-|[<-|[<-|[]]]]]]; cbn [well_formed] in Hw; unfold in_uint in Hw.
    + apply (writes_m w (fun E p => if w then append_any_uint32 p tag n else append_any_uint64 p tag n)).
      * intros E _. destruct w; [apply emits_any_uint32|apply emits_any_uint64]; assumption.
      * intros E p HE. unfold argument, append_any, type_switch. rewrite HE. destruct w; reflexivity.
    + apply (writes_m w (fun E p => Ok (append_any_uint8 p tag n))); [intros E _; apply emits_any_uint8; assumption|reflexivity].
    + apply (writes_m w (fun E p => append_any_uint16 p tag n)); [intros E _; apply emits_any_uint16; assumption|reflexivity].
    + apply (writes_m w (fun E p => append_any_uint32 p tag n)); [intros E _; apply emits_any_uint32; assumption|reflexivity].
    + apply (writes_m w (fun E p => append_any_uint64 p tag n)); [intros E _; apply emits_any_uint64; assumption|reflexivity].
  - apply (writes_m w (fun E p => append_expr_uint64 p tag n)); [intros E _; apply emits_expr_uint64; assumption|].
    intros E p _. cbn in Hs. destruct Hs as [<-|[<-|[<-|[<-|[<-|[]]]]]]; reflexivity.
Qed.

Theorem C04_width_independent : forall w1 w2 v1 v2 tag, 1 <= tag <= 15 -> well_formed w1 v1 -> well_formed w2 v2 ->
  (exists z, signed v1 z /\ signed v2 z) \/ (exists n, unsigned v1 n /\ unsigned v2 n) ->
  (exists bs, writes (argument v1 tag) w1 bs /\ writes (argument v2 tag) w2 bs) /\
  (exists bs, writes (expression v1 tag) w1 bs /\ writes (expression v2 tag) w2 bs).
Proof.
  intros w1 w2 v1 v2 tag Ht H1 H2 [(z & Z1 & Z2)|(n & Z1 & Z2)].
  - destruct (ints_write w1 v1 z tag Ht Z1 H1), (ints_write w2 v2 z tag Ht Z2 H2). split; eexists; split; eassumption.
  - destruct (uints_write w1 v1 n tag Ht Z1 H1), (uints_write w2 v2 n tag Ht Z2 H2). split; eexists; split; eassumption.
Qed.

Example C04_example : well_formed true (VInt8 (-128)) /\ well_formed false (VInt (-128)) /\ signed (VInt8 (-128)) (-128) /\ signed (VInt (-128)) (-128).
Proof. unfold signed. cbn [well_formed In]. side; tauto. Qed.

(* ---- C05 ---- *)

(* nil, a nil pointer, a nil []byte, or a pointer to one of these. A user's type may also mean NULL. *)
Fixpoint is_nil (v : gvalue) : Prop :=
  match v with
  | VNil | VNilPtr _ _ | VBytes None | VXml None | VJson None | VGeometry None => True
  | VPtr _ v => is_nil v
  | VUser (Some u) _ => appends_any u SNull
  | _ => False
  end.

Lemma null_iff : forall v, any_denotes v SNull <-> is_nil v.
Proof.
  intros v. split.
  - intros H. remember SNull as s eqn:Hs. induction H as [v s Hl|i v s H IH|m1 m2|u e s Hu]; cbn; auto.
    + subst s. inversion Hl; subst; cbn; auto; try (unfold octets in *; destruct b; [discriminate|exact I]).
    + subst s. exact Hu.
  - induction v; cbn; intros H; try contradiction.
    + apply A_lit, L_nil.
    + destruct b; [contradiction|]. apply A_lit. exact (L_bytes None).
    + destruct b; [contradiction|]. apply A_lit. exact (L_xml None).
    + destruct b; [contradiction|]. apply A_lit. exact (L_json None).
    + destruct b; [contradiction|]. apply A_lit. exact (L_geometry None).
    + apply A_ptr. auto.
    + apply A_nilptr.
    + destruct any_method; [|contradiction]. apply A_user. exact H.
Qed.

(* Whatever is accepted arrives as NULL exactly when it is nil. *)
Lemma denotes_unique_null : forall v s1 s2, any_denotes v s1 -> any_denotes v s2 -> (s1 = SNull <-> s2 = SNull).
Proof.
  assert (U : forall u s1 s2, appends_any u s1 -> appends_any u s2 -> s1 = s2).
  { intros u s1 s2 H1 H2. destruct (H1 1 ltac:(lia)) as (b1 & p1 & _ & _ & D1 & E1 & F1).
    destruct (H2 1 ltac:(lia)) as (b2 & p2 & _ & _ & D2 & E2 & F2).
    destruct (F1 (mk [] [])) as [x1 G1]. destruct (F2 (mk [] [])) as [x2 G2]. rewrite G1 in G2. cbn in G2. congruence. }
  intros v s1 s2 H1. revert s2. induction H1 as [v s Hl|i v s H IH|m1 m2|u e s Hu]; intros s2 H2.
  - inversion H2; subst; try (inversion Hl; fail).
    inversion Hl; subst; inversion H; subst; try tauto; split; discriminate.
  - inversion H2 as [? ? Hl| | | ]; subst; [inversion Hl|]. apply IH. assumption.
  - inversion H2 as [? ? Hl| | | ]; subst; [inversion Hl|]. tauto.
  - inversion H2 as [? ? Hl| | |? ? ? Hu2]; subst; [inversion Hl|]. rewrite (U _ _ _ Hu Hu2). tauto.
Qed.

Theorem C05_null_exactly_for_nil : forall w v tag, 1 <= tag <= 15 -> well_formed w v -> no_known_defect w v ->
  arg_accepted v -> weight v < 2 ^ 61 -> (is_nil v <-> arrives dany (argument v tag) w tag SNull).
Proof.
  intros w v tag Ht Hw Hd Ha Hl. destruct (C01_arguments_survive w v tag Ht Hw Hd Ha Hl) as (s & Hs & Harr). split.
  - intros Hn. apply null_iff in Hn. pose proof (proj2 (denotes_unique_null _ _ _ Hs Hn) eq_refl). subst s. exact Harr.
  - intros (bs2 & pl2 & D2 & E2 & F2). destruct Harr as (bs & pl & D & E1 & F).
    set (E0 := {| fresh := fun _ _ => []; word32 := w |}).
    destruct (F E0 eq_refl (mk [] [])) as [x1 G1]. destruct (F2 E0 eq_refl (mk [] [])) as [x2 G2]. rewrite G1 in G2. cbn in G2.
    assert (s = SNull) by congruence. subst s. apply null_iff. exact Hs.
Qed.

(* The same for values of expressions: nil, a nil []byte and wrapped nil []bytes, and nothing else. *)
Theorem C05_null_exactly_for_nil_expressions : forall w v tag, 1 <= tag <= 15 -> well_formed w v -> no_known_defect w v ->
  v = VNil \/ is_literal v -> weight v < 2 ^ 61 -> (is_nil v <-> arrives dexpr (expression v tag) w tag (XLiteral SNull)).
Proof.
  intros w v tag Ht Hw Hd Ha Hl. destruct (C02_literals_survive w v tag Ht Hw Hd Ha Hl) as (s & Hs & Harr). split.
  - intros Hn. apply null_iff in Hn. pose proof (proj2 (denotes_unique_null _ _ _ (A_lit _ _ Hs) Hn) eq_refl). subst s. exact Harr.
  - intros (bs2 & pl2 & D2 & E2 & F2). destruct Harr as (bs & pl & D & E1 & F).
    set (E0 := {| fresh := fun _ _ => []; word32 := w |}).
    destruct (F E0 eq_refl (mk [] [])) as [x1 G1]. destruct (F2 E0 eq_refl (mk [] [])) as [x2 G2]. rewrite G1 in G2. cbn in G2.
    assert (s = SNull) by congruence. subst s. apply null_iff. apply A_lit. exact Hs.
Qed.

(* The unrestricted claim fails: a nil pointer to a type whose AppendAny has a value receiver (such
   as *xtorm.String) panics, and a pointer to a nil interface is an error. *)
Theorem C05_refuted : forall (E : Env) p tag,
  append_any (VNilPtr true true) p tag = Panic /\ append_any (VPtr true VNil) p tag = Ok (nil_slice, Some EUnsupported).
Proof. intros E p tag. split; reflexivity. Qed.

Example C05_example : is_nil (VPtr false (VBytes None)) /\ ~ is_nil (VPtr false (VBytes (Some []))) /\
  arg_accepted (VPtr false (VBytes None)) /\ arg_accepted (VPtr false (VBytes (Some []))).
Proof. cbn. unfold arg_accepted. cbn. tauto. Qed.

(* ---- C06 ---- *)

(* chain flags v: pointers, as many as flags (true for a pointer to an interface variable), to v *)
Fixpoint chain (flags : list bool) (v : gvalue) : gvalue :=
  match flags with [] => v | i :: flags => VPtr i (chain flags v) end.

Lemma type_switch_ptr : forall (E : Env) i v p tag, type_switch (VPtr i v) p tag = type_switch v p tag.
Proof.
  intros E [|] v p tag; [reflexivity|]. destruct v as [| | | | | | | | | | | | | | | | | | | | | | | | | | |[]]; reflexivity.
Qed.

Theorem C06_pointers_transparent : forall (E : Env) flags v p tag, v <> VNil -> append_any (chain flags v) p tag = append_any v p tag.
Proof.
  intros E flags v p tag Hv.
  assert (H : forall flags, type_switch (chain flags v) p tag = type_switch v p tag).
  { intros l. induction l as [|i l IH]; [reflexivity|]. cbn [chain]. rewrite type_switch_ptr. exact IH. }
  assert (Hn : forall u, u <> VNil -> append_any u p tag = type_switch u p tag) by (intros []; congruence || reflexivity).
  rewrite (Hn v Hv). destruct flags as [|i flags]; [apply Hn; exact Hv|]. rewrite Hn by (cbn; discriminate). apply H.
Qed.

(* The one exception: a pointer to a nil interface value, directly or through pointers, is refused, while nil itself is NULL. *)
Theorem C06_refuted : forall (E : Env) flags p tag, flags <> [] ->
  append_any (chain flags VNil) p tag = Ok (nil_slice, Some EUnsupported) /\ append_any VNil p tag = Ok (append_any_null p tag, None).
Proof.
  intros E flags p tag Hf. split; [|reflexivity].
  assert (H : forall flags, type_switch (chain flags VNil) p tag = type_switch VNil p tag).
  { intros l. induction l as [|i l IH]; [reflexivity|]. cbn [chain]. rewrite type_switch_ptr. exact IH. }
  destruct flags as [|i flags]; [congruence|]. change (type_switch (chain (i :: flags) VNil) p tag = Ok (nil_slice, Some EUnsupported)). rewrite H. reflexivity.
Qed.

Example C06_example : forall E : Env, append_any (chain [false; true; false] (VStr (s2b "x") 45)) nil_slice 2 = append_any (VStr (s2b "x") 45) nil_slice 2.
Proof. intros E. apply C06_pointers_transparent. discriminate. Qed.

(* ---- C22 ---- *)

Theorem C22_variable_names_survive_partial : forall w name tag, 1 <= tag <= 15 -> go_string name -> nlen name <= 123 ->
  arrives dexpr (function (EVariable name) tag) w tag (XVariable name).
Proof.
  intros w name tag Ht Hn Hl. destruct (C03_expressions_survive w (EVariable name) tag Ht Hn Hl I) as (e & He & H).
  - cbn [fun_weight]. lia.
  - inversion He; subst. exact H.
Qed.

(* What is written for a name of any length: the length of the expression is cut to one byte. *)
Lemma emits_expr_variable_any : forall (E : Env) tag s, 1 <= tag <= 15 -> nlen s < 2 ^ 62 ->
  emits (fun p => append_expr_variable p tag s) ([8 * tag + 2; (3 + (N.of_nat (size_varint (nlen s)) + nlen s)) mod 256; 8; 3; 26] ++ uvarint (nlen s) ++ s).
Proof.
  intros E tag s Ht Hs p. unfold append_expr_variable. cbv zeta.
  assert (Hx : nlen s < 2 ^ 64) by lia. pose proof (size_varint_bounds _ Hx) as Hb.
  match goal with |- context [append p (?a :: ?b :: ?c :: ?d :: ?e :: ?l)] =>
    change (a :: b :: c :: d :: e :: l) with ([a; b; c; d; e] ++ chain64 (nlen s)); set (hd := [a; b; c; d; e]) end.
  destruct (append_spec p (hd ++ chain64 (nlen s))) as [sp0 ->]. rewrite app_assoc.
  destruct (mask_truncate_agree (chain64 (nlen s)) (data p ++ hd) (nlen s) sp0
    (size_varint (nlen s) + (len (mk ((data p ++ hd) ++ chain64 (nlen s)) sp0) - 10))%nat Hx (agree64 _ Hx)) as [sp1 ->].
  { unfold len; cbn [data]. rewrite !app_length. change (length (chain64 (nlen s))) with 10%nat. lia. }
  cbn [bind]. destruct (append_spec (mk ((data p ++ hd) ++ uvarint (nlen s)) sp1) s) as [sp2 ->].
  exists sp2. cbn [data]. f_equal. f_equal. rewrite <- !app_assoc. f_equal. unfold hd.
  hdrs. change Expr_VARIABLE with 3. unfold byte. rewrite N.add_mod_idemp_r by lia. reflexivity.
Qed.

(* A longer name never arrives, as no expression at all: what is written is not one field. *)
Definition long_name : bytes := repeat 97 124.
Definition env0 (w : bool) : Env := {| fresh := fun _ _ => []; word32 := w |}.
Theorem C22_refuted : forall w name tag, 1 <= tag <= 15 -> go_string name -> 123 < nlen name ->
  forall x, ~ arrives dexpr (function (EVariable name) tag) w tag x.
Proof.
  intros w name tag Ht Hn Hl x (bs & pl & H1 & H2 & H3).
  destruct (H3 (env0 w) eq_refl (mk [] [])) as [sp H]. unfold function in H. cbn [run_fun] in H. unfold okm in H.
  destruct (@emits_expr_variable_any (env0 w) tag name Ht ltac:(apply Hn) (mk [] [])) as [sp' H']. rewrite H' in H. cbn [bind data app] in H.
  assert (Hbs : bs = [8 * tag + 2; (3 + (N.of_nat (size_varint (nlen name)) + nlen name)) mod 256; 8; 3; 26] ++ uvarint (nlen name) ++ name)
    by (injection H as H _; symmetry; exact H). clear H H' H2 H3.
  assert (Hz : (1 <= size_varint (nlen name))%nat) by (apply size_varint_bounds; destruct Hn; lia).
  remember (3 + (N.of_nat (size_varint (nlen name)) + nlen name)) as T eqn:ET.
  remember (uvarint (nlen name) ++ name) as rest eqn:ER.
  assert (HL : nlen rest = T - 3) by (subst rest; rewrite nlen_app; unfold nlen at 1; rewrite uvarint_length by (destruct Hn; lia); lia).
  assert (HT : 128 <= T) by lia. clear ET ER Hl Hz. subst bs.
  cbn [app] in H1. destruct (dfields_cons_inv _ _ _ H1) as (n & v & r & fs & Hd & Hr & He). injection He as <- <- <-.
  assert (r = []) by (destruct r as [|y r]; [reflexivity|]; destruct (dfields_cons_inv _ _ _ Hr) as (? & ? & ? & ? & _ & _ & ?); discriminate). subst r.
  rewrite dfield_key in Hd by lia.
  assert (Htake : forall k l, take k l = Some (pl, []) -> nlen l = k).
  { intros k l Hk. unfold take in Hk. destruct (N.leb_spec k (nlen l)); [|discriminate]. injection Hk as _ Hk.
    pose proof (skipn_length (N.to_nat k) l) as Hq. rewrite Hk in Hq. unfold nlen in *. cbn [length] in Hq. lia. }
  destruct (N.lt_ge_cases (T mod 256) 128) as [Hs|Hs].
  - rewrite dvarint_small in Hd by lia. destruct (take _ _) as [[y t]|] eqn:Ek; [|discriminate]. injection Hd as -> ->.
    apply Htake in Ek. rewrite !nlen_cons in Ek. lia.
  - assert (Hv : dvarint (T mod 256 :: 8 :: 3 :: 26 :: rest) = Some (T mod 256 - 128 + 128 * 8, 3 :: 26 :: rest)).
    { unfold dvarint. cbn [dvarint_k]. destruct (N.ltb_spec (T mod 256) 128); [lia|]. destruct (N.ltb_spec (T mod 256) 256); [|lia].
      change (8 <? 128) with true. cbv beta iota. destruct (N.ltb_spec (T mod 256 - 128 + 128 * 8) (2 ^ 64)); [reflexivity|lia]. }
    rewrite Hv in Hd. destruct (take _ _) as [[y t]|] eqn:Ek; [|discriminate]. injection Hd as -> ->.
    apply Htake in Ek. rewrite !nlen_cons in Ek. lia.
Qed.
Example C22_long_name : go_string long_name /\ 123 < nlen long_name.
Proof. split; [split; [apply Forall_forall; intros x Hx; apply repeat_spec in Hx; subst; reflexivity|reflexivity]|reflexivity]. Qed.

(* ---- C23 ---- *)

Theorem C23_durations_survive_partial : forall w d tag, 1 <= tag <= 15 -> in_int 64 d -> d <> (- 2 ^ 63)%Z ->
  (w = true -> (Z.abs d < 2 ^ 32 * 1000000000)%Z) ->
  exists txt, text_of_duration txt d /\ arrives dany (argument (VDuration d) tag) w tag (SOctets txt None) /\
    arrives dexpr (expression (VDuration d) tag) w tag (XLiteral (SOctets txt None)).
Proof.
  intros w d tag Ht Hd Hm H32. assert (Hc : no_known_defect w (VDuration d)) by (split; assumption).
  destruct (clean_duration w d Hd Hm H32) as (D1 & D2 & D3). exists (duration_text w d). split; [assumption|].
  assert (Hok : scalar_ok (SOctets (duration_text w d) None)) by assumption.
  destruct (pany_ok tag _ ltac:(lia) Hok) as (pl & A1 & A2). destruct (plit_ok tag _ ltac:(lia) Hok) as (pl2 & B1 & B2). split.
  - exists (pany tag (SOctets (duration_text w d) None)), pl. split; [apply A1|]. split; [exact A2|]. intros E HE p.
    destruct (emits_any_duration tag d (duration_text w d) ltac:(lia) D2) with (p := p) as [sp H].
    + intros q. rewrite <- HE. apply append_duration_text.
    + exists sp. unfold argument, append_any, type_switch, okm. rewrite H. reflexivity.
  - exists (plit tag (SOctets (duration_text w d) None)), pl2. split; [apply B1|]. split; [exact B2|]. intros E HE p.
    destruct (emits_expr_duration tag d (duration_text w d) ltac:(lia) D2) with (p := p) as [sp H].
    + intros q. rewrite <- HE. apply append_duration_text.
    + exists sp. unfold expression, append_expr, okm. rewrite H. reflexivity.
Qed.

(* The fields of the text, cut at the positions counted from its end. *)
Lemma seconds_parts : forall txt neg n, text_of_seconds txt neg n ->
  let body := if neg then tl txt else txt in
  exists h m s, decimal (firstn (length body - 6) body) = Some h /\ decimal (firstn 2 (skipn (length body - 5) body)) = Some m /\
    decimal (skipn (length body - 2) body) = Some s /\ n = 3600 * h + 60 * m + s.
Proof.
  intros txt neg n (hh & mm & ss & h & m & s & -> & Hh & Hm & Lm & _ & Hs & Ls & _ & ->) body.
  assert (Hb : body = hh ++ 58 :: mm ++ 58 :: ss) by (unfold body; destruct neg; reflexivity). clearbody body. subst body.
  assert (HL : length (hh ++ 58 :: mm ++ 58 :: ss) = (length hh + 6)%nat).
  { rewrite app_length. cbn [length]. rewrite app_length. cbn [length]. lia. }
  rewrite HL. exists h, m, s. destruct mm as [|m1 [|m2 [|]]]; try discriminate. destruct ss as [|s1 [|s2 [|]]]; try discriminate.
  replace (length hh + 6 - 6)%nat with (length hh) by lia.
  replace (length hh + 6 - 5)%nat with (length hh + 1)%nat by lia. replace (length hh + 6 - 2)%nat with (length hh + 4)%nat by lia.
  rewrite firstn_app, firstn_all, Nat.sub_diag. cbn [firstn]. rewrite app_nil_r. rewrite !skipn_app.
  rewrite (skipn_all2 (n := length hh + 1) hh), (skipn_all2 (n := length hh + 4) hh) by lia.
  replace (length hh + 1 - length hh)%nat with 1%nat by lia. replace (length hh + 4 - length hh)%nat with 4%nat by lia.
  cbn [skipn app firstn]. auto.
Qed.

Lemma duration_arrives : forall w d tag txt, 1 <= tag <= 15 -> in_int 64 d -> arrives dany (argument (VDuration d) tag) w tag (SOctets txt None) ->
  txt = duration_text w d.
Proof.
  intros w d tag txt Ht Hd (bs & pl & H1 & H2 & H3).
  destruct (duration_text_bytes w d) as [B L].
  assert (Hok : scalar_ok (SOctets (duration_text w d) None)) by (cbn; repeat split; [exact B|lia]).
  destruct (pany_ok tag _ ltac:(lia) Hok) as (pl2 & A1 & A2).
  destruct (@emits_any_duration (env0 w) tag d (duration_text w d) ltac:(lia) L) with (p := mk [] []) as [sp H].
  - intros q. exact (@append_duration_text (env0 w) d q).
  - destruct (H3 (env0 w) eq_refl (mk [] [])) as [sp2 G]. unfold argument, append_any, type_switch, okm in G. rewrite H in G.
    cbn [data app bind] in G. assert (Hbs : pany tag (SOctets (duration_text w d) None) = bs) by (congruence).
    assert (R : dfields (pany tag (SOctets (duration_text w d) None)) = Some [(tag, WLen pl2)]) by apply A1. rewrite <- Hbs, R in H1. assert (Hp : pl2 = pl) by congruence. rewrite Hp, H2 in A2. congruence.
Qed.

Lemma some_eq : forall {A} (x y : A), Some x = Some y -> y = x.
Proof. congruence. Qed.
Ltac some H := apply some_eq in H; subst.

(* What arrives is the right text exactly for these durations: wrong are the smallest, and on a 32 bit machine all of 2^32 seconds or more. *)
Lemma last_two : forall l n, decimal (skipn (length (l ++ two n) - 2) (l ++ two n)) = decimal (two n).
Proof.
  intros l n. rewrite app_length. change (length (two n)) with 2%nat. rewrite Nat.add_sub, skipn_app, skipn_all, Nat.sub_diag. reflexivity.
Qed.
Theorem C23_right_exactly_for : forall w d tag txt, 1 <= tag <= 15 -> in_int 64 d -> arrives dany (argument (VDuration d) tag) w tag (SOctets txt None) ->
  (text_of_duration txt d <-> d <> (- 2 ^ 63)%Z /\ (w = true -> (Z.abs d < 2 ^ 32 * 1000000000)%Z)).
Proof.
  intros w d tag txt Ht Hi Ha. apply duration_arrives in Ha; [|assumption|assumption]. subst txt. split; [|intros [H1 H2]; apply duration_text_ok; assumption].
  intros Hd. assert (Hm : d <> (- 2 ^ 63)%Z).
  { intros ->. apply seconds_parts in Hd. destruct Hd as (h & m & s & H1 & H2 & H3 & H4).
    destruct w; vm_compute in H1, H2, H3; (discriminate || (some H1; some H2; some H3; vm_compute in H4; discriminate H4)). }
  split; [exact Hm|]. intros ->. apply seconds_parts in Hd. destruct Hd as (h & m & s & _ & _ & H3 & H4). apply Z.nle_gt. intros Hge.
  unfold in_int in Hi. cbn in Hi. unfold duration_text in H3. cbv zeta in H3.
  assert (Ea : (if (d <? 0)%Z then wrap64 (- d) else d) = Z.abs d).
  { clear - Hi Hm. destruct (Z.ltb_spec d 0); [|lia]. unfold wrap64. rewrite Z.mod_small by lia. lia. }
  rewrite Ea in H3. set (a := Z.abs d) in *. assert (Hr : (0 <= a < 2 ^ 63)%Z) by (unfold a; clear - Hi Hm; lia).
  replace (Z.abs_N d) with (Z.to_N a) in H4 by (unfold a; clear; lia).
  match type of H3 with context [two ?x ++ [58] ++ two ?y] => set (j := y) in H3; assert (Hj : j < 60) by (apply N.mod_upper_bound; discriminate);
    match type of H3 with decimal (skipn (_ - 2) ?b) = _ =>
      assert (Hb : exists l, b = l ++ two j) by (match goal with |- context [dec ?u] => exists (dec u ++ [58] ++ two x ++ [58]) end; destruct (d <? 0)%Z; cbn [tl app]; rewrite <- ?app_assoc; reflexivity)
    end end.
  destruct Hb as [l Hb]. rewrite Hb, last_two, decimal_two in H3 by exact Hj. some H3. clear Hb.
  unfold j, ns_second in H4. rewrite Z.quot_div_nonneg in H4 by (clear - Hr; lia).
  replace (Z.to_N a / 1000000000) with (Z.to_N (a / 1000000000)) in H4 by (rewrite Z2N.inj_div by (clear - Hr; lia); reflexivity).
  assert (Hq : (2 ^ 32 <= a / 1000000000 < 3 * 2 ^ 32 - 2 ^ 31)%Z) by (clear - Hge Hr; split; [apply Z.div_le_lower_bound|apply Z.div_lt_upper_bound]; lia).
  clear - H4 Hq. revert H4 Hq. generalize (a / 1000000000)%Z. intros q H4 Hq.
  assert (Hc : exists k, (q = 4294967296 * k + q mod 2 ^ 32)%Z /\ (k = 1 \/ k = 2)%Z) by (exists (q / 4294967296)%Z; lia).
  destruct Hc as (k & Hk & Hk2). pose proof (Z.mod_pos_bound q (2 ^ 32) eq_refl) as Hb. generalize dependent (q mod 2 ^ 32)%Z. intros r H4 Hk Hb.
  assert (Hz : Z.of_N (Z.to_N q) = (3600 * Z.of_N h + 60 * Z.of_N m + r mod 60)%Z) by (rewrite H4; clear - Hb; lia).
  rewrite Z2N.id in Hz by lia. clear H4. lia.
Qed.
Theorem C23_refuted : (forall w, in_int 64 (- 2 ^ 63) /\ forall tag txt, 1 <= tag <= 15 -> arrives dany (argument (VDuration (- 2 ^ 63)) tag) w tag (SOctets txt None) -> ~ text_of_duration txt (- 2 ^ 63)) /\
  (forall d tag txt, 1 <= tag <= 15 -> in_int 64 d -> (2 ^ 32 * 1000000000 <= Z.abs d)%Z -> arrives dany (argument (VDuration d) tag) true tag (SOctets txt None) ->
     ~ text_of_duration txt d).
Proof.
  split.
  - intros w. assert (Hi : in_int 64 (- 2 ^ 63)) by (unfold in_int; cbn; lia). split; [exact Hi|]. intros tag txt Ht Ha H.
    apply (C23_right_exactly_for _ _ _ _ Ht Hi Ha) in H. destruct H as [H _]. apply H. reflexivity.
  - intros d tag txt Ht Hi Hl Ha H. apply (C23_right_exactly_for _ _ _ _ Ht Hi Ha) in H. destruct H as [_ H]. specialize (H eq_refl). lia.
Qed.

(* -1h2m3.9s is sent as "-1:02:03" *)
Example C23_example : text_of_duration (s2b "-1:02:03") (- 3723900000000).
Proof. exists (s2b "1"), (s2b "02"), (s2b "03"), 1, 2, 3. repeat split. Qed.

(* ---- C24 ---- *)

Theorem C24_times_survive : forall w t tag, 1 <= tag <= 15 -> go_time t ->
  exists txt, text_of_time txt t /\ (forall u, text_of_time txt u -> u = t) /\
    arrives dany (argument (VTime t) tag) w tag (SOctets txt None) /\
    arrives dexpr (expression (VTime t) tag) w tag (XLiteral (SOctets txt None)).
Proof.
  intros w t tag Ht Hg. destruct (format_time_ok t Hg) as (F1 & F2 & F3). exists (format_time t). split; [exact F1|].
  split; [intros u Hu; exact (text_of_time_inj _ _ _ Hu F1)|].
  assert (Hok : scalar_ok (SOctets (format_time t) None)) by (cbn; repeat split; [exact F2|lia]).
  destruct (pany_ok tag _ ltac:(lia) Hok) as (pl & A1 & A2). destruct (plit_ok tag _ ltac:(lia) Hok) as (pl2 & B1 & B2). split.
  - exists (pany tag (SOctets (format_time t) None)), pl. split; [apply A1|]. split; [exact A2|]. intros E HE p.
    destruct (emits_any_time tag t ltac:(lia) F3 p) as [sp H]. exists sp. unfold argument, append_any, type_switch, okm. rewrite H. reflexivity.
  - exists (plit tag (SOctets (format_time t) None)), pl2. split; [apply B1|]. split; [exact B2|]. intros E HE p.
    destruct (emits_expr_time tag t ltac:(lia) F3 p) as [sp H]. exists sp. unfold expression, append_expr, okm. rewrite H. reflexivity.
Qed.

Definition a_time : gtime := {| t_year := 12345; t_month := 2; t_day := 29; t_hour := 23; t_min := 59; t_sec := 59; t_nsec := 7 |}.
Example C24_example : go_time a_time /\ text_of_time (s2b "12345-02-29 23:59:59.000000007") a_time.
Proof.
  split; [unfold go_time; cbn; lia|].
  exists (s2b "12345"), (s2b "02"), (s2b "29"), (s2b "23"), (s2b "59"), (s2b "59"), (s2b "000000007"). cbn. repeat split; lia.
Qed.

(* ---- C26 ---- *)

(* What the wrapper types and []byte mean, as a table. *)
Inductive meant : gvalue -> scalar -> Prop :=
| M_geometry s : meant (VGeometry (Some s)) (SOctets s (Some 1))
| M_json s : meant (VJson (Some s)) (SOctets s (Some 2))
| M_json_string s : meant (VJsonString s) (SOctets s (Some 2))
| M_xml s : meant (VXml (Some s)) (SOctets s (Some 3))
| M_xml_string s : meant (VXmlString s) (SOctets s (Some 3))
| M_bytes s : meant (VBytes (Some s)) (SOctets s None)
| M_string s : meant (VString s) (SString s None)
| M_collated s c : c <> 0 -> meant (VStr s c) (SString s (Some c))
| M_uncollated s : meant (VStr s 0) (SString s None).

Theorem C26_content_types_survive : forall w v x tag, 1 <= tag <= 15 -> well_formed w v -> weight v < 2 ^ 61 -> meant v x ->
  arrives dany (argument v tag) w tag x /\ arrives dexpr (expression v tag) w tag (XLiteral x).
Proof.
  intros w v x tag Ht Hw Hl Hm. assert (Hi : is_literal v /\ no_known_defect w v) by (destruct Hm; split; exact I). destruct Hi as [Hi Hd].
  destruct (C01_arguments_survive w v tag Ht Hw Hd) as (s1 & D1 & A1); [right; destruct Hm; exact I|exact Hl|].
  destruct (C02_literals_survive w v tag Ht Hw Hd (or_intror Hi) Hl) as (s2 & D2 & A2).
  assert (U : forall s, lit_denotes v s -> s = x).
  { intros s Hs. destruct Hm; inversion Hs; subst; try reflexivity. unfold nonzero. destruct (c =? 0) eqn:Hc; [|reflexivity]. apply N.eqb_eq in Hc. contradiction. }
  rewrite <- (U s2 D2) at 2. assert (s1 = x) by (inversion D1; subst; try contradiction; apply U; assumption). subst s1. split; assumption.
Qed.

Example C26_example : well_formed true (VStr (s2b "abc") 255) /\ meant (VStr (s2b "abc") 255) (SString (s2b "abc") (Some 255)) /\
  well_formed true (VJsonString (s2b "{}")) /\ meant (VJsonString (s2b "{}")) (SOctets (s2b "{}") (Some 2)).
Proof. repeat split; try (constructor; discriminate); repeat constructor. Qed.

(* ---- C51 ---- *)

(* Arguments of a kind that cannot be sent: functions, values of any type that is neither known to
   the encoder nor implements AppendAny, and pointers to these. *)
Inductive unsupported_arg : gvalue -> Prop :=
| UA_func f : unsupported_arg (VFunc f)
| UA_other e : unsupported_arg (VUser None e)
| UA_ptr i v : unsupported_arg v -> unsupported_arg (VPtr i v).

(* The same for expressions, also when buried in an operator or a function call at any depth. *)
Inductive unsupported_expr : gvalue -> Prop :=
| UE_other a : unsupported_expr (VUser a None)
| UE_nilptr m1 m2 : unsupported_expr (VNilPtr m1 m2)
| UE_ptr i v : unsupported_expr v -> unsupported_expr (VPtr i v)
| UE_operator name ps v : In v ps -> unsupported_expr v -> unsupported_expr (VFunc (Some (EOperator name ps)))
| UE_call name ps v : In v ps -> unsupported_expr v -> unsupported_expr (VFunc (Some (ECall name ps))).

Theorem C51_unsupported_arguments_rejected : forall w v tag, 1 <= tag <= 15 -> well_formed w v -> no_known_defect w v -> weight v < 2 ^ 61 ->
  unsupported_arg v -> refused (argument v tag) w /\ (panic_free v -> rejected (argument v tag) w).
Proof.
  intros w v tag Ht Hw Hd Hl Hu. refine (outcome_rejected _ _ _ _ _ _ _ _ _ (any_outcome w v tag _ Hw Hd) _ Hl); [lia|].
  clear - Hu. induction Hu as [f|e|i v Hu IH]; intros s Hs; inversion Hs as [? ? Hl|? ? ? H| |]; subst; try (inversion Hl; fail).
  exact (IH s H).
Qed.

Theorem C51_unsupported_expressions_rejected : forall w v tag, 1 <= tag <= 15 -> well_formed w v -> no_known_defect w v -> weight v < 2 ^ 61 ->
  unsupported_expr v -> refused (expression v tag) w /\ (panic_free v -> rejected (expression v tag) w).
Proof.
  intros w v tag Ht Hw Hd Hl Hu. refine (outcome_rejected _ _ _ _ _ _ _ _ _ (expr_outcome w v tag _ Hw Hd) _ Hl); [lia|].
  assert (F : forall (ps : list gvalue) es v, Forall2 expr_denotes ps es -> In v ps -> exists e, expr_denotes v e).
  { intros ps es u Hf. induction Hf as [|x y xs ys Hx Hf IH]; intros Hin; [destruct Hin|]. destruct Hin as [->|Hin]; eauto. }
  clear - Hu F. induction Hu as [a|m1 m2|i v Hu IH|name ps v Hin Hu IH|name ps v Hin Hu IH]; intros s Hs;
    inversion Hs as [? ? Hl|? ? ? H| |? ? Hf]; subst; try (inversion Hl; fail).
  - exact (IH s H).
  - inversion Hf as [| | |? ? ? H2|? ? ? H2|]; subst. destruct (F _ _ v H2 Hin) as [e He]. exact (IH e He).
  - inversion Hf as [| | |? ? ? H2|? ? ? H2|]; subst. destruct (F _ _ v H2 Hin) as [e He]. exact (IH e He).
Qed.

(* a + (f(NULL, chan)): the channel is two levels down *)
Definition buried : gvalue :=
  VFunc (Some (EOperator (s2b "+") [VFunc (Some (EColumn (s2b "a"))); VFunc (Some (ECall (s2b "f") [VNil; VUser None None]))])).
Example C51_example : well_formed false buried /\ no_known_defect false buried /\ weight buried < 2 ^ 61 /\ unsupported_expr buried /\ panic_free buried.
Proof.
  split; [|split; [|split; [|split]]].
  - cbn -[s2b go_string]. side.
  - cbn. side.
  - reflexivity.
  - eapply UE_operator; [right; left; reflexivity|]. eapply UE_call; [right; left; reflexivity|]. apply UE_other.
  - cbn. tauto.
Qed.

Print Assumptions C01_arguments_survive.
Print Assumptions C01_arguments_sent_are_right.
Print Assumptions C01_kinds.
Print Assumptions C02_literals_survive.
Print Assumptions C03_expressions_survive.
Print Assumptions C03_values_survive.
Print Assumptions C03_expressions_sent_are_right.
Print Assumptions C04_width_independent.
Print Assumptions C05_null_exactly_for_nil.
Print Assumptions C05_null_exactly_for_nil_expressions.
Print Assumptions C05_refuted.
Print Assumptions C06_pointers_transparent.
Print Assumptions C06_refuted.
Print Assumptions C22_variable_names_survive_partial.
Print Assumptions C22_refuted.
Print Assumptions C23_durations_survive_partial.
Print Assumptions C23_right_exactly_for.
Print Assumptions C23_refuted.
Print Assumptions C24_times_survive.
Print Assumptions C26_content_types_survive.
Print Assumptions C51_unsupported_arguments_rejected.
Print Assumptions C51_unsupported_expressions_rejected.
