(* What a unit of work sends does not depend on the buffer it is built in. *)
From Coq Require Import String List NArith ZArith Arith Bool Lia ZifyN ZifyNat ZifyBool.
From Coq Require Import List.
From Verif Require Import Base GoSlice SliceProofs Varint SpecWire SpecMsg WireProofs Text Values AnyModel ExprModel MsgModel Builder
  SpecValue SpecProg ValueProofs MsgProofs BuilderProofs.
Import ListNotations.
Open Scope N_scope.
Open Scope list_scope.

Definition row_enc (name : bytes) (cols : list bytes) (row : list gvalue) : enc :=
  patched (seq (fun E p => okm (msg_insert p name cols)) (fun E p => append_insert_row p row)).
Definition set_statement (id : bytes) : bytes := s2b "SET " ++ id ++ s2b " = LAST_INSERT_ID()".

(* InsertRow as the two messages it is made of *)
Lemma insert_row_eq : forall (E : Env) name cols row b, disabled b = false -> berr b = None ->
  (forall q, row_enc name cols row E (buf b) = Ok (q, None) ->
     b_insert_row name cols row b =
       (do b' <- b_stmt_execute (set_statement (insert_id q)) [] (mkb q None false); Ok (b', Some (EVariable (insert_id q))))) /\
  (forall b' o, b_insert_row name cols row b = Ok (b', o) -> berr b' = None -> exists q, row_enc name cols row E (buf b) = Ok (q, None)).
Proof.
  intros E name cols row b Hd He. unfold b_insert_row, row_enc, patched, seq, okm. rewrite Hd, He.
  destruct (msg_insert (buf b) name cols) as [p1|]; cbn [bind]; [|split; intros; discriminate].
  destruct (append_insert_row p1 row) as [[p2 [e2|]]|]; cbn [bind]; [split; [intros; discriminate|]| |split; intros; discriminate].
  - intros b' o H Hb. assert (b' = mkb p2 (Some e2) false) by congruence. subst b'. discriminate.
  - destruct (patch_length p2 (len (buf b))) as [p3|]; cbn [bind]; [|split; intros; discriminate]. split; [|eauto].
    intros q Hq. apply ok_fst in Hq. subst q. reflexivity.
Qed.

Lemma set_statement_ok : forall q, go_string (set_statement (insert_id q)).
Proof.
  intros q. assert (Hid : Forall (fun x => x < 256) (insert_id q) /\ nlen (insert_id q) <= 23) by (apply id_of_small; apply N.mod_upper_bound; discriminate).
  apply go_string_app; [apply s2b_go|apply Forall_app; split; [apply Hid|apply s2b_go]|].
  rewrite nlen_app. rewrite !(proj2 (s2b_go _)). cbn [String.length]. lia.
Qed.

Definition all_disabled (l : list builder) : Prop := Forall (fun b => disabled b = true) l.
Lemma disabled_flags : forall l1 l2, all_disabled l1 -> all_disabled l2 -> length l1 = length l2 -> map disabled l1 = map disabled l2.
Proof.
  intros l1. induction l1 as [|a l1 IH]; intros [|b l2] H1 H2 Hl; try discriminate; [reflexivity|]. inversion H1; inversion H2; subst.
  cbn [map]. f_equal; [congruence|]. apply IH; [assumption..|]. cbn in Hl. congruence.
Qed.

(* If the rest of the program ends without error and small, so did what came before. *)
Lemma before_rest : forall (E : Env) pr b outer b' out, prog_ok (@word32 E) pr -> Forall (fun b => disabled b = true) outer -> disabled b = false ->
  @run E pr (b :: outer) = Ok (b' :: outer, out) -> berr b' = None -> nlen (data (buf b')) < 2 ^ 32 ->
  berr b = None /\ nlen (data (buf b)) < 2 ^ 32.
Proof.
  intros E pr b outer b' out Hok Ho Hd H He Hl. destruct (@run_step E _ _ _ _ _ Hok Ho Hd H) as (_ & b2 & Hb & _ & S2 & S3).
  injection Hb as <-. assert (Hb : berr b = None) by (destruct (berr b) eqn:Hx; [rewrite S2 in He by congruence; congruence|reflexivity]).
  split; [exact Hb|]. destruct (S3 Hb He) as [L _]. unfold len, nlen in *. lia.
Qed.

Section Same.
Variables (E1 E2 : Env) (HW : @word32 E1 = @word32 E2).

Definition same_data (b1 b2 : builder) : Prop :=
  data (buf b1) = data (buf b2) /\ berr b1 = None /\ berr b2 = None /\ disabled b1 = false /\ disabled b2 = false.

Lemma outcome_same : forall D Q S W (f : enc) p1 p2 q1, msg_outcome (@word32 E1) D Q S W f -> f E1 p1 = Ok (q1, None) -> nlen (data q1) < 2 ^ 32 ->
  data p1 = data p2 -> exists q2, f E2 p2 = Ok (q2, None) /\ data q2 = data q1.
Proof using HW.
  intros D Q S W f p1 p2 q1 [(m & bs & H1 & H2 & _ & H3)|[[[B1 _] _]|[Hb _]]] Hq Hl Hp.
  - destruct (H3 E1 eq_refl p1) as [sp1 G1]. destruct (H3 E2 (eq_sym HW) p2) as [sp2 G2]. rewrite G1 in Hq. apply ok_fst in Hq. subst q1.
    eexists. split; [exact G2|]. cbn [data]. rewrite Hp. reflexivity.
  - exfalso. exact (B1 E1 eq_refl p1 q1 Hq).
  - destruct (Hb E1 eq_refl p1 q1 Hq). lia.
Qed.

Lemma call_same : forall dis c b1 b2 b1', call_ok (@word32 E1) c -> same_data b1 b2 -> @exec_call E1 dis c b1 = Ok b1' -> berr b1' = None ->
  nlen (data (buf b1')) < 2 ^ 32 -> exists b2', @exec_call E2 dis c b2 = Ok b2' /\ same_data b1' b2'.
Proof using HW.
  intros dis c b1 b2 b1' Hc (Hp & He1 & He2 & Hd1 & Hd2) H He Hl. unfold exec_call, guarded in *. rewrite Hd1, He1 in H. rewrite Hd2, He2.
  change (match c with CStmtExecute stmt args => @stmt_execute E1 (buf b1) _ _ | _ => _ end) with (run_call dis c E1 (buf b1)) in H.
  change (match c with CStmtExecute stmt args => @stmt_execute E2 (buf b2) _ _ | _ => _ end) with (run_call dis c E2 (buf b2)).
  destruct (run_call dis c E1 (buf b1)) as [[q e]|] eqn:Hr; cbn [bind] in H; [|discriminate].
  assert (Hb : b1' = mkb q e false) by congruence. subst b1'. cbn [berr buf] in *. subst e.
  destruct (outcome_same _ _ _ _ _ _ _ _ (call_outcome (@word32 E1) dis c Hc) Hr Hl Hp) as (q2 & H2 & Hq). rewrite H2. cbn [bind].
  eexists. split; [reflexivity|]. repeat split; assumption || (cbn; congruence).
Qed.

Lemma stmt_same : forall s b1 b2 b1', go_string s -> same_data b1 b2 -> @b_stmt_execute E1 s [] b1 = Ok b1' -> berr b1' = None ->
  nlen (data (buf b1')) < 2 ^ 32 -> exists b2', @b_stmt_execute E2 s [] b2 = Ok b2' /\ same_data b1' b2'.
Proof using HW.
  intros s b1 b2 b1' Hs Hb H He Hl. apply (call_same [] (CStmtExecute s []) b1 b2 b1'); try assumption. split; [assumption|constructor].
Qed.

Lemma insert_row_same : forall name cols row b1 b2 b1' o, go_string name -> Forall go_string cols -> values_ok (@word32 E1) row -> same_data b1 b2 ->
  @b_insert_row E1 name cols row b1 = Ok (b1', o) -> berr b1' = None -> nlen (data (buf b1')) < 2 ^ 32 ->
  exists b2', @b_insert_row E2 name cols row b2 = Ok (b2', o) /\ same_data b1' b2'.
Proof using HW.
  intros name cols row b1 b2 b1' o Hn Hc Hr (Hp & He1 & He2 & Hd1 & Hd2) H He Hl.
  destruct (insert_row_eq E1 name cols row b1 Hd1 He1) as [I1 I2]. destruct (I2 _ _ H He) as [q Hq]. rewrite (I1 q Hq) in H.
  destruct (@b_stmt_execute E1 _ [] (mkb q None false)) as [b|] eqn:Hs; cbn [bind] in H; [|discriminate].
  assert (Hb : b1' = b /\ o = Some (EVariable (insert_id q))) by (split; congruence). destruct Hb as [-> ->].
  pose proof (@statement_step E1 _ (mkb q None false) _ (set_statement_ok q) eq_refl Hs) as (_ & _ & Hg).
  specialize (Hg eq_refl He). destruct Hg as [Hg _]. cbn [buf] in Hg.
  assert (Hlq : nlen (data q) < 2 ^ 32) by (unfold len, nlen in *; lia).
  destruct (outcome_same _ _ _ _ _ _ _ _ (row_outcome (@word32 E1) name cols row Hn Hc Hr) Hq Hlq Hp) as (q2 & H2 & Hq2).
  destruct (insert_row_eq E2 name cols row b2 Hd2 He2) as [J1 _]. rewrite (J1 q2 H2).
  assert (Hid : insert_id q2 = insert_id q) by (unfold insert_id, len; rewrite Hq2; reflexivity). rewrite Hid.
  assert (Hsq : same_data (mkb q None false) (mkb q2 None false)) by (repeat split; symmetry; assumption).
  destruct (stmt_same _ _ (mkb q2 None false) _ (set_statement_ok q) Hsq Hs He Hl) as (b2' & Hb2 & Hsame).
  rewrite Hb2. cbn [bind]. eauto.
Qed.

Lemma block_begin_same : forall k b1 b2 b1', blk_ok k -> same_data b1 b2 -> @block_begin E1 k b1 = Ok (b1', true) -> berr b1' = None ->
  nlen (data (buf b1')) < 2 ^ 32 -> exists b2', @block_begin E2 k b2 = Ok (b2', true) /\ same_data b1' b2'.
Proof using HW.
  intros k b1 b2 b1' Hk Hs H He Hl. pose proof Hs as (Hp & He1 & He2 & Hd1 & Hd2). unfold block_begin in *. rewrite Hd1, He1 in H. rewrite Hd2, He2.
  destruct k as [lvl|ctx].
  - assert (Hone : forall s, go_string s -> (do b <- @b_stmt_execute E1 s [] b1; Ok (b, true)) = Ok (b1', true) ->
      exists b2', (do b <- @b_stmt_execute E2 s [] b2; Ok (b, true)) = Ok (b2', true) /\ same_data b1' b2').
    { intros s Hg H1. destruct (@b_stmt_execute E1 s [] b1) as [b3|] eqn:Hb; [|discriminate]. cbn [bind] in H1. apply ok_fst in H1. subst b3.
      destruct (stmt_same s b1 b2 b1' Hg Hs Hb He Hl) as (b2' & -> & Hx). cbn [bind]. eauto. }
    assert (Htwo : forall s1 s2, go_string s1 -> go_string s2 ->
      (do b <- @b_stmt_execute E1 s1 [] b1; do b <- @b_stmt_execute E1 s2 [] b; Ok (b, true)) = Ok (b1', true) ->
      exists b2', (do b <- @b_stmt_execute E2 s1 [] b2; do b <- @b_stmt_execute E2 s2 [] b; Ok (b, true)) = Ok (b2', true) /\ same_data b1' b2').
    { intros s1 s2 Hg1 Hg2 H1. destruct (@b_stmt_execute E1 s1 [] b1) as [b3|] eqn:Hb; [|discriminate]. cbn [bind] in H1.
      destruct (@b_stmt_execute E1 s2 [] b3) as [b4|] eqn:Hb4; [|discriminate]. cbn [bind] in H1. apply ok_fst in H1. subst b4.
      pose proof (@statement_step E1 _ _ _ Hg1 Hd1 Hb) as (D3 & _ & _).
      pose proof (@statement_step E1 _ _ _ Hg2 D3 Hb4) as (_ & N4 & G4).
      assert (He3 : berr b3 = None) by (destruct (berr b3) eqn:Hx; [rewrite N4 in He by congruence; congruence|reflexivity]).
      destruct (G4 He3 He) as [L4 _]. assert (Hl3 : nlen (data (buf b3)) < 2 ^ 32) by (unfold len, nlen in *; lia).
      destruct (stmt_same s1 b1 b2 b3 Hg1 Hs Hb He3 Hl3) as (b5 & -> & Hx). cbn [bind].
      destruct (stmt_same s2 b3 b5 b1' Hg2 Hx Hb4 He Hl) as (b6 & -> & Hy). cbn [bind]. eauto. }
    unfold tx_begin in *.
    destruct lvl as [|[[[lvl|lvl|]|[lvl|lvl|]|]|[[lvl|lvl|]|[lvl|lvl|]|]|]]; cbn [bind] in H |- *; try discriminate.
    all: first [apply Hone; [split; [apply s2b_go|reflexivity]|exact H] | apply Htwo; [split; [apply s2b_go|reflexivity]|split; [apply s2b_go|reflexivity]|exact H]].
  - cbn [blk_ok] in *. pose proof (open_outcome (@word32 E1) ctx (eq (MExpectOpen ctx [no_error_1])) True True 512 Hk ltac:(lia) eq_refl) as Ho.
    destruct (@expect_open E1 (buf b1) ctx [ONoError true]) as [q|] eqn:Hq; [|discriminate]. cbn [bind] in H. apply ok_fst in H. subst b1'. cbn [buf] in *.
    assert (Hf : okm (@expect_open E1 (buf b1) ctx [ONoError true]) = Ok (q, None)) by (unfold okm; rewrite Hq; reflexivity).
    destruct (outcome_same _ _ _ _ _ _ _ _ Ho Hf Hl Hp) as (q2 & H2 & Hq2). unfold okm in H2.
    destruct (@expect_open E2 (buf b2) ctx [ONoError true]) as [q3|]; cbn [bind] in *; [|discriminate]. apply ok_fst in H2. subst q3.
    eexists. split; [reflexivity|]. repeat split; assumption || (cbn; congruence).
Qed.

Lemma block_end_same : forall k b1 b2 b1', same_data b1 b2 -> @block_end E1 k b1 = Ok b1' -> berr b1' = None ->
  nlen (data (buf b1')) < 2 ^ 32 -> exists b2', @block_end E2 k b2 = Ok b2' /\ same_data b1' b2'.
Proof using HW.
  intros [lvl|ctx] b1 b2 b1' Hs H He Hl; cbn [block_end] in *.
  - apply (stmt_same _ b1 b2 b1'); try assumption. split; [apply s2b_go|reflexivity].
  - pose proof Hs as (Hp & He1 & He2 & Hd1 & Hd2). assert (Hb : b1' = mkb (@expect_close E1 (buf b1)) (berr b1) (disabled b1)) by congruence. subst b1'.
    pose proof (close_outcome (@word32 E1) (eq MExpectClose) True True 512 eq_refl) as Ho. cbn [buf] in *.
    destruct (outcome_same _ _ _ _ _ (buf b1) (buf b2) (@expect_close E1 (buf b1)) Ho eq_refl Hl Hp) as (q2 & H2 & Hq2).
    unfold okm in H2. cbn [bind] in H2. apply ok_fst in H2. subst q2.
    eexists. split; [reflexivity|]. repeat split; assumption || (cbn; congruence).
Qed.

Lemma run_same : forall pr b1 b2 outer1 outer2 b1' out, prog_ok (@word32 E1) pr -> all_disabled outer1 -> all_disabled outer2 -> length outer1 = length outer2 ->
  same_data b1 b2 -> @run E1 pr (b1 :: outer1) = Ok (b1' :: outer1, out) -> berr b1' = None -> nlen (data (buf b1')) < 2 ^ 32 ->
  exists b2', @run E2 pr (b2 :: outer2) = Ok (b2' :: outer2, out) /\ same_data b1' b2'.
Proof using HW.
  induction pr as [cberr out0|lvl c next IH|lvl name cols row next IH|lvl k body IHb next IHn];
    intros b1 b2 outer1 outer2 b1' out Hok Ho1 Ho2 Hlen Hs H He Hl; cbn [run prog_ok] in *; pose proof Hs as (_ & _ & _ & Hd1 & Hd2).
  - assert (b1' = b1 /\ out = out0) by (split; congruence). destruct H0; subst. eauto.
  - destruct Hok as [Hc Hok]. destruct lvl as [|lvl].
    2: { destruct (nth_error (b1 :: outer1) (S lvl)) as [x|] eqn:Hx; [|discriminate]. apply only_inner in Hx; [|assumption].
         rewrite exec_disabled in H by assumption. discriminate. }
    cbn [nth_error set_nth map] in *. rewrite (disabled_flags outer2 outer1 Ho2 Ho1 (eq_sym Hlen)).
    destruct (@exec_call E1 _ c b1) as [b3|] eqn:Hb; [|discriminate]. cbn [bind] in H.
    pose proof (@call_step E1 _ _ _ _ Hc Hd1 Hb) as (D3 & _ & _).
    destruct (before_rest E1 _ _ _ _ _ Hok Ho1 D3 H He Hl) as [He3 Hl3].
    destruct (call_same _ c b1 b2 b3 Hc Hs Hb He3 Hl3) as (b4 & -> & Hs4). cbn [bind].
    exact (IH b3 b4 outer1 outer2 b1' out Hok Ho1 Ho2 Hlen Hs4 H He Hl).
  - destruct Hok as (Hn & Hc & Hr & Hok). destruct lvl as [|lvl].
    2: { destruct (nth_error (b1 :: outer1) (S lvl)) as [x|] eqn:Hx; [|discriminate]. apply only_inner in Hx; [|assumption].
         rewrite insert_row_disabled in H by assumption. discriminate. }
    cbn [nth_error set_nth] in *. destruct (@b_insert_row E1 _ _ _ b1) as [[b3 o]|] eqn:Hb; [|discriminate]. cbn [bind] in H.
    destruct (@insert_row_step E1 _ _ _ _ _ _ Hn Hc Hr Hd1 Hb) as (Ro & D3 & _ & _).
    destruct (before_rest E1 _ _ _ _ _ (Hok o Ro) Ho1 D3 H He Hl) as [He3 Hl3].
    destruct (insert_row_same name cols row b1 b2 b3 o Hn Hc Hr Hs Hb He3 Hl3) as (b4 & -> & Hs4). cbn [bind].
    exact (IH o b3 b4 outer1 outer2 b1' out (Hok o Ro) Ho1 Ho2 Hlen Hs4 H He Hl).
  - destruct Hok as (Hk & Hokb & Hokn). destruct lvl as [|lvl].
    2: { destruct (nth_error (b1 :: outer1) (S lvl)) as [x|] eqn:Hx; [|discriminate]. apply only_inner in Hx; [|assumption].
         rewrite block_disabled in H by assumption. discriminate. }
    cbn [nth_error set_nth] in *. destruct (@block_begin E1 k b1) as [[b3 en]|] eqn:Hb; [|discriminate]. cbn [bind] in H.
    pose proof (@block_begin_step E1 _ _ _ _ Hk Hd1 Hb) as Hbs. destruct en.
    2: { destruct Hbs as (Hx & D3 & _). destruct (before_rest E1 _ _ _ _ _ (Hokn [] (Forall_nil _)) Ho1 D3 H He Hl). contradiction. }
    destruct (@run E1 body _) as [[st2 out1]|] eqn:Hrun in H; [|discriminate]. cbn [bind] in H.
    assert (Ho3 : all_disabled (mkb (buf b3) (berr b3) true :: outer1)) by (constructor; [reflexivity|assumption]).
    destruct (@run_step E1 _ (mkb (buf b3) (berr b3) false) _ _ _ Hokb Ho3 eq_refl Hrun) as (Ro & b5 & -> & Sb).
    destruct (@block_end E1 k _) as [b6|] eqn:Hend in H; [|discriminate]. cbn [bind set_nth] in H.
    pose proof (@block_end_step E1 k (mkb (buf b5) (berr b5) false) b6 eq_refl Hend) as (D6 & N6 & G6). cbn [berr buf] in N6, G6.
    destruct (before_rest E1 _ _ _ _ _ (Hokn out1 Ro) Ho1 D6 H He Hl) as [He6 Hl6].
    assert (He5 : berr b5 = None) by (destruct (berr b5) eqn:Hx; [rewrite N6 in He6 by congruence; congruence|reflexivity]).
    assert (Hl5 : nlen (data (buf b5)) < 2 ^ 32) by (destruct (G6 He5 He6) as [L _]; unfold len, nlen in *; lia).
    destruct (before_rest E1 _ (mkb (buf b3) (berr b3) false) _ _ _ Hokb Ho3 eq_refl Hrun He5 Hl5) as [He3 Hl3]. cbn [berr buf] in He3, Hl3.
    destruct (block_begin_same k b1 b2 b3 Hk Hs Hb He3 Hl3) as (b4 & -> & Hp4 & _ & He4 & Hd3 & Hd4). cbn [bind].
    assert (Ho4 : all_disabled (mkb (buf b4) (berr b4) true :: outer2)) by (constructor; [reflexivity|assumption]).
    destruct (IHb (mkb (buf b3) (berr b3) false) (mkb (buf b4) (berr b4) false) _ _ b5 out1 Hokb Ho3 Ho4 ltac:(cbn; congruence)) as (b7 & H7 & Hs7).
    + repeat split; assumption.
    + exact Hrun.
    + exact He5.
    + exact Hl5.
    + rewrite H7. cbn [bind].
      destruct (block_end_same k (mkb (buf b5) (berr b5) false) (mkb (buf b7) (berr b7) false) b6) as (b8 & H8 & Hs8).
      * destruct Hs7 as (? & ? & ? & ? & ?). repeat split; assumption.
      * exact Hend.
      * exact He6.
      * exact Hl6.
      * rewrite H8. cbn [bind set_nth]. exact (IHn out1 b6 b8 outer1 outer2 b1' out (Hokn out1 Ro) Ho1 Ho2 Hlen Hs8 H He Hl).
Qed.
End Same.
