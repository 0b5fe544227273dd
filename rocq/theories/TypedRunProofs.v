(* Programs with any well-formed arguments: they append whole frames, which do not depend on the
   buffer. *)
From Coq Require Import String List NArith ZArith Arith Bool Lia ZifyN ZifyNat ZifyBool.
From Coq Require Import List.
From Verif Require Import Base GoSlice SliceProofs Varint SpecWire SpecMsg WireProofs Text Values AnyModel ExprModel MsgModel Builder
  SpecValue SpecProg ValueProofs MsgProofs BuilderProofs UnitProofs SpecTyped TypedProofs.
Import ListNotations.
Open Scope N_scope.
Open Scope list_scope.

Lemma laid_grows : forall E ty Q S W (f : enc) p q, laid (@word32 E) ty Q S W f -> f E p = Ok (q, None) -> grows p q whole.
Proof.
  intros E ty Q S W f p q [(bs & H1 & _ & H3)|[[[B1 _] _]|[Hb _]]] Hq.
  - destruct (H3 E eq_refl p) as [sp Hp]. rewrite Hp in Hq. apply ok_fst in Hq. subst q. split.
    + unfold len. cbn [data]. rewrite app_length. lia.
    + intros _. exists bs. split; [reflexivity|exact (one_whole _ _ H1)].
  - exfalso. exact (B1 E eq_refl p q Hq).
  - destruct (Hb E eq_refl p q Hq). split; [assumption|]. lia.
Qed.

Section Steps.
Context `{E : Env}.

Lemma typed_call_step : forall dis c b b', typed_call word32 c -> disabled b = false -> exec_call dis c b = Ok b' -> step b b' whole.
Proof using.
  intros dis c b b' Hc Hd H. unfold exec_call, guarded in H. rewrite Hd in H.
  destruct (berr b) as [e|] eqn:He.
  - injection H as <-. split; [assumption|]. split; [reflexivity|]. congruence.
  - pose proof (call_laid word32 dis c Hc) as Ho.
    change (match c with CStmtExecute stmt args => _ | _ => _ end) with (run_call dis c E (buf b)) in H.
    destruct (run_call dis c E (buf b)) as [[q e]|] eqn:Hr; cbn [bind] in H; [|discriminate]. injection H as <-.
    split; [reflexivity|]. split; [congruence|]. intros _. cbn [berr buf]. intros ->.
    exact (laid_grows E _ _ _ _ _ _ _ Ho Hr).
Qed.

Lemma typed_statement_step : forall s b b', go_string s -> disabled b = false -> b_stmt_execute s [] b = Ok b' -> step b b' whole.
Proof using.
  intros s b b' Hs Hd H. apply (typed_call_step [] (CStmtExecute s []) b b'); [split; [assumption|constructor]|assumption|exact H].
Qed.

Lemma typed_row_step : forall name cols row b b' o, go_string name -> Forall go_string cols -> typed_values word32 row ->
  disabled b = false -> b_insert_row name cols row b = Ok (b', o) -> row_result o /\ step b b' whole.
Proof using.
  intros name cols row b b' o Hn Hc Hr Hd H. unfold b_insert_row in H. rewrite Hd in H.
  destruct (berr b) as [e|] eqn:He.
  { injection H as <- <-. split; [exact I|]. split; [assumption|]. split; [reflexivity|]. congruence. }
  pose proof (typed_row_laid word32 name cols row Hn Hc Hr) as Ho.
  destruct (patched (seq (fun E p => okm (msg_insert p name cols)) (fun E p => append_insert_row p row)) E (buf b)) as [[q [e|]]|] eqn:Hf.
  - unfold patched, seq, okm in Hf.
    destruct (msg_insert (buf b) name cols) as [p1|]; cbn [bind] in *; [|discriminate].
    destruct (append_insert_row p1 row) as [[p2 [e2|]]|]; cbn [bind] in *; [| |discriminate].
    + injection H as <- <-. split; [exact I|]. split; [reflexivity|]. split; [congruence|]. intros _. discriminate.
    + destruct (patch_length p2 _); discriminate.
  - pose proof (laid_grows E _ _ _ _ _ _ _ Ho Hf) as Hg. unfold patched, seq, okm in Hf.
    destruct (msg_insert (buf b) name cols) as [p1|]; cbn [bind] in *; [|discriminate].
    destruct (append_insert_row p1 row) as [[p2 [e2|]]|]; cbn [bind] in *; [discriminate| |discriminate].
    destruct (patch_length p2 (len (buf b))) as [p3|]; cbn [bind] in *; [|discriminate]. injection Hf as <-.
    set (id := insert_id p3) in *.
    destruct (b_stmt_execute _ [] _) as [b2|] eqn:Hs in H; cbn [bind] in H; [|discriminate]. injection H as <- <-.
    assert (Hid : Forall (fun x => x < 256) id /\ nlen id <= 23) by (apply id_of_small; apply N.mod_upper_bound; discriminate).
    split; [exists id; split; [reflexivity|]; split; [split; [apply Hid|]|]; destruct Hid; lia|].
    apply typed_statement_step in Hs; [|apply go_string_app; [apply s2b_go|apply Forall_app; split; [apply Hid|apply s2b_go]|]|reflexivity].
    2: { rewrite nlen_app. rewrite !(proj2 (s2b_go _)). cbn [String.length]. lia. }
    destruct Hs as (S1 & S2 & S3). split; [exact S1|]. split; [congruence|]. intros _ Hb.
    specialize (S3 eq_refl Hb). cbn [buf] in S3. exact (grows_trans _ _ _ _ _ _ Hg S3 (fun _ => whole_app)).
  - unfold patched, seq, okm in Hf.
    destruct (msg_insert (buf b) name cols) as [p1|]; cbn [bind] in *; [|discriminate].
    destruct (append_insert_row p1 row) as [[p2 [e2|]]|]; cbn [bind] in *; [discriminate| |discriminate].
    destruct (patch_length p2 _); cbn [bind] in *; discriminate.
Qed.

Lemma whole_trans : forall b b1 b2, step b b1 whole -> step b1 b2 whole -> step b b2 whole.
Proof using. intros b b1 b2 H1 H2. eapply step_trans; [exact H1|exact H2|]. intros _. exact whole_app. Qed.

Ltac go_const := split; [apply s2b_go|reflexivity].

Lemma typed_begin_step : forall k b b1 en, blk_ok k -> disabled b = false -> block_begin k b = Ok (b1, en) ->
  if en then berr b = None /\ step b b1 whole
  else berr b1 <> None /\ disabled b1 = false /\ (berr b <> None -> b1 = b).
Proof using.
  intros k b b1 en Hk Hd H. unfold block_begin in H. rewrite Hd in H. destruct (berr b) as [e|] eqn:He.
  { injection H as <- <-. split; [congruence|]. auto. }
  destruct k as [lvl|ctx].
  - assert (Hone : forall s, go_string s -> (do b <- b_stmt_execute s [] b; Ok (b, true)) = Ok (b1, en) ->
      if en then berr b = None /\ step b b1 whole else False).
    { intros s Hs H1. destruct (b_stmt_execute s [] b) as [b2|] eqn:Hb; [|discriminate]. cbn [bind] in H1. injection H1 as <- <-.
      split; [assumption|]. apply (typed_statement_step s); assumption. }
    assert (Htwo : forall s1 s2, go_string s1 -> go_string s2 ->
      (do b <- b_stmt_execute s1 [] b; do b <- b_stmt_execute s2 [] b; Ok (b, true)) = Ok (b1, en) ->
      if en then berr b = None /\ step b b1 whole else False).
    { intros s1 s2 Hs1 Hs2 H1. destruct (b_stmt_execute s1 [] b) as [b2|] eqn:Hb; [|discriminate]. cbn [bind] in H1.
      destruct (b_stmt_execute s2 [] b2) as [b3|] eqn:Hb3; [|discriminate]. cbn [bind] in H1. injection H1 as <- <-.
      split; [assumption|]. apply typed_statement_step in Hb; [|assumption..]. apply typed_statement_step in Hb3; [|assumption|apply Hb].
      exact (whole_trans _ _ _ Hb Hb3). }
    unfold tx_begin in H.
    destruct lvl as [|[[[lvl|lvl|]|[lvl|lvl|]|]|[[lvl|lvl|]|[lvl|lvl|]|]|]]; cbn [bind] in H;
      try (injection H as <- <-; split; [discriminate|]; split; [assumption|congruence]).
    all: first [apply Hone in H; [|go_const] | apply Htwo in H; [|go_const..]]; destruct en; [|contradiction];
      destruct H as [H1 H2]; split; [reflexivity|exact H2].
  - cbn [blk_ok] in *. pose proof (open_laid word32 ctx True True 512 Hk ltac:(lia)) as Ho.
    destruct (expect_open (buf b) ctx [ONoError true]) as [q|] eqn:Hq; [|discriminate]. cbn [bind] in H. injection H as <- <-.
    split; [reflexivity|]. split; [reflexivity|]. split; [congruence|]. intros _ _. cbn [buf].
    apply (laid_grows E _ _ _ _ _ _ _ Ho); unfold okm; rewrite Hq; reflexivity.
Qed.

Lemma typed_end_step : forall k b b', disabled b = false -> block_end k b = Ok b' ->
  disabled b' = false /\ (berr b <> None -> berr b' = berr b) /\
  (berr b = None -> berr b' = None -> grows (buf b) (buf b') whole).
Proof using.
  intros [lvl|ctx] b b' Hd H; cbn [block_end] in *.
  - apply typed_statement_step in H; [|go_const|assumption]. destruct H as (H1 & H2 & H3). split; [assumption|]. split; [|assumption].
    intros He. rewrite (H2 He). reflexivity.
  - injection H as <-. cbn [disabled berr buf]. split; [assumption|]. split; [reflexivity|]. intros _ _.
    apply (laid_grows E _ _ _ _ _ _ _ (close_laid word32 True True 512)). reflexivity.
Qed.

Lemma typed_step : forall pr b outer st out, typed_prog word32 pr -> Forall (fun b => disabled b = true) outer -> disabled b = false ->
  run pr (b :: outer) = Ok (st, out) ->
  Forall row_result out /\ exists b', st = b' :: outer /\ step b b' whole.
Proof using.
  induction pr as [cberr out0|lvl c next IH|lvl name cols row next IH|lvl k body IHb next IHn];
    intros b outer st out Hok Hout Hd H; cbn [run typed_prog] in *.
  - injection H as <- <-. split; [assumption|]. exists b. split; [reflexivity|]. split; [assumption|]. split; [reflexivity|].
    intros _ _. apply grows_refl. apply whole_nil.
  - destruct Hok as [Hc Hok]. destruct lvl as [|lvl].
    2: { destruct (nth_error (b :: outer) (S lvl)) as [x|] eqn:Hx; [|discriminate]. apply only_inner in Hx; [|assumption].
         rewrite exec_disabled in H by assumption. discriminate. }
    cbn [nth_error set_nth map] in H. destruct (exec_call _ c b) as [b1|] eqn:Hb; [|discriminate]. cbn [bind] in H.
    apply typed_call_step in Hb; [|assumption..]. destruct (IH b1 outer st out Hok Hout (proj1 Hb) H) as (Ho & b' & -> & Hs).
    split; [exact Ho|]. exists b'. split; [reflexivity|]. exact (whole_trans _ _ _ Hb Hs).
  - destruct Hok as (Hn & Hc & Hr & Hok). destruct lvl as [|lvl].
    2: { destruct (nth_error (b :: outer) (S lvl)) as [x|] eqn:Hx; [|discriminate]. apply only_inner in Hx; [|assumption].
         rewrite insert_row_disabled in H by assumption. discriminate. }
    cbn [nth_error set_nth] in H. destruct (b_insert_row name cols row b) as [[b1 o]|] eqn:Hb; [|discriminate]. cbn [bind] in H.
    apply typed_row_step in Hb; [|assumption..]. destruct Hb as [Hrow Hb].
    destruct (IH o b1 outer st out (Hok o Hrow) Hout (proj1 Hb) H) as (Ho & b' & -> & Hs).
    split; [exact Ho|]. exists b'. split; [reflexivity|]. exact (whole_trans _ _ _ Hb Hs).
  - destruct Hok as (Hk & Hokb & Hokn). destruct lvl as [|lvl].
    2: { destruct (nth_error (b :: outer) (S lvl)) as [x|] eqn:Hx; [|discriminate]. apply only_inner in Hx; [|assumption].
         rewrite block_disabled in H by assumption. discriminate. }
    cbn [nth_error set_nth] in H. destruct (block_begin k b) as [[b1 en]|] eqn:Hb; [|discriminate]. cbn [bind] in H.
    apply typed_begin_step in Hb; [|assumption..]. destruct en.
    + destruct Hb as (He & H1).
      destruct (run body _) as [[st2 out1]|] eqn:Hbody; [|discriminate]. cbn [bind] in H.
      apply IHb in Hbody; [|assumption|constructor; [reflexivity|assumption]|reflexivity].
      destruct Hbody as (Ho1 & child & -> & H2).
      destruct (block_end k _) as [b3|] eqn:H3; [|discriminate]. cbn [bind set_nth] in H.
      apply typed_end_step in H3; [|reflexivity]. cbn [berr buf] in H3.
      destruct (IHn out1 b3 outer st out (Hokn out1 Ho1) Hout (proj1 H3) H) as (Ho & b' & -> & H4).
      split; [exact Ho|]. exists b'. split; [reflexivity|].
      destruct H1 as (A1 & A2 & A3), H2 as (B1 & B2 & B3), H3 as (C1 & C2 & C3), H4 as (D1 & D2 & D3). cbn [berr buf disabled] in *.
      split; [exact D1|]. split; [congruence|]. intros _ Hb'.
      assert (He3 : berr b3 = None) by (destruct (berr b3) eqn:Hx; [rewrite D2 in Hb' by congruence; congruence|reflexivity]).
      assert (Hec : berr child = None) by (destruct (berr child) eqn:Hx; [rewrite C2 in He3 by congruence; congruence|reflexivity]).
      assert (He1 : berr b1 = None) by (destruct (berr b1) eqn:Hx; [rewrite B2 in Hec by congruence; cbn [berr] in Hec; congruence|reflexivity]).
      specialize (A3 He He1). specialize (B3 He1 Hec). specialize (C3 Hec He3). specialize (D3 He3 Hb').
      exact (grows_trans _ _ _ _ _ _ A3 (grows_trans _ _ _ _ _ _ B3 (grows_trans _ _ _ _ _ _ C3 D3 (fun _ => whole_app)) (fun _ => whole_app)) (fun _ => whole_app)).
    + destruct Hb as (He & Hd1 & Heq).
      destruct (IHn [] b1 outer st out (Hokn [] (Forall_nil _)) Hout Hd1 H) as (Ho & b' & -> & H4).
      split; [exact Ho|]. exists b'. split; [reflexivity|]. destruct H4 as (D1 & D2 & D3). specialize (D2 He). subst b'.
      split; [exact D1|]. split; [exact Heq|]. congruence.
Qed.
End Steps.

(* If the rest of the program ends without error and small, so did what came before. *)
Lemma typed_before_rest : forall (E : Env) pr b outer b' out, typed_prog (@word32 E) pr -> Forall (fun b => disabled b = true) outer -> disabled b = false ->
  @run E pr (b :: outer) = Ok (b' :: outer, out) -> berr b' = None -> nlen (data (buf b')) < 2 ^ 32 ->
  berr b = None /\ nlen (data (buf b)) < 2 ^ 32.
Proof.
  intros E pr b outer b' out Hok Ho Hd H He Hl. destruct (@typed_step E _ _ _ _ _ Hok Ho Hd H) as (_ & b2 & Hb & _ & S2 & S3).
  injection Hb as <-. assert (Hb : berr b = None) by (destruct (berr b) eqn:Hx; [rewrite S2 in He by congruence; congruence|reflexivity]).
  split; [exact Hb|]. destruct (S3 Hb He) as [L _]. unfold len, nlen in *. lia.
Qed.

Section Same.
Variables (E1 E2 : Env) (HW : @word32 E1 = @word32 E2).

Lemma laid_same : forall ty Q S W (f : enc) p1 p2 q1, laid (@word32 E1) ty Q S W f -> f E1 p1 = Ok (q1, None) -> nlen (data q1) < 2 ^ 32 ->
  data p1 = data p2 -> exists q2, f E2 p2 = Ok (q2, None) /\ data q2 = data q1.
Proof using HW.
  intros ty Q S W f p1 p2 q1 [(bs & H1 & _ & H3)|[[[B1 _] _]|[Hb _]]] Hq Hl Hp.
  - destruct (H3 E1 eq_refl p1) as [sp1 G1]. destruct (H3 E2 (eq_sym HW) p2) as [sp2 G2]. rewrite G1 in Hq. apply ok_fst in Hq. subst q1.
    eexists. split; [exact G2|]. cbn [data]. rewrite Hp. reflexivity.
  - exfalso. exact (B1 E1 eq_refl p1 q1 Hq).
  - destruct (Hb E1 eq_refl p1 q1 Hq). lia.
Qed.

Lemma typed_call_same : forall dis c b1 b2 b1', typed_call (@word32 E1) c -> same_data b1 b2 -> @exec_call E1 dis c b1 = Ok b1' -> berr b1' = None ->
  nlen (data (buf b1')) < 2 ^ 32 -> exists b2', @exec_call E2 dis c b2 = Ok b2' /\ same_data b1' b2'.
Proof using HW.
  intros dis c b1 b2 b1' Hc (Hp & He1 & He2 & Hd1 & Hd2) H He Hl. unfold exec_call, guarded in *. rewrite Hd1, He1 in H. rewrite Hd2, He2.
  change (match c with CStmtExecute stmt args => @stmt_execute E1 (buf b1) _ _ | _ => _ end) with (run_call dis c E1 (buf b1)) in H.
  change (match c with CStmtExecute stmt args => @stmt_execute E2 (buf b2) _ _ | _ => _ end) with (run_call dis c E2 (buf b2)).
  destruct (run_call dis c E1 (buf b1)) as [[q e]|] eqn:Hr; cbn [bind] in H; [|discriminate].
  assert (Hb : b1' = mkb q e false) by congruence. subst b1'. cbn [berr buf] in *. subst e.
  destruct (laid_same _ _ _ _ _ _ _ _ (call_laid (@word32 E1) dis c Hc) Hr Hl Hp) as (q2 & H2 & Hq). rewrite H2. cbn [bind].
  eexists. split; [reflexivity|]. repeat split; assumption || (cbn; congruence).
Qed.

Lemma typed_stmt_same : forall s b1 b2 b1', go_string s -> same_data b1 b2 -> @b_stmt_execute E1 s [] b1 = Ok b1' -> berr b1' = None ->
  nlen (data (buf b1')) < 2 ^ 32 -> exists b2', @b_stmt_execute E2 s [] b2 = Ok b2' /\ same_data b1' b2'.
Proof using HW.
  intros s b1 b2 b1' Hs Hb H He Hl. apply (typed_call_same [] (CStmtExecute s []) b1 b2 b1'); try assumption. split; [assumption|constructor].
Qed.

Lemma typed_row_same : forall name cols row b1 b2 b1' o, go_string name -> Forall go_string cols -> typed_values (@word32 E1) row -> same_data b1 b2 ->
  @b_insert_row E1 name cols row b1 = Ok (b1', o) -> berr b1' = None -> nlen (data (buf b1')) < 2 ^ 32 ->
  exists b2', @b_insert_row E2 name cols row b2 = Ok (b2', o) /\ same_data b1' b2'.
Proof using HW.
  intros name cols row b1 b2 b1' o Hn Hc Hr (Hp & He1 & He2 & Hd1 & Hd2) H He Hl.
  destruct (insert_row_eq E1 name cols row b1 Hd1 He1) as [I1 I2]. destruct (I2 _ _ H He) as [q Hq]. rewrite (I1 q Hq) in H.
  destruct (@b_stmt_execute E1 _ [] (mkb q None false)) as [b|] eqn:Hs; cbn [bind] in H; [|discriminate].
  assert (Hb : b1' = b /\ o = Some (EVariable (insert_id q))) by (split; congruence). destruct Hb as [-> ->].
  pose proof (@typed_statement_step E1 _ (mkb q None false) _ (set_statement_ok q) eq_refl Hs) as (_ & _ & Hg).
  specialize (Hg eq_refl He). destruct Hg as [Hg _]. cbn [buf] in Hg.
  assert (Hlq : nlen (data q) < 2 ^ 32) by (unfold len, nlen in *; lia).
  destruct (laid_same _ _ _ _ _ _ _ _ (typed_row_laid (@word32 E1) name cols row Hn Hc Hr) Hq Hlq Hp) as (q2 & H2 & Hq2).
  destruct (insert_row_eq E2 name cols row b2 Hd2 He2) as [J1 _]. rewrite (J1 q2 H2).
  assert (Hid : insert_id q2 = insert_id q) by (unfold insert_id, len; rewrite Hq2; reflexivity). rewrite Hid.
  assert (Hsq : same_data (mkb q None false) (mkb q2 None false)) by (repeat split; symmetry; assumption).
  destruct (typed_stmt_same _ _ (mkb q2 None false) _ (set_statement_ok q) Hsq Hs He Hl) as (b2' & Hb2 & Hsame).
  rewrite Hb2. cbn [bind]. eauto.
Qed.

Lemma typed_begin_same : forall k b1 b2 b1', blk_ok k -> same_data b1 b2 -> @block_begin E1 k b1 = Ok (b1', true) -> berr b1' = None ->
  nlen (data (buf b1')) < 2 ^ 32 -> exists b2', @block_begin E2 k b2 = Ok (b2', true) /\ same_data b1' b2'.
Proof using HW.
  intros k b1 b2 b1' Hk Hs H He Hl. pose proof Hs as (Hp & He1 & He2 & Hd1 & Hd2). unfold block_begin in *. rewrite Hd1, He1 in H. rewrite Hd2, He2.
  destruct k as [lvl|ctx].
  - assert (Hone : forall s, go_string s -> (do b <- @b_stmt_execute E1 s [] b1; Ok (b, true)) = Ok (b1', true) ->
      exists b2', (do b <- @b_stmt_execute E2 s [] b2; Ok (b, true)) = Ok (b2', true) /\ same_data b1' b2').
    { intros s Hg H1. destruct (@b_stmt_execute E1 s [] b1) as [b3|] eqn:Hb; [|discriminate]. cbn [bind] in H1. apply ok_fst in H1. subst b3.
      destruct (typed_stmt_same s b1 b2 b1' Hg Hs Hb He Hl) as (b2' & -> & Hx). cbn [bind]. eauto. }
    assert (Htwo : forall s1 s2, go_string s1 -> go_string s2 ->
      (do b <- @b_stmt_execute E1 s1 [] b1; do b <- @b_stmt_execute E1 s2 [] b; Ok (b, true)) = Ok (b1', true) ->
      exists b2', (do b <- @b_stmt_execute E2 s1 [] b2; do b <- @b_stmt_execute E2 s2 [] b; Ok (b, true)) = Ok (b2', true) /\ same_data b1' b2').
    { intros s1 s2 Hg1 Hg2 H1. destruct (@b_stmt_execute E1 s1 [] b1) as [b3|] eqn:Hb; [|discriminate]. cbn [bind] in H1.
      destruct (@b_stmt_execute E1 s2 [] b3) as [b4|] eqn:Hb4; [|discriminate]. cbn [bind] in H1. apply ok_fst in H1. subst b4.
      pose proof (@typed_statement_step E1 _ _ _ Hg1 Hd1 Hb) as (D3 & _ & _).
      pose proof (@typed_statement_step E1 _ _ _ Hg2 D3 Hb4) as (_ & N4 & G4).
      assert (He3 : berr b3 = None) by (destruct (berr b3) eqn:Hx; [rewrite N4 in He by congruence; congruence|reflexivity]).
      destruct (G4 He3 He) as [L4 _]. assert (Hl3 : nlen (data (buf b3)) < 2 ^ 32) by (unfold len, nlen in *; lia).
      destruct (typed_stmt_same s1 b1 b2 b3 Hg1 Hs Hb He3 Hl3) as (b5 & -> & Hx). cbn [bind].
      destruct (typed_stmt_same s2 b3 b5 b1' Hg2 Hx Hb4 He Hl) as (b6 & -> & Hy). cbn [bind]. eauto. }
    unfold tx_begin in *.
    destruct lvl as [|[[[lvl|lvl|]|[lvl|lvl|]|]|[[lvl|lvl|]|[lvl|lvl|]|]|]]; cbn [bind] in H |- *; try discriminate.
    all: first [apply Hone; [split; [apply s2b_go|reflexivity]|exact H] | apply Htwo; [split; [apply s2b_go|reflexivity]|split; [apply s2b_go|reflexivity]|exact H]].
  - cbn [blk_ok] in *. pose proof (open_laid (@word32 E1) ctx True True 512 Hk ltac:(lia)) as Ho.
    destruct (@expect_open E1 (buf b1) ctx [ONoError true]) as [q|] eqn:Hq; [|discriminate]. cbn [bind] in H. apply ok_fst in H. subst b1'. cbn [buf] in *.
    assert (Hf : okm (@expect_open E1 (buf b1) ctx [ONoError true]) = Ok (q, None)) by (unfold okm; rewrite Hq; reflexivity).
    destruct (laid_same _ _ _ _ _ _ _ _ Ho Hf Hl Hp) as (q2 & H2 & Hq2). unfold okm in H2.
    destruct (@expect_open E2 (buf b2) ctx [ONoError true]) as [q3|]; cbn [bind] in *; [|discriminate]. apply ok_fst in H2. subst q3.
    eexists. split; [reflexivity|]. repeat split; assumption || (cbn; congruence).
Qed.

Lemma typed_end_same : forall k b1 b2 b1', same_data b1 b2 -> @block_end E1 k b1 = Ok b1' -> berr b1' = None ->
  nlen (data (buf b1')) < 2 ^ 32 -> exists b2', @block_end E2 k b2 = Ok b2' /\ same_data b1' b2'.
Proof using HW.
  intros [lvl|ctx] b1 b2 b1' Hs H He Hl; cbn [block_end] in *.
  - apply (typed_stmt_same _ b1 b2 b1'); try assumption. split; [apply s2b_go|reflexivity].
  - pose proof Hs as (Hp & He1 & He2 & Hd1 & Hd2). assert (Hb : b1' = mkb (@expect_close E1 (buf b1)) (berr b1) (disabled b1)) by congruence. subst b1'.
    pose proof (close_laid (@word32 E1) True True 512) as Ho. cbn [buf] in *.
    destruct (laid_same _ _ _ _ _ (buf b1) (buf b2) (@expect_close E1 (buf b1)) Ho eq_refl Hl Hp) as (q2 & H2 & Hq2).
    unfold okm in H2. cbn [bind] in H2. apply ok_fst in H2. subst q2.
    eexists. split; [reflexivity|]. repeat split; assumption || (cbn; congruence).
Qed.

Lemma typed_same : forall pr b1 b2 outer1 outer2 b1' out, typed_prog (@word32 E1) pr -> all_disabled outer1 -> all_disabled outer2 -> length outer1 = length outer2 ->
  same_data b1 b2 -> @run E1 pr (b1 :: outer1) = Ok (b1' :: outer1, out) -> berr b1' = None -> nlen (data (buf b1')) < 2 ^ 32 ->
  exists b2', @run E2 pr (b2 :: outer2) = Ok (b2' :: outer2, out) /\ same_data b1' b2'.
Proof using HW.
  induction pr as [cberr out0|lvl c next IH|lvl name cols row next IH|lvl k body IHb next IHn];
    intros b1 b2 outer1 outer2 b1' out Hok Ho1 Ho2 Hlen Hs H He Hl; cbn [run typed_prog] in *; pose proof Hs as (_ & _ & _ & Hd1 & Hd2).
  - assert (b1' = b1 /\ out = out0) by (split; congruence). destruct H0; subst. eauto.
  - destruct Hok as [Hc Hok]. destruct lvl as [|lvl].
    2: { destruct (nth_error (b1 :: outer1) (S lvl)) as [x|] eqn:Hx; [|discriminate]. apply only_inner in Hx; [|assumption].
         rewrite exec_disabled in H by assumption. discriminate. }
    cbn [nth_error set_nth map] in *. rewrite (disabled_flags outer2 outer1 Ho2 Ho1 (eq_sym Hlen)).
    destruct (@exec_call E1 _ c b1) as [b3|] eqn:Hb; [|discriminate]. cbn [bind] in H.
    pose proof (@typed_call_step E1 _ _ _ _ Hc Hd1 Hb) as (D3 & _ & _).
    destruct (typed_before_rest E1 _ _ _ _ _ Hok Ho1 D3 H He Hl) as [He3 Hl3].
    destruct (typed_call_same _ c b1 b2 b3 Hc Hs Hb He3 Hl3) as (b4 & -> & Hs4). cbn [bind].
    exact (IH b3 b4 outer1 outer2 b1' out Hok Ho1 Ho2 Hlen Hs4 H He Hl).
  - destruct Hok as (Hn & Hc & Hr & Hok). destruct lvl as [|lvl].
    2: { destruct (nth_error (b1 :: outer1) (S lvl)) as [x|] eqn:Hx; [|discriminate]. apply only_inner in Hx; [|assumption].
         rewrite insert_row_disabled in H by assumption. discriminate. }
    cbn [nth_error set_nth] in *. destruct (@b_insert_row E1 _ _ _ b1) as [[b3 o]|] eqn:Hb; [|discriminate]. cbn [bind] in H.
    destruct (@typed_row_step E1 _ _ _ _ _ _ Hn Hc Hr Hd1 Hb) as (Ro & D3 & _ & _).
    destruct (typed_before_rest E1 _ _ _ _ _ (Hok o Ro) Ho1 D3 H He Hl) as [He3 Hl3].
    destruct (typed_row_same name cols row b1 b2 b3 o Hn Hc Hr Hs Hb He3 Hl3) as (b4 & -> & Hs4). cbn [bind].
    exact (IH o b3 b4 outer1 outer2 b1' out (Hok o Ro) Ho1 Ho2 Hlen Hs4 H He Hl).
  - destruct Hok as (Hk & Hokb & Hokn). destruct lvl as [|lvl].
    2: { destruct (nth_error (b1 :: outer1) (S lvl)) as [x|] eqn:Hx; [|discriminate]. apply only_inner in Hx; [|assumption].
         rewrite block_disabled in H by assumption. discriminate. }
    cbn [nth_error set_nth] in *. destruct (@block_begin E1 k b1) as [[b3 en]|] eqn:Hb; [|discriminate]. cbn [bind] in H.
    pose proof (@typed_begin_step E1 _ _ _ _ Hk Hd1 Hb) as Hbs. destruct en.
    2: { destruct Hbs as (Hx & D3 & _). destruct (typed_before_rest E1 _ _ _ _ _ (Hokn [] (Forall_nil _)) Ho1 D3 H He Hl). contradiction. }
    destruct (@run E1 body _) as [[st2 out1]|] eqn:Hrun in H; [|discriminate]. cbn [bind] in H.
    assert (Ho3 : all_disabled (mkb (buf b3) (berr b3) true :: outer1)) by (constructor; [reflexivity|assumption]).
    destruct (@typed_step E1 _ (mkb (buf b3) (berr b3) false) _ _ _ Hokb Ho3 eq_refl Hrun) as (Ro & b5 & -> & Sb).
    destruct (@block_end E1 k _) as [b6|] eqn:Hend in H; [|discriminate]. cbn [bind set_nth] in H.
    pose proof (@typed_end_step E1 k (mkb (buf b5) (berr b5) false) b6 eq_refl Hend) as (D6 & N6 & G6). cbn [berr buf] in N6, G6.
    destruct (typed_before_rest E1 _ _ _ _ _ (Hokn out1 Ro) Ho1 D6 H He Hl) as [He6 Hl6].
    assert (He5 : berr b5 = None) by (destruct (berr b5) eqn:Hx; [rewrite N6 in He6 by congruence; congruence|reflexivity]).
    assert (Hl5 : nlen (data (buf b5)) < 2 ^ 32) by (destruct (G6 He5 He6) as [L _]; unfold len, nlen in *; lia).
    destruct (typed_before_rest E1 _ (mkb (buf b3) (berr b3) false) _ _ _ Hokb Ho3 eq_refl Hrun He5 Hl5) as [He3 Hl3]. cbn [berr buf] in He3, Hl3.
    destruct (typed_begin_same k b1 b2 b3 Hk Hs Hb He3 Hl3) as (b4 & -> & Hp4 & _ & He4 & Hd3 & Hd4). cbn [bind].
    assert (Ho4 : all_disabled (mkb (buf b4) (berr b4) true :: outer2)) by (constructor; [reflexivity|assumption]).
    destruct (IHb (mkb (buf b3) (berr b3) false) (mkb (buf b4) (berr b4) false) _ _ b5 out1 Hokb Ho3 Ho4 ltac:(cbn; congruence)) as (b7 & H7 & Hs7).
    + repeat split; assumption.
    + exact Hrun.
    + exact He5.
    + exact Hl5.
    + rewrite H7. cbn [bind].
      destruct (typed_end_same k (mkb (buf b5) (berr b5) false) (mkb (buf b7) (berr b7) false) b6) as (b8 & H8 & Hs8).
      * destruct Hs7 as (? & ? & ? & ? & ?). repeat split; assumption.
      * exact Hend.
      * exact He6.
      * exact Hl6.
      * rewrite H8. cbn [bind set_nth]. exact (IHn out1 b6 b8 outer1 outer2 b1' out (Hokn out1 Ro) Ho1 Ho2 Hlen Hs8 H He Hl).
Qed.
End Same.

(* A message that is not refused is appended; when its parts do not panic, it does not panic. *)
Section Totals.
Context `{E : Env}.

Lemma laid_total : forall ty Q S W (f : enc) p, laid (@word32 E) ty Q S W f -> W < 2 ^ 61 -> Q \/ S ->
  exists q e, f E p = Ok (q, e) /\ (S -> e = None).
Proof using.
  intros ty Q S W f p [(bs & H1 & _ & H3)|[[[_ B2] Hs]|(_ & _ & Hg)]] HW HQ.
  - destruct (H3 E eq_refl p) as [sp Hp]. eauto.
  - destruct HQ as [HQ|HS]; [|contradiction]. destruct (B2 HQ E eq_refl p) as (r & e & Hr & _). exists r, (Some e). split; [exact Hr|]. contradiction.
  - destruct (Hg HW) as (bs & _ & H3). destruct (H3 E eq_refl p) as [sp Hp]. eauto.
Qed.

Lemma typed_call_total : forall dis c b, typed_call word32 c -> call_fits c -> call_quiet c \/ call_accepted c -> disabled b = false -> berr b = None ->
  exists b', exec_call dis c b = Ok b' /\ disabled b' = false /\ (call_accepted c -> berr b' = None).
Proof using.
  intros dis c b Hc Hf HQ Hd He. pose proof (call_laid word32 dis c Hc) as Ho.
  destruct (laid_total _ _ _ _ _ (buf b) Ho Hf HQ) as (q & e & Hq & Ha).
  exists (mkb q e (disabled b)). split; [|cbn; auto]. unfold exec_call, guarded. rewrite Hd, He.
  change (match c with CStmtExecute stmt args => _ | _ => _ end) with (run_call dis c E (buf b)). rewrite Hq. reflexivity.
Qed.

Lemma typed_insert_row_total : forall name cols row b, go_string name -> Forall go_string cols -> typed_values word32 row -> row_fits name cols row ->
  Forall panic_free row \/ Forall expr_accepted row -> disabled b = false -> berr b = None ->
  exists b' o, b_insert_row name cols row b = Ok (b', o) /\ disabled b' = false /\ (Forall expr_accepted row -> berr b' = None) /\
    (berr b' = None -> row_variable o).
Proof using.
  intros name cols row b Hn Hc Hr Hf HQ Hd He. pose proof (typed_row_laid word32 name cols row Hn Hc Hr) as Ho.
  destruct (laid_total _ _ _ _ _ (buf b) Ho Hf HQ) as (q & e & Hq & Ha).
  unfold b_insert_row. rewrite Hd, He. unfold patched, seq, okm in Hq.
  destruct (msg_insert (buf b) name cols) as [p1|]; cbn [bind] in *; [|discriminate].
  destruct (append_insert_row p1 row) as [[p2 [e2|]]|]; cbn [bind] in *; [| |discriminate].
  - injection Hq as <- <-. eexists _, _. split; [reflexivity|]. cbn [disabled berr]. split; [reflexivity|].
    split; [intros HS; specialize (Ha HS); discriminate|discriminate].
  - destruct (patch_length p2 (len (buf b))) as [p3|]; cbn [bind] in *; [|discriminate].
    assert (Hid : Forall (fun x => x < 256) (insert_id p3) /\ nlen (insert_id p3) <= 23) by (apply id_of_small; apply N.mod_upper_bound; discriminate).
    destruct (statement_total (s2b "SET " ++ insert_id p3 ++ s2b " = LAST_INSERT_ID()") (mkb p3 None false)) as (b' & H1 & H2 & H3); [|..|reflexivity|reflexivity|].
    + apply go_string_app; [apply s2b_go|apply Forall_app; split; [apply Hid|apply s2b_go]|].
      rewrite nlen_app. rewrite !(proj2 (s2b_go _)). cbn [String.length]. lia.
    + rewrite !nlen_app. rewrite !(proj2 (s2b_go _)). cbn [String.length]. lia.
    + rewrite H1. cbn [bind]. eexists _, _. split; [reflexivity|]. split; [exact H2|]. split; [auto|]. intros _.
      exists (insert_id p3). split; [reflexivity|]. destruct Hid. split; [split; [assumption|lia]|lia].
Qed.

Section Total.
Variables (C : call -> Prop) (R : bytes -> list bytes -> list gvalue -> Prop) (K : block -> Prop) (A : Prop).
Hypothesis HC : forall c, C c -> call_fits c /\ (call_quiet c \/ call_accepted c) /\ (A -> call_accepted c).
Hypothesis HR : forall name cols row, R name cols row ->
  row_fits name cols row /\ (Forall panic_free row \/ Forall expr_accepted row) /\ (A -> Forall expr_accepted row).
Hypothesis HK : forall k, K k -> A -> opening k <> None.

Lemma typed_run_total : forall pr b outer, inner_only pr -> typed_prog word32 pr -> prog_all C R K pr -> disabled b = false -> berr b = None ->
  exists b' out, run pr (b :: outer) = Ok (b' :: outer, out) /\ disabled b' = false /\ (berr b' = None -> Forall row_variable out) /\
    (A -> berr b' = None).
Proof using HC HR HK.
  assert (Err : forall (Q : Prop) pr b outer, (A -> False) -> inner_only pr -> disabled b = false -> berr b <> None ->
    exists b' out, run pr (b :: outer) = Ok (b' :: outer, out) /\ disabled b' = false /\ (berr b' = None -> Forall row_variable out) /\ (A -> berr b' = None)).
  { intros Q pr b outer HA Hi Hd He. destruct (run_error pr b outer Hi Hd He) as [out Ho]. exists b, out.
    split; [exact Ho|]. split; [exact Hd|]. split; [congruence|]. intros a. destruct (HA a). }
  induction pr as [cberr out0|lvl c next IH|lvl name cols row next IH|lvl k body IHb next IHn]; intros b outer Hi Hok Hall Hd He;
    cbn [run inner_only typed_prog prog_all] in *.
  - exists b, out0. auto.
  - destruct Hi as [-> Hi], Hok as [Hc Hok], Hall as [Hcc Hall]. destruct (HC c Hcc) as (F1 & F2 & F3). cbn [nth_error set_nth].
    destruct (typed_call_total (set_nth (map disabled (b :: outer)) 0 true) c b Hc F1 F2 Hd He) as (b1 & -> & H1 & H2). cbn [bind].
    destruct (berr b1) as [e|] eqn:He1.
    + apply (Err True); [|assumption..|congruence]. intros a. specialize (H2 (F3 a)). congruence.
    + apply IH; assumption.
  - destruct Hi as [-> Hi], Hok as (Hn & Hc & Hr & Hok), Hall as [Hcc Hall]. destruct (HR _ _ _ Hcc) as (F1 & F2 & F3). cbn [nth_error set_nth].
    destruct (typed_insert_row_total name cols row b Hn Hc Hr F1 F2 Hd He) as (b1 & o & -> & H1 & H2 & H3). cbn [bind].
    destruct (berr b1) as [e|] eqn:He1.
    + apply (Err True); [|apply Hi|assumption|congruence]. intros a. specialize (H2 (F3 a)). congruence.
    + specialize (H3 eq_refl). apply IH; [apply Hi|apply Hok|apply Hall; exact H3|assumption..].
      destruct H3 as (id & -> & Hid & Hl). exists id. auto.
  - destruct Hi as (-> & Hib & Hin), Hok as (Hk & Hokb & Hokn), Hall as (Hkk & Hallb & Halln). cbn [nth_error set_nth].
    destruct (block_begin_total k b Hk Hd He) as (b1 & en & -> & H1 & H2 & H3 & H4). cbn [bind]. destruct en.
    + specialize (H2 eq_refl).
      destruct (IHb (mkb (buf b1) (berr b1) false) (mkb (buf b1) (berr b1) true :: outer) Hib Hokb Hallb eq_refl H2) as (c & out1 & -> & G1 & G2 & G3).
      cbn [bind]. destruct (block_end_total k (mkb (buf c) (berr c) false) eq_refl) as (b2 & -> & G4 & G5). cbn [bind set_nth]. cbn [berr] in G5.
      destruct (berr c) as [e|] eqn:Hec.
      * apply (Err True); [|apply Hin|assumption|congruence]. intros a. specialize (G3 a). congruence.
      * specialize (G2 eq_refl). apply IHn; [apply Hin|apply Hokn|apply Halln; exact G2|assumption..].
        eapply Forall_impl; [|exact G2]. intros o (id & -> & Hid & Hl). exists id. auto.
    + apply (Err True); [|apply Hin|assumption|apply H3; reflexivity]. intros a. specialize (H4 (HK k Hkk a)). discriminate.
Qed.
End Total.

Lemma typed_quiet_total : forall pr b outer, inner_only pr -> typed_prog word32 pr -> prog_quiet pr -> disabled b = false ->
  exists b' out, run pr (b :: outer) = Ok (b' :: outer, out).
Proof using.
  intros pr b outer Hi Hok Hq Hd. destruct (berr b) as [e|] eqn:He.
  - destruct (run_error pr b outer Hi Hd ltac:(congruence)) as [out Ho]. eauto.
  - unfold prog_quiet in Hq. edestruct (fun A HC HR HK => typed_run_total _ _ _ A HC HR HK pr b outer Hi Hok Hq Hd He) as (b' & out & H & _);
      [..|exists b', out; exact H].
    + instantiate (1 := False). intros c [H1 H2]. tauto.
    + intros name cols row [H1 H2]. tauto.
    + intros k _ [].
Qed.

Lemma typed_accepted_total : forall pr b outer, inner_only pr -> typed_prog word32 pr -> prog_accepted pr -> disabled b = false -> berr b = None ->
  exists b' out, run pr (b :: outer) = Ok (b' :: outer, out) /\ berr b' = None.
Proof using.
  intros pr b outer Hi Hok Hq Hd He.
  unfold prog_accepted in Hq. edestruct (fun A HC HR HK => typed_run_total _ _ _ A HC HR HK pr b outer Hi Hok Hq Hd He) as (b' & out & H & _ & _ & Hb);
    [..|exists b', out; split; [exact H|exact (Hb I)]].
  - intros c [H1 H2]. tauto.
  - intros name cols row [H1 H2]. tauto.
  - intros k H _. exact H.
Qed.

End Totals.
