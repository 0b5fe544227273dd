(* The size of the messages of a program: the induction of BigProofs, for sizes only. *)
From Coq Require Import String Sorted.
From Coq Require Import List NArith ZArith Arith Bool Lia ZifyN ZifyNat ZifyBool.
From Verif Require Import Base GoSlice SliceProofs Varint VarintProofs SpecWire SpecMsg WireProofs Pure
  Text TextProofs Values AnyModel ExprModel MsgModel AnyProofs SpecValue ValueProofs HeadProofs Builder SpecProg SpecUnit SpecBig MsgProofs BuilderProofs ShapeProofs SpecSize.
Import ListNotations.
Open Scope N_scope.
Open Scope list_scope.

(* At most n bytes, in whole frames of at most m bytes. *)
Definition sized (m n : N) (bs : bytes) : Prop :=
  nlen bs <= n /\ exists fs, bs = concat (map frame fs) /\ Forall (fun f => nlen (frame f) <= m) fs.

Lemma sized_app : forall m n1 n2 a b, sized m n1 a -> sized m n2 b -> sized m (n1 + n2) (a ++ b).
Proof.
  intros m n1 n2 a b (A1 & fa & A2 & A3) (B1 & fb & B2 & B3). split; [rewrite nlen_app; lia|].
  exists (fa ++ fb). rewrite map_app, concat_app, <- A2, <- B2. split; [reflexivity|apply Forall_app; auto].
Qed.
Lemma sized_more : forall m n n' bs, n <= n' -> sized m n bs -> sized m n' bs.
Proof. intros m n n' bs Hn [H1 H2]. split; [lia|exact H2]. Qed.
Lemma sized_nil : forall m n, sized m n [].
Proof. intros m n. split; [unfold nlen; cbn [length]; lia|]. exists []. split; [reflexivity|constructor]. Qed.
Lemma says_sized : forall m n bs x, says bs [x] -> nlen bs <= n -> n <= m -> sized m n bs.
Proof.
  intros m n bs x (fs & Hf & H2) Hn Hm. destruct (framed_frame _ _ Hf) as [F1 _]. split; [exact Hn|].
  exists fs. split; [exact F1|]. inversion H2 as [|f ? ? l' _ Hl]; subst. inversion Hl; subst.
  cbn [map concat] in *. rewrite app_nil_r in *. constructor; [lia|constructor].
Qed.

(* The buffer has grown by that. *)
Definition grown (m n : N) (p q : slice) : Prop := exists bs, data q = data p ++ bs /\ sized m n bs.
Definition grows (m n : N) (b b' : builder) : Prop := berr b = None -> berr b' = None -> grown m n (buf b) (buf b').

Lemma grown_trans : forall m n1 n2 p q r, grown m n1 p q -> grown m n2 q r -> grown m (n1 + n2) p r.
Proof.
  intros m n1 n2 p q r (a & A1 & A2) (b & B1 & B2). exists (a ++ b). split; [rewrite B1, A1, app_assoc; reflexivity|apply sized_app; assumption].
Qed.
Lemma grown_more : forall m n n' p q, n <= n' -> grown m n p q -> grown m n' p q.
Proof. intros m n n' p q Hn (a & A1 & A2). exists a. split; [exact A1|exact (sized_more _ _ _ _ Hn A2)]. Qed.

Lemma outcome_grown : forall E D Q S W (f : enc) p q m, msg_outcome (@word32 E) D Q S W f -> 8 + W <= m -> m <= 2 ^ 31 -> f E p = Ok (q, None) ->
  grown m (8 + W) p q.
Proof.
  intros E D Q S W f p q m0 [(m & bs & H1 & H2 & H4 & H3)|[[[B1 _] _]|(_ & Hb & _)]] HW Hm Hq.
  - destruct (H3 E eq_refl p) as [sp Hp]. rewrite Hp in Hq. apply ok_fst in Hq. subst q. exists bs. split; [reflexivity|].
    exact (says_sized _ _ _ _ H2 H4 HW).
  - exfalso. exact (B1 E eq_refl p q Hq).
  - lia.
Qed.

Section Steps.
Context `{E : Env}.
Variable m : N.
Hypothesis small : 1024 <= m.
Hypothesis large : m <= 2 ^ 31.

Lemma call_grows : forall dis c b b', call_ok word32 c -> 8 + call_weight c <= m -> disabled b = false -> exec_call dis c b = Ok b' ->
  grows m (8 + call_weight c) b b'.
Proof using large.
  intros dis c b b' Hc HW Hd H He. unfold exec_call, guarded in H. rewrite Hd, He in H.
  pose proof (call_outcome word32 dis c Hc) as Ho.
  change (match c with CStmtExecute stmt args => _ | _ => _ end) with (run_call dis c E (buf b)) in H.
  destruct (run_call dis c E (buf b)) as [[q e]|] eqn:Hr; cbn [bind] in H; [|discriminate]. injection H as <-.
  cbn [berr buf]. intros ->. exact (outcome_grown E _ _ _ _ _ _ _ _ Ho HW large Hr).
Qed.

Lemma statement_grows : forall s b b', go_string s -> nlen s < 100 -> disabled b = false -> b_stmt_execute s [] b = Ok b' -> grows m 640 b b'.
Proof using small large.
  intros s b b' Hs Hl Hd H. pose proof (call_grows [] (CStmtExecute s []) b b') as H3. specialize (H3 ltac:(split; [assumption|constructor])).
  specialize (H3 ltac:(cbn [call_weight total_weight]; unfold name_weight; lia) Hd H).
  intros Ha Hb. eapply grown_more; [|exact (H3 Ha Hb)]. cbn [call_weight total_weight]. unfold name_weight. lia.
Qed.

Lemma insert_row_grows : forall name cols row b b' o, go_string name -> Forall go_string cols -> values_ok word32 row -> 8 + row_size name cols row <= m ->
  disabled b = false -> b_insert_row name cols row b = Ok (b', o) ->
  (berr b = None -> berr b' = None -> row_variable o) /\ grows m (8 + row_size name cols row + 640) b b'.
Proof using small large.
  intros name cols row b b' o Hn Hc Hr HW Hd H. unfold b_insert_row in H. rewrite Hd in H. unfold grows.
  destruct (berr b) as [e|] eqn:He; [split; discriminate|].
  pose proof (row_outcome word32 name cols row Hn Hc Hr) as Ho.
  destruct (patched (seq (fun E p => okm (msg_insert p name cols)) (fun E p => append_insert_row p row)) E (buf b)) as [[q [e|]]|] eqn:Hf.
  - unfold patched, seq, okm in Hf.
    destruct (msg_insert (buf b) name cols) as [p1|]; cbn [bind] in *; [|discriminate].
    destruct (append_insert_row p1 row) as [[p2 [e2|]]|]; cbn [bind] in *; [| |discriminate].
    + injection H as <- <-. split; intros _ X; discriminate.
    + destruct (patch_length p2 _); discriminate.
  - pose proof (outcome_grown E _ _ _ _ _ _ _ _ Ho HW large Hf) as Hg. unfold patched, seq, okm in Hf.
    destruct (msg_insert (buf b) name cols) as [p1|]; cbn [bind] in *; [|discriminate].
    destruct (append_insert_row p1 row) as [[p2 [e2|]]|]; cbn [bind] in *; [discriminate| |discriminate].
    destruct (patch_length p2 (len (buf b))) as [p3|]; cbn [bind] in *; [|discriminate]. injection Hf as <-.
    set (id := insert_id p3) in *.
    destruct (b_stmt_execute _ [] _) as [b2|] eqn:Hs in H; cbn [bind] in H; [|discriminate]. injection H as <- <-.
    assert (Hid : Forall (fun x => x < 256) id /\ nlen id <= 23) by (apply id_of_small; apply N.mod_upper_bound; discriminate).
    split; [intros _ _; exists id; split; [reflexivity|]; destruct Hid; split; [split; [assumption|lia]|lia]|].
    apply statement_grows in Hs; [|apply go_string_app; [apply s2b_go|apply Forall_app; split; [apply Hid|apply s2b_go]|]| |reflexivity].
    2: { rewrite nlen_app. rewrite !(proj2 (s2b_go _)). cbn [String.length]. lia. }
    2: { rewrite !nlen_app. rewrite !(proj2 (s2b_go _)). cbn [String.length]. lia. }
    intros _ Hb. eapply grown_trans; [exact Hg|]. exact (Hs eq_refl Hb).
  - unfold patched, seq, okm in Hf.
    destruct (msg_insert (buf b) name cols) as [p1|]; cbn [bind] in *; [|discriminate].
    destruct (append_insert_row p1 row) as [[p2 [e2|]]|]; cbn [bind] in *; [discriminate| |discriminate].
    destruct (patch_length p2 _); cbn [bind] in *; discriminate.
Qed.

Ltac go_const := split; [apply s2b_go|reflexivity].

Lemma block_begin_grows : forall k b b1, blk_ok k -> disabled b = false -> berr b1 = None -> block_begin k b = Ok (b1, true) -> grows m 1280 b b1.
Proof using small large.
  intros k b b1 Hk Hd He1 H. unfold block_begin in H. rewrite Hd in H. destruct (berr b) as [e|] eqn:He; [discriminate|].
  destruct k as [lvl|ctx].
  - assert (Hone : forall s, go_string s -> nlen s < 100 -> (do b <- b_stmt_execute s [] b; Ok (b, true)) = Ok (b1, true) -> grows m 1280 b b1).
    { intros s Hs Hl H1. destruct (b_stmt_execute s [] b) as [b2|] eqn:Hb; [|discriminate]. cbn [bind] in H1. injection H1 as <-.
      apply statement_grows in Hb; [|assumption..]. intros X Y. eapply grown_more; [|exact (Hb X Y)]. lia. }
    assert (Htwo : forall s1 s2, go_string s1 -> go_string s2 -> nlen s1 < 100 -> nlen s2 < 100 ->
      (do b <- b_stmt_execute s1 [] b; do b <- b_stmt_execute s2 [] b; Ok (b, true)) = Ok (b1, true) -> grows m 1280 b b1).
    { intros s1 s2 Hs1 Hs2 L1 L2 H1. destruct (b_stmt_execute s1 [] b) as [b2|] eqn:Hb; [|discriminate]. cbn [bind] in H1.
      destruct (b_stmt_execute s2 [] b2) as [b3|] eqn:Hb3; [|discriminate]. cbn [bind] in H1. injection H1 as <-.
      pose proof (statement_step _ _ _ Hs1 Hd Hb) as (Hd2 & _). pose proof (statement_step _ _ _ Hs2 Hd2 Hb3) as (_ & Hst & _).
      assert (He2 : berr b2 = None) by (destruct (berr b2) eqn:X; [rewrite Hst in He1 by congruence; congruence|reflexivity]).
      apply statement_grows in Hb; [|assumption..]. apply statement_grows in Hb3; [|assumption..]. intros _ _.
      change 1280 with (640 + 640). eapply grown_trans; [exact (Hb He He2)|exact (Hb3 He2 He1)]. }
    unfold tx_begin in H.
    destruct lvl as [|[[[lvl|lvl|]|[lvl|lvl|]|]|[[lvl|lvl|]|[lvl|lvl|]|]|]]; cbn [bind] in H; try discriminate.
    all: first [apply Hone in H; [|go_const|reflexivity] | apply Htwo in H; [|go_const|go_const|reflexivity|reflexivity]]; exact H.
  - pose proof (open_outcome word32 ctx (eq (MExpectOpen ctx [no_error_1])) True True 512 Hk ltac:(lia) eq_refl) as Ho.
    destruct (expect_open (buf b) ctx [ONoError true]) as [q|] eqn:Hq; [|discriminate]. cbn [bind] in H. injection H as <-.
    intros _ _. cbn [buf]. apply (grown_more m (8 + 512)); [lia|].
    apply (outcome_grown E _ _ _ _ _ _ _ _ Ho); [lia|exact large|unfold okm; rewrite Hq; reflexivity].
Qed.

Lemma block_end_grows : forall k b b', disabled b = false -> block_end k b = Ok b' -> grows m 640 b b'.
Proof using small large.
  intros [lvl|ctx] b b' Hd H; cbn [block_end] in *.
  - apply statement_grows in H; [exact H|go_const|reflexivity|assumption].
  - injection H as <-. intros _ _. cbn [buf]. apply (grown_more m (8 + 512)); [lia|].
    pose proof (close_outcome word32 (eq MExpectClose) True True 512 eq_refl) as Ho.
    apply (outcome_grown E _ _ _ _ _ _ _ _ Ho); [lia|exact large|reflexivity].
Qed.

Lemma run_grows : forall pr n b outer b' out, prog_ok word32 pr -> fits_in m n pr -> Forall (fun b => disabled b = true) outer -> disabled b = false ->
  run pr (b :: outer) = Ok (b' :: outer, out) -> berr b = None -> berr b' = None ->
  Forall row_variable out /\ grown m n (buf b) (buf b').
Proof using small large.
  induction pr as [cberr out0|lvl c next IH|lvl name cols row next IH|lvl k body IHb next IHn];
    intros n b outer b' out Hok Hsm Hout Hd H He He'; cbn [run prog_ok fits_in] in *.
  - injection H as <- <-. split; [assumption|]. exists []. split; [rewrite app_nil_r; reflexivity|apply sized_nil].
  - destruct Hok as [Hc Hok], Hsm as (Hw & n' & Hn & Hsm). destruct lvl as [|lvl].
    2: { destruct (nth_error (b :: outer) (S lvl)) as [x|] eqn:Hx; [|discriminate]. apply only_inner in Hx; [|assumption].
         rewrite exec_disabled in H by assumption. discriminate. }
    cbn [nth_error set_nth map] in H. destruct (exec_call _ c b) as [b1|] eqn:Hb; [|discriminate]. cbn [bind] in H.
    pose proof (call_step _ _ _ _ Hc Hd Hb) as (Hd1 & _). destruct (run_step next b1 outer _ _ Hok Hout Hd1 H) as (_ & b2 & Hb2 & _ & Hst & _).
    assert (b2 = b') by congruence. subst b2.
    assert (He1 : berr b1 = None) by (destruct (berr b1) eqn:X; [rewrite Hst in He' by congruence; congruence|reflexivity]).
    apply call_grows in Hb; [|assumption..]. destruct (IH n' b1 outer b' out Hok Hsm Hout Hd1 H He1 He') as (Ho & Hs).
    split; [exact Ho|]. apply (grown_more m (8 + call_weight c + n')); [exact Hn|]. eapply grown_trans; [exact (Hb He He1)|exact Hs].
  - destruct Hok as (Hn & Hc & Hr & Hok), Hsm as (Hw & n' & Hn' & Hsm). destruct lvl as [|lvl].
    2: { destruct (nth_error (b :: outer) (S lvl)) as [x|] eqn:Hx; [|discriminate]. apply only_inner in Hx; [|assumption].
         rewrite insert_row_disabled in H by assumption. discriminate. }
    cbn [nth_error set_nth] in H. destruct (b_insert_row name cols row b) as [[b1 o]|] eqn:Hb; [|discriminate]. cbn [bind] in H.
    pose proof (insert_row_step _ _ _ _ _ _ Hn Hc Hr Hd Hb) as (Hrow & Hd1 & _).
    destruct (run_step (next o) b1 outer _ _ (Hok o Hrow) Hout Hd1 H) as (_ & b2 & Hb2 & _ & Hst & _).
    assert (b2 = b') by congruence. subst b2.
    assert (He1 : berr b1 = None) by (destruct (berr b1) eqn:X; [rewrite Hst in He' by congruence; congruence|reflexivity]).
    apply insert_row_grows in Hb; [|assumption..]. destruct Hb as [Hv Hb].
    destruct (IH o n' b1 outer b' out (Hok o Hrow) (Hsm o (Hv He He1)) Hout Hd1 H He1 He') as (Ho & Hs).
    split; [exact Ho|]. apply (grown_more m (8 + row_size name cols row + 640 + n')); [lia|]. eapply grown_trans; [exact (Hb He He1)|exact Hs].
  - destruct Hok as (Hk & Hokb & Hokn), Hsm as (n1 & n2 & Hn & Hsmb & Hsmn). destruct lvl as [|lvl].
    2: { destruct (nth_error (b :: outer) (S lvl)) as [x|] eqn:Hx; [|discriminate]. apply only_inner in Hx; [|assumption].
         rewrite block_disabled in H by assumption. discriminate. }
    cbn [nth_error set_nth] in H. destruct (block_begin k b) as [[b1 en]|] eqn:Hb; [|discriminate]. cbn [bind] in H.
    pose proof (block_begin_step _ _ _ _ Hk Hd Hb) as Hbs. destruct en.
    + destruct (run body _) as [[st2 out1]|] eqn:Hbody; [|discriminate]. cbn [bind] in H.
      pose proof Hbody as Hrun. apply run_step in Hrun; [|assumption|constructor; [reflexivity|assumption]|reflexivity].
      destruct Hrun as (Ho1 & child & -> & _ & Hst2 & _). cbn [berr] in Hst2.
      destruct (block_end k _) as [b3|] eqn:H3; [|discriminate]. cbn [bind set_nth] in H.
      pose proof (block_end_step k (mkb (buf child) (berr child) false) b3 eq_refl H3) as (Hd3 & Hst3 & _). cbn [berr] in Hst3.
      destruct (run_step (next out1) b3 outer _ _ (Hokn out1 Ho1) Hout Hd3 H) as (_ & b2 & Hb2 & _ & Hst & _).
      assert (b2 = b') by congruence. subst b2.
      assert (He3 : berr b3 = None) by (destruct (berr b3) eqn:X; [rewrite Hst in He' by congruence; congruence|reflexivity]).
      assert (Hec : berr child = None) by (destruct (berr child) eqn:X; [rewrite Hst3 in He3 by congruence; congruence|reflexivity]).
      assert (He1 : berr b1 = None).
      { destruct (berr b1) eqn:X; [|reflexivity]. assert (child = mkb (buf b1) (Some e) false) by (apply Hst2; discriminate). subst child. discriminate. }
      pose proof (block_begin_grows k b b1 Hk Hd He1 Hb He He1) as Ha.
      destruct (IHb n1 (mkb (buf b1) (berr b1) false) (mkb (buf b1) (berr b1) true :: outer) child out1 Hokb Hsmb ltac:(constructor; [reflexivity|assumption]) eq_refl Hbody He1 Hec) as (Hv1 & Hgb).
      apply block_end_grows in H3; [|reflexivity]. specialize (H3 Hec He3). cbn [buf] in *.
      destruct (IHn out1 n2 b3 outer b' out (Hokn out1 Ho1) (Hsmn out1 Hv1) Hout Hd3 H He3 He') as (Ho & Hgn).
      split; [exact Ho|]. apply (grown_more m (1280 + n1 + 640 + n2)); [lia|].
      eapply grown_trans; [|exact Hgn]. eapply grown_trans; [|exact H3]. eapply grown_trans; [exact Ha|exact Hgb].
    + destruct Hbs as (He1 & Hd1 & _). destruct (run_step (next []) b1 outer _ _ (Hokn [] (Forall_nil _)) Hout Hd1 H) as (_ & b2 & Hb2 & _ & Hst & _).
      assert (b2 = b') by congruence. subst b2. rewrite Hst in He' by exact He1. contradiction.
Qed.
End Steps.
