(* The size of the messages of a program, for any arguments of the supported types. *)
From Coq Require Import String List NArith ZArith Arith Bool Lia ZifyN ZifyNat ZifyBool.
From Coq Require Import List.
From Verif Require Import Base GoSlice SliceProofs Varint SpecWire SpecMsg WireProofs Text Values AnyModel ExprModel MsgModel Builder
  SpecValue SpecProg SpecUnit SpecSize ValueProofs MsgProofs BuilderProofs ShapeProofs SizeProofs SpecTyped TypedProofs TypedRunProofs.
Import ListNotations.
Open Scope N_scope.
Open Scope list_scope.

Lemma whole_sized : forall m n bs, whole bs -> nlen bs <= n -> n <= m -> sized m n bs.
Proof.
  intros m n bs (fs & Hf & _) Hn Hm. destruct (framed_frame _ _ Hf) as [F1 _]. split; [exact Hn|]. exists fs. split; [exact F1|].
  assert (Hl : nlen (concat (map frame fs)) <= m) by (rewrite <- F1; lia). clear F1 Hf Hn.
  induction fs as [|f fs IH]; [constructor|]. cbn [map concat] in Hl. rewrite nlen_app in Hl. constructor; [lia|apply IH; lia].
Qed.

Lemma laid_grown : forall E ty Q S W (f : enc) p q m, laid (@word32 E) ty Q S W f -> 8 + W <= m -> m <= 2 ^ 31 -> f E p = Ok (q, None) ->
  grown m (8 + W) p q.
Proof.
  intros E ty Q S W f p q m0 [(bs & H1 & H4 & H3)|[[[B1 _] _]|(_ & Hb & _)]] HW Hm Hq.
  - destruct (H3 E eq_refl p) as [sp Hp]. rewrite Hp in Hq. apply ok_fst in Hq. subst q. exists bs. split; [reflexivity|].
    exact (whole_sized _ _ _ (one_whole _ _ H1) H4 HW).
  - exfalso. exact (B1 E eq_refl p q Hq).
  - lia.
Qed.

Section Steps.
Context `{E : Env}.
Variable m : N.
Hypothesis small : 1024 <= m.
Hypothesis large : m <= 2 ^ 31.

Lemma typed_call_grows : forall dis c b b', typed_call word32 c -> 8 + call_weight c <= m -> disabled b = false -> exec_call dis c b = Ok b' ->
  grows m (8 + call_weight c) b b'.
Proof using large.
  intros dis c b b' Hc HW Hd H He. unfold exec_call, guarded in H. rewrite Hd, He in H.
  pose proof (call_laid word32 dis c Hc) as Ho.
  change (match c with CStmtExecute stmt args => _ | _ => _ end) with (run_call dis c E (buf b)) in H.
  destruct (run_call dis c E (buf b)) as [[q e]|] eqn:Hr; cbn [bind] in H; [|discriminate]. injection H as <-.
  cbn [berr buf]. intros ->. exact (laid_grown E _ _ _ _ _ _ _ _ Ho HW large Hr).
Qed.

Lemma typed_row_grows : forall name cols row b b' o, go_string name -> Forall go_string cols -> typed_values word32 row -> 8 + row_size name cols row <= m ->
  disabled b = false -> b_insert_row name cols row b = Ok (b', o) ->
  (berr b = None -> berr b' = None -> row_variable o) /\ grows m (8 + row_size name cols row + 640) b b'.
Proof using small large.
  intros name cols row b b' o Hn Hc Hr HW Hd H. unfold b_insert_row in H. rewrite Hd in H. unfold grows.
  destruct (berr b) as [e|] eqn:He; [split; discriminate|].
  pose proof (typed_row_laid word32 name cols row Hn Hc Hr) as Ho.
  destruct (patched (seq (fun E p => okm (msg_insert p name cols)) (fun E p => append_insert_row p row)) E (buf b)) as [[q [e|]]|] eqn:Hf.
  - unfold patched, seq, okm in Hf.
    destruct (msg_insert (buf b) name cols) as [p1|]; cbn [bind] in *; [|discriminate].
    destruct (append_insert_row p1 row) as [[p2 [e2|]]|]; cbn [bind] in *; [| |discriminate].
    + injection H as <- <-. split; intros _ X; discriminate.
    + destruct (patch_length p2 _); discriminate.
  - pose proof (laid_grown E _ _ _ _ _ _ _ _ Ho HW large Hf) as Hg. unfold patched, seq, okm in Hf.
    destruct (msg_insert (buf b) name cols) as [p1|]; cbn [bind] in *; [|discriminate].
    destruct (append_insert_row p1 row) as [[p2 [e2|]]|]; cbn [bind] in *; [discriminate| |discriminate].
    destruct (patch_length p2 (len (buf b))) as [p3|]; cbn [bind] in *; [|discriminate]. injection Hf as <-.
    set (id := insert_id p3) in *.
    destruct (b_stmt_execute _ [] _) as [b2|] eqn:Hs in H; cbn [bind] in H; [|discriminate]. injection H as <- <-.
    assert (Hid : Forall (fun x => x < 256) id /\ nlen id <= 23) by (apply id_of_small; apply N.mod_upper_bound; discriminate).
    split; [intros _ _; exists id; split; [reflexivity|]; destruct Hid; split; [split; [assumption|lia]|lia]|].
    apply (statement_grows m small large) in Hs; [|apply go_string_app; [apply s2b_go|apply Forall_app; split; [apply Hid|apply s2b_go]|]| |reflexivity].
    2: { rewrite nlen_app. rewrite !(proj2 (s2b_go _)). cbn [String.length]. lia. }
    2: { rewrite !nlen_app. rewrite !(proj2 (s2b_go _)). cbn [String.length]. lia. }
    intros _ Hb. eapply grown_trans; [exact Hg|]. exact (Hs eq_refl Hb).
  - unfold patched, seq, okm in Hf.
    destruct (msg_insert (buf b) name cols) as [p1|]; cbn [bind] in *; [|discriminate].
    destruct (append_insert_row p1 row) as [[p2 [e2|]]|]; cbn [bind] in *; [discriminate| |discriminate].
    destruct (patch_length p2 _); cbn [bind] in *; discriminate.
Qed.

Lemma typed_run_grows : forall pr n b outer b' out, typed_prog word32 pr -> fits_in m n pr -> Forall (fun b => disabled b = true) outer -> disabled b = false ->
  run pr (b :: outer) = Ok (b' :: outer, out) -> berr b = None -> berr b' = None ->
  Forall row_variable out /\ grown m n (buf b) (buf b').
Proof using small large.
  induction pr as [cberr out0|lvl c next IH|lvl name cols row next IH|lvl k body IHb next IHn];
    intros n b outer b' out Hok Hsm Hout Hd H He He'; cbn [run typed_prog fits_in] in *.
  - injection H as <- <-. split; [assumption|]. exists []. split; [rewrite app_nil_r; reflexivity|apply sized_nil].
  - destruct Hok as [Hc Hok], Hsm as (Hw & n' & Hn & Hsm). destruct lvl as [|lvl].
    2: { destruct (nth_error (b :: outer) (S lvl)) as [x|] eqn:Hx; [|discriminate]. apply only_inner in Hx; [|assumption].
         rewrite exec_disabled in H by assumption. discriminate. }
    cbn [nth_error set_nth map] in H. destruct (exec_call _ c b) as [b1|] eqn:Hb; [|discriminate]. cbn [bind] in H.
    pose proof (typed_call_step _ _ _ _ Hc Hd Hb) as (Hd1 & _). destruct (typed_step next b1 outer _ _ Hok Hout Hd1 H) as (_ & b2 & Hb2 & _ & Hst & _).
    assert (b2 = b') by congruence. subst b2.
    assert (He1 : berr b1 = None) by (destruct (berr b1) eqn:X; [rewrite Hst in He' by congruence; congruence|reflexivity]).
    apply typed_call_grows in Hb; [|assumption..]. destruct (IH n' b1 outer b' out Hok Hsm Hout Hd1 H He1 He') as (Ho & Hs).
    split; [exact Ho|]. apply (grown_more m (8 + call_weight c + n')); [exact Hn|]. eapply grown_trans; [exact (Hb He He1)|exact Hs].
  - destruct Hok as (Hn & Hc & Hr & Hok), Hsm as (Hw & n' & Hn' & Hsm). destruct lvl as [|lvl].
    2: { destruct (nth_error (b :: outer) (S lvl)) as [x|] eqn:Hx; [|discriminate]. apply only_inner in Hx; [|assumption].
         rewrite insert_row_disabled in H by assumption. discriminate. }
    cbn [nth_error set_nth] in H. destruct (b_insert_row name cols row b) as [[b1 o]|] eqn:Hb; [|discriminate]. cbn [bind] in H.
    pose proof (typed_row_step _ _ _ _ _ _ Hn Hc Hr Hd Hb) as (Hrow & Hd1 & _).
    destruct (typed_step (next o) b1 outer _ _ (Hok o Hrow) Hout Hd1 H) as (_ & b2 & Hb2 & _ & Hst & _).
    assert (b2 = b') by congruence. subst b2.
    assert (He1 : berr b1 = None) by (destruct (berr b1) eqn:X; [rewrite Hst in He' by congruence; congruence|reflexivity]).
    apply typed_row_grows in Hb; [|assumption..]. destruct Hb as [Hv Hb].
    destruct (IH o n' b1 outer b' out (Hok o Hrow) (Hsm o (Hv He He1)) Hout Hd1 H He1 He') as (Ho & Hs).
    split; [exact Ho|]. apply (grown_more m (8 + row_size name cols row + 640 + n')); [lia|]. eapply grown_trans; [exact (Hb He He1)|exact Hs].
  - destruct Hok as (Hk & Hokb & Hokn), Hsm as (n1 & n2 & Hn & Hsmb & Hsmn). destruct lvl as [|lvl].
    2: { destruct (nth_error (b :: outer) (S lvl)) as [x|] eqn:Hx; [|discriminate]. apply only_inner in Hx; [|assumption].
         rewrite block_disabled in H by assumption. discriminate. }
    cbn [nth_error set_nth] in H. destruct (block_begin k b) as [[b1 en]|] eqn:Hb; [|discriminate]. cbn [bind] in H.
    pose proof (typed_begin_step _ _ _ _ Hk Hd Hb) as Hbs. destruct en.
    + destruct (run body _) as [[st2 out1]|] eqn:Hbody; [|discriminate]. cbn [bind] in H.
      pose proof Hbody as Hrun. apply typed_step in Hrun; [|assumption|constructor; [reflexivity|assumption]|reflexivity].
      destruct Hrun as (Ho1 & child & -> & _ & Hst2 & _). cbn [berr] in Hst2.
      destruct (block_end k _) as [b3|] eqn:H3; [|discriminate]. cbn [bind set_nth] in H.
      pose proof (typed_end_step k (mkb (buf child) (berr child) false) b3 eq_refl H3) as (Hd3 & Hst3 & _). cbn [berr] in Hst3.
      destruct (typed_step (next out1) b3 outer _ _ (Hokn out1 Ho1) Hout Hd3 H) as (_ & b2 & Hb2 & _ & Hst & _).
      assert (b2 = b') by congruence. subst b2.
      assert (He3 : berr b3 = None) by (destruct (berr b3) eqn:X; [rewrite Hst in He' by congruence; congruence|reflexivity]).
      assert (Hec : berr child = None) by (destruct (berr child) eqn:X; [rewrite Hst3 in He3 by congruence; congruence|reflexivity]).
      assert (He1 : berr b1 = None).
      { destruct (berr b1) eqn:X; [|reflexivity]. assert (child = mkb (buf b1) (Some e) false) by (apply Hst2; discriminate). subst child. discriminate. }
      pose proof (block_begin_grows m small large k b b1 Hk Hd He1 Hb He He1) as Ha.
      destruct (IHb n1 (mkb (buf b1) (berr b1) false) (mkb (buf b1) (berr b1) true :: outer) child out1 Hokb Hsmb ltac:(constructor; [reflexivity|assumption]) eq_refl Hbody He1 Hec) as (Hv1 & Hgb).
      apply (block_end_grows m small large) in H3; [|reflexivity]. specialize (H3 Hec He3). cbn [buf] in *.
      destruct (IHn out1 n2 b3 outer b' out (Hokn out1 Ho1) (Hsmn out1 Hv1) Hout Hd3 H He3 He') as (Ho & Hgn).
      split; [exact Ho|]. apply (grown_more m (1280 + n1 + 640 + n2)); [lia|].
      eapply grown_trans; [|exact Hgn]. eapply grown_trans; [|exact H3]. eapply grown_trans; [exact Ha|exact Hgb].
    + destruct Hbs as (He1 & Hd1 & _). destruct (typed_step (next []) b1 outer _ _ (Hokn [] (Forall_nil _)) Hout Hd1 H) as (_ & b2 & Hb2 & _ & Hst & _).
      assert (b2 = b') by congruence. subst b2. rewrite Hst in He' by exact He1. contradiction.
Qed.
End Steps.
