(* Programs with any well-formed arguments: every message is one frame, and those of the calls without a
   value that is encoded wrongly are the messages the calls stand for. *)
From Coq Require Import String Sorted FinFun.
From Coq Require Import List NArith ZArith Arith Bool Lia ZifyN ZifyNat ZifyBool.
From Verif Require Import Base GoSlice SliceProofs Varint SpecWire SpecMsg WireProofs Text Values AnyModel ExprModel MsgModel Builder
  SpecValue SpecProg ValueProofs MsgProofs BuilderProofs UnitProofs SpecTyped TypedProofs TypedRunProofs.
Import ListNotations.
Open Scope N_scope.
Open Scope list_scope.

Ltac Zify.zify_post_hook ::= Z.div_mod_to_equations.

Lemma one_framed : forall ty bs, one ty bs -> exists pl, framed bs [(ty, pl)].
Proof.
  intros ty bs (Ht & pl & Hp & Hl & ->). exists pl.
  pose proof (framed_cons (1 + nlen pl) ty pl [] [] eq_refl Hl (built_byte ty Ht) Hp framed_nil) as H. rewrite app_nil_r in H. exact H.
Qed.
Lemma says_reads : forall bs f m, framed bs [f] -> says bs [m] -> reads f m.
Proof.
  intros bs f m [_ Hf] (fs & [_ Hg] & H). rewrite Hf in Hg. injection Hg as <-. inversion H; subst. assumption.
Qed.

Lemma laid_grows_one : forall E ty Q S W (f : enc) p q, laid (@word32 E) ty Q S W f -> f E p = Ok (q, None) -> grows p q (one ty).
Proof.
  intros E ty Q S W f p q [(bs & H1 & _ & H3)|[[[B1 _] _]|[Hb _]]] Hq.
  - destruct (H3 E eq_refl p) as [sp Hp]. rewrite Hp in Hq. apply ok_fst in Hq. subst q. split.
    + unfold len. cbn [data]. rewrite app_length. lia.
    + intros _. exists bs. split; [reflexivity|exact H1].
  - exfalso. exact (B1 E eq_refl p q Hq).
  - destruct (Hb E eq_refl p q Hq). split; [assumption|]. lia.
Qed.

(* Both ways in which a buffer grew are about the same bytes. *)
Lemma grows_both : forall p q (P : bytes -> Prop) (A : Prop) (P' : bytes -> Prop), grows p q P -> (A -> grows p q P') ->
  grows p q (fun bs => P bs /\ (A -> P' bs)).
Proof.
  intros p q P A P' [L H] HA. split; [exact L|]. intros Hs. destruct (H Hs) as (bs & Hb & HP). exists bs. split; [exact Hb|]. split; [exact HP|].
  intros a. destruct (HA a) as [_ H2]. destruct (H2 Hs) as (bs2 & Hb2 & HP2). rewrite Hb in Hb2. apply app_inv_head in Hb2. subst bs2. exact HP2.
Qed.

Section Steps.
Context `{E : Env}.

Lemma frame_call_step : forall dis c b b', typed_call word32 c -> disabled b = false -> exec_call dis c b = Ok b' ->
  step b b' (fun bs => exists f, framed bs [f] /\ call_frame word32 c f).
Proof using.
  intros dis c b b' Hc Hd H. pose proof (typed_call_step dis c b b' Hc Hd H) as (S1 & S2 & _). split; [exact S1|]. split; [exact S2|].
  intros He He'. eapply grows_weaken with (P := fun bs => one (call_type c) bs /\ (call_ok word32 c -> says1 (call_denotes c) bs)).
  - apply grows_both.
    + unfold exec_call, guarded in H. rewrite Hd, He in H. pose proof (call_laid word32 dis c Hc) as Ho.
      change (match c with CStmtExecute stmt args => _ | _ => _ end) with (run_call dis c E (buf b)) in H.
      destruct (run_call dis c E (buf b)) as [[q e]|] eqn:Hr; cbn [bind] in H; [|discriminate]. injection H as <-.
      cbn [berr buf] in *. subst e. exact (laid_grows_one E _ _ _ _ _ _ _ Ho Hr).
    + intros Hok. exact (proj2 (proj2 (call_step dis c b b' Hok Hd H)) He He').
  - intros bs [H1 H2]. destruct (one_framed _ _ H1) as [pl Hf]. exists (call_type c, pl). split; [exact Hf|]. split; [reflexivity|].
    intros Hok. destruct (H2 Hok) as (m & Hm & Hs). exists m. split; [exact (says_reads _ _ _ Hf Hs)|exact Hm].
Qed.

Lemma frame_row_step : forall name cols row b b' o, go_string name -> Forall go_string cols -> typed_values word32 row ->
  disabled b = false -> b_insert_row name cols row b = Ok (b', o) ->
  row_result o /\
  step b b' (fun bs => exists f g id, framed bs [f; g] /\ row_frame word32 name cols row f /\ reads g (set_last_id id) /\
    o = Some (EVariable id) /\ ids_between (len (buf b)) (len (buf b')) [id]).
Proof using.
  intros name cols row b b' o Hn Hc Hr Hd H. unfold b_insert_row in H. rewrite Hd in H.
  destruct (berr b) as [e|] eqn:He.
  { injection H as <- <-. split; [exact I|]. split; [assumption|]. split; [reflexivity|]. congruence. }
  pose proof (typed_row_laid word32 name cols row Hn Hc Hr) as Ho.
  destruct (patched (seq (fun E p => okm (msg_insert p name cols)) (fun E p => append_insert_row p row)) E (buf b)) as [[q [e|]]|] eqn:Hf.
  - unfold patched, seq, okm in Hf.
    destruct (msg_insert (buf b) name cols) as [p1|]; cbn [bind] in *; [|discriminate].
    destruct (append_insert_row p1 row) as [[p2 [e2|]]|]; cbn [bind] in *; [| |discriminate].
    + injection H as <- <-. split; [exact I|]. split; [reflexivity|]. split; [congruence|]. intros _. discriminate.
    + destruct (patch_length p2 _); discriminate.
  - pose proof (grows_both _ _ _ (values_ok word32 row) _ (laid_grows_one E _ _ _ _ _ _ _ Ho Hf)
      (fun Hv => outcome_grows E _ _ _ _ _ _ _ (row_outcome word32 name cols row Hn Hc Hv) Hf)) as Hg. cbn beta in Hg. unfold patched, seq, okm in Hf.
    destruct (msg_insert (buf b) name cols) as [p1|]; cbn [bind] in *; [|discriminate].
    destruct (append_insert_row p1 row) as [[p2 [e2|]]|]; cbn [bind] in *; [discriminate| |discriminate].
    destruct (patch_length p2 (len (buf b))) as [p3|]; cbn [bind] in *; [|discriminate]. injection Hf as <-.
    set (id := insert_id p3) in *.
    destruct (b_stmt_execute _ [] _) as [b2|] eqn:Hs in H; cbn [bind] in H; [|discriminate]. injection H as <- <-.
    assert (Hid : Forall (fun x => x < 256) id /\ nlen id <= 23) by (apply id_of_small; apply N.mod_upper_bound; discriminate).
    split; [exists id; split; [reflexivity|]; split; [split; [apply Hid|]|]; destruct Hid; lia|].
    apply statement_step in Hs; [|apply go_string_app; [apply s2b_go|apply Forall_app; split; [apply Hid|apply s2b_go]|]|reflexivity].
    2: { rewrite nlen_app. rewrite !(proj2 (s2b_go _)). cbn [String.length]. lia. }
    destruct Hs as (S1 & S2 & S3). split; [exact S1|]. split; [congruence|]. intros _ Hb.
    specialize (S3 eq_refl Hb). cbn [buf] in S3.
    destruct Hg as [G1 G2]. destruct S3 as [S3 S4]. split; [lia|]. intros Hsm.
    assert (Hsm3 : nlen (data p3) < 2 ^ 32) by (unfold len, nlen in *; lia).
    destruct (G2 Hsm3) as (x & Hx & Hone & Hsay). destruct (S4 Hsm) as (y & Hy & Hm2).
    destruct (one_framed _ _ Hone) as [pl Hfx]. destruct Hm2 as (fy & Hfy & Hm2). inversion Hm2 as [|g ? l ? Hg Hl]; subst. inversion Hl; subst.
    exists (x ++ y). split; [rewrite Hy, Hx, app_assoc; reflexivity|]. exists (18, pl), g, id.
    split; [exact (framed_app x y [_] [_] Hfx Hfy)|]. split.
    { split; [reflexivity|]. intros Hv. destruct (Hsay Hv) as (m & (es & -> & Hes) & Hm). exists es. split; [exact (says_reads _ _ _ Hfx Hm)|exact Hes]. }
    split; [exact Hg|]. split; [reflexivity|].
    exists [N.of_nat (len p3)]. split; [|split; [repeat constructor|constructor; [|constructor]]].
    + cbn [map]. unfold id, insert_id, id_of. rewrite N.mod_small; [reflexivity|]. unfold len, nlen in *. lia.
    + split; [|lia]. pose proof (one_some _ _ Hone) as Hx0.
      unfold len. rewrite Hx, app_length. destruct x; [contradiction|]. cbn [length]. lia.
  - unfold patched, seq, okm in Hf.
    destruct (msg_insert (buf b) name cols) as [p1|]; cbn [bind] in *; [|discriminate].
    destruct (append_insert_row p1 row) as [[p2 [e2|]]|]; cbn [bind] in *; [discriminate| |discriminate].
    destruct (patch_length p2 _); cbn [bind] in *; discriminate.
Qed.

Definition frame_bytes (pr : prog) (out : list (option exprfun)) (lo hi : nat) (bs : bytes) : Prop :=
  exists fs ids, framed bs fs /\ prog_frames word32 pr fs ids out /\ ids_between lo hi ids.

Lemma frame_step : forall pr b outer st out, typed_prog word32 pr -> Forall (fun b => disabled b = true) outer -> disabled b = false ->
  run pr (b :: outer) = Ok (st, out) ->
  Forall row_result out /\ exists b', st = b' :: outer /\ step b b' (frame_bytes pr out (len (buf b)) (len (buf b'))).
Proof using.
  induction pr as [cberr out0|lvl c next IH|lvl name cols row next IH|lvl k body IHb next IHn];
    intros b outer st out Hok Hout Hd H; cbn [run typed_prog] in *.
  - injection H as <- <-. split; [assumption|]. exists b. split; [reflexivity|]. split; [assumption|]. split; [reflexivity|].
    intros _ _. apply grows_refl. exists [], []. split; [apply framed_nil|]. split; [constructor|apply ids_nil].
  - destruct Hok as [Hc Hok]. destruct lvl as [|lvl].
    2: { destruct (nth_error (b :: outer) (S lvl)) as [x|] eqn:Hx; [|discriminate]. apply only_inner in Hx; [|assumption].
         rewrite exec_disabled in H by assumption. discriminate. }
    cbn [nth_error set_nth map] in H. destruct (exec_call _ c b) as [b1|] eqn:Hb; [|discriminate]. cbn [bind] in H.
    apply frame_call_step in Hb; [|assumption..]. destruct (IH b1 outer st out Hok Hout (proj1 Hb) H) as (Ho & b' & -> & Hs).
    split; [exact Ho|]. exists b'. split; [reflexivity|].
    eapply step_trans; [exact Hb|exact Hs|]. intros Hl x y (m & Hx & Hm) (ms & ids & Hy & Hp & Hi).
    exists (m :: ms), ids. split; [exact (framed_app x y [m] ms Hx Hy)|]. split; [constructor; assumption|].
    eapply ids_wider; [| |exact Hi]; lia.
  - destruct Hok as (Hn & Hc & Hr & Hok). destruct lvl as [|lvl].
    2: { destruct (nth_error (b :: outer) (S lvl)) as [x|] eqn:Hx; [|discriminate]. apply only_inner in Hx; [|assumption].
         rewrite insert_row_disabled in H by assumption. discriminate. }
    cbn [nth_error set_nth] in H. destruct (b_insert_row name cols row b) as [[b1 o]|] eqn:Hb; [|discriminate]. cbn [bind] in H.
    apply frame_row_step in Hb; [|assumption..]. destruct Hb as [Hrow Hb].
    destruct (IH o b1 outer st out (Hok o Hrow) Hout (proj1 Hb) H) as (Ho & b' & -> & Hs).
    split; [exact Ho|]. exists b'. split; [reflexivity|].
    eapply step_trans; [exact Hb|exact Hs|]. intros Hl x y (f & g & id & Hx & Hf & Hg & -> & Hid) (ms & ids & Hy & Hp & Hi).
    exists (f :: g :: ms), (id :: ids).
    split; [exact (framed_app x y [_; _] ms Hx Hy)|]. split; [constructor; assumption|].
    apply (ids_app (len (buf b)) (len (buf b1)) (len (buf b')) [id] ids); [lia|lia|exact Hid|exact Hi].
  - destruct Hok as (Hk & Hokb & Hokn). destruct lvl as [|lvl].
    2: { destruct (nth_error (b :: outer) (S lvl)) as [x|] eqn:Hx; [|discriminate]. apply only_inner in Hx; [|assumption].
         rewrite block_disabled in H by assumption. discriminate. }
    cbn [nth_error set_nth] in H. destruct (block_begin k b) as [[b1 en]|] eqn:Hb; [|discriminate]. cbn [bind] in H.
    apply block_begin_step in Hb; [|assumption..]. destruct en.
    + destruct Hb as (He & open & Hopen & H1).
      destruct (run body _) as [[st2 out1]|] eqn:Hbody; [|discriminate]. cbn [bind] in H.
      apply IHb in Hbody; [|assumption|constructor; [reflexivity|assumption]|reflexivity].
      destruct Hbody as (Ho1 & child & -> & H2).
      destruct (block_end k _) as [b3|] eqn:H3; [|discriminate]. cbn [bind set_nth] in H.
      apply block_end_step in H3; [|reflexivity]. cbn [berr buf] in H3.
      destruct (IHn out1 b3 outer st out (Hokn out1 Ho1) Hout (proj1 H3) H) as (Ho & b' & -> & H4).
      split; [exact Ho|]. exists b'. split; [reflexivity|].
      destruct H1 as (A1 & A2 & A3), H2 as (B1 & B2 & B3), H3 as (C1 & C2 & C3), H4 as (D1 & D2 & D3). cbn [berr buf disabled] in *.
      split; [exact D1|]. split; [congruence|]. intros _ Hb'.
      assert (He3 : berr b3 = None) by (destruct (berr b3) eqn:Hx; [rewrite D2 in Hb' by congruence; congruence|reflexivity]).
      assert (Hec : berr child = None) by (destruct (berr child) eqn:Hx; [rewrite C2 in He3 by congruence; congruence|reflexivity]).
      assert (He1 : berr b1 = None) by (destruct (berr b1) eqn:Hx; [rewrite B2 in Hec by congruence; cbn [berr] in Hec; congruence|reflexivity]).
      specialize (A3 He He1). specialize (B3 He1 Hec). specialize (C3 Hec He3). specialize (D3 He3 Hb').
      destruct A3 as [A3 A4], B3 as [B3 B4], C3 as [C3 C4], D3 as [D3 D4].
      split; [lia|]. intros Hsm.
      destruct (D4 Hsm) as (d & Ed & (ms2 & ids2 & Sd & Pd & Id)).
      destruct C4 as (c & Ec & fc & Sc & Rc); [unfold len, nlen in *; lia|].
      destruct B4 as (bb & Eb & (ms1 & ids1 & Sb & Pb & Ib)); [unfold len, nlen in *; lia|].
      destruct A4 as (a & Ea & fa & Sa & Ra); [unfold len, nlen in *; lia|].
      exists (a ++ bb ++ c ++ d). split; [rewrite Ed, Ec, Eb, Ea, <- !app_assoc; reflexivity|].
      inversion Rc as [|g ? l ? Rg Rl]; subst. inversion Rl; subst.
      exists (fa ++ ms1 ++ [g] ++ ms2), (ids1 ++ ids2).
      split; [repeat (apply framed_app; [assumption|]); assumption|]. split; [eapply F_block; eassumption|].
      apply (ids_app _ (len (buf b3))); [lia|lia|eapply ids_wider; [| |exact Ib]; lia|exact Id].
    + destruct Hb as (He & Hd1 & Heq).
      destruct (IHn [] b1 outer st out (Hokn [] (Forall_nil _)) Hout Hd1 H) as (Ho & b' & -> & H4).
      split; [exact Ho|]. exists b'. split; [reflexivity|]. destruct H4 as (D1 & D2 & D3). specialize (D2 He). subst b'.
      split; [exact D1|]. split; [exact Heq|]. congruence.
Qed.

End Steps.
