(* C46 (and C08): units of work of any size, when arguments may also be values that are encoded wrongly. *)
From Coq Require Import String List NArith ZArith Arith Bool Lia ZifyN ZifyNat ZifyBool.
From Coq Require Import List.
From Verif Require Import Base GoSlice SpecWire SpecMsg WireProofs Text Values AnyModel ExprModel MsgModel Builder
  SpecValue SpecProg SpecUnit SpecBig ValueProofs MsgProofs BuilderProofs UnitProofs ShapeProofs BigProofs
  SpecTyped TypedProofs TypedRunProofs TypedFrameProofs ThmTypedShape.
From Verif Require ThmValues ThmBuilder ThmDefects ThmTyped ThmBig.
Import ListNotations.
Open Scope N_scope.
Open Scope list_scope.

Ltac Zify.zify_post_hook ::= Z.div_mod_to_equations.

(* ---- BigProofs for frames ---- *)

Lemma laid_gains : forall E ty Q S W (f : enc) p q, laid (@word32 E) ty Q S W f -> W < 2 ^ 31 -> f E p = Ok (q, None) -> gains p q (one ty).
Proof.
  intros E ty Q S W f p q [(bs & H1 & _ & H3)|[[[B1 _] _]|(_ & Hb & _)]] HW Hq.
  - destruct (H3 E eq_refl p) as [sp Hp]. rewrite Hp in Hq. apply ok_fst in Hq. subst q. split.
    + unfold len. cbn [data]. rewrite app_length. lia.
    + intros _. exists bs. split; [reflexivity|exact H1].
  - exfalso. exact (B1 E eq_refl p q Hq).
  - lia.
Qed.
Lemma gains_both : forall p q (P : bytes -> Prop) (A : Prop) (P' : bytes -> Prop), gains p q P -> (A -> gains p q P') ->
  gains p q (fun bs => P bs /\ (A -> P' bs)).
Proof.
  intros p q P A P' [L H] HA. split; [exact L|]. intros Hs. destruct (H Hs) as (bs & Hb & HP). exists bs. split; [exact Hb|]. split; [exact HP|].
  intros a. destruct (HA a) as [_ H2]. destruct (H2 Hs) as (bs2 & Hb2 & HP2). rewrite Hb in Hb2. apply app_inv_head in Hb2. subst bs2. exact HP2.
Qed.

Section Steps.
Context `{E : Env}.

Lemma frame_call_adds : forall dis c b b', typed_call word32 c -> call_weight c < 2 ^ 31 -> disabled b = false -> exec_call dis c b = Ok b' ->
  adds b b' (fun bs => exists f, framed bs [f] /\ call_frame word32 c f).
Proof using.
  intros dis c b b' Hc HW Hd H He He'. eapply gains_weaken with (P := fun bs => one (call_type c) bs /\ (call_ok word32 c -> says1 (call_denotes c) bs)).
  - apply gains_both.
    + unfold exec_call, guarded in H. rewrite Hd, He in H. pose proof (call_laid word32 dis c Hc) as Ho.
      change (match c with CStmtExecute stmt args => _ | _ => _ end) with (run_call dis c E (buf b)) in H.
      destruct (run_call dis c E (buf b)) as [[q e]|] eqn:Hr; cbn [bind] in H; [|discriminate]. injection H as <-.
      cbn [berr buf] in *. subst e. exact (laid_gains E _ _ _ _ _ _ _ Ho HW Hr).
    + intros Hok. exact (call_adds dis c b b' Hok HW Hd H He He').
  - intros bs [H1 H2]. destruct (one_framed _ _ H1) as [pl Hf]. exists (call_type c, pl). split; [exact Hf|]. split; [reflexivity|].
    intros Hok. destruct (H2 Hok) as (m & Hm & Hs). exists m. split; [exact (says_reads _ _ _ Hf Hs)|exact Hm].
Qed.

Lemma frame_row_adds : forall name cols row b b' o, go_string name -> Forall go_string cols -> typed_values word32 row -> row_size name cols row < 2 ^ 31 ->
  disabled b = false -> b_insert_row name cols row b = Ok (b', o) ->
  (berr b = None -> berr b' = None -> row_variable o) /\
  adds b b' (fun bs => exists f g id, framed bs [f; g] /\ row_frame word32 name cols row f /\ reads g (set_last_id id) /\
    o = Some (EVariable id) /\ ids_between (len (buf b)) (len (buf b')) [id]).
Proof using.
  intros name cols row b b' o Hn Hc Hr HW Hd H. unfold b_insert_row in H. rewrite Hd in H. unfold adds.
  destruct (berr b) as [e|] eqn:He; [split; discriminate|].
  pose proof (typed_row_laid word32 name cols row Hn Hc Hr) as Ho.
  destruct (patched (seq (fun E p => okm (msg_insert p name cols)) (fun E p => append_insert_row p row)) E (buf b)) as [[q [e|]]|] eqn:Hf.
  - unfold patched, seq, okm in Hf.
    destruct (msg_insert (buf b) name cols) as [p1|]; cbn [bind] in *; [|discriminate].
    destruct (append_insert_row p1 row) as [[p2 [e2|]]|]; cbn [bind] in *; [| |discriminate].
    + injection H as <- <-. split; intros _ X; discriminate.
    + destruct (patch_length p2 _); discriminate.
  - pose proof (gains_both _ _ _ (values_ok word32 row) _ (laid_gains E _ _ _ _ _ _ _ Ho HW Hf)
      (fun Hv => outcome_gains E _ _ _ _ _ _ _ (row_outcome word32 name cols row Hn Hc Hv) HW Hf)) as Hg. cbn beta in Hg. unfold patched, seq, okm in Hf.
    destruct (msg_insert (buf b) name cols) as [p1|]; cbn [bind] in *; [|discriminate].
    destruct (append_insert_row p1 row) as [[p2 [e2|]]|]; cbn [bind] in *; [discriminate| |discriminate].
    destruct (patch_length p2 (len (buf b))) as [p3|]; cbn [bind] in *; [|discriminate]. injection Hf as <-.
    set (id := insert_id p3) in *.
    destruct (b_stmt_execute _ [] _) as [b2|] eqn:Hs in H; cbn [bind] in H; [|discriminate]. injection H as <- <-.
    assert (Hid : Forall (fun x => x < 256) id /\ nlen id <= 23) by (apply id_of_small; apply N.mod_upper_bound; discriminate).
    split; [intros _ _; exists id; split; [reflexivity|]; destruct Hid; split; [split; [assumption|lia]|lia]|].
    apply statement_adds in Hs; [|apply go_string_app; [apply s2b_go|apply Forall_app; split; [apply Hid|apply s2b_go]|]| |reflexivity].
    2: { rewrite nlen_app. rewrite !(proj2 (s2b_go _)). cbn [String.length]. lia. }
    2: { rewrite !nlen_app. rewrite !(proj2 (s2b_go _)). cbn [String.length]. lia. }
    intros _ Hb. pose proof (Hs eq_refl Hb) as S3. cbn [buf] in S3.
    destruct Hg as [G1 G2]. destruct S3 as [S3 S4]. split; [lia|]. intros Hsm.
    assert (Hsm3 : nlen (data p3) < 2 ^ 63) by (unfold len, nlen in *; lia).
    destruct (G2 Hsm3) as (x & Hx & Hone & Hsay). destruct (S4 Hsm) as (y & Hy & Hm2).
    destruct (one_framed _ _ Hone) as [pl Hfx]. destruct Hm2 as (fy & Hfy & Hm2). inversion Hm2 as [|g ? l ? Hg Hl]; subst. inversion Hl; subst.
    exists (x ++ y). split; [rewrite Hy, Hx, app_assoc; reflexivity|]. exists (18, pl), g, id.
    split; [exact (framed_app x y [_] [_] Hfx Hfy)|]. split.
    { split; [reflexivity|]. intros Hv. destruct (Hsay Hv) as (m & (es & -> & Hes) & Hm). exists es. split; [exact (says_reads _ _ _ Hfx Hm)|exact Hes]. }
    split; [exact Hg|]. split; [reflexivity|].
    exists [N.of_nat (len p3)]. split; [|split; [repeat constructor|constructor; [|constructor]]].
    + cbn [map]. unfold id, insert_id, id_of. rewrite N.mod_small; [reflexivity|]. unfold len, nlen in *. lia.
    + split; [|lia]. pose proof (one_some _ _ Hone) as Hx0.
      unfold len. rewrite Hx, app_length. destruct x; [contradiction|]. cbn [length]. lia.
  - unfold patched, seq, okm in Hf.
    destruct (msg_insert (buf b) name cols) as [p1|]; cbn [bind] in *; [|discriminate].
    destruct (append_insert_row p1 row) as [[p2 [e2|]]|]; cbn [bind] in *; [discriminate| |discriminate].
    destruct (patch_length p2 _); cbn [bind] in *; discriminate.
Qed.

Lemma frame_run_adds : forall pr b outer b' out, typed_prog word32 pr -> calls_below (2 ^ 31) pr -> Forall (fun b => disabled b = true) outer -> disabled b = false ->
  run pr (b :: outer) = Ok (b' :: outer, out) -> berr b = None -> berr b' = None ->
  Forall row_variable out /\ gains (buf b) (buf b') (frame_bytes pr out (len (buf b)) (len (buf b'))).
Proof using.
  unfold calls_below.
  induction pr as [cberr out0|lvl c next IH|lvl name cols row next IH|lvl k body IHb next IHn];
    intros b outer b' out Hok Hsm Hout Hd H He He'; cbn [run typed_prog prog_all] in *.
  - injection H as <- <-. split; [assumption|]. apply gains_refl. exists [], []. split; [apply framed_nil|]. split; [constructor|apply ids_nil].
  - destruct Hok as [Hc Hok], Hsm as [Hw Hsm]. destruct lvl as [|lvl].
    2: { destruct (nth_error (b :: outer) (S lvl)) as [x|] eqn:Hx; [|discriminate]. apply only_inner in Hx; [|assumption].
         rewrite exec_disabled in H by assumption. discriminate. }
    cbn [nth_error set_nth map] in H. destruct (exec_call _ c b) as [b1|] eqn:Hb; [|discriminate]. cbn [bind] in H.
    pose proof (typed_call_step _ _ _ _ Hc Hd Hb) as (Hd1 & _). destruct (typed_step next b1 outer _ _ Hok Hout Hd1 H) as (_ & b2 & Hb2 & _ & Hst & _).
    assert (b2 = b') by congruence. subst b2.
    assert (He1 : berr b1 = None) by (destruct (berr b1) eqn:X; [rewrite Hst in He' by congruence; congruence|reflexivity]).
    apply frame_call_adds in Hb; [|assumption..]. destruct (IH b1 outer b' out Hok Hsm Hout Hd1 H He1 He') as (Ho & Hs).
    split; [exact Ho|]. eapply gains_trans; [exact (Hb He He1)|exact Hs|]. intros Hl x y (m & Hx & Hm) (ms & ids & Hy & Hp & Hi).
    exists (m :: ms), ids. split; [exact (framed_app x y [m] ms Hx Hy)|]. split; [constructor; assumption|].
    eapply ids_wider; [| |exact Hi]; lia.
  - destruct Hok as (Hn & Hc & Hr & Hok), Hsm as [Hw Hsm]. destruct lvl as [|lvl].
    2: { destruct (nth_error (b :: outer) (S lvl)) as [x|] eqn:Hx; [|discriminate]. apply only_inner in Hx; [|assumption].
         rewrite insert_row_disabled in H by assumption. discriminate. }
    cbn [nth_error set_nth] in H. destruct (b_insert_row name cols row b) as [[b1 o]|] eqn:Hb; [|discriminate]. cbn [bind] in H.
    pose proof (typed_row_step _ _ _ _ _ _ Hn Hc Hr Hd Hb) as (Hrow & Hd1 & _).
    destruct (typed_step (next o) b1 outer _ _ (Hok o Hrow) Hout Hd1 H) as (_ & b2 & Hb2 & _ & Hst & _).
    assert (b2 = b') by congruence. subst b2.
    assert (He1 : berr b1 = None) by (destruct (berr b1) eqn:X; [rewrite Hst in He' by congruence; congruence|reflexivity]).
    apply frame_row_adds in Hb; [|assumption..]. destruct Hb as [Hv Hb].
    destruct (IH o b1 outer b' out (Hok o Hrow) (Hsm o (Hv He He1)) Hout Hd1 H He1 He') as (Ho & Hs).
    split; [exact Ho|]. eapply gains_trans; [exact (Hb He He1)|exact Hs|].
    intros Hl x y (f & g & id & Hx & Hf & Hg & -> & Hid) (ms & ids & Hy & Hp & Hi).
    exists (f :: g :: ms), (id :: ids).
    split; [exact (framed_app x y [_; _] ms Hx Hy)|]. split; [constructor; assumption|].
    apply (ids_app (len (buf b)) (len (buf b1)) (len (buf b')) [id] ids); [lia|lia|exact Hid|exact Hi].
  - destruct Hok as (Hk & Hokb & Hokn), Hsm as (_ & Hsmb & Hsmn). destruct lvl as [|lvl].
    2: { destruct (nth_error (b :: outer) (S lvl)) as [x|] eqn:Hx; [|discriminate]. apply only_inner in Hx; [|assumption].
         rewrite block_disabled in H by assumption. discriminate. }
    cbn [nth_error set_nth] in H. destruct (block_begin k b) as [[b1 en]|] eqn:Hb; [|discriminate]. cbn [bind] in H.
    pose proof (typed_begin_step _ _ _ _ Hk Hd Hb) as Hbs. destruct en.
    + destruct (run body _) as [[st2 out1]|] eqn:Hbody; [|discriminate]. cbn [bind] in H.
      pose proof Hbody as Hrun. apply typed_step in Hrun; [|assumption|constructor; [reflexivity|assumption]|reflexivity].
      destruct Hrun as (Ho1 & child & -> & _ & Hst2 & _). cbn [berr] in Hst2.
      destruct (block_end k _) as [b3|] eqn:H3; [|discriminate]. cbn [bind set_nth] in H.
      pose proof (typed_end_step k (mkb (buf child) (berr child) false) b3 eq_refl H3) as (Hd3 & Hst3 & _). cbn [berr] in Hst3.
      destruct (typed_step (next out1) b3 outer _ _ (Hokn out1 Ho1) Hout Hd3 H) as (_ & b2 & Hb2 & _ & Hst & _).
      assert (b2 = b') by congruence. subst b2.
      assert (He3 : berr b3 = None) by (destruct (berr b3) eqn:X; [rewrite Hst in He' by congruence; congruence|reflexivity]).
      assert (Hec : berr child = None) by (destruct (berr child) eqn:X; [rewrite Hst3 in He3 by congruence; congruence|reflexivity]).
      assert (He1 : berr b1 = None).
      { destruct (berr b1) eqn:X; [|reflexivity]. assert (child = mkb (buf b1) (Some e) false) by (apply Hst2; discriminate). subst child. discriminate. }
      destruct (block_begin_adds k b b1 Hk Hd He1 Hb) as (open & Hopen & Ha). specialize (Ha He He1).
      destruct (IHb (mkb (buf b1) (berr b1) false) (mkb (buf b1) (berr b1) true :: outer) child out1 Hokb Hsmb ltac:(constructor; [reflexivity|assumption]) eq_refl Hbody He1 Hec) as (Hv1 & Hgb).
      apply block_end_adds in H3; [|reflexivity]. specialize (H3 Hec He3). cbn [buf] in *.
      destruct (IHn out1 b3 outer b' out (Hokn out1 Ho1) (Hsmn out1 Hv1) Hout Hd3 H He3 He') as (Ho & Hgn).
      split; [exact Ho|].
      assert (H12 : gains (buf b) (buf child) (fun bs => exists fs0 fs ids, framed bs (fs0 ++ fs) /\ Forall2 reads fs0 open /\ prog_frames word32 body fs ids out1 /\
        ids_between (len (buf b)) (len (buf child)) ids)).
      { eapply gains_trans; [exact Ha|exact Hgb|]. intros Hl x y (fs0 & Hx & R0) (fs & ids & Hy & Hp & Hi). exists fs0, fs, ids.
        split; [apply framed_app; assumption|]. split; [exact R0|]. split; [exact Hp|]. eapply ids_wider; [| |exact Hi]; lia. }
      assert (H123 : gains (buf b) (buf b3) (fun bs => exists fs0 fs g ids, framed bs (fs0 ++ fs ++ [g]) /\ Forall2 reads fs0 open /\ prog_frames word32 body fs ids out1 /\
        reads g (closing k) /\ ids_between (len (buf b)) (len (buf b3)) ids)).
      { eapply gains_trans; [exact H12|exact H3|]. intros Hl x y (fs0 & fs & ids & Hx & R0 & Hp & Hi) (fy & Hy & Ry).
        inversion Ry as [|g ? l ? Rg Rl]; subst. inversion Rl; subst. exists fs0, fs, g, ids.
        split; [rewrite app_assoc; apply framed_app; assumption|]. split; [exact R0|]. split; [exact Hp|]. split; [exact Rg|]. eapply ids_wider; [| |exact Hi]; lia. }
      eapply gains_trans; [exact H123|exact Hgn|]. intros Hl x y (fs0 & fs1 & g & ids1 & Hx & R0 & Hp1 & Rg & Hi1) (fs2 & ids2 & Hy & Hp2 & Hi2).
      exists (fs0 ++ fs1 ++ [g] ++ fs2), (ids1 ++ ids2).
      split; [replace (fs0 ++ fs1 ++ [g] ++ fs2) with ((fs0 ++ fs1 ++ [g]) ++ fs2) by (rewrite <- !app_assoc; reflexivity);
              apply framed_app; assumption|].
      split; [eapply F_block; eassumption|]. apply (ids_app _ (len (buf b3))); [lia|lia|exact Hi1|exact Hi2].
    + destruct Hbs as (He1 & Hd1 & _). destruct (typed_step (next []) b1 outer _ _ (Hokn [] (Forall_nil _)) Hout Hd1 H) as (_ & b2 & Hb2 & _ & Hst & _).
      assert (b2 = b') by congruence. subst b2. rewrite Hst in He' by exact He1. contradiction.
Qed.
End Steps.

(* C46: whatever the arguments, if every call is below 2 GiB, then what is sent, of any size, is a sequence of whole frames of below 4 GiB
   each, one for every message of the program, in order; blocks are balanced and the variables of InsertRow calls distinct. *)
Theorem C46_units_of_any_size_whatever_the_values : forall (E : Env) b pr bs, empty b -> typed_prog word32 pr -> calls_below (2 ^ 31) pr ->
  delivers b pr bs -> nlen bs < 2 ^ 63 ->
  exists fs ids out, bs = concat (map frame fs) /\ Forall (fun f => 1 + nlen (snd f) < 2 ^ 32) fs /\ dframes bs = Some fs /\
    prog_frames word32 pr fs ids out /\ NoDup ids /\ nested fs.
Proof.
  intros E b pr bs (He & Hb & Hd) Hok Hw (b' & out & Hr & Hs) Hl.
  destruct (typed_step pr b [] _ out Hok (Forall_nil _) Hd Hr) as (_ & b2 & Hb2 & S1 & _). assert (b2 = b') by congruence. subst b2.
  unfold send in Hs. rewrite S1 in Hs. destruct (berr b') eqn:He'; [discriminate|].
  assert (Hbs : data (buf b') = bs) by congruence.
  destruct (frame_run_adds pr b [] b' out Hok Hw (Forall_nil _) Hd Hr Hb He') as (_ & _ & G).
  destruct G as (x & Hx & fs & ids & G1 & G2 & G3); [rewrite Hbs; exact Hl|]. rewrite He, app_nil_l, Hbs in Hx. subst x.
  destruct (framed_frame bs fs G1) as [F1 F2]. exists fs, ids, out. split; [exact F1|]. split; [eapply Forall_impl; [|exact F2]; cbn; intros; lia|].
  split; [exact (framed_dframes _ _ G1)|]. split; [exact G2|]. split; [exact (ids_nodup _ _ _ G3)|exact (frames_nested _ _ _ _ _ G2)].
Qed.

(* C08: and every program of calls the API accepts is sent, whatever its size. *)
Theorem C08_units_of_any_size_whatever_the_values : forall (E : Env) b pr, empty b -> typed_prog word32 pr -> inner_only pr -> prog_accepted pr ->
  calls_below (2 ^ 31) pr ->
  exists bs, delivers b pr bs /\ (nlen bs < 2 ^ 63 -> exists fs ids out, dframes bs = Some fs /\ prog_frames word32 pr fs ids out /\ NoDup ids).
Proof.
  intros E b pr He Hok Hi Ha Hw. destruct (ThmTyped.C08_accepted_are_sent_whatever_the_values E b pr He Hok Hi Ha) as (bs & Hd).
  exists bs. split; [exact Hd|]. intros Hl. destruct (C46_units_of_any_size_whatever_the_values E b pr bs He Hok Hw Hd Hl) as (fs & ids & out & _ & _ & H1 & H2 & H3 & _).
  eauto 6.
Qed.

(* ---- the hypotheses can be met, by a unit of more than 5 GiB with a long variable name ---- *)

Definition wrong_again (s : bytes) : prog := PCall 0 (CDelete (s2b "u") (Some (EVariable ThmValues.long_name))) (ThmBig.again 5 s).
Lemma wrong_again_meets : forall (E : Env) b s, empty b -> go_string s -> nlen s = 2 ^ 30 ->
  exists bs, typed_prog word32 (wrong_again s) /\ ~ prog_ok word32 (wrong_again s) /\ inner_only (wrong_again s) /\ prog_accepted (wrong_again s) /\
    calls_below (2 ^ 31) (wrong_again s) /\ delivers b (wrong_again s) bs /\ 5 * 2 ^ 30 <= nlen bs.
Proof.
  intros E b s Hb Hg Hl. pose proof ThmTyped.long_name_string as Hs.
  assert (Hok : typed_prog word32 (wrong_again s)).
  { unfold wrong_again. cbn [ThmBig.again typed_prog typed_call]. split; [split; [ThmBuilder.ok|exact Hs]|].
    unfold typed_values. repeat (split; [split; [exact Hg|constructor]|]). constructor. }
  assert (Hi : inner_only (wrong_again s)) by (cbn [wrong_again ThmBig.again inner_only]; auto 8).
  assert (Ha : prog_accepted (wrong_again s)).
  { unfold prog_accepted, wrong_again. cbn [ThmBig.again prog_all call_accepted]. unfold call_fits. cbn [call_weight total_weight]. unfold name_weight. rewrite Hl.
    split; [split; [exact Logic.I|vm_compute; reflexivity]|]. repeat (split; [split; [constructor|reflexivity]|]). constructor. }
  destruct (ThmTyped.C08_accepted_are_sent_whatever_the_values E b (wrong_again s) Hb Hok Hi Ha) as (bs & Hd).
  exists bs. split; [exact Hok|]. split; [|split; [exact Hi|split; [exact Ha|split; [|split; [exact Hd|]]]]].
  - unfold wrong_again. cbn [prog_ok call_ok]. intros ((_ & H) & _). vm_compute in H. destruct H as [_ H]. apply H. reflexivity.
  - unfold calls_below, wrong_again. cbn [ThmBig.again prog_all call_weight total_weight]. unfold name_weight. rewrite Hl.
    split; [vm_compute; reflexivity|]. repeat (split; [reflexivity|]). constructor.
  - destruct Hd as (b' & out & Hr & Hsd). destruct Hb as (He & Hbe & Hdb). unfold wrong_again in Hr. cbn [run nth_error] in Hr.
    destruct (exec_call _ _ b) as [b1|] eqn:Hb1; [|discriminate]. cbn [bind set_nth] in Hr.
    apply typed_call_step in Hb1; [|exact (proj1 Hok)|exact Hdb]. destruct Hb1 as (Hd1 & _).
    destruct (typed_step (ThmBig.again 5 s) b1 [] _ out (proj2 Hok) (Forall_nil _) Hd1 Hr) as (_ & b2 & Hb2 & S1 & S2 & _).
    assert (b2 = b') by congruence. subst b2.
    unfold send in Hsd. rewrite S1 in Hsd. destruct (berr b') eqn:He'; [discriminate|]. assert (Hbs : data (buf b') = bs) by congruence.
    assert (He1 : berr b1 = None) by (destruct (berr b1) eqn:X; [rewrite S2 in He' by congruence; congruence|reflexivity]).
    pose proof (ThmBig.again_size E 5 s b1 b' out Hd1 Hr He1 He') as Hsz. unfold len in Hsz. rewrite Hbs in Hsz. clear - Hsz Hl. unfold nlen in *. lia.
Qed.
Example wrong_big_meets : forall (E : Env) b, empty b -> exists pr bs, typed_prog word32 pr /\ ~ prog_ok word32 pr /\ inner_only pr /\ prog_accepted pr /\
  calls_below (2 ^ 31) pr /\ delivers b pr bs /\ 5 * 2 ^ 30 <= nlen bs.
Proof.
  intros E b Hb. set (n := N.to_nat (2 ^ 30)). assert (Hn : N.of_nat n = 2 ^ 30) by (unfold n; apply N2Nat.id). clearbody n.
  assert (Hl : nlen (repeat 97 n) = 2 ^ 30) by (unfold nlen; rewrite repeat_length; exact Hn).
  assert (Hg : go_string (repeat 97 n)) by (split; [apply Forall_forall; intros x Hx; apply repeat_spec in Hx; subst; reflexivity|lia]).
  destruct (wrong_again_meets E b (repeat 97 n) Hb Hg Hl) as (bs & H). exists (wrong_again (repeat 97 n)), bs. exact H.
Qed.

Print Assumptions C46_units_of_any_size_whatever_the_values.
Print Assumptions C08_units_of_any_size_whatever_the_values.
