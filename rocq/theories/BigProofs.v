(* Units of work of any size, made of calls of less than 2 GiB each: BuilderProofs without the bound on the buffer. *)
From Coq Require Import String Sorted.
From Coq Require Import List NArith ZArith Arith Bool Lia ZifyN ZifyNat ZifyBool.
From Verif Require Import Base GoSlice SliceProofs Varint VarintProofs SpecWire SpecMsg WireProofs Pure
  Text TextProofs Values AnyModel ExprModel MsgModel AnyProofs SpecValue ValueProofs HeadProofs Builder SpecProg SpecBig MsgProofs BuilderProofs.
Import ListNotations.
Open Scope N_scope.
Open Scope list_scope.

(* The bound of Go's own ints is left. *)
Definition gains (p q : slice) (P : bytes -> Prop) : Prop :=
  (len p <= len q)%nat /\ (nlen (data q) < 2 ^ 63 -> exists bs, data q = data p ++ bs /\ P bs).

Lemma gains_refl : forall p (P : bytes -> Prop), P [] -> gains p p P.
Proof. intros p P HP. split; [lia|]. intros _. exists []. rewrite app_nil_r. auto. Qed.
Lemma gains_trans : forall p q r P1 P2 (P : bytes -> Prop), gains p q P1 -> gains q r P2 ->
  ((len p <= len q <= len r)%nat -> forall a b, P1 a -> P2 b -> P (a ++ b)) -> gains p r P.
Proof.
  intros p q r P1 P2 P [L1 H1] [L2 H2] HP. split; [lia|]. intros Hr.
  assert (Hq : nlen (data q) < 2 ^ 63) by (unfold len, nlen in *; lia).
  destruct (H1 Hq) as (a & Ha & Pa). destruct (H2 Hr) as (b & Hb & Pb). exists (a ++ b). split; [|auto].
  rewrite Hb, Ha, app_assoc. reflexivity.
Qed.
Lemma gains_weaken : forall p q (P P' : bytes -> Prop), gains p q P -> (forall bs, P bs -> P' bs) -> gains p q P'.
Proof. intros p q P P' [L H] HP. split; [exact L|]. intros Hq. destruct (H Hq) as (bs & H1 & H2). eauto. Qed.

Lemma outcome_gains : forall E D Q S W (f : enc) p q, msg_outcome (@word32 E) D Q S W f -> W < 2 ^ 31 -> f E p = Ok (q, None) -> gains p q (says1 D).
Proof.
  intros E D Q S W f p q [(m & bs & H1 & H2 & _ & H3)|[[[B1 _] _]|(_ & Hb & _)]] HW Hq.
  - destruct (H3 E eq_refl p) as [sp Hp]. rewrite Hp in Hq. apply ok_fst in Hq. subst q. split.
    + unfold len. cbn [data]. rewrite app_length. lia.
    + intros _. exists bs. split; [reflexivity|]. exists m. auto.
  - exfalso. exact (B1 E eq_refl p q Hq).
  - lia.
Qed.

(* Without an error the buffer gains P. *)
Definition adds (b b' : builder) (P : bytes -> Prop) : Prop := berr b = None -> berr b' = None -> gains (buf b) (buf b') P.

Section Steps.
Context `{E : Env}.

Lemma call_adds : forall dis c b b', call_ok word32 c -> call_weight c < 2 ^ 31 -> disabled b = false -> exec_call dis c b = Ok b' ->
  adds b b' (says1 (call_denotes c)).
Proof using.
  intros dis c b b' Hc HW Hd H He. unfold exec_call, guarded in H. rewrite Hd, He in H.
  pose proof (call_outcome word32 dis c Hc) as Ho.
  change (match c with CStmtExecute stmt args => _ | _ => _ end) with (run_call dis c E (buf b)) in H.
  destruct (run_call dis c E (buf b)) as [[q e]|] eqn:Hr; cbn [bind] in H; [|discriminate]. injection H as <-.
  cbn [berr buf]. intros ->. exact (outcome_gains E _ _ _ _ _ _ _ Ho HW Hr).
Qed.

Lemma statement_adds : forall s b b', go_string s -> nlen s < 2 ^ 30 -> disabled b = false -> b_stmt_execute s [] b = Ok b' ->
  adds b b' (fun bs => says bs [statement s]).
Proof using.
  intros s b b' Hs Hl Hd H.
  pose proof (call_adds [] (CStmtExecute s []) b b') as H3. specialize (H3 ltac:(split; [assumption|constructor])).
  specialize (H3 ltac:(cbn [call_weight total_weight]; unfold name_weight; lia) Hd H).
  intros Ha Hb. eapply gains_weaken; [exact (H3 Ha Hb)|].
  intros bs (m & Hm & Hsay). inversion Hm as [? ? ss Hss| | | | | | | |]; subst. inversion Hss; subst. exact Hsay.
Qed.

Lemma insert_row_adds : forall name cols row b b' o, go_string name -> Forall go_string cols -> values_ok word32 row -> row_size name cols row < 2 ^ 31 ->
  disabled b = false -> b_insert_row name cols row b = Ok (b', o) ->
  (berr b = None -> berr b' = None -> row_variable o) /\
  adds b b' (fun bs => exists es id, says bs [MInsert name (Some table_model) cols [es]; set_last_id id] /\
    Forall2 expr_denotes row es /\ o = Some (EVariable id) /\ ids_between (len (buf b)) (len (buf b')) [id]).
Proof using.
  intros name cols row b b' o Hn Hc Hr HW Hd H. unfold b_insert_row in H. rewrite Hd in H. unfold adds.
  destruct (berr b) as [e|] eqn:He; [split; discriminate|].
  pose proof (row_outcome word32 name cols row Hn Hc Hr) as Ho.
  destruct (patched (seq (fun E p => okm (msg_insert p name cols)) (fun E p => append_insert_row p row)) E (buf b)) as [[q [e|]]|] eqn:Hf.
  - unfold patched, seq, okm in Hf.
    destruct (msg_insert (buf b) name cols) as [p1|]; cbn [bind] in *; [|discriminate].
    destruct (append_insert_row p1 row) as [[p2 [e2|]]|]; cbn [bind] in *; [| |discriminate].
    + injection H as <- <-. split; intros _ X; discriminate.
    + destruct (patch_length p2 _); discriminate.
  - pose proof (outcome_gains E _ _ _ _ _ _ _ Ho HW Hf) as Hg. unfold patched, seq, okm in Hf.
    destruct (msg_insert (buf b) name cols) as [p1|]; cbn [bind] in *; [|discriminate].
    destruct (append_insert_row p1 row) as [[p2 [e2|]]|]; cbn [bind] in *; [discriminate| |discriminate].
    destruct (patch_length p2 (len (buf b))) as [p3|]; cbn [bind] in *; [|discriminate]. injection Hf as <-.
    set (id := insert_id p3) in *.
    destruct (b_stmt_execute _ [] _) as [b2|] eqn:Hs in H; cbn [bind] in H; [|discriminate]. injection H as <- <-.
    assert (Hid : Forall (fun x => x < 256) id /\ nlen id <= 23) by (apply id_of_small; apply N.mod_upper_bound; discriminate).
    split; [intros _ _; exists id; split; [reflexivity|]; destruct Hid; split; [split; [assumption|lia]|lia]|].
    apply statement_adds in Hs; [|apply go_string_app; [apply s2b_go|apply Forall_app; split; [apply Hid|apply s2b_go]|]| |reflexivity].
    2: { rewrite nlen_app. rewrite !(proj2 (s2b_go _)). cbn [String.length]. lia. }
    2: { rewrite !nlen_app. rewrite !(proj2 (s2b_go _)). cbn [String.length]. lia. }
    intros _ Hb. specialize (Hs eq_refl Hb). cbn [buf] in Hs.
    destruct Hg as [G1 G2]. destruct Hs as [S3 S4]. split; [lia|]. intros Hsm.
    assert (Hsm3 : nlen (data p3) < 2 ^ 63) by (unfold len, nlen in *; lia).
    destruct (G2 Hsm3) as (x & Hx & m & (es & -> & Hes) & Hm). destruct (S4 Hsm) as (y & Hy & Hm2).
    exists (x ++ y). split; [rewrite Hy, Hx, app_assoc; reflexivity|]. exists es, id.
    split; [exact (says_app x y [_] [_] Hm Hm2)|]. split; [exact Hes|]. split; [reflexivity|].
    exists [N.of_nat (len p3)]. split; [|split; [repeat constructor|constructor; [|constructor]]].
    + cbn [map]. unfold id, insert_id, id_of. rewrite N.mod_small; [reflexivity|]. unfold len, nlen in *. lia.
    + split; [|lia]. assert (Hx0 : x <> []).
      { intros ->. destruct Hm as (fs & Hfs & Hm). apply framed_dframes in Hfs. cbn in Hfs. injection Hfs as <-. inversion Hm. }
      unfold len. rewrite Hx, app_length. destruct x; [contradiction|]. cbn [length]. lia.
  - unfold patched, seq, okm in Hf.
    destruct (msg_insert (buf b) name cols) as [p1|]; cbn [bind] in *; [|discriminate].
    destruct (append_insert_row p1 row) as [[p2 [e2|]]|]; cbn [bind] in *; [discriminate| |discriminate].
    destruct (patch_length p2 _); cbn [bind] in *; discriminate.
Qed.

Ltac go_const := split; [apply s2b_go|reflexivity].

Lemma block_begin_adds : forall k b b1, blk_ok k -> disabled b = false -> berr b1 = None -> block_begin k b = Ok (b1, true) ->
  exists open, opening k = Some open /\ adds b b1 (fun bs => says bs open).
Proof using.
  intros k b b1 Hk Hd He1 H. unfold block_begin in H. rewrite Hd in H. destruct (berr b) as [e|] eqn:He; [discriminate|].
  destruct k as [lvl|ctx].
  - assert (Hone : forall s, go_string s -> nlen s < 2 ^ 30 -> (do b <- b_stmt_execute s [] b; Ok (b, true)) = Ok (b1, true) ->
      adds b b1 (fun bs => says bs [statement s])).
    { intros s Hs Hl H1. destruct (b_stmt_execute s [] b) as [b2|] eqn:Hb; [|discriminate]. cbn [bind] in H1. injection H1 as <-.
      apply statement_adds; assumption. }
    assert (Htwo : forall s1 s2, go_string s1 -> go_string s2 -> nlen s1 < 2 ^ 30 -> nlen s2 < 2 ^ 30 ->
      (do b <- b_stmt_execute s1 [] b; do b <- b_stmt_execute s2 [] b; Ok (b, true)) = Ok (b1, true) ->
      adds b b1 (fun bs => says bs [statement s1; statement s2])).
    { intros s1 s2 Hs1 Hs2 L1 L2 H1. destruct (b_stmt_execute s1 [] b) as [b2|] eqn:Hb; [|discriminate]. cbn [bind] in H1.
      destruct (b_stmt_execute s2 [] b2) as [b3|] eqn:Hb3; [|discriminate]. cbn [bind] in H1. injection H1 as <-.
      pose proof (statement_step _ _ _ Hs1 Hd Hb) as (Hd2 & _). pose proof (statement_step _ _ _ Hs2 Hd2 Hb3) as (_ & Hst & _).
      assert (He2 : berr b2 = None) by (destruct (berr b2) eqn:X; [rewrite Hst in He1 by congruence; congruence|reflexivity]).
      apply statement_adds in Hb; [|assumption..]. apply statement_adds in Hb3; [|assumption..]. intros _ _.
      eapply gains_trans; [exact (Hb He He2)|exact (Hb3 He2 He1)|]. intros _ x y Hx Hy. exact (says_app x y [_] [_] Hx Hy). }
    unfold tx_begin in H. cbn [opening].
    destruct lvl as [|[[[lvl|lvl|]|[lvl|lvl|]|]|[[lvl|lvl|]|[lvl|lvl|]|]|]]; cbn [bind] in H; try discriminate.
    all: first [apply Hone in H; [|go_const|reflexivity] | apply Htwo in H; [|go_const|go_const|reflexivity|reflexivity]];
      eexists; split; [reflexivity|exact H].
  - cbn [opening blk_ok] in *. pose proof (open_outcome word32 ctx (eq (MExpectOpen ctx [no_error_1])) True True 512 Hk ltac:(lia) eq_refl) as Ho.
    destruct (expect_open (buf b) ctx [ONoError true]) as [q|] eqn:Hq; [|discriminate]. cbn [bind] in H. injection H as <-.
    eexists. split; [reflexivity|]. intros _ _. cbn [buf].
    eapply gains_weaken; [apply (outcome_gains E _ _ _ _ _ _ _ Ho); [reflexivity|unfold okm; rewrite Hq; reflexivity]|].
    intros bs (m & <- & Hm). exact Hm.
Qed.

Lemma block_end_adds : forall k b b', disabled b = false -> block_end k b = Ok b' -> adds b b' (fun bs => says bs [closing k]).
Proof using.
  intros [lvl|ctx] b b' Hd H; cbn [block_end closing] in *.
  - apply statement_adds in H; [exact H|go_const|reflexivity|assumption].
  - injection H as <-. intros _ _. cbn [buf].
    pose proof (close_outcome word32 (eq MExpectClose) True True 512 eq_refl) as Ho.
    eapply gains_weaken; [apply (outcome_gains E _ _ _ _ _ _ _ Ho); reflexivity|]. intros bs (m & <- & Hm). exact Hm.
Qed.

Lemma run_adds : forall pr b outer b' out, prog_ok word32 pr -> calls_below (2 ^ 31) pr -> Forall (fun b => disabled b = true) outer -> disabled b = false ->
  run pr (b :: outer) = Ok (b' :: outer, out) -> berr b = None -> berr b' = None ->
  Forall row_variable out /\ gains (buf b) (buf b') (prog_bytes pr out (len (buf b)) (len (buf b'))).
Proof using.
  unfold calls_below.
  induction pr as [cberr out0|lvl c next IH|lvl name cols row next IH|lvl k body IHb next IHn];
    intros b outer b' out Hok Hsm Hout Hd H He He'; cbn [run prog_ok prog_all] in *.
  - injection H as <- <-. split; [assumption|]. apply gains_refl. exists [], []. split; [apply says_nil|]. split; [constructor|apply ids_nil].
  - destruct Hok as [Hc Hok], Hsm as [Hw Hsm]. destruct lvl as [|lvl].
    2: { destruct (nth_error (b :: outer) (S lvl)) as [x|] eqn:Hx; [|discriminate]. apply only_inner in Hx; [|assumption].
         rewrite exec_disabled in H by assumption. discriminate. }
    cbn [nth_error set_nth map] in H. destruct (exec_call _ c b) as [b1|] eqn:Hb; [|discriminate]. cbn [bind] in H.
    pose proof (call_step _ _ _ _ Hc Hd Hb) as (Hd1 & _). destruct (run_step next b1 outer _ _ Hok Hout Hd1 H) as (_ & b2 & Hb2 & _ & Hst & _).
    assert (b2 = b') by congruence. subst b2.
    assert (He1 : berr b1 = None) by (destruct (berr b1) eqn:X; [rewrite Hst in He' by congruence; congruence|reflexivity]).
    apply call_adds in Hb; [|assumption..]. destruct (IH b1 outer b' out Hok Hsm Hout Hd1 H He1 He') as (Ho & Hs).
    split; [exact Ho|]. eapply gains_trans; [exact (Hb He He1)|exact Hs|]. intros Hl x y (m & Hm & Hx) (ms & ids & Hy & Hp & Hi).
    exists (m :: ms), ids. split; [exact (says_app x y [m] ms Hx Hy)|]. split; [constructor; assumption|].
    eapply ids_wider; [| |exact Hi]; lia.
  - destruct Hok as (Hn & Hc & Hr & Hok), Hsm as [Hw Hsm]. destruct lvl as [|lvl].
    2: { destruct (nth_error (b :: outer) (S lvl)) as [x|] eqn:Hx; [|discriminate]. apply only_inner in Hx; [|assumption].
         rewrite insert_row_disabled in H by assumption. discriminate. }
    cbn [nth_error set_nth] in H. destruct (b_insert_row name cols row b) as [[b1 o]|] eqn:Hb; [|discriminate]. cbn [bind] in H.
    pose proof (insert_row_step _ _ _ _ _ _ Hn Hc Hr Hd Hb) as (Hrow & Hd1 & _).
    destruct (run_step (next o) b1 outer _ _ (Hok o Hrow) Hout Hd1 H) as (_ & b2 & Hb2 & _ & Hst & _).
    assert (b2 = b') by congruence. subst b2.
    assert (He1 : berr b1 = None) by (destruct (berr b1) eqn:X; [rewrite Hst in He' by congruence; congruence|reflexivity]).
    apply insert_row_adds in Hb; [|assumption..]. destruct Hb as [Hv Hb].
    destruct (IH o b1 outer b' out (Hok o Hrow) (Hsm o (Hv He He1)) Hout Hd1 H He1 He') as (Ho & Hs).
    split; [exact Ho|]. eapply gains_trans; [exact (Hb He He1)|exact Hs|].
    intros Hl x y (es & id & Hx & Hes & -> & Hid) (ms & ids & Hy & Hp & Hi).
    exists (MInsert name (Some table_model) cols [es] :: set_last_id id :: ms), (id :: ids).
    split; [exact (says_app x y [_; _] ms Hx Hy)|]. split; [constructor; assumption|].
    apply (ids_app (len (buf b)) (len (buf b1)) (len (buf b')) [id] ids); [lia|lia|exact Hid|exact Hi].
  - destruct Hok as (Hk & Hokb & Hokn), Hsm as (_ & Hsmb & Hsmn). destruct lvl as [|lvl].
    2: { destruct (nth_error (b :: outer) (S lvl)) as [x|] eqn:Hx; [|discriminate]. apply only_inner in Hx; [|assumption].
         rewrite block_disabled in H by assumption. discriminate. }
    cbn [nth_error set_nth] in H. destruct (block_begin k b) as [[b1 en]|] eqn:Hb; [|discriminate]. cbn [bind] in H.
    pose proof (block_begin_step _ _ _ _ Hk Hd Hb) as Hbs. destruct en.
    + destruct (run body _) as [[st2 out1]|] eqn:Hbody; [|discriminate]. cbn [bind] in H.
      pose proof Hbody as Hrun. apply run_step in Hrun; [|assumption|constructor; [reflexivity|assumption]|reflexivity].
      destruct Hrun as (Ho1 & child & -> & _ & Hst2 & _). cbn [berr] in Hst2.
      destruct (block_end k _) as [b3|] eqn:H3; [|discriminate]. cbn [bind set_nth] in H.
      pose proof (block_end_step k (mkb (buf child) (berr child) false) b3 eq_refl H3) as (Hd3 & Hst3 & _). cbn [berr] in Hst3.
      destruct (run_step (next out1) b3 outer _ _ (Hokn out1 Ho1) Hout Hd3 H) as (_ & b2 & Hb2 & _ & Hst & _).
      assert (b2 = b') by congruence. subst b2.
      assert (He3 : berr b3 = None) by (destruct (berr b3) eqn:X; [rewrite Hst in He' by congruence; congruence|reflexivity]).
      assert (Hec : berr child = None) by (destruct (berr child) eqn:X; [rewrite Hst3 in He3 by congruence; congruence|reflexivity]).
      assert (He1 : berr b1 = None).
      { destruct (berr b1) eqn:X; [|reflexivity]. assert (child = mkb (buf b1) (Some e) false) by (apply Hst2; discriminate). subst child. discriminate. }
      destruct (block_begin_adds k b b1 Hk Hd He1 Hb) as (open & Hopen & Ha). specialize (Ha He He1).
      destruct (IHb (mkb (buf b1) (berr b1) false) (mkb (buf b1) (berr b1) true :: outer) child out1 Hokb Hsmb ltac:(constructor; [reflexivity|assumption]) eq_refl Hbody He1 Hec) as (Hv1 & Hgb).
      apply block_end_adds in H3; [|reflexivity]. specialize (H3 Hec He3). cbn [buf] in *.
      destruct (IHn out1 b3 outer b' out (Hokn out1 Ho1) (Hsmn out1 Hv1) Hout Hd3 H He3 He') as (Ho & Hgn).
      split; [exact Ho|].
      assert (H12 : gains (buf b) (buf child) (fun bs => exists ms ids, says bs (open ++ ms) /\ prog_msgs body ms ids out1 /\ ids_between (len (buf b)) (len (buf child)) ids)).
      { eapply gains_trans; [exact Ha|exact Hgb|]. intros Hl x y Hx (ms & ids & Hy & Hp & Hi). exists ms, ids.
        split; [apply says_app; assumption|]. split; [exact Hp|]. eapply ids_wider; [| |exact Hi]; lia. }
      assert (H123 : gains (buf b) (buf b3) (fun bs => exists ms ids, says bs (open ++ ms ++ [closing k]) /\ prog_msgs body ms ids out1 /\ ids_between (len (buf b)) (len (buf b3)) ids)).
      { eapply gains_trans; [exact H12|exact H3|]. intros Hl x y (ms & ids & Hx & Hp & Hi) Hy. exists ms, ids.
        split; [rewrite app_assoc; apply says_app; assumption|]. split; [exact Hp|]. eapply ids_wider; [| |exact Hi]; lia. }
      eapply gains_trans; [exact H123|exact Hgn|]. intros Hl x y (ms1 & ids1 & Hx & Hp1 & Hi1) (ms2 & ids2 & Hy & Hp2 & Hi2).
      exists (open ++ ms1 ++ [closing k] ++ ms2), (ids1 ++ ids2).
      split; [replace (open ++ ms1 ++ [closing k] ++ ms2) with ((open ++ ms1 ++ [closing k]) ++ ms2) by (rewrite <- !app_assoc; reflexivity);
              apply says_app; assumption|].
      split; [eapply M_block; eassumption|]. apply (ids_app _ (len (buf b3))); [lia|lia|exact Hi1|exact Hi2].
    + destruct Hbs as (He1 & Hd1 & _). destruct (run_step (next []) b1 outer _ _ (Hokn [] (Forall_nil _)) Hout Hd1 H) as (_ & b2 & Hb2 & _ & Hst & _).
      assert (b2 = b') by congruence. subst b2. rewrite Hst in He' by exact He1. contradiction.
Qed.
End Steps.
