(* C85: panics that are recovered from, when arguments may also be values that are encoded wrongly. *)
From Coq Require Import String List NArith ZArith Arith Bool Lia ZifyN ZifyNat ZifyBool.
From Coq Require Import List.
From Verif Require Import Base GoSlice SpecWire SpecMsg WireProofs Text Values MsgModel Builder
  SpecValue SpecProg SpecUnit MsgProofs BuilderProofs UnitProofs ShapeProofs History Recover SpecRecover RecoverProofs
  SpecTyped TypedRunProofs TypedFrameProofs ThmTypedShape.
From Verif Require TextProofs ThmBuilder ThmValues ThmDefects ThmTyped ThmRecover.
Import ListNotations.
Open Scope N_scope.
Open Scope list_scope.

(* SpecRecover.tprog_ok without the condition that no value is one of those. *)
Fixpoint typed_tprog (w32 : bool) (pr : tprog) : Prop :=
  match pr with
  | TRet _ out => Forall row_result out
  | TPanic => True
  | TCall _ c next => typed_call w32 c /\ typed_tprog w32 next
  | TInsertRow _ name cols row next =>
      go_string name /\ Forall go_string cols /\ typed_values w32 row /\ forall o, row_result o -> typed_tprog w32 (next o)
  | TBlock _ k body next =>
      match k with KTx _ => True | KExpectFailOnError context => context < 2 end /\
      typed_tprog w32 body /\ forall out, Forall row_result out -> typed_tprog w32 (next out)
  | TTry _ body next => typed_tprog w32 body /\ typed_tprog w32 (next None) /\ forall out, Forall row_result out -> typed_tprog w32 (next (Some out))
  end.

(* SpecRecover.tprog_msgs, with frames in place of messages, as SpecTyped.prog_frames has them. *)
Inductive tprog_frames (w32 : bool) : tprog -> list (N * bytes) -> list bytes -> finish -> Prop :=
| TF_ret cberr out : tprog_frames w32 (TRet cberr out) [] [] (Returned out)
| TF_panic : tprog_frames w32 TPanic [] [] Broke
| TF_call c next m fs ids f : call_frame w32 c m -> tprog_frames w32 next fs ids f -> tprog_frames w32 (TCall 0 c next) (m :: fs) ids f
| TF_call_panics c next : plain c -> ~ (call_quiet c /\ call_fits c) -> tprog_frames w32 (TCall 0 c next) [] [] Broke
| TF_outer_call lvl c next : tprog_frames w32 (TCall (S lvl) c next) [] [] Broke
| TF_row name cols row next id m g fs ids f :
    row_frame w32 name cols row m -> reads g (set_last_id id) -> tprog_frames w32 (next (Some (EVariable id))) fs ids f ->
    tprog_frames w32 (TInsertRow 0 name cols row next) (m :: g :: fs) (id :: ids) f
| TF_outer_row lvl name cols row next : tprog_frames w32 (TInsertRow (S lvl) name cols row next) [] [] Broke
| TF_block k body next open fs0 fs1 ids1 out1 g fs2 ids2 f :
    opening k = Some open -> Forall2 reads fs0 open -> tprog_frames w32 body fs1 ids1 (Returned out1) ->
    reads g (closing k) -> tprog_frames w32 (next out1) fs2 ids2 f ->
    tprog_frames w32 (TBlock 0 k body next) (fs0 ++ fs1 ++ [g] ++ fs2) (ids1 ++ ids2) f
| TF_outer_block lvl k body next : tprog_frames w32 (TBlock (S lvl) k body next) [] [] Broke
| TF_try stale body next fs1 ids1 out1 fs2 ids2 f :
    tprog_frames w32 body fs1 ids1 (Returned out1) -> tprog_frames w32 (next (Some out1)) fs2 ids2 f ->
    tprog_frames w32 (TTry stale body next) (fs1 ++ fs2) (ids1 ++ ids2) f
| TF_recovered stale body next fs1 ids1 fs2 ids2 f :
    tprog_frames w32 body fs1 ids1 Broke -> tprog_frames w32 (next None) fs2 ids2 f ->
    tprog_frames w32 (TTry stale body next) (fs1 ++ fs2) (ids1 ++ ids2) f.

(* ---- RecoverProofs.try_result for frames ---- *)

Section Run.
Context `{E : Env}.

Definition tprog_framed (pr : tprog) (f : finish) (lo hi : nat) (bs : bytes) : Prop :=
  exists fs ids, framed bs fs /\ tprog_frames word32 pr fs ids f /\ ids_between lo hi ids.

(* How running part of a program on b :: outer may end. *)
Definition typed_result (m : mode) (pr : tprog) (b : builder) (outer : list builder) (r : ended) : Prop :=
  match r with
  | Done st out => Forall row_result out /\ exists b', st = b' :: outer /\ tstep b b' (tprog_framed pr (Returned out) (len (buf b)) (len (buf b')))
  | Stopped st =>
      match m with
      | Free => True
      | Recovered => exists b', st = b' :: outer /\ tstep b b' (tprog_framed pr Broke (len (buf b)) (len (buf b')))
      | Calm => False
      end
  end.

Lemma typed_result_after : forall m pr next b b1 outer r P, tstep b b1 P -> typed_result m next b1 outer r ->
  (forall f hi x y, (len (buf b) <= len (buf b1) <= hi)%nat -> P x -> tprog_framed next f (len (buf b1)) hi y ->
     tprog_framed pr f (len (buf b)) hi (x ++ y)) ->
  typed_result m pr b outer r.
Proof using.
  intros m pr next b b1 outer [st out|st] P Hs Hr H.
  - destruct Hr as (Ho & b' & -> & Hs'). split; [exact Ho|]. exists b'. split; [reflexivity|]. eapply tstep_trans; [exact Hs|exact Hs'|].
    intros Hl x y. apply H. exact Hl.
  - destruct m; [exact I| |exact Hr]. destruct Hr as (b' & -> & Hs'). exists b'. split; [reflexivity|]. eapply tstep_trans; [exact Hs|exact Hs'|].
    intros Hl x y. apply H. exact Hl.
Qed.

Lemma typed_result_failed : forall m pr next b b1 outer r, berr b1 <> None -> typed_result m next b1 outer r -> typed_result m pr b outer r.
Proof using.
  intros m pr next b b1 outer r He Hr.
  assert (X : forall b' P Q, tstep b1 b' P -> tstep b b' Q).
  { intros b' P Q (H1 & H2 & H3). split; [exact H1|]. split; [auto|]. intros _ H. destruct (H2 He H). }
  destruct r as [st out|st].
  - destruct Hr as (Ho & b' & -> & Hs'). split; [exact Ho|]. exists b'. split; [reflexivity|]. eapply X. exact Hs'.
  - destruct m; [exact I| |exact Hr]. destruct Hr as (b' & -> & Hs'). exists b'. split; [reflexivity|]. eapply X. exact Hs'.
Qed.

(* A call on a builder that is in use by a callback panics and changes nothing. *)
Lemma typed_outer_result : forall m pr b outer, disabled b = false -> m <> Calm -> tprog_frames word32 pr [] [] Broke -> typed_result m pr b outer (Stopped (b :: outer)).
Proof using.
  intros m pr b outer Hd Hm Hp. destruct m; [exact I| |congruence]. exists b. split; [reflexivity|]. apply tstep_refl; [exact Hd|].
  exists [], []. split; [apply framed_nil|]. split; [exact Hp|apply ids_nil].
Qed.
Lemma typed_quiet_exec : forall dis c b, typed_call word32 c -> quiet_call c -> disabled b = false -> exec_call dis c b <> Panic.
Proof using.
  intros dis c b Hok [Hq Hf] Hd. destruct (berr b) as [e|] eqn:He.
  - unfold exec_call, guarded. rewrite Hd, He. discriminate.
  - destruct (typed_call_total dis c b Hok Hf (or_introl Hq) Hd He) as (b' & -> & _). discriminate.
Qed.
Lemma typed_quiet_row : forall name cols row b, go_string name -> Forall go_string cols -> typed_values word32 row ->
  Forall panic_free row -> row_fits name cols row -> disabled b = false -> b_insert_row name cols row b <> Panic.
Proof using.
  intros name cols row b Hn Hc Hr Hq Hf Hd. destruct (berr b) as [e|] eqn:He.
  - unfold b_insert_row. rewrite Hd, He. discriminate.
  - destruct (typed_insert_row_total name cols row b Hn Hc Hr Hf (or_introl Hq) Hd He) as (b' & o & -> & _). discriminate.
Qed.
Lemma typed_try_result : forall pr m b outer, typed_tprog word32 pr -> tidy m pr -> Forall (fun b => disabled b = true) outer -> disabled b = false ->
  typed_result m pr b outer (run_try pr (b :: outer)).
Proof using.
  induction pr as [cberr out0| |lvl c next IH|lvl name cols row next IH|lvl k body IHb next IHn|stale body IHb next IHn];
    intros m b outer Hok Ht Hout Hd; cbn [run_try typed_tprog tidy] in *.
  - split; [exact Hok|]. exists b. split; [reflexivity|]. apply tstep_refl; [exact Hd|]. exists [], [].
    split; [apply framed_nil|]. split; [constructor|apply ids_nil].
  - apply typed_outer_result; [exact Hd|exact Ht|constructor].
  - destruct Hok as [Hc Hok], Ht as [Hm Ht]. destruct lvl as [|lvl].
    2: { assert (Hn : m <> Calm) by (intros ->; destruct Hm; discriminate).
         destruct (nth_error (b :: outer) (S lvl)) as [x|] eqn:Hx; [|apply typed_outer_result; [exact Hd|exact Hn|constructor]].
         pose proof (only_inner _ _ _ _ Hout Hx) as Hdx. rewrite exec_disabled by exact Hdx.
         rewrite stop_call_disabled by exact Hdx. rewrite set_nth_same by exact Hx. apply typed_outer_result; [exact Hd|exact Hn|constructor]. }
    cbn [nth_error set_nth map]. destruct (exec_call _ c b) as [b1|] eqn:Hb.
    + apply frame_call_step in Hb; [|assumption..]. eapply typed_result_after; [apply step_tstep; exact Hb|apply IH; [exact Hok|exact Ht|exact Hout|exact (proj1 Hb)]|].
      intros f hi x y Hl (ms1 & Hx & Hm1) (ms & ids & Hy & Hp & Hi). exists (ms1 :: ms), ids.
      split; [exact (framed_app x y [ms1] ms Hx Hy)|]. split; [constructor; assumption|]. eapply ids_wider; [| |exact Hi]; lia.
    + assert (Hq : ~ quiet_call c) by (intros Hq; exact (typed_quiet_exec _ c b Hc Hq Hd Hb)).
      destruct m; [exact I| |destruct Hm; contradiction]. destruct (Hm eq_refl) as [Hpl|]; [|contradiction].
      rewrite stop_plain by exact Hpl. apply typed_outer_result; [exact Hd|discriminate|]. constructor; [exact Hpl|exact Hq].
  - destruct Hok as (Hn & Hc & Hr & Hok), Ht as [Hm Ht]. destruct lvl as [|lvl].
    2: { assert (Hm' : m <> Calm) by (intros ->; destruct Hm; discriminate).
         destruct (nth_error (b :: outer) (S lvl)) as [x|] eqn:Hx; [|apply typed_outer_result; [exact Hd|exact Hm'|constructor]].
         pose proof (only_inner _ _ _ _ Hout Hx) as Hdx. rewrite insert_row_disabled by exact Hdx.
         rewrite stop_row_disabled by exact Hdx. rewrite set_nth_same by exact Hx. apply typed_outer_result; [exact Hd|exact Hm'|constructor]. }
    cbn [nth_error set_nth]. destruct (b_insert_row name cols row b) as [[b1 o]|] eqn:Hb.
    + apply frame_row_step in Hb; [|assumption..]. destruct Hb as [Hrow Hb].
      eapply typed_result_after; [apply step_tstep; exact Hb|apply IH; [apply Hok; exact Hrow|apply Ht; exact Hrow|exact Hout|exact (proj1 Hb)]|].
      intros f hi x y Hl (f1 & g1 & id & Hx & Hf1 & Hg1 & -> & Hid) (ms & ids & Hy & Hp & Hi).
      exists (f1 :: g1 :: ms), (id :: ids).
      split; [exact (framed_app x y [_; _] ms Hx Hy)|]. split; [constructor; assumption|].
      apply (ids_app (len (buf b)) (len (buf b1)) hi [id] ids); [lia|lia|exact Hid|exact Hi].
    + destruct m; [exact I|exfalso..].
      * destruct (Hm eq_refl) as [Hq Hf]. exact (typed_quiet_row name cols row b Hn Hc Hr Hq Hf Hd Hb).
      * destruct Hm as (_ & Hq & Hf). exact (typed_quiet_row name cols row b Hn Hc Hr Hq Hf Hd Hb).
  - destruct Hok as (Hk & Hokb & Hokn), Ht as (Hm & Htb & Htn). destruct lvl as [|lvl].
    2: { assert (Hm' : m <> Calm) by (intros ->; specialize (Hm eq_refl); discriminate).
         destruct (nth_error (b :: outer) (S lvl)) as [x|] eqn:Hx; [|apply typed_outer_result; [exact Hd|exact Hm'|constructor]].
         pose proof (only_inner _ _ _ _ Hout Hx) as Hdx. rewrite block_disabled by exact Hdx. apply typed_outer_result; [exact Hd|exact Hm'|constructor]. }
    cbn [nth_error set_nth]. destruct (block_begin k b) as [[b1 en]|] eqn:Hb; [|destruct (begin_ok k b Hk Hd Hb)].
    apply block_begin_step in Hb; [|assumption..]. destruct en.
    + destruct Hb as (He & open & Hopen & H1).
      pose proof (IHb _ (mkb (buf b1) (berr b1) false) (mkb (buf b1) (berr b1) true :: outer) Hokb Htb ltac:(constructor; [reflexivity|exact Hout]) eq_refl) as H2.
      destruct (run_try body _) as [st2 out1|st2].
      2: { cbn [typed_result] in H2. destruct m; [exact I|contradiction..]. }
      destruct H2 as (Ho1 & child & -> & H2).
      destruct (block_end_total k (mkb (buf child) (berr child) false) eq_refl) as (b3 & Hb3 & Hd3 & _). rewrite Hb3. cbn [set_nth].
      apply block_end_step in Hb3; [|reflexivity]. cbn [berr buf] in Hb3.
      assert (H123 : tstep b b3 (fun bs => exists fs0 fs g ids, framed bs (fs0 ++ fs ++ [g]) /\ Forall2 reads fs0 open /\
        tprog_frames word32 body fs ids (Returned out1) /\ reads g (closing k) /\ ids_between (len (buf b)) (len (buf b3)) ids)).
      { apply tstep_trans with (b1 := b1) (P1 := fun bs => says bs open)
          (P2 := fun bs => exists fs g ids, framed bs (fs ++ [g]) /\ tprog_frames word32 body fs ids (Returned out1) /\ reads g (closing k) /\
            ids_between (len (buf b1)) (len (buf b3)) ids).
        - apply step_tstep. exact H1.
        - destruct H2 as (B1 & B2 & B3), Hb3 as (C1 & C2 & C3). cbn [berr buf disabled] in *.
          split; [exact Hd3|]. split; [intros X; specialize (B2 X); rewrite (C2 B2); exact B2|]. intros He1 He3.
          destruct (berr child) eqn:Hec; [rewrite C2 in He3 by congruence; congruence|].
          eapply grows_trans; [apply B3; auto|apply C3; auto|].
          intros Hl x y (fs & ids & Hs & Hp & Hi) (fy & Hy & Ry). inversion Ry as [|g ? l ? Rg Rl]; subst. inversion Rl; subst.
          exists fs, g, ids. split; [apply framed_app; assumption|]. split; [exact Hp|]. split; [exact Rg|].
          eapply ids_wider; [| |exact Hi]; lia.
        - intros Hl x y (fx & Hx & Rx) (fs & g & ids & Hs & Hp & Hg & Hi). exists fx, fs, g, ids. split; [apply framed_app; assumption|].
          split; [exact Rx|]. split; [exact Hp|]. split; [exact Hg|]. eapply ids_wider; [| |exact Hi]; lia. }
      eapply typed_result_after; [exact H123|apply IHn; [apply Hokn; exact Ho1|apply Htn; exact Ho1|exact Hout|exact Hd3]|].
      intros f hi x y Hl (fs0 & fs1 & g & ids1 & Hx & R0 & Hp1 & Hg & Hi1) (fs2 & ids2 & Hy & Hp2 & Hi2).
      exists (fs0 ++ fs1 ++ [g] ++ fs2), (ids1 ++ ids2).
      split; [replace (fs0 ++ fs1 ++ [g] ++ fs2) with ((fs0 ++ fs1 ++ [g]) ++ fs2) by (rewrite <- !app_assoc; reflexivity);
              apply framed_app; assumption|].
      split; [eapply TF_block; eassumption|]. apply (ids_app _ (len (buf b3))); [lia|lia|exact Hi1|exact Hi2].
    + destruct Hb as (He & Hd1 & _). eapply typed_result_failed; [exact He|]. apply IHn; [apply Hokn; constructor|apply Htn; constructor|exact Hout|exact Hd1].
  - destruct Hok as (Hokb & Hok0 & Hokn), Ht as (Htb & Ht0 & Htn). pose proof (IHb Recovered b outer Hokb Htb Hout Hd) as Hb.
    destruct (run_try body (b :: outer)) as [st out1|st]; cbn [typed_result] in Hb.
    + destruct Hb as (Ho1 & b1 & -> & Hs). eapply typed_result_after; [exact Hs|apply IHn; [apply Hokn; exact Ho1|apply Htn; exact Ho1|exact Hout|exact (proj1 Hs)]|].
      intros f hi x y Hl (ms1 & ids1 & Hx & Hp1 & Hi1) (ms2 & ids2 & Hy & Hp2 & Hi2). exists (ms1 ++ ms2), (ids1 ++ ids2).
      split; [apply framed_app; assumption|]. split; [eapply TF_try; eassumption|]. apply (ids_app _ (len (buf b1))); [lia|lia|exact Hi1|exact Hi2].
    + destruct Hb as (b1 & -> & Hs). cbn [smudged].
      assert (Hs' : tstep b (mkb (smudge stale (buf b1)) (berr b1) (disabled b1)) (tprog_framed body Broke (len (buf b)) (len (buf b1)))).
      { eapply tstep_trans; [exact Hs|apply tstep_smudge; exact (proj1 Hs)|]. intros _ x y Hx <-. rewrite app_nil_r. exact Hx. }
      eapply typed_result_after; [exact Hs'|apply IHn; [exact Hok0|exact Ht0|exact Hout|exact (proj1 Hs')]|].
      change (len (buf (mkb (smudge stale (buf b1)) (berr b1) (disabled b1)))) with (len (buf b1)).
      intros f hi x y Hl (ms1 & ids1 & Hx & Hp1 & Hi1) (ms2 & ids2 & Hy & Hp2 & Hi2). exists (ms1 ++ ms2), (ids1 ++ ids2).
      split; [apply framed_app; assumption|]. split; [eapply TF_recovered; eassumption|]. apply (ids_app _ (len (buf b1))); [lia|lia|exact Hi1|exact Hi2].
Qed.

End Run.

Lemma tprog_nested : forall w pr fs ids f, tprog_frames w pr fs ids f -> nested fs.
Proof.
  intros w pr fs ids f H.
  induction H as [| |c next m fs ids f [Hc _] H IH| | |name cols row next id m g fs ids f [Hr _] Hg H IH|
    |k body next open fs0 fs1 ids1 out1 g fs2 ids2 f Ho H0 H1 IH1 Hg H2 IH2| |s body next fs1 ids1 out1 fs2 ids2 f H1 IH1 H2 IH2|s body next fs1 ids1 fs2 ids2 f H1 IH1 H2 IH2];
    try (apply nested_app; assumption); try solve [constructor].
  - destruct (call_type_plain c). constructor; [congruence..|exact IH].
  - apply statement_type in Hg. constructor; [rewrite Hr; discriminate..|]. constructor; [rewrite Hg; discriminate..|exact IH].
  - destruct k as [level|ctx]; cbn [opening closing] in *.
    + destruct (tx_opening level) as [l|]; [|discriminate]. injection Ho as <-. apply nested_app.
      * clear - H0. remember (map statement l) as ms eqn:Hms. revert l Hms. induction H0 as [|f m fs ms Hf H IH]; intros l Hms; [constructor|].
        destruct l as [|s l]; [discriminate|]. cbn [map] in Hms. injection Hms as -> ->. apply statement_type in Hf.
        constructor; [rewrite Hf; discriminate..|]. exact (IH l eq_refl).
      * apply nested_app; [exact IH1|]. apply statement_type in Hg. cbn [app]. constructor; [rewrite Hg; discriminate..|exact IH2].
    + injection Ho as <-. inversion H0 as [|x m ? ? Hf Hn]; subst. inversion Hn; subst. cbn [app]. apply N_block; try assumption.
      * exact (dmsg_type _ _ _ _ Hf eq_refl).
      * exact (dmsg_type _ _ _ _ Hg eq_refl).
Qed.

(* C85: whatever the arguments, where the panics that a program recovers from are its own and those of StmtExecute, Prepare, Execute,
   Deallocate and Delete calls, what is sent is the messages of the other calls, one for each, in order; those without a value that is
   encoded wrongly are what their calls stand for. The variables of InsertRow calls are distinct, and blocks are closed in the
   order they were opened. *)
Theorem C85_recovered_calls_whatever_the_values_partial : forall (E : Env) b pr bs, empty b -> typed_tprog word32 pr -> tidy Free pr ->
  tdelivers b pr bs -> nlen bs < 2 ^ 32 ->
  exists fs ids out, dframes bs = Some fs /\ tprog_frames word32 pr fs ids (Returned out) /\ NoDup ids /\ nested fs.
Proof.
  intros E b pr bs (He & Hb & Hd) Hok Ht (b' & out & Hr & Hs) Hl.
  pose proof (typed_try_result pr Free b [] Hok Ht (Forall_nil _) Hd) as H. rewrite Hr in H. destruct H as (_ & b2 & Hb2 & S1 & S2 & S3).
  assert (b2 = b') by congruence. subst b2. unfold send in Hs. rewrite S1 in Hs. destruct (berr b') eqn:He'; [discriminate|].
  assert (Hbs : data (buf b') = bs) by congruence. destruct (S3 Hb eq_refl) as [_ G].
  destruct G as (x & Hx & fs & ids & G1 & G2 & G3); [rewrite Hbs; exact Hl|]. rewrite He, app_nil_l, Hbs in Hx. subst x.
  exists fs, ids, out. split; [exact (framed_dframes _ _ G1)|]. split; [exact G2|]. split; [exact (ids_nodup _ _ _ G3)|]. exact (tprog_nested _ _ _ _ _ G2).
Qed.

(* C85: and where nothing else can panic, the program is run to its end, and Send hands over bytes or the first error. *)
Theorem C85_recovered_units_whatever_the_values_partial : forall (E : Env) b pr, disabled b = false -> typed_tprog word32 pr -> tidy Calm pr ->
  exists b' out, run_try pr [b] = Done [b'] out /\ send b' <> Panic.
Proof.
  intros E b pr Hd Hok Ht. pose proof (typed_try_result pr Calm b [] Hok Ht (Forall_nil _) Hd) as H.
  destruct (run_try pr [b]) as [st out|st]; [|contradiction]. destruct H as (_ & b' & -> & S1 & _). exists b', out. split; [reflexivity|].
  unfold send. rewrite S1. destruct (berr b'); discriminate.
Qed.

(* ---- the hypotheses can be met ---- *)

(* A transaction that tries a Delete with a long variable name and then a call that panics, recovers, and inserts the least duration. *)
Definition wrong_tries : tprog :=
  TBlock 0 (KTx 0)
    (TTry (fun i => N.of_nat i)
      (TCall 0 (CDelete (s2b "u") (Some (EVariable ThmValues.long_name)))
        (TCall 0 (CStmtExecute (s2b "SELECT ?") [VNilPtr true true]) (TRet None [])))
      (fun _ => TInsertRow 0 (s2b "t") [s2b "ago"] [ThmDefects.least] (fun o => TRet None [o])))
    (fun _ => TRet None []).
Example wrong_tries_meets : typed_tprog (@word32 ThmBuilder.plain) wrong_tries /\ ~ tprog_ok (@word32 ThmBuilder.plain) wrong_tries /\
  tidy Calm wrong_tries /\ tidy Free wrong_tries /\ exists bs fs,
  @tdelivers ThmBuilder.plain (new_pipe 9) wrong_tries bs /\ (nlen bs < 2 ^ 32)%N /\ dstream bs = None /\ dframes bs = Some fs /\
  map (fun f => dmsg (fst f) (snd f)) fs = [Some (statement (s2b "START TRANSACTION")); None;
    Some (MInsert (s2b "t") (Some table_model) [s2b "ago"] [[XLiteral (SOctets (TextProofs.duration_text false (- 2 ^ 63)) None)]]);
    Some (statement (s2b "SET @id$224 = LAST_INSERT_ID()")); Some (statement (s2b "COMMIT"))].
Proof.
  split; [|split; [|split; [|split]]].
  - unfold wrong_tries. change (@word32 ThmBuilder.plain) with false. pose proof ThmTyped.long_name_string. pose proof (ThmDefects.least_well_formed false).
    cbn [typed_tprog typed_call]. unfold typed_values. ThmBuilder.ok; try assumption.
  - unfold wrong_tries. cbn [tprog_ok]. intros (_ & (_ & (_ & _ & H & _) & _) & _). inversion_clear H as [|? ? [_ H1] _]. cbn in H1. lia.
  - unfold wrong_tries. ThmRecover.fine; try (left; exact Logic.I).
  - unfold wrong_tries. ThmRecover.fine.
  - eexists _, _. split; [do 2 eexists; split; vm_compute; reflexivity|]. split; [vm_compute; reflexivity|]. split; [vm_compute; reflexivity|].
    split; [vm_compute; reflexivity|]. vm_compute. reflexivity.
Qed.

Print Assumptions C85_recovered_calls_whatever_the_values_partial.
Print Assumptions C85_recovered_units_whatever_the_values_partial.
