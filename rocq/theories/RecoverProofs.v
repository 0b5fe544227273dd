(* Programs that recover from panics: what their buffers hold. *)
From Coq Require Import String List NArith ZArith Arith Bool Lia ZifyN ZifyNat ZifyBool.
From Coq Require Import List.
From Verif Require Import Base GoSlice SpecWire SpecMsg WireProofs Values MsgModel Builder
  SpecValue SpecProg SpecUnit MsgProofs BuilderProofs UnitProofs ShapeProofs History Recover SpecRecover.
Import ListNotations.
Open Scope N_scope.
Open Scope list_scope.

(* BuilderProofs.step without the spare memory of a builder that has failed. *)
Definition tstep (b b' : builder) (P : bytes -> Prop) : Prop :=
  disabled b' = false /\ (berr b <> None -> berr b' <> None) /\
  (berr b = None -> berr b' = None -> grows (buf b) (buf b') P).

Lemma step_tstep : forall b b' P, step b b' P -> tstep b b' P.
Proof. intros b b' P (H1 & H2 & H3). split; [exact H1|]. split; [intros He; rewrite (H2 He); exact He|exact H3]. Qed.
Lemma tstep_trans : forall b b1 b2 P1 P2 (P : bytes -> Prop), tstep b b1 P1 -> tstep b1 b2 P2 ->
  ((len (buf b) <= len (buf b1) <= len (buf b2))%nat -> forall x y, P1 x -> P2 y -> P (x ++ y)) -> tstep b b2 P.
Proof.
  intros b b1 b2 P1 P2 P (A1 & A2 & A3) (B1 & B2 & B3) HP. split; [exact B1|]. split; [auto|].
  intros He H2. destruct (berr b1) as [e|] eqn:H1; [destruct B2; congruence|]. eapply grows_trans; eauto.
Qed.
Lemma tstep_refl : forall b (P : bytes -> Prop), disabled b = false -> P [] -> tstep b b P.
Proof. intros b P Hd HP. split; [exact Hd|]. split; [auto|]. intros _ _. apply grows_refl. exact HP. Qed.
Lemma tstep_weaken : forall b b' (P Q : bytes -> Prop), tstep b b' P -> (forall x, P x -> Q x) -> tstep b b' Q.
Proof. intros b b' P Q (H1 & H2 & H3) HQ. split; [exact H1|]. split; [exact H2|]. intros He He'. eapply grows_weaken; eauto. Qed.
Lemma tstep_smudge : forall s b, disabled b = false -> tstep b (mkb (smudge s (buf b)) (berr b) (disabled b)) (eq []).
Proof.
  intros s b Hd. split; [exact Hd|]. split; [auto|]. intros _ _. unfold grows, len. cbn [buf smudge data]. split; [lia|].
  intros _. exists []. rewrite app_nil_r. auto.
Qed.

Definition tprog_bytes (pr : tprog) (f : finish) (lo hi : nat) (bs : bytes) : Prop :=
  exists ms ids, says bs ms /\ tprog_msgs pr ms ids f /\ ids_between lo hi ids.

(* How running part of a program on b :: outer may end. *)
Definition result (m : mode) (pr : tprog) (b : builder) (outer : list builder) (r : ended) : Prop :=
  match r with
  | Done st out => Forall row_result out /\ exists b', st = b' :: outer /\ tstep b b' (tprog_bytes pr (Returned out) (len (buf b)) (len (buf b')))
  | Stopped st =>
      match m with
      | Free => True
      | Recovered => exists b', st = b' :: outer /\ tstep b b' (tprog_bytes pr Broke (len (buf b)) (len (buf b')))
      | Calm => False
      end
  end.

Lemma result_after : forall m pr next b b1 outer r P, tstep b b1 P -> result m next b1 outer r ->
  (forall f hi x y, (len (buf b) <= len (buf b1) <= hi)%nat -> P x -> tprog_bytes next f (len (buf b1)) hi y ->
     tprog_bytes pr f (len (buf b)) hi (x ++ y)) ->
  result m pr b outer r.
Proof.
  intros m pr next b b1 outer [st out|st] P Hs Hr H.
  - destruct Hr as (Ho & b' & -> & Hs'). split; [exact Ho|]. exists b'. split; [reflexivity|]. eapply tstep_trans; [exact Hs|exact Hs'|].
    intros Hl x y. apply H. exact Hl.
  - destruct m; [exact I| |exact Hr]. destruct Hr as (b' & -> & Hs'). exists b'. split; [reflexivity|]. eapply tstep_trans; [exact Hs|exact Hs'|].
    intros Hl x y. apply H. exact Hl.
Qed.

Lemma result_failed : forall m pr next b b1 outer r, berr b1 <> None -> result m next b1 outer r -> result m pr b outer r.
Proof.
  intros m pr next b b1 outer r He Hr.
  assert (X : forall b' P Q, tstep b1 b' P -> tstep b b' Q).
  { intros b' P Q (H1 & H2 & H3). split; [exact H1|]. split; [auto|]. intros _ H. destruct (H2 He H). }
  destruct r as [st out|st].
  - destruct Hr as (Ho & b' & -> & Hs'). split; [exact Ho|]. exists b'. split; [reflexivity|]. eapply X. exact Hs'.
  - destruct m; [exact I| |exact Hr]. destruct Hr as (b' & -> & Hs'). exists b'. split; [reflexivity|]. eapply X. exact Hs'.
Qed.

Lemma set_nth_same : forall (A : Type) (l : list A) n x, nth_error l n = Some x -> set_nth l n x = l.
Proof.
  intros A. induction l as [|y l IH]; intros [|n] x H; cbn in *; [discriminate..|congruence|]. rewrite IH by exact H. reflexivity.
Qed.

Section Run.
Context `{E : Env}.

Lemma stop_plain : forall c b, plain c -> stop_call c b = b.
Proof using. intros c b H. unfold stop_call. destruct (disabled b), (berr b), c; try reflexivity; contradiction. Qed.

(* A call on a builder that is in use by a callback panics and changes nothing. *)
Lemma outer_result : forall m pr b outer, disabled b = false -> m <> Calm -> tprog_msgs pr [] [] Broke -> result m pr b outer (Stopped (b :: outer)).
Proof using.
  intros m pr b outer Hd Hm Hp. destruct m; [exact I| |congruence]. exists b. split; [reflexivity|]. apply tstep_refl; [exact Hd|].
  exists [], []. split; [apply says_nil|]. split; [exact Hp|apply ids_nil].
Qed.
Lemma stop_call_disabled : forall c b, disabled b = true -> stop_call c b = b.
Proof using. intros c b H. unfold stop_call. rewrite H. reflexivity. Qed.
Lemma stop_row_disabled : forall name cols b, disabled b = true -> stop_row name cols b = b.
Proof using. intros name cols b H. unfold stop_row. rewrite H. reflexivity. Qed.

Lemma quiet_exec : forall dis c b, call_ok word32 c -> quiet_call c -> disabled b = false -> exec_call dis c b <> Panic.
Proof using.
  intros dis c b Hok [Hq Hf] Hd. destruct (berr b) as [e|] eqn:He.
  - unfold exec_call, guarded. rewrite Hd, He. discriminate.
  - destruct (call_total dis c b Hok Hf (or_introl Hq) Hd He) as (b' & -> & _). discriminate.
Qed.
Lemma quiet_row : forall name cols row b, go_string name -> Forall go_string cols -> values_ok word32 row ->
  Forall panic_free row -> row_fits name cols row -> disabled b = false -> b_insert_row name cols row b <> Panic.
Proof using.
  intros name cols row b Hn Hc Hr Hq Hf Hd. destruct (berr b) as [e|] eqn:He.
  - unfold b_insert_row. rewrite Hd, He. discriminate.
  - destruct (insert_row_total name cols row b Hn Hc Hr Hf (or_introl Hq) Hd He) as (b' & o & -> & _). discriminate.
Qed.
Lemma begin_ok : forall k b, blk_ok k -> disabled b = false -> block_begin k b <> Panic.
Proof using.
  intros k b Hk Hd. destruct (berr b) as [e|] eqn:He.
  - unfold block_begin. rewrite Hd, He. discriminate.
  - destruct (block_begin_total k b Hk Hd He) as (b1 & en & -> & _). discriminate.
Qed.

Lemma try_result : forall pr m b outer, tprog_ok word32 pr -> tidy m pr -> Forall (fun b => disabled b = true) outer -> disabled b = false ->
  result m pr b outer (run_try pr (b :: outer)).
Proof using.
  induction pr as [cberr out0| |lvl c next IH|lvl name cols row next IH|lvl k body IHb next IHn|stale body IHb next IHn];
    intros m b outer Hok Ht Hout Hd; cbn [run_try tprog_ok tidy] in *.
  - split; [exact Hok|]. exists b. split; [reflexivity|]. apply tstep_refl; [exact Hd|]. exists [], [].
    split; [apply says_nil|]. split; [constructor|apply ids_nil].
  - apply outer_result; [exact Hd|exact Ht|constructor].
  - destruct Hok as [Hc Hok], Ht as [Hm Ht]. destruct lvl as [|lvl].
    2: { assert (Hn : m <> Calm) by (intros ->; destruct Hm; discriminate).
         destruct (nth_error (b :: outer) (S lvl)) as [x|] eqn:Hx; [|apply outer_result; [exact Hd|exact Hn|constructor]].
         pose proof (only_inner _ _ _ _ Hout Hx) as Hdx. rewrite exec_disabled by exact Hdx.
         rewrite stop_call_disabled by exact Hdx. rewrite set_nth_same by exact Hx. apply outer_result; [exact Hd|exact Hn|constructor]. }
    cbn [nth_error set_nth map]. destruct (exec_call _ c b) as [b1|] eqn:Hb.
    + apply call_step in Hb; [|assumption..]. eapply result_after; [apply step_tstep; exact Hb|apply IH; [exact Hok|exact Ht|exact Hout|exact (proj1 Hb)]|].
      intros f hi x y Hl (ms1 & Hm1 & Hx) (ms & ids & Hy & Hp & Hi). exists (ms1 :: ms), ids.
      split; [exact (says_app x y [ms1] ms Hx Hy)|]. split; [constructor; assumption|]. eapply ids_wider; [| |exact Hi]; lia.
    + assert (Hq : ~ quiet_call c) by (intros Hq; exact (quiet_exec _ c b Hc Hq Hd Hb)).
      destruct m; [exact I| |destruct Hm; contradiction]. destruct (Hm eq_refl) as [Hpl|]; [|contradiction].
      rewrite stop_plain by exact Hpl. apply outer_result; [exact Hd|discriminate|]. constructor; [exact Hpl|exact Hq].
  - destruct Hok as (Hn & Hc & Hr & Hok), Ht as [Hm Ht]. destruct lvl as [|lvl].
    2: { assert (Hm' : m <> Calm) by (intros ->; destruct Hm; discriminate).
         destruct (nth_error (b :: outer) (S lvl)) as [x|] eqn:Hx; [|apply outer_result; [exact Hd|exact Hm'|constructor]].
         pose proof (only_inner _ _ _ _ Hout Hx) as Hdx. rewrite insert_row_disabled by exact Hdx.
         rewrite stop_row_disabled by exact Hdx. rewrite set_nth_same by exact Hx. apply outer_result; [exact Hd|exact Hm'|constructor]. }
    cbn [nth_error set_nth]. destruct (b_insert_row name cols row b) as [[b1 o]|] eqn:Hb.
    + apply insert_row_step in Hb; [|assumption..]. destruct Hb as [Hrow Hb].
      eapply result_after; [apply step_tstep; exact Hb|apply IH; [apply Hok; exact Hrow|apply Ht; exact Hrow|exact Hout|exact (proj1 Hb)]|].
      intros f hi x y Hl (es & id & Hx & Hes & -> & Hid) (ms & ids & Hy & Hp & Hi).
      exists (MInsert name (Some table_model) cols [es] :: set_last_id id :: ms), (id :: ids).
      split; [exact (says_app x y [_; _] ms Hx Hy)|]. split; [constructor; assumption|].
      apply (ids_app (len (buf b)) (len (buf b1)) hi [id] ids); [lia|lia|exact Hid|exact Hi].
    + destruct m; [exact I|exfalso..].
      * destruct (Hm eq_refl) as [Hq Hf]. exact (quiet_row name cols row b Hn Hc Hr Hq Hf Hd Hb).
      * destruct Hm as (_ & Hq & Hf). exact (quiet_row name cols row b Hn Hc Hr Hq Hf Hd Hb).
  - destruct Hok as (Hk & Hokb & Hokn), Ht as (Hm & Htb & Htn). destruct lvl as [|lvl].
    2: { assert (Hm' : m <> Calm) by (intros ->; specialize (Hm eq_refl); discriminate).
         destruct (nth_error (b :: outer) (S lvl)) as [x|] eqn:Hx; [|apply outer_result; [exact Hd|exact Hm'|constructor]].
         pose proof (only_inner _ _ _ _ Hout Hx) as Hdx. rewrite block_disabled by exact Hdx. apply outer_result; [exact Hd|exact Hm'|constructor]. }
    cbn [nth_error set_nth]. destruct (block_begin k b) as [[b1 en]|] eqn:Hb; [|destruct (begin_ok k b Hk Hd Hb)].
    apply block_begin_step in Hb; [|assumption..]. destruct en.
    + destruct Hb as (He & open & Hopen & H1).
      pose proof (IHb _ (mkb (buf b1) (berr b1) false) (mkb (buf b1) (berr b1) true :: outer) Hokb Htb ltac:(constructor; [reflexivity|exact Hout]) eq_refl) as H2.
      destruct (run_try body _) as [st2 out1|st2].
      2: { cbn [result] in H2. destruct m; [exact I|contradiction..]. }
      destruct H2 as (Ho1 & child & -> & H2).
      destruct (block_end_total k (mkb (buf child) (berr child) false) eq_refl) as (b3 & Hb3 & Hd3 & _). rewrite Hb3. cbn [set_nth].
      apply block_end_step in Hb3; [|reflexivity]. cbn [berr buf] in Hb3.
      assert (H123 : tstep b b3 (fun bs => exists ms ids, says bs (open ++ ms ++ [closing k]) /\ tprog_msgs body ms ids (Returned out1) /\
        ids_between (len (buf b)) (len (buf b3)) ids)).
      { apply tstep_trans with (b1 := b1) (P1 := fun bs => says bs open)
          (P2 := fun bs => exists ms ids, says bs (ms ++ [closing k]) /\ tprog_msgs body ms ids (Returned out1) /\ ids_between (len (buf b1)) (len (buf b3)) ids).
        - apply step_tstep. exact H1.
        - destruct H2 as (B1 & B2 & B3), Hb3 as (C1 & C2 & C3). cbn [berr buf disabled] in *.
          split; [exact Hd3|]. split; [intros X; specialize (B2 X); rewrite (C2 B2); exact B2|]. intros He1 He3.
          destruct (berr child) eqn:Hec; [rewrite C2 in He3 by congruence; congruence|].
          eapply grows_trans; [apply B3; auto|apply C3; auto|].
          intros Hl x y (ms & ids & Hs & Hp & Hi) Hy. exists ms, ids. split; [apply says_app; assumption|]. split; [exact Hp|].
          eapply ids_wider; [| |exact Hi]; lia.
        - intros Hl x y Hx (ms & ids & Hs & Hp & Hi). exists ms, ids. split; [apply says_app; assumption|]. split; [exact Hp|].
          eapply ids_wider; [| |exact Hi]; lia. }
      eapply result_after; [exact H123|apply IHn; [apply Hokn; exact Ho1|apply Htn; exact Ho1|exact Hout|exact Hd3]|].
      intros f hi x y Hl (ms1 & ids1 & Hx & Hp1 & Hi1) (ms2 & ids2 & Hy & Hp2 & Hi2).
      exists (open ++ ms1 ++ [closing k] ++ ms2), (ids1 ++ ids2).
      split; [replace (open ++ ms1 ++ [closing k] ++ ms2) with ((open ++ ms1 ++ [closing k]) ++ ms2) by (rewrite <- !app_assoc; reflexivity);
              apply says_app; assumption|].
      split; [eapply T_block; eassumption|]. apply (ids_app _ (len (buf b3))); [lia|lia|exact Hi1|exact Hi2].
    + destruct Hb as (He & Hd1 & _). eapply result_failed; [exact He|]. apply IHn; [apply Hokn; constructor|apply Htn; constructor|exact Hout|exact Hd1].
  - destruct Hok as (Hokb & Hok0 & Hokn), Ht as (Htb & Ht0 & Htn). pose proof (IHb Recovered b outer Hokb Htb Hout Hd) as Hb.
    destruct (run_try body (b :: outer)) as [st out1|st]; cbn [result] in Hb.
    + destruct Hb as (Ho1 & b1 & -> & Hs). eapply result_after; [exact Hs|apply IHn; [apply Hokn; exact Ho1|apply Htn; exact Ho1|exact Hout|exact (proj1 Hs)]|].
      intros f hi x y Hl (ms1 & ids1 & Hx & Hp1 & Hi1) (ms2 & ids2 & Hy & Hp2 & Hi2). exists (ms1 ++ ms2), (ids1 ++ ids2).
      split; [apply says_app; assumption|]. split; [eapply T_try; eassumption|]. apply (ids_app _ (len (buf b1))); [lia|lia|exact Hi1|exact Hi2].
    + destruct Hb as (b1 & -> & Hs). cbn [smudged].
      assert (Hs' : tstep b (mkb (smudge stale (buf b1)) (berr b1) (disabled b1)) (tprog_bytes body Broke (len (buf b)) (len (buf b1)))).
      { eapply tstep_trans; [exact Hs|apply tstep_smudge; exact (proj1 Hs)|]. intros _ x y Hx <-. rewrite app_nil_r. exact Hx. }
      eapply result_after; [exact Hs'|apply IHn; [exact Hok0|exact Ht0|exact Hout|exact (proj1 Hs')]|].
      change (len (buf (mkb (smudge stale (buf b1)) (berr b1) (disabled b1)))) with (len (buf b1)).
      intros f hi x y Hl (ms1 & ids1 & Hx & Hp1 & Hi1) (ms2 & ids2 & Hy & Hp2 & Hi2). exists (ms1 ++ ms2), (ids1 ++ ids2).
      split; [apply says_app; assumption|]. split; [eapply T_recovered; eassumption|]. apply (ids_app _ (len (buf b1))); [lia|lia|exact Hi1|exact Hi2].
Qed.

(* However a program ends, the builders outside of it are as before. *)
Definition stack_of (r : ended) : list builder := match r with Done st _ => st | Stopped st => st end.
Lemma try_stack : forall pr b outer, Forall (fun b => disabled b = true) outer -> exists b', stack_of (run_try pr (b :: outer)) = b' :: outer.
Proof using.
  induction pr as [cberr out0| |lvl c next IH|lvl name cols row next IH|lvl k body IHb next IHn|stale body IHb next IHn];
    intros b outer Hout; cbn [run_try].
  - exists b. reflexivity.
  - exists b. reflexivity.
  - destruct lvl as [|lvl].
    + cbn [nth_error set_nth map]. destruct (exec_call _ c b) as [b1|]; [apply IH; exact Hout|]. eexists. reflexivity.
    + destruct (nth_error (b :: outer) (S lvl)) as [x|] eqn:Hx; [|exists b; reflexivity]. pose proof (only_inner _ _ _ _ Hout Hx) as Hdx.
      rewrite exec_disabled by exact Hdx. rewrite stop_call_disabled by exact Hdx. rewrite set_nth_same by exact Hx. exists b. reflexivity.
  - destruct lvl as [|lvl].
    + cbn [nth_error set_nth]. destruct (b_insert_row name cols row b) as [[b1 o]|]; [apply IH; exact Hout|]. eexists. reflexivity.
    + destruct (nth_error (b :: outer) (S lvl)) as [x|] eqn:Hx; [|exists b; reflexivity]. pose proof (only_inner _ _ _ _ Hout Hx) as Hdx.
      rewrite insert_row_disabled by exact Hdx. rewrite stop_row_disabled by exact Hdx. rewrite set_nth_same by exact Hx. exists b. reflexivity.
  - destruct lvl as [|lvl].
    + cbn [nth_error set_nth]. destruct (block_begin k b) as [[b1 [|]]|]; [|apply IHn; exact Hout|exists b; reflexivity].
      destruct (IHb (mkb (buf b1) (berr b1) false) (mkb (buf b1) (berr b1) true :: outer) ltac:(constructor; [reflexivity|exact Hout])) as (child & Hc).
      destruct (run_try body _) as [st2 out1|st2]; cbn [stack_of] in Hc; subst st2; [|eexists; reflexivity].
      destruct (block_end k _) as [b2|]; cbn [set_nth]; [apply IHn; exact Hout|eexists; reflexivity].
    + destruct (nth_error (b :: outer) (S lvl)) as [x|] eqn:Hx; [|exists b; reflexivity]. pose proof (only_inner _ _ _ _ Hout Hx) as Hdx.
      rewrite block_disabled by exact Hdx. exists b. reflexivity.
  - destruct (IHb b outer Hout) as (b1 & H1). destruct (run_try body (b :: outer)) as [st out1|st]; cbn [stack_of] in H1; subst st.
    + apply IHn. exact Hout.
    + cbn [smudged]. apply IHn. exact Hout.
Qed.

Lemma run_embed : forall pr st, run_try (embed pr) st = run_to pr st.
Proof using.
  induction pr as [cberr out0|lvl c next IH|lvl name cols row next IH|lvl k body IHb next IHn]; intros st; cbn [embed run_try run_to].
  - reflexivity.
  - destruct (nth_error st lvl) as [b|]; [|reflexivity]. destruct (exec_call _ c b) as [b'|]; [apply IH|reflexivity].
  - destruct (nth_error st lvl) as [b|]; [|reflexivity]. destruct (b_insert_row name cols row b) as [[b' f]|]; [apply IH|reflexivity].
  - destruct (nth_error st lvl) as [b|]; [|reflexivity]. destruct (block_begin k b) as [[b1 [|]]|]; [|apply IHn|reflexivity].
    rewrite IHb. destruct (run_to body _) as [[|child st2] out|st2]; try reflexivity. destruct (block_end k _) as [b2|]; [apply IHn|reflexivity].
Qed.
End Run.

Lemma tprog_balanced : forall pr ms ids f, tprog_msgs pr ms ids f -> balanced ms.
Proof.
  intros pr ms ids f H. induction H as [| |c next m ms ids f Hc H IH| | |name cols row next id es ms ids f Hr H IH|
    |k body next open ms1 ids1 out1 ms2 ids2 f Ho H1 IH1 H2 IH2| |s body next ms1 ids1 out1 ms2 ids2 f H1 IH1 H2 IH2|s body next ms1 ids1 ms2 ids2 f H1 IH1 H2 IH2];
    try constructor; try (apply balanced_app; assumption).
  - exact (proj1 (call_not_block c m Hc)).
  - exact (proj2 (call_not_block c m Hc)).
  - exact IH.
  - intros [].
  - intros [].
  - constructor; [intros []|intros []|exact IH].
  - destruct k as [level|ctx]; cbn [opening closing] in *.
    + destruct (tx_opening level) as [l|]; [|discriminate]. injection Ho as <-. apply balanced_app.
      * clear. induction l as [|s l IH]; cbn [map]; constructor; [intros []|intros []|exact IH].
      * apply balanced_app; [exact IH1|]. constructor; [intros []|intros []|exact IH2].
    + injection Ho as <-. cbn [app]. apply B_block; [exact I|exact IH1|exact I|exact IH2].
Qed.
