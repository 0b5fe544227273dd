(* What the responses tell (C73, C118), and the isolation level of transactions (C113), when arguments may also be values that are encoded wrongly. *)
From Coq Require Import String List NArith ZArith Arith Bool Lia ZifyN ZifyNat ZifyBool.
From Coq Require Import List.
From Verif Require Import Base GoSlice SpecWire SpecMsg WireProofs Text Values MsgModel Builder
  SpecValue SpecProg SpecUnit SpecTyped Conn SpecReply SpecServer SpecSession SpecCommit ThmValues ThmBuilder ThmDefects ThmTyped ThmTypedShape ThmServer ThmTypedServe ThmTypedWork ShapeProofs.
From Verif Require ReplyProofs ThmTx ThmCommit ThmConn SpecLevel ThmLevel SpecPlace ThmPlace Pool SpecPool System SpecSystem ThmSystem ThmRetry.
Import ListNotations.
Open Scope N_scope.
Open Scope list_scope.

(* The frames of a unit of work: all but those of the callback are read as what they stand for. *)
Record work_frames (w32 : bool) (context : N) (cs : list call) (level : N) (body : prog)
  (fs : list (N * bytes)) (mp : list msg) (opening : list bytes) (inner : list (N * bytes)) : Prop := {
  w_opening : tx_opening level = Some opening;
  w_prepared : Forall2 call_denotes cs mp;
  w_inner : exists ids out, prog_frames w32 body inner ids out;
  w_frames : exists o prepared fs0 g z, fs = o :: prepared ++ fs0 ++ inner ++ [g; z] /\ reads o (MExpectOpen context [CNoError (s2b "1")]) /\
    Forall2 reads prepared mp /\ Forall2 reads fs0 (map statement opening) /\ reads g commit /\ reads z MExpectClose }.

Lemma work_delivered_frames : forall (E : Env) b context cs level body bs, empty b -> Forall ThmTx.prepares cs ->
  typed_prog word32 (ThmTx.unit_of_work context cs level body) -> delivers b (ThmTx.unit_of_work context cs level body) bs -> nlen bs < 2 ^ 32 ->
  exists fs mp opening inner, dframes bs = Some fs /\ bs = concat (map frame fs) /\ Forall (fun f => 1 + nlen (snd f) < 2 ^ 32) fs /\ work_frames word32 context cs level body fs mp opening inner /\
    Forall (fun m => exists id q, m = MPrepare id q) mp.
Proof.
  intros E b context cs level body bs He Hc Hok Hd Hl. unfold ThmTx.unit_of_work, readme_unit in *.
  destruct (C120_only_its_own_message E b _ bs He Hok Hd Hl) as (fs & ids & out & Hbs & Hdf & Hp & _).
  destruct (framed_frame bs fs (ThmRetry.dframes_framed bs fs Hdf)) as [_ F2].
  assert (Tc : Forall (typed_call word32) cs) by (cbn [typed_prog] in Hok; exact (typed_calls_then _ _ _ (proj1 (proj2 Hok)))).
  inversion Hp as [| | |? ? ? open fso fs1 ids1 out1 gc fs2 ids2 ? Ho H0 H1 Hgc H2]; subst fs. cbn [opening closing] in Ho. injection Ho as <-.
  inversion H0 as [|o mo ? ? Hor Hnil]; subst. inversion Hnil; subst. clear H0 Hnil. inversion H2; subst.
  destruct (calls_then_frames _ _ _ _ _ _ H1) as (prepared & ft & -> & Fc & Ht).
  inversion Ht as [| | |? ? ? open' fs0 inner idsi outi g fsn idsn ? Ho' Hf0 Hb Hg Hn]; subst. cbn [opening closing] in *. destruct (tx_opening level) as [l|] eqn:Hlv; [|discriminate]. injection Ho' as <-.
  inversion Hn; subst. destruct (prepares_read _ _ _ Fc Hc Tc) as (mp & P1 & P2 & P3).
  eexists _, mp, l, inner. split; [exact Hdf|]. split; [reflexivity|]. split; [exact F2|]. split; [|exact P3]. constructor; [exact Hlv|exact P2|eauto|].
  exists o, prepared, fs0, g, gc. split; [cbn [app]; f_equal; rewrite <- !app_assoc; reflexivity|]. auto.
Qed.
Lemma work_delivered : forall (E : Env) b context cs level body bs, empty b -> Forall ThmTx.prepares cs ->
  typed_prog word32 (ThmTx.unit_of_work context cs level body) -> delivers b (ThmTx.unit_of_work context cs level body) bs -> nlen bs < 2 ^ 32 ->
  exists fs mp opening inner, bs = concat (map frame fs) /\ Forall (fun f => 1 + nlen (snd f) < 2 ^ 32) fs /\ work_frames word32 context cs level body fs mp opening inner /\
    Forall (fun m => exists id q, m = MPrepare id q) mp.
Proof.
  intros E b context cs level body bs He Hc Hok Hd Hl. destruct (work_delivered_frames E b context cs level body bs He Hc Hok Hd Hl) as (fs & mp & l & inner & _ & H). exists fs, mp, l, inner. exact H.
Qed.

(* What a server takes them for: the messages of a unit of work. *)
Lemma work_taken w context cs level body fs mp opening inner : work_frames w context cs level body fs mp opening inner ->
  forall mi, Forall2 taken_for inner mi -> Forall2 taken_for fs (ThmTx.unit_messages context mp opening mi) /\ strict mi.
Proof.
  intros [_ _ (ids & out & Hi) (o & prepared & fs0 & g & z & -> & Ho & Hp & H0 & Hg & Hz)] mi T. split; [|exact (taken_strict _ _ _ _ _ Hi _ T)].
  assert (R : forall fs ms, Forall2 reads fs ms -> Forall2 taken_for fs ms) by (intros fs ms H; induction H; constructor; [left; assumption|assumption]).
  unfold ThmTx.unit_messages. constructor; [left; exact Ho|]. apply Forall2_app; [exact (R _ _ Hp)|]. apply Forall2_app; [exact (R _ _ H0)|]. apply Forall2_app; [exact T|].
  constructor; [left; exact Hg|]. constructor; [left; exact Hz|]. constructor.
Qed.
Lemma taken_length fs ms : Forall2 taken_for fs ms -> List.length fs = List.length ms.
Proof. intros H. induction H; cbn; congruence. Qed.

(* ---- C73 ---- *)

(* C73: whatever the arguments: if the COMMIT's response is a success, and Send either returned no error or returned a further response, the server
   executed every message up to the COMMIT, and all changes of the unit are durable. If Send returned no error and that response is no success, none is. *)
Theorem C73_commit_whatever_the_values : forall (E : Env) b context cs level body bs, empty b -> Forall ThmTx.prepares cs ->
  typed_prog word32 (ThmTx.unit_of_work context cs level body) -> delivers b (ThmTx.unit_of_work context cs level body) bs -> nlen bs < 2 ^ 32 ->
  exists fs mp opening inner, bs = concat (map frame fs) /\ work_frames word32 context cs level body fs mp opening inner /\
    forall mi, Forall2 taken_for inner mi -> Forall2 taken_for fs (ThmTx.unit_messages context mp opening mi) /\
    forall propagates n tr s ps deadline c missing rs e c', Forall SpecSession.plain mi -> propagates = true \/ Forall ordinary mi ->
      serve propagates [] (firstn n (ThmTx.unit_messages context mp opening mi)) tr -> in_progress s = None ->
      Forall2 (acknowledges word32) tr ps -> unread c ++ missing = concat (map reply_bytes ps) -> is_bytes (unread c) ->
      conn_send word32 deadline bs c = Ok ((rs, e), c') ->
      let position := (1 + List.length mp + List.length opening + List.length mi)%nat in
      (nth_error rs position = Some None -> e = None \/ (S position < List.length rs)%nat ->
         Forall executed (firstn (S position) tr) /\ nth_error tr position = Some (commit, Executed) /\ play tr s = mksess None (durable s ++ changes mi)) /\
      (e = None -> nth_error rs position <> Some None -> durable (play tr s) = durable s).
Proof.
  intros E b context cs level body bs He Hc Hok Hd Hl. destruct (work_delivered E b context cs level body bs He Hc Hok Hd Hl) as (fs & mp & opening & inner & Hbs & F2 & W & P3).
  exists fs, mp, opening, inner. split; [exact Hbs|]. split; [exact W|]. intros mi T. destruct (work_taken _ _ _ _ _ _ _ _ _ W mi T) as [Tf St]. split; [exact Tf|].
  intros p n tr s ps d c missing rs e c' Hp Hpr Hs Hn Hk Hu Hb Hsend. rewrite Hbs in Hsend. pose proof (ThmCommit.sent_frames _ _ _ _ _ _ _ F2 Hsend) as M2. rewrite (taken_length _ _ Tf) in M2.
  exact (ThmCommit.commit_told _ _ level _ _ _ _ _ _ _ _ _ _ _ _ (w_opening _ _ _ _ _ _ _ _ _ W) P3 St Hp Hpr Hs Hn Hk Hu Hb M2).
Qed.

(* C73: the same through a pool, with any number of callers. *)
Theorem C73_pooled_whatever_the_values : forall (E : Env) b context cs level body bs, empty b -> Forall ThmTx.prepares cs ->
  typed_prog word32 (ThmTx.unit_of_work context cs level body) -> delivers b (ThmTx.unit_of_work context cs level body) bs -> nlen bs < 2 ^ 32 ->
  exists fs mp opening inner, bs = concat (map frame fs) /\ work_frames word32 context cs level body fs mp opening inner /\
    forall mi size acts sys said i rs propagates tr s, Forall2 taken_for inner mi ->
      System.run word32 acts (System.new_system size) = Some sys -> SpecSystem.sends said sys -> Forall (SpecSystem.serves word32 said) acts ->
      SpecSystem.unit_is sys i bs -> SpecSystem.got sys i rs None ->
      Forall SpecSession.plain mi -> propagates = true \/ Forall ordinary mi ->
      serve propagates [] (ThmTx.unit_messages context mp opening mi) tr -> Forall2 truth tr (map seen_as (said i)) -> in_progress s = None ->
      let position := (1 + List.length mp + List.length opening + List.length mi)%nat in
      (nth_error rs position = Some None -> Forall executed tr /\ play tr s = mksess None (durable s ++ changes mi)) /\
      (nth_error rs position <> Some None -> durable (play tr s) = durable s).
Proof.
  intros E b context cs level body bs He Hc Hok Hd Hl. destruct (work_delivered E b context cs level body bs He Hc Hok Hd Hl) as (fs & mp & opening & inner & Hbs & F2 & W & P3).
  exists fs, mp, opening, inner. split; [exact Hbs|]. split; [exact W|]. intros mi size acts sys said i rs p tr s T R S1 S2 _ G Hp Hpr Hs Ht Hn. destruct (work_taken _ _ _ _ _ _ _ _ _ W mi T) as [_ St].
  destruct (ThmSystem.C61_own_responses word32 size acts sys said i rs None R S1 S2 G) as [Hrs _]. specialize (Hrs eq_refl). rewrite <- Hrs in Ht.
  exact (ThmCommit.commit_told_all _ level _ _ _ _ _ _ _ (w_opening _ _ _ _ _ _ _ _ _ W) P3 St Hp Hpr Hs Ht Hn).
Qed.

(* ---- C113 ---- *)

Import SpecLevel.

(* C113: whatever the arguments, a transaction with a named level runs at it. *)
Theorem C113_named_level_whatever_the_values : forall (E : Env) b context cs level l body bs, empty b -> Forall ThmTx.prepares cs -> named level = Some l ->
  typed_prog word32 (ThmTx.unit_of_work context cs level body) -> delivers b (ThmTx.unit_of_work context cs level body) bs -> nlen bs < 2 ^ 32 ->
  exists fs mp opening inner, bs = concat (map frame fs) /\ work_frames word32 context cs level body fs mp opening inner /\
    forall mi propagates tr s, Forall2 taken_for inner mi -> Forall SpecSession.plain mi -> serve propagates [] (ThmTx.unit_messages context mp opening mi) tr ->
      exists new, made (watch tr s) = made s ++ new /\ Forall (fun r => snd r = InTransaction l false) new /\
        (propagates = true \/ Forall ordinary mi ->
         nth_error tr (1 + List.length mp + List.length opening + List.length mi) = Some (commit, Executed) -> map fst new = changes mi).
Proof.
  intros E b context cs level l body bs He Hc Hn Hok Hd Hl. destruct (work_delivered E b context cs level body bs He Hc Hok Hd Hl) as (fs & mp & opening & inner & Hbs & F2 & W & P3).
  exists fs, mp, opening, inner. split; [exact Hbs|]. split; [exact W|]. intros mi p tr s T Hp Hs. destruct (work_taken _ _ _ _ _ _ _ _ _ W mi T) as [_ St].
  destruct (ThmLevel.unit_watched p context mp level opening mi tr s (w_opening _ _ _ _ _ _ _ _ _ W) P3 Hp St Hs) as [(new & B1 & B2 & _ & _ & B3)|(B1 & B2 & _)].
  - exists new. split; [exact B1|]. split; [|intros X Y; apply B3; [left|]; assumption]. eapply Forall_impl; [|exact B2]. intros r ->. unfold ThmLevel.begins_at, ThmLevel.takes_snapshot. rewrite Hn. f_equal.
    destruct (N.eqb_spec level 5) as [->|_]; [discriminate Hn|reflexivity].
  - exists []. rewrite app_nil_r. split; [exact B2|]. split; [constructor|]. intros _ X. contradiction.
Qed.

(* C113: and the others at that of the session, if no earlier unit of work has left a level for them. *)
Theorem C113_level_of_the_session_whatever_the_values_partial : forall (E : Env) b context cs level body bs, empty b -> Forall ThmTx.prepares cs -> level = 0 \/ level = 5 ->
  typed_prog word32 (ThmTx.unit_of_work context cs level body) -> delivers b (ThmTx.unit_of_work context cs level body) bs -> nlen bs < 2 ^ 32 ->
  exists fs mp opening inner, bs = concat (map frame fs) /\ work_frames word32 context cs level body fs mp opening inner /\
    forall mi propagates tr s, Forall2 taken_for inner mi -> Forall SpecSession.plain mi -> serve propagates [] (ThmTx.unit_messages context mp opening mi) tr -> for_next s = None ->
      exists new, made (watch tr s) = made s ++ new /\
        Forall (fun r => exists snapshot, snd r = InTransaction (usual_level s) snapshot /\ (snapshot = true <-> level = 5 /\ usual_level s = RepeatableRead)) new /\
        for_next (watch tr s) = None /\ usual_level (watch tr s) = usual_level s /\
        (propagates = true \/ Forall ordinary mi ->
         nth_error tr (1 + List.length mp + List.length opening + List.length mi) = Some (commit, Executed) -> map fst new = changes mi).
Proof.
  intros E b context cs level body bs He Hc Hn Hok Hd Hl. destruct (work_delivered E b context cs level body bs He Hc Hok Hd Hl) as (fs & mp & opening & inner & Hbs & F2 & W & P3).
  exists fs, mp, opening, inner. split; [exact Hbs|]. split; [exact W|]. intros mi p tr s T Hp Hs Hf. destruct (work_taken _ _ _ _ _ _ _ _ _ W mi T) as [_ St].
  destruct (ThmLevel.unit_watched p context mp level opening mi tr s (w_opening _ _ _ _ _ _ _ _ _ W) P3 Hp St Hs) as [(new & B1 & B2 & B3 & B4 & B5)|(B1 & B2 & _ & B3 & B4)].
  - exists new. split; [exact B1|]. split; [|split; [exact B3|split; [exact B4|intros X Y; apply B5; [left|]; assumption]]]. eapply Forall_impl; [|exact B2]. intros r ->. exists (ThmLevel.takes_snapshot level s). unfold ThmLevel.begins_at, ThmLevel.takes_snapshot, next_level. rewrite Hf.
    split; [destruct Hn as [-> | ->]; reflexivity|]. rewrite andb_true_iff, N.eqb_eq. destruct (usual_level s); cbn; intuition congruence.
  - exists []. rewrite app_nil_r. split; [exact B2|]. split; [constructor|]. split; [rewrite B4; [exact Hf|destruct Hn as [-> | ->]; reflexivity]|]. split; [exact B3|]. intros _ X. contradiction.
Qed.

(* ---- C118 ---- *)

Import SpecPlace.

(* The frames that ask for a deed. *)
Definition frames_ask (w32 : bool) (d : deed) (fs : list (N * bytes)) : Prop :=
  match d with
  | ACall c => exists f, fs = [f] /\ call_frame w32 c f
  | ARow name cols row => exists f g id, fs = [f; g] /\ row_frame w32 name cols row f /\ reads g (set_last_id id)
  | AEnter k => exists ms, opening k = Some ms /\ Forall2 reads fs ms
  | ALeave k => exists g, fs = [g] /\ reads g (closing k)
  end.
Lemma frames_ask_width w d fs : frames_ask w d fs -> List.length fs = width d.
Proof.
  destruct d as [c|name cols row|k|k]; cbn [frames_ask].
  - intros (f & -> & _). reflexivity.
  - intros (f & g & id & -> & _). reflexivity.
  - intros (ms & Ho & R). assert (L : List.length fs = List.length ms) by (clear - R; induction R; cbn; congruence). rewrite L. exact (ThmPlace.asks_width (AEnter k) ms Ho).
  - intros (g & -> & _). reflexivity.
Qed.
Lemma made_frames w : forall pr fs ids out, prog_frames w pr fs ids out -> exists ds fss, SpecPlace.made pr ds out /\ Forall2 (frames_ask w) ds fss /\ fs = concat fss.
Proof.
  intros pr fs ids out H.
  induction H as [cberr out|c next f fs ids out Hc H (ds & fss & A & B & ->)|name cols row next id f g fs ids out Hf Hg H (ds & fss & A & B & ->)|k body next op fs0 fs1 ids1 out1 g fs2 ids2 out Ho H0 H1 (ds1 & fss1 & A1 & B1 & ->) Hg H2 (ds2 & fss2 & A2 & B2 & ->)].
  - exists [], []. split; [constructor|]. split; [constructor|reflexivity].
  - exists (ACall c :: ds), ([f] :: fss). split; [constructor; exact A|]. split; [constructor; [exists f; auto|exact B]|reflexivity].
  - exists (ARow name cols row :: ds), ([f; g] :: fss). split; [econstructor; exact A|]. split; [constructor; [exists f, g, id; auto|exact B]|reflexivity].
  - exists (AEnter k :: ds1 ++ ALeave k :: ds2), (fs0 :: fss1 ++ [g] :: fss2). split; [econstructor; eassumption|]. split.
    + constructor; [exists op; auto|]. apply Forall2_app; [exact B1|]. constructor; [exists g; auto|exact B2].
    + cbn [concat]. rewrite concat_app. cbn [concat]. reflexivity.
Qed.
Lemma part_frames_ask w : forall ds fss k d, Forall2 (frames_ask w) ds fss -> nth_error ds k = Some d -> frames_ask w d (part ds k (concat fss)).
Proof.
  intros ds fss k d H Hk. unfold part. rewrite Hk. revert k d Hk. induction H as [|d0 m0 ds fss Ha H IH]; intros [|k] d Hk; try discriminate.
  - injection Hk as <-. unfold place. cbn [firstn map list_sum fold_right skipn concat]. cbn. rewrite firstn_app, <- (frames_ask_width _ _ _ Ha), Nat.sub_diag, firstn_all. cbn. rewrite app_nil_r. exact Ha.
  - specialize (IH k d Hk). unfold place in *. cbn [firstn map concat]. cbn [list_sum fold_right]. fold (list_sum (map width (firstn k ds))). rewrite skipn_app, skipn_all2 by (rewrite (frames_ask_width _ _ _ Ha); lia). cbn [app].
    rewrite (frames_ask_width _ _ _ Ha). replace (width d0 + list_sum (map width (firstn k ds)) - width d0)%nat with (list_sum (map width (firstn k ds))) by lia. exact IH.
Qed.
Lemma concat_frames_width w : forall ds fss, Forall2 (frames_ask w) ds fss -> List.length (concat fss) = list_sum (map width ds).
Proof. intros ds fss H. induction H as [|d m ds fss Ha H IH]; [reflexivity|]. cbn [concat map]. rewrite app_length, IH, (frames_ask_width _ _ _ Ha). reflexivity. Qed.

(* C118: whatever the arguments, the responses are in the order of the deeds, as many for each as it has frames, and they are all nil exactly if the server
   executed all of what it took these frames for. *)
Theorem C118_responses_whatever_the_values : forall (E : Env) b pr bs, empty b -> typed_prog word32 pr -> delivers b pr bs -> nlen bs < 2 ^ 32 ->
  exists ds out fs, SpecPlace.made pr ds out /\ bs = concat (map frame fs) /\ dframes bs = Some fs /\ List.length fs = list_sum (map width ds) /\
    (forall k d, nth_error ds k = Some d -> frames_ask word32 d (part ds k fs)) /\
    forall (tr : list (msg * outcome)) ps deadline c missing rs e c',
      Forall2 (acknowledges word32) tr ps -> unread c ++ missing = concat (map reply_bytes ps) -> is_bytes (unread c) ->
      conn_send word32 deadline bs c = Ok ((rs, e), c') ->
      (e = None -> List.length rs = list_sum (map width ds)) /\
      forall k d, nth_error ds k = Some d -> e = None \/ (place ds k + width d < List.length rs)%nat ->
        List.length (part ds k rs) = width d /\ List.length (part ds k tr) = width d /\ (Forall (eq None) (part ds k rs) <-> Forall executed (part ds k tr)).
Proof.
  intros E b pr bs He Hok Hd Hl. destruct (C120_only_its_own_message E b pr bs He Hok Hd Hl) as (fs & ids & out & Hbs & Hdf & Hp & _).
  destruct (framed_frame bs fs (ThmRetry.dframes_framed bs fs Hdf)) as [_ F2].
  destruct (made_frames _ _ _ _ _ Hp) as (ds & fss & A & B & Efs). exists ds, out, fs. split; [exact A|]. split; [exact Hbs|]. split; [exact Hdf|].
  assert (Lm : List.length fs = list_sum (map width ds)) by (rewrite Efs; exact (concat_frames_width _ _ _ B)). split; [exact Lm|].
  split; [intros k d Hk; rewrite Efs; exact (part_frames_ask _ _ _ _ _ B Hk)|].
  intros tr ps dl c missing rs e c' Hk Hu Hb Hsend. rewrite Hbs in Hsend.
  destruct (ThmCommit.sent_frames _ _ _ _ _ _ _ F2 Hsend) as [[-> M2]|(cts & q & M2 & M3)].
  { split; [intros X; contradiction|]. intros k d _ [X|X]; [contradiction|cbn in X; lia]. }
  destruct (ThmCommit.areads_truth word32 (ended (rd c)) tr ps Hk cts (unread c) missing rs e q Hb Hu M3) as [T1 T2].
  pose proof (ThmConn.areads_length word32 (ended (rd c)) cts (unread c)) as [_ L2]. rewrite M3 in L2. cbn [fst snd] in L2.
  split; [intros X; rewrite <- Lm, <- M2; exact (L2 X)|]. intros k d Hd' Hcert. pose proof (ThmPlace.place_le _ _ _ Hd') as Pl.
  assert (Lr : (place ds k + width d <= List.length rs)%nat) by (destruct Hcert as [X|X]; [rewrite (L2 X), M2, Lm; exact Pl|lia]).
  assert (W : Forall2 truth (part ds k tr) (part ds k rs)).
  { unfold part. rewrite Hd'. apply ThmPlace.window; [|exact Lr]. intros i r _ Hi Hr. apply (T2 i r Hr). destruct Hcert as [X|X]; [left; exact X|right; lia]. }
  assert (Lp : List.length (part ds k rs) = width d) by (unfold part; rewrite Hd', firstn_length, skipn_length; lia).
  split; [exact Lp|]. split; [rewrite <- Lp; clear - W; induction W; cbn; congruence|apply ThmPlace.all_true; exact W].
Qed.

(* C118: the same through a pool, with any number of callers. *)
Theorem C118_pooled_whatever_the_values : forall (E : Env) b pr bs, empty b -> typed_prog word32 pr -> delivers b pr bs -> nlen bs < 2 ^ 32 ->
  exists ds out fs, SpecPlace.made pr ds out /\ bs = concat (map frame fs) /\ dframes bs = Some fs /\ (forall k d, nth_error ds k = Some d -> frames_ask word32 d (part ds k fs)) /\
    forall size acts sys said i rs (tr : list (msg * outcome)),
      System.run word32 acts (System.new_system size) = Some sys -> SpecSystem.sends said sys -> Forall (SpecSystem.serves word32 said) acts ->
      SpecSystem.unit_is sys i bs -> SpecSystem.got sys i rs None ->
      Forall2 taken_for fs (map fst tr) -> Forall2 truth tr (map seen_as (said i)) ->
      List.length rs = list_sum (map width ds) /\
      forall k d, nth_error ds k = Some d ->
        Forall2 taken_for (part ds k fs) (map fst (part ds k tr)) /\ List.length (part ds k rs) = width d /\ (Forall (eq None) (part ds k rs) <-> Forall executed (part ds k tr)).
Proof.
  intros E b pr bs He Hok Hd Hl. destruct (C120_only_its_own_message E b pr bs He Hok Hd Hl) as (fs & ids & out & Hbs & Hdf & Hp & _).
  destruct (made_frames _ _ _ _ _ Hp) as (ds & fss & A & B & Efs). exists ds, out, fs. split; [exact A|]. split; [exact Hbs|]. split; [exact Hdf|].
  assert (Lm : List.length fs = list_sum (map width ds)) by (rewrite Efs; exact (concat_frames_width _ _ _ B)).
  split; [intros k d Hk; rewrite Efs; exact (part_frames_ask _ _ _ _ _ B Hk)|].
  intros size acts sys said i rs tr R S1 S2 _ G Htr Ht.
  destruct (ThmSystem.C61_own_responses word32 size acts sys said i rs None R S1 S2 G) as [Hrs _]. rewrite <- (Hrs eq_refl) in Ht. clear Hrs.
  assert (Lr : List.length rs = List.length tr) by (clear - Ht; induction Ht; cbn; congruence). assert (Lt : List.length fs = List.length tr) by (rewrite (taken_length _ _ Htr), map_length; reflexivity).
  split; [lia|]. intros k d Hk. pose proof (ThmPlace.place_le _ _ _ Hk) as Pl. split; [|split].
  - rewrite ThmPlace.map_part. unfold part. rewrite Hk. clear - Htr. generalize (place ds k) as p. generalize (width d) as w. revert Htr. generalize (map fst tr) as ms. intros ms T w p. revert p.
    assert (F : forall a b, Forall2 taken_for a b -> Forall2 taken_for (firstn w a) (firstn w b)).
    { induction w as [|w IH]; intros a b0 H; [constructor|]. destruct H; cbn [firstn]; [constructor|]. constructor; [assumption|apply IH; assumption]. }
    intros p. apply F. clear F. revert fs ms T. induction p as [|p IH]; intros fs ms T; [exact T|]. destruct T; cbn [skipn]; [constructor|apply IH; assumption].
  - unfold part. rewrite Hk, firstn_length, skipn_length. lia.
  - apply ThmPlace.all_true. unfold part. rewrite Hk. apply ThmPlace.window; [|lia]. intros j r _ _ Hr. clear - Ht Hr. revert j Hr. induction Ht as [|t r0 tr rs H Ht IH]; intros [|j] Hr; try discriminate; [injection Hr as <-; exists t; auto|exact (IH j Hr)].
Qed.

(* ---- the hypotheses can be met ---- *)

(* By ThmTypedServe.wrong_unit: the server rejects the delete it cannot read and skips the COMMIT, Send returns without an error, and the responses tell. *)
Definition wrong_trace : list (msg * outcome) :=
  combine [MExpectOpen 0 [CNoError (s2b "1")]; MPrepare 1 (s2b "SELECT 1"); statement (s2b "START TRANSACTION"); MDelete (s2b "u") (Some 2) None; commit; MExpectClose]
    [Executed; Executed; Executed; SpecServer.Failed; Skipped; SpecServer.Failed].
Definition wrong_conn : conn := mkc Tcp (mkr [] (ThmConn.pieces 100 3 (concat (map reply_bytes (map ThmTx.reply_for (map snd wrong_trace))))) IoEOF) [] [] [].
Definition wrong_deeds : list deed :=
  [AEnter (KExpectFailOnError 0); ACall (CPrepare 1 (s2b "SELECT 1")); AEnter (KTx 0); ACall (CDelete (s2b "u") (Some (EVariable long_name))); ALeave (KTx 0); ALeave (KExpectFailOnError 0)].
Example wrong_replies_meet : Forall2 (acknowledges false) wrong_trace (map ThmTx.reply_for (map snd wrong_trace)) /\
  unread wrong_conn ++ [] = concat (map reply_bytes (map ThmTx.reply_for (map snd wrong_trace))) /\ Forall SpecSession.plain [MDelete (s2b "u") (Some 2) None] /\
  SpecPlace.made wrong_unit wrong_deeds [] /\
  exists rs c', conn_send false None (ThmTx.sent_by wrong_unit) wrong_conn = Ok ((rs, None), c') /\
    part wrong_deeds 2 rs = [None] /\ part wrong_deeds 3 rs = [Some ThmConn.dup] /\ part wrong_deeds 4 rs = [ThmTx.response_for Skipped].
Proof.
  split; [apply ThmCommit.replies_tell|]. split; [vm_compute; reflexivity|]. split; [repeat constructor; left; vm_compute; reflexivity|]. split.
  { apply (A_block _ _ _ [ACall (CPrepare 1 (s2b "SELECT 1")); AEnter (KTx 0); ACall (CDelete (s2b "u") (Some (EVariable long_name))); ALeave (KTx 0)] [] []); [|apply A_ret].
    apply A_call. apply (A_block _ _ _ [ACall (CDelete (s2b "u") (Some (EVariable long_name)))] [] []); [|apply A_ret]. apply A_call. apply A_ret. }
  eexists _, _. split; [vm_compute; reflexivity|]. split; [vm_compute; reflexivity|]. split; vm_compute; reflexivity.
Qed.

Print Assumptions C73_commit_whatever_the_values.
Print Assumptions C73_pooled_whatever_the_values.
Print Assumptions C113_named_level_whatever_the_values.
Print Assumptions C113_level_of_the_session_whatever_the_values_partial.
Print Assumptions C118_responses_whatever_the_values.
Print Assumptions C118_pooled_whatever_the_values.
