(* What the responses of a unit of work tell: C73. *)
From Coq Require Import String List NArith ZArith Arith Bool Lia.
From Coq Require Import List.
From Verif Require Import Base GoSlice SpecWire SpecMsg SpecValue MsgModel Builder SpecProg SpecUnit Conn SpecReply SpecServer SpecSession SpecCommit.
From Verif Require Pool SpecPool System SpecSystem ShapeProofs ConnProofs ReplyProofs ThmConn ThmSystem MsgProofs.
From Verif Require Import ThmServer ThmTx.
Import ListNotations.
Open Scope list_scope.

(* ---- responses that are certain ---- *)

Lemma prefix_cases : forall (a b c d : bytes), a ++ b = c ++ d -> (exists u, a = c ++ u /\ u ++ b = d) \/ (exists x u, c = a ++ x :: u /\ b = (x :: u) ++ d).
Proof.
  induction a as [|x a IH]; intros b c d H; cbn in H.
  - destruct c as [|y c]; [left; exists []; auto|]. right. exists y, c. auto.
  - destruct c as [|y c]; cbn in H; [left; exists (x :: a); auto|]. injection H as -> H. destruct (IH _ _ _ H) as [(u & -> & U)|(z & u & -> & U)]; [left; exists u; auto|right; exists z, u; auto].
Qed.

(* A reply of which bytes are missing is not read as one. *)
Lemma cut_reply : forall w32 ct fin p r x u bs, answers w32 p r -> reply_bytes p = bs ++ x :: u -> is_bytes bs ->
  exists o e q, ConnProofs.aread w32 ct fin bs = ((o, Some e), q).
Proof.
  intros w32 ct fin p r x u bs Ha Hb Hi. destruct (ConnProofs.aread w32 ct fin bs) as [[o [e|]] q] eqn:R; [eauto|]. exfalso.
  destruct (ReplyProofs.aread_back _ bs (le_n _) w32 ct fin o q Hi R) as (p' & A & B & _).
  pose proof (ReplyProofs.aread_reply w32 ct fin p r [] Ha) as R1. rewrite app_nil_r, Hb, A in R1.
  rewrite <- app_assoc in R1. rewrite (ReplyProofs.aread_reply w32 ct fin p' o (q ++ x :: u) B) in R1. injection R1 as _ _ R1. destruct q; discriminate.
Qed.

Lemma areads_truth : forall w32 fin tr ps, Forall2 (acknowledges w32) tr ps -> forall cts bs more rs e q, is_bytes bs -> bs ++ more = concat (map reply_bytes ps) ->
  ReplyProofs.areads w32 cts fin bs = ((rs, e), q) ->
  (e = None -> List.length cts <= List.length tr)%nat /\
  forall i r, nth_error rs i = Some r -> e = None \/ (S i < List.length rs)%nat -> exists t, nth_error tr i = Some t /\ truth t r.
Proof.
  intros w32 fin tr ps H. induction H as [|t p tr ps (r0 & Ha & Ht) H IH]; intros cts bs more rs e q Hb Hm R.
  - cbn in Hm. apply app_eq_nil in Hm as [-> ->]. destruct cts as [|ct cts]; cbn [ReplyProofs.areads] in R.
    + injection R as <- <- <-. cbn. split; [lia|]. intros [|i]; discriminate.
    + destruct (ConnProofs.aread w32 ct fin []) as [[o [e'|]] q'] eqn:R1; cbn [fst snd] in R.
      * injection R as <- <- <-. split; [discriminate|]. intros i r _ [X|X]; [discriminate X|cbn in X; lia].
      * exfalso. destruct (ReplyProofs.aread_back _ [] (le_n _) w32 ct fin o q' Hb R1) as (p & A & _). symmetry in A. apply app_eq_nil in A as [A _].
        unfold reply_bytes in A. rewrite map_app, concat_app in A. apply app_eq_nil in A as [_ A]. cbn in A. unfold frame in A. destruct (final p). discriminate.
  - cbn [map concat] in Hm. destruct cts as [|ct cts]; cbn [ReplyProofs.areads] in R.
    + injection R as <- <- <-. cbn. split; [lia|]. intros [|i]; discriminate.
    + destruct (prefix_cases _ _ _ _ Hm) as [(u & -> & U)|(x & u & U & _)].
      * rewrite (ReplyProofs.aread_reply w32 ct fin p r0 u Ha) in R. cbn [fst snd] in R. destruct (ReplyProofs.outcome ct r0) as [e'|].
        { injection R as <- <- <-. split; [discriminate|]. intros i r _ [X|X]; [discriminate X|cbn in X; lia]. }
        destruct (ReplyProofs.areads w32 cts fin u) as [[rs' e'] q'] eqn:R2. cbn [fst snd] in R. injection R as <- <- <-.
        apply Forall_app in Hb as [_ Hb]. destruct (IH cts u more rs' e' q' Hb U R2) as [I1 I2]. split; [intros E; specialize (I1 E); cbn; lia|].
        intros [|i] r Hr Hc; cbn in Hr.
        { injection Hr as <-. exists t. auto. }
        { apply (I2 i r Hr). destruct Hc as [Hc|Hc]; [auto|right; cbn in Hc; lia]. }
      * destruct (cut_reply w32 ct fin p r0 x u bs Ha U Hb) as (o & e' & q' & R1). rewrite R1 in R. cbn [fst snd] in R. injection R as <- <- <-.
        split; [discriminate|]. intros i r _ [X|X]; [discriminate X|cbn in X; lia].
Qed.

(* ---- a server that stops early ---- *)

Lemma serve_total : forall p ms st, exists tr, serve p st ms tr.
Proof.
  intros p ms. induction ms as [|m ms IH]; intros st; [exists []; constructor|]. destruct (rejecting st) eqn:R.
  - destruct m as [| | | | | | |op cs| | | | |]; try (destruct (IH st) as [tr T]; eexists; apply S_skip; [exact I|exact R|exact T]).
    + destruct (IH (mkblock (opened op cs st) true :: st)) as [tr T]. eexists. apply S_open_skip; eauto.
    + destruct st as [|b st]; [discriminate R|]. destruct (IH (if p then fail_top st else st)) as [tr T]. eexists. apply S_close_failed; eauto.
  - destruct m as [| | | | | | |op cs| | | | |]; try (destruct (IH st) as [tr T]; eexists; apply S_exec; [exact I|exact R|exact T]).
    + destruct (IH (mkblock (opened op cs st) false :: st)) as [tr T]. eexists. apply S_open; eauto.
    + destruct st as [|b st]; [destruct (IH []) as [tr T]; eexists; apply S_close_none; eauto|]. destruct (IH st) as [tr T]. eexists. apply S_close; eauto.
Qed.
Lemma serve_extend : forall p st a tr, serve p st a tr -> forall b, exists more, serve p st (a ++ b) (tr ++ more).
Proof.
  intros p st a tr H. induction H; intros b'; [destruct (serve_total p b' st) as [tr T]; exists tr; exact T| | | | | | | | |];
  match goal with IH : forall b, _ |- _ => destruct (IH b') as [more M] end; exists more; cbn [app]; [eapply S_skip|eapply S_exec|eapply S_fail|eapply S_open|eapply S_open_fail|eapply S_open_skip|eapply S_close|eapply S_close_failed|eapply S_close_none]; eauto.
Qed.

Lemma serve_length : forall p st ms tr, serve p st ms tr -> List.length tr = List.length ms.
Proof. intros. rewrite <- (serve_msgs _ _ _ _ H), map_length. reflexivity. Qed.

(* ---- C73: the responses tell whether the unit is durable ---- *)

(* conn.Send returns either nothing but an error or what it read. *)
Lemma sent_frames : forall w32 fs d c rs e c', Forall (fun f => 1 + nlen (snd f) < 2 ^ 32)%N fs -> conn_send w32 d (concat (map frame fs)) c = Ok ((rs, e), c') ->
  rs = [] /\ e <> None \/ exists cts q, List.length cts = List.length fs /\ ReplyProofs.areads w32 cts (ended (rd c)) (unread c) = ((rs, e), q).
Proof.
  intros w32 fs d c rs e c' F2 Hs.
  destruct (fst (next_result (deadlines c))) as [x|] eqn:D1.
  { left. unfold conn_send, set_deadline in Hs. destruct (next_result (deadlines c)) as [o l]. cbn in D1, Hs. subst o. injection Hs as <- <- _. split; [reflexivity|discriminate]. }
  destruct (fst (next_result (writes c))) as [x|] eqn:D2.
  { left. unfold conn_send, set_deadline, write in Hs. destruct (next_result (deadlines c)) as [o l]. cbn in D1, Hs. subst o. cbn in Hs.
    destruct (next_result (writes c)) as [o l']. cbn in D2, Hs. subst o. injection Hs as <- <- _. split; [reflexivity|discriminate]. }
  right. destruct (ReplyProofs.send_spec w32 d fs c F2 (conj D1 D2)) as (c2 & A & _). cbn zeta in A. rewrite A in Hs.
  exists (map fst fs). destruct (ReplyProofs.areads w32 (map fst fs) (ended (rd c)) (unread c)) as [[rs' e'] q]. cbn in Hs. injection Hs as <- <- _. exists q. split; [apply map_length|reflexivity].
Qed.
Lemma sent_or_not : forall (E : Env) b pr bs deadline c rs e c', empty b -> prog_ok word32 pr -> delivers b pr bs -> (nlen bs < 2 ^ 32)%N ->
  conn_send word32 deadline bs c = Ok ((rs, e), c') ->
  exists ms, dstream bs = Some ms /\
  (rs = [] /\ e <> None \/ exists cts q, List.length cts = List.length ms /\ ReplyProofs.areads word32 cts (ended (rd c)) (unread c) = ((rs, e), q)).
Proof.
  intros E b pr bs d c rs e c' He Hok Hd Hl Hs. destruct (ShapeProofs.delivers_step E b pr bs He Hok Hd Hl) as (b' & out & ms & ids & _ & _ & _ & _ & Hsay & _).
  exists ms. pose proof (MsgProofs.says_dstream bs ms Hsay) as Hds. split; [exact Hds|]. destruct Hsay as (fs & Hf & Hm). destruct (ShapeProofs.framed_frame bs fs Hf) as [F1 F2].
  assert (L : List.length fs = List.length ms) by (clear - Hm; induction Hm; cbn; congruence). rewrite F1 in Hs. rewrite <- L. exact (sent_frames _ _ _ _ _ _ _ F2 Hs).
Qed.

Lemma nth_error_lt : forall {A} (l : list A) i x, nth_error l i = Some x -> (i < List.length l)%nat.
Proof. intros. apply nth_error_Some. congruence. Qed.

Lemma commit_told : forall w32 context level l prepared inner p n tr s ps c missing rs e,
  tx_opening level = Some l -> Forall (fun m => exists id q, m = MPrepare id q) prepared -> strict inner -> Forall plain inner -> p = true \/ Forall ordinary inner ->
  serve p [] (firstn n (unit_messages context prepared l inner)) tr -> in_progress s = None ->
  Forall2 (acknowledges w32) tr ps -> unread c ++ missing = concat (map reply_bytes ps) -> is_bytes (unread c) ->
  (rs = [] /\ e <> None \/ exists cts q, List.length cts = List.length (unit_messages context prepared l inner) /\ ReplyProofs.areads w32 cts (ended (rd c)) (unread c) = ((rs, e), q)) ->
  let position := (1 + List.length prepared + List.length l + List.length inner)%nat in
  (nth_error rs position = Some None -> e = None \/ (S position < List.length rs)%nat ->
     Forall executed (firstn (S position) tr) /\ nth_error tr position = Some (commit, Executed) /\ play tr s = mksess None (durable s ++ changes inner)) /\
  (e = None -> nth_error rs position <> Some None -> durable (play tr s) = durable s).
Proof.
  intros w32 context level l prepared inner p n tr s ps c missing rs e A1 A5 A6 Hp Hpr Hs Hn Hk Hu Hb M2. cbn zeta.
  set (ms := unit_messages context prepared l inner) in *. set (pos := (1 + List.length prepared + List.length l + List.length inner)%nat).
  assert (Lms : List.length ms = S (S pos)) by (unfold ms, unit_messages, pos; cbn [List.length]; rewrite !app_length, map_length; cbn; lia).
  destruct (opening_shape level l A1) as (lv & st & El & B1 & B2 & _).
  assert (P : pending s = []) by (unfold pending; rewrite Hn; reflexivity).
  destruct M2 as [[-> M2]|(cts & q & M2 & M3)]; [split; [destruct pos; discriminate|intros X; contradiction]|].
  destruct (areads_truth w32 (ended (rd c)) tr ps Hk cts (unread c) missing rs e q Hb Hu M3) as [T1 T2].
  pose proof (serve_length _ _ _ _ Hs) as Ltr. rewrite firstn_length in Ltr.
  destruct (serve_extend _ _ _ _ Hs (skipn n ms)) as [more X]. rewrite firstn_skipn in X. pose proof (serve_length _ _ _ _ X) as Lx. rewrite app_length in Lx.
  unfold ms in X. rewrite El in X. pose proof (unit_played p context prepared lv st inner (tr ++ more) s A5 B1 B2 Hp A6 Hpr X) as W. cbn zeta in W. rewrite <- El in W, X. fold pos in W. fold ms in X.
  split.
  - intros Hr Hcert. destruct (T2 pos None Hr Hcert) as ([m o] & Ht & Hexec). pose proof (proj1 Hexec eq_refl) as Ho. cbn in Ho. subst o.
    pose proof (nth_error_lt _ _ _ Ht) as Lp. destruct W as [(W1 & W2 & W3 & _)|(o & W1 & W2 & _)].
    2: { rewrite nth_error_app1 in W1 by exact Lp. congruence. }
    rewrite nth_error_app1 in W1 by exact Lp. split; [|split; [exact W1|]].
    { apply Forall_app in W2 as [W2 _]. rewrite <- (firstn_skipn (S pos) tr) in W2. apply Forall_app in W2. tauto. }
    rewrite play_app, P in W3. cbn [app] in W3. rewrite <- W3. symmetry. apply play_nothing.
    pose proof (serve_msgs _ _ _ _ X) as Mm. destruct more as [|[m' o'] [|? ?]]; [apply Forall_nil| |rewrite Lms in Lx; cbn [List.length] in Lx; clear - Lx Lp; clearbody pos; lia].
    apply Forall_cons; [|apply Forall_nil]. left. cbn [fst]. rewrite map_app in Mm. cbn [map fst] in Mm. unfold ms, unit_messages in Mm.
    replace (MExpectOpen context [no_error_1] :: prepared ++ map statement l ++ inner ++ [commit; MExpectClose]) with ((MExpectOpen context [no_error_1] :: prepared ++ map statement l ++ inner ++ [commit]) ++ [MExpectClose]) in Mm by (cbn; rewrite <- !app_assoc; reflexivity).
    apply app_inj_tail in Mm as [_ ->]. reflexivity.
  - intros -> Hr. specialize (T1 eq_refl). assert (more = []) by (destruct more; [reflexivity|cbn [List.length] in Lx; clear - Lx M2 T1; exfalso; lia]). subst more. rewrite app_nil_r in W.
    destruct W as [(W1 & _)|(o & W1 & W2 & [[(q' & unmade & _ & ->) _]| ->])]; [exfalso| |reflexivity].
    2: { cbn. rewrite P, app_nil_r. reflexivity. }
    assert (Lr : List.length rs = List.length cts).
    { pose proof (ThmConn.areads_length w32 (ended (rd c)) cts (unread c)) as [_ L2]. rewrite M3 in L2. apply L2. reflexivity. }
    destruct (nth_error rs pos) as [r|] eqn:Er; [|apply nth_error_None in Er; clear - Er Lr M2 Lms; clearbody pos; lia].
    destruct (T2 pos r Er (or_introl eq_refl)) as (t & Ht & Htr). rewrite W1 in Ht. injection Ht as <-. apply Hr. f_equal. apply Htr. reflexivity.
Qed.

(* The server works through the unit's messages, all of them or only the first n, and tells the truth about each in its replies; of these some bytes
   may never arrive. If the COMMIT's response is a success, and Send either returned no error or returned a further response, then the server executed
   every message up to the COMMIT, and all changes of the unit are durable. If Send returned no error and that response is no success, then none is. *)
Theorem C73_acknowledged_commit_is_durable : forall (E : Env) b context cs level body bs, empty b -> Forall prepares cs ->
  prog_ok word32 (unit_of_work context cs level body) -> delivers b (unit_of_work context cs level body) bs -> (nlen bs < 2 ^ 32)%N ->
  exists opening prepared inner ids out, tx_opening level = Some opening /\ Forall2 call_denotes cs prepared /\ prog_msgs body inner ids out /\
    dstream bs = Some (unit_messages context prepared opening inner) /\
    forall propagates n tr s ps deadline c missing rs e c', Forall plain inner -> propagates = true \/ Forall ordinary inner ->
      serve propagates [] (firstn n (unit_messages context prepared opening inner)) tr -> in_progress s = None ->
      Forall2 (acknowledges word32) tr ps -> unread c ++ missing = concat (map reply_bytes ps) -> is_bytes (unread c) ->
      conn_send word32 deadline bs c = Ok ((rs, e), c') ->
      let position := (1 + List.length prepared + List.length opening + List.length inner)%nat in
      (nth_error rs position = Some None -> e = None \/ (S position < List.length rs)%nat ->
         Forall executed (firstn (S position) tr) /\ nth_error tr position = Some (commit, Executed) /\ play tr s = mksess None (durable s ++ changes inner)) /\
      (e = None -> nth_error rs position <> Some None -> durable (play tr s) = durable s).
Proof.
  intros E b context cs level body bs He Hc Hok Hd Hl. destruct (unit_delivered E b context cs level body bs He Hc Hok Hd Hl) as (l & prepared & inner & ids & out & A1 & A2 & A3 & A4 & A5 & A6).
  exists l, prepared, inner, ids, out. repeat (split; [assumption|]). intros p n tr s ps d c missing rs e c' Hp Hpr Hs Hn Hk Hu Hb Hsend.
  destruct (sent_or_not E b _ bs d c rs e c' He Hok Hd Hl Hsend) as (ms & M1 & M2). rewrite A4 in M1. injection M1 as <-.
  exact (commit_told _ _ level _ _ _ _ _ _ _ _ _ _ _ _ A1 A5 A6 Hp Hpr Hs Hn Hk Hu Hb M2).
Qed.

Lemma commit_told_all : forall context level l prepared inner p tr s rs,
  tx_opening level = Some l -> Forall (fun m => exists id q, m = MPrepare id q) prepared -> strict inner -> Forall plain inner -> p = true \/ Forall ordinary inner ->
  serve p [] (unit_messages context prepared l inner) tr -> Forall2 truth tr rs -> in_progress s = None ->
  let position := (1 + List.length prepared + List.length l + List.length inner)%nat in
  (nth_error rs position = Some None -> Forall executed tr /\ play tr s = mksess None (durable s ++ changes inner)) /\
  (nth_error rs position <> Some None -> durable (play tr s) = durable s).
Proof.
  intros context level l prepared inner p tr s rs A1 A5 A6 Hp Hpr Hs Ht Hn. cbn zeta.
  destruct (opening_shape level l A1) as (lv & st & El & B1 & B2 & _).
  assert (P : pending s = []) by (unfold pending; rewrite Hn; reflexivity).
  rewrite El in Hs. pose proof (unit_played p context prepared lv st inner tr s A5 B1 B2 Hp A6 Hpr Hs) as W. cbn zeta in W. rewrite <- El in W. set (pos := (1 + List.length prepared + List.length l + List.length inner)%nat) in *.
  assert (T : forall t, nth_error tr pos = Some t -> exists r, nth_error rs pos = Some r /\ truth t r).
  { clear - Ht. generalize pos. induction Ht as [|t r tr rs H Ht IH]; intros [|j] t' X; cbn in *; try discriminate; [injection X as <-; eauto|eauto]. }
  destruct W as [(W1 & W2 & W3 & _)|(o & W1 & W2 & W3)]; destruct (T _ W1) as (r & Hr & Htr); rewrite Hr; unfold truth in Htr; cbn [snd] in Htr.
  - rewrite P in W3. cbn [app] in W3. split; [auto|]. intros X. exfalso. apply X. f_equal. apply Htr. reflexivity.
  - split; [intros [= ->]; exfalso; apply W2, Htr; reflexivity|]. intros _. destruct W3 as [[(q' & unmade & _ & ->) _]| ->]; [cbn; rewrite P, app_nil_r; reflexivity|reflexivity].
Qed.

(* The same through a pool, with any number of callers: a Send that returned without an error, whose unit is this one and whose server told the truth. *)
Theorem C73_through_the_pool : forall (E : Env) b context cs level body bs, empty b -> Forall prepares cs ->
  prog_ok word32 (unit_of_work context cs level body) -> delivers b (unit_of_work context cs level body) bs -> (nlen bs < 2 ^ 32)%N ->
  exists opening prepared inner ids out, tx_opening level = Some opening /\ Forall2 call_denotes cs prepared /\ prog_msgs body inner ids out /\
    dstream bs = Some (unit_messages context prepared opening inner) /\
    forall size acts sys said i rs propagates tr s,
      System.run word32 acts (System.new_system size) = Some sys -> SpecSystem.sends said sys -> Forall (SpecSystem.serves word32 said) acts ->
      SpecSystem.unit_is sys i bs -> SpecSystem.got sys i rs None ->
      Forall plain inner -> propagates = true \/ Forall ordinary inner ->
      serve propagates [] (unit_messages context prepared opening inner) tr -> Forall2 truth tr (map seen_as (said i)) -> in_progress s = None ->
      let position := (1 + List.length prepared + List.length opening + List.length inner)%nat in
      (nth_error rs position = Some None -> Forall executed tr /\ play tr s = mksess None (durable s ++ changes inner)) /\
      (nth_error rs position <> Some None -> durable (play tr s) = durable s).
Proof.
  intros E b context cs level body bs He Hc Hok Hd Hl. destruct (unit_delivered E b context cs level body bs He Hc Hok Hd Hl) as (l & prepared & inner & ids & out & A1 & A2 & A3 & A4 & A5 & A6).
  exists l, prepared, inner, ids, out. repeat (split; [assumption|]). intros size acts sys said i rs p tr s R S1 S2 _ G Hp Hpr Hs Ht Hn.
  destruct (ThmSystem.C61_own_responses word32 size acts sys said i rs None R S1 S2 G) as [Hrs _]. specialize (Hrs eq_refl). rewrite <- Hrs in Ht. clear Hrs.
  exact (commit_told_all _ level _ _ _ _ _ _ _ A1 A5 A6 Hp Hpr Hs Ht Hn).
Qed.

Lemma replies_tell : forall tr, Forall2 (acknowledges false) tr (map reply_for (map snd tr)).
Proof.
  induction tr as [|[m o] tr IH]; [constructor|]. cbn [map snd]. apply Forall2_cons; [|exact IH]. exists (response_for o). split; [|destruct o; split; cbn; congruence].
  destruct o; (split; [constructor|]); (split; [|repeat constructor; vm_compute; reflexivity]).
  - cbn. tauto.
  - split; [reflexivity|]. apply ThmConn.error_bytes_message; try (vm_compute; reflexivity); vm_compute; repeat constructor.
  - split; [reflexivity|]. apply ThmConn.error_bytes_message; try (vm_compute; reflexivity); vm_compute; repeat constructor.
Qed.

(* The COMMIT's response alone does not tell. Send returns one more response than it read when it fails to read one: nil, which means success.
   Here the server rejected the second row and skipped the COMMIT, and the connection broke before its reply to the COMMIT. *)
Definition broken_off : conn := mkc Tcp (mkr [] [concat (map reply_bytes (map reply_for [Executed; Executed; Executed; Failed]))] IoEOF) [] [] [].
Theorem C73_error_must_be_checked : exists bs rs e c',
  @delivers ThmBuilder.plain (new_pipe 0) two_rows bs /\ dstream bs = Some (map fst trace_a) /\ serve true [] (map fst trace_a) trace_a /\
  Forall2 (acknowledges false) trace_a (map reply_for (map snd trace_a)) /\
  unread broken_off ++ concat (map reply_bytes (map reply_for [Skipped; Failed])) = concat (map reply_bytes (map reply_for (map snd trace_a))) /\
  conn_send false None bs broken_off = Ok ((rs, Some e), c') /\
  nth_error trace_a 4 = Some (commit, Skipped) /\ nth_error rs 4 = Some None /\ durable (play trace_a (mksess None [])) = [].
Proof.
  exists (sent_by two_rows), [None; None; None; Some ThmConn.dup; None], (CRead IoEOF). eexists. split; [apply sent_by_frames; cbn; auto|]. split; [vm_compute; reflexivity|]. split.
  { apply S_open; [reflexivity|]. apply S_exec; [exact I|reflexivity|]. apply S_exec; [exact I|reflexivity|]. apply S_fail; [exact I|reflexivity|]. apply S_skip; [exact I|reflexivity|]. apply S_close_failed; [reflexivity|]. constructor. }
  split; [apply replies_tell|]. split; [vm_compute; reflexivity|]. split; [vm_compute; reflexivity|]. split; [reflexivity|]. split; reflexivity.
Qed.

(* A case that meets the hypotheses: one row, all executed, and the reply to the last message cut off in its middle. Send fails, but the COMMIT is certain. *)
Definition cut_short : conn := mkc Tcp (mkr [] (ThmConn.pieces 40 3 (concat (map reply_bytes (map reply_for (map snd (firstn 4 trace_b)))) ++ [1; 0])) IoEOF) [] [] [].
Example acknowledged_meets : exists bs inner c', @delivers ThmBuilder.plain (new_pipe 0) one_row bs /\ prog_ok false one_row /\ (nlen bs < 2 ^ 32)%N /\
  map fst trace_b = unit_messages 0 [] [s2b "START TRANSACTION"] inner /\ Forall SpecSession.plain inner /\ Forall ordinary inner /\
  serve true [] (firstn 5 (map fst trace_b)) trace_b /\ Forall2 (acknowledges false) trace_b (map reply_for (map snd trace_b)) /\
  unread cut_short ++ [0; 0; 0] = concat (map reply_bytes (map reply_for (map snd trace_b))) /\ is_bytes (unread cut_short) /\
  conn_send false (Some 9%N) bs cut_short = Ok (([None; None; None; None; None], Some (CRead IoEOF)), c') /\
  play trace_b (mksess None []) = mksess None (changes inner).
Proof.
  eexists (sent_by one_row), [insert_of "(3)"]. eexists. split; [apply sent_by_frames; cbn; auto|]. split; [cbn; repeat split; try constructor; intros; repeat constructor|]. split; [vm_compute; reflexivity|]. split; [reflexivity|].
  split; [repeat constructor; left; vm_compute; reflexivity|]. split; [repeat constructor|]. split.
  { apply S_open; [reflexivity|]. repeat (apply S_exec; [exact I|reflexivity|]). apply S_close; [reflexivity|]. constructor. }
  split; [apply replies_tell|]. split; [vm_compute; reflexivity|]. split; [apply Forall_forall; intros x Hx; vm_compute in Hx; repeat (destruct Hx as [<-|Hx]; [vm_compute; reflexivity|]); destruct Hx|].
  split; vm_compute; reflexivity.
Qed.

Print Assumptions C73_acknowledged_commit_is_durable.
Print Assumptions C73_through_the_pool.
Print Assumptions C73_error_must_be_checked.
