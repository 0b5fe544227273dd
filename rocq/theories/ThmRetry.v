(* C108: what may be sent again. *)
From Coq Require Import String List NArith ZArith Arith Bool Lia.
From Coq Require Import List.
From Verif Require Import Base GoSlice SpecWire SpecMsg SpecValue MsgModel Builder SpecProg SpecUnit Conn SpecReply SpecServer SpecSession SpecCommit SpecRetry.
From Verif Require ShapeProofs ConnProofs ReplyProofs ThmConn MsgProofs WireProofs ThmBuilder.
From Verif Require Import ThmServer ThmTx ThmCommit.
Import ListNotations.
Open Scope list_scope.

(* ---- error responses are always certain ---- *)

Lemma dispatch_some ct st b x o : dispatch ct st b = Some (Some x, o) -> st = 1%N /\ unmarshal_error b = Some x /\ o <> Some CBadMeta.
Proof.
  intros H. unfold dispatch, srvOK, srvAUTH_OK, srvSTMT_EXECUTE_OK, srvCOLUMN_META, srvERROR, srvAUTH_CONTINUE in H.
  destruct (_ || _)%bool; [discriminate|]. destruct (st =? 12)%N; [destruct (unmarshal_meta_ok b); discriminate|]. destruct (N.eqb_spec st 1) as [->|].
  - destruct (unmarshal_error b) as [e|]; [|discriminate]. rewrite ReplyProofs.answer_error_eq in H. injection H as <- <-. split; [reflexivity|]. split; [reflexivity|]. destruct (ReplyProofs.stops_dec _ _); discriminate.
  - destruct (st =? 3)%N; [|discriminate]. destruct (negb _); [discriminate|]. destruct (unmarshal_continue b); discriminate.
Qed.

Lemma aread_some : forall k bs, (List.length bs <= k)%nat -> forall w32 ct fin x e rest, is_bytes bs -> ConnProofs.aread w32 ct fin bs = ((Some x, e), rest) ->
  exists p, bs = reply_bytes p ++ rest /\ answers w32 p (Some x).
Proof.
  induction k as [|k IH]; intros bs Hk w32 ct fin x e rest Hb H; rewrite ConnProofs.aread_eq in H.
  - destruct bs; [|cbn in Hk; lia]. cbn in H. discriminate.
  - destruct (ConnProofs.amessage w32 fin bs) as [[[[st b] n]|e'] q] eqn:E; [|discriminate]. pose proof (ConnProofs.amessage_consumes _ _ _ _ _ _ _ E) as C.
    destruct (ReplyProofs.amessage_back _ _ _ _ _ _ _ Hb E) as (p & E1 & -> & Hf). destruct (dispatch ct st (ReplyProofs.seen (st, p))) as [[resp o]|] eqn:D.
    + assert (resp = Some x) as -> by (destruct o as [[]|]; injection H as <- _ _; reflexivity). destruct (dispatch_some _ _ _ _ _ D) as (-> & D1 & D2).
      assert (skipN n q = rest) as <- by (destruct o as [[]|]; try congruence; injection H as _ <-; reflexivity).
      exists (mkreply [] (1%N, p)). unfold reply_bytes. cbn [interims final app map concat]. rewrite app_nil_r. split; [exact E1|].
      split; [constructor|]. split; [|constructor; [exact Hf|constructor]]. split; [reflexivity|]. apply ReplyProofs.error_unmarshal. destruct p; [discriminate D1|exact D1].
    + assert (Hb' : is_bytes (skipN n q)) by (rewrite E1 in Hb; apply Forall_app in Hb; apply Hb).
      destruct (IH (skipN n q) ltac:(lia) _ _ _ _ _ _ Hb' H) as ([is f] & P1 & (P2 & P3 & P4)). exists (mkreply ((st, p) :: is) f).
      unfold reply_bytes in *. cbn [interims final app map concat] in *. split; [rewrite <- app_assoc, <- P1; exact E1|].
      split; [constructor; [exact (ReplyProofs.dispatch_none _ _ _ D)|exact P2]|]. split; [exact P3|constructor; [exact Hf|exact P4]].
Qed.

Lemma areads_error : forall w32 fin tr ps, Forall2 (acknowledges w32) tr ps -> forall cts bs more rs e q, is_bytes bs -> bs ++ more = concat (map reply_bytes ps) ->
  ReplyProofs.areads w32 cts fin bs = ((rs, e), q) -> forall i x, nth_error rs i = Some (Some x) -> exists t, nth_error tr i = Some t /\ truth t (Some x).
Proof.
  intros w32 fin tr ps H. induction H as [|t p tr ps (r0 & Ha & Ht) H IH]; intros cts bs more rs e q Hb Hm R i x Hi.
  - exfalso. cbn in Hm. apply app_eq_nil in Hm as [-> ->]. destruct cts as [|ct cts]; cbn [ReplyProofs.areads] in R.
    + injection R as <- <- <-. destruct i; discriminate.
    + rewrite ConnProofs.aread_eq in R. cbn in R. injection R as <- _ _. destruct i as [|[|i]]; discriminate.
  - cbn [map concat] in Hm. destruct cts as [|ct cts]; cbn [ReplyProofs.areads] in R; [injection R as <- <- <-; destruct i; discriminate|].
    destruct (prefix_cases _ _ _ _ Hm) as [(u & -> & U)|(y & u & U & _)].
    + rewrite (ReplyProofs.aread_reply w32 ct fin p r0 u Ha) in R. cbn [fst snd] in R. destruct (ReplyProofs.outcome ct r0) as [e'|].
      { injection R as <- <- <-. destruct i as [|i]; [|destruct i; discriminate]. injection Hi as ->. exists t. auto. }
      destruct (ReplyProofs.areads w32 cts fin u) as [[rs' e'] q'] eqn:R2. cbn [fst snd] in R. injection R as <- <- <-.
      apply Forall_app in Hb as [_ Hb]. destruct i as [|i]; [injection Hi as ->; exists t; auto|]. exact (IH cts u more rs' e' q' Hb U R2 i x Hi).
    + exfalso. destruct (cut_reply w32 ct fin p r0 y u bs Ha U Hb) as (o & e' & q' & R1). rewrite R1 in R. cbn [fst snd] in R. injection R as <- <- <-.
      destruct i as [|i]; [|destruct i; discriminate]. injection Hi as ->.
      destruct (aread_some _ bs (le_n _) w32 ct fin x (Some e') q' Hb R1) as (p' & A & B).
      pose proof (ReplyProofs.aread_reply w32 ct fin p r0 [] Ha) as R3. rewrite app_nil_r, U, A in R3.
      rewrite <- app_assoc in R3. rewrite (ReplyProofs.aread_reply w32 ct fin p' (Some x) (q' ++ y :: u) B) in R3. injection R3 as _ _ R3. destruct q'; discriminate.
Qed.

(* ---- what durable data a trace leaves ---- *)

Lemma durable_grows : forall tr s, exists x, durable (play tr s) = durable s ++ x.
Proof.
  induction tr as [|t tr IH]; intros s; [exists []; rewrite app_nil_r; reflexivity|]. rewrite play_cons. destruct (IH (play1 s t)) as [x ->].
  assert (G : exists y, durable (play1 s t) = durable s ++ y); [|destruct G as [y ->]; exists (y ++ x); rewrite app_assoc; reflexivity].
  unfold play1. destruct (snd t); [|exists []; rewrite app_nil_r; reflexivity..]. destruct (effect_of (fst t)); cbn [durable]; eauto; try (exists []; rewrite app_nil_r; reflexivity).
  destruct (in_progress s); cbn [durable]; eauto. exists []. rewrite app_nil_r. reflexivity.
Qed.

Lemma durable_stays tr more s : durable (play (tr ++ more) s) = durable s -> durable (play tr s) = durable s.
Proof.
  rewrite play_app. destruct (durable_grows tr s) as [x Hx], (durable_grows more (play tr s)) as [y Hy]. rewrite Hy, Hx. intros H. rewrite <- app_assoc in H.
  assert (L : List.length (x ++ y) = 0%nat) by (apply (f_equal (@List.length _)) in H; rewrite app_length in H; lia).
  rewrite app_length in L. destruct x; [apply app_nil_r|cbn in L; lia].
Qed.

Lemma Forall_some {A} (P : A -> Prop) l n : Forall P l -> Forall P (firstn n l).
Proof. intros H. revert n. induction H; intros [|n]; cbn [firstn]; auto. Qed.

(* The messages before the COMMIT make nothing durable. *)
Lemma before_commit : forall tr prepared lv st inner n context s, Forall (fun m => exists id q, m = MPrepare id q) prepared -> Forall is_level lv -> effect_of (statement st) = Begins -> Forall plain inner ->
  in_progress s = None -> (n <= 1 + List.length prepared + List.length (lv ++ [st]) + List.length inner)%nat ->
  map fst tr = firstn n (unit_messages context prepared (lv ++ [st]) inner) -> Forall executed tr -> durable (play tr s) = durable s.
Proof.
  intros tr prepared lv st inner n context s Hp Hl Hs Hi Hn Ln Hm He.
  set (front := MExpectOpen context [no_error_1] :: prepared ++ map statement lv).
  assert (Em : unit_messages context prepared (lv ++ [st]) inner = (front ++ statement st :: inner) ++ [commit; MExpectClose]).
  { unfold unit_messages, front. rewrite map_app. cbn [map app]. repeat (rewrite <- app_assoc; cbn [app]). reflexivity. }
  assert (Lf : List.length front = (1 + List.length prepared + List.length lv)%nat) by (unfold front; cbn; rewrite app_length, map_length; lia).
  assert (Hf : Forall (fun m => effect_of m = Nothing \/ effect_of m = SetsLevel) front).
  { unfold front. constructor; [left; reflexivity|]. apply Forall_app. split.
    - eapply Forall_impl; [|exact Hp]. intros m (id & q & ->). left. reflexivity.
    - apply Forall_map. eapply Forall_impl; [|exact Hl]. intros m Hm'. right. exact Hm'. }
  rewrite app_length in Ln. cbn [List.length] in Ln.
  rewrite Em, firstn_app in Hm. replace (n - List.length (front ++ statement st :: inner))%nat with 0%nat in Hm by (rewrite app_length; cbn [List.length]; lia). cbn [firstn] in Hm. rewrite app_nil_r in Hm.
  destruct (Nat.le_gt_cases n (List.length front)) as [L|L].
  - rewrite firstn_app in Hm. replace (n - List.length front)%nat with 0%nat in Hm by lia. cbn [firstn] in Hm. rewrite app_nil_r in Hm. rewrite play_nothing; [reflexivity|].
    apply (Forall_map fst (fun m => effect_of m = Nothing \/ effect_of m = SetsLevel)). rewrite Hm. apply Forall_some. exact Hf.
  - rewrite firstn_app, firstn_all2 in Hm by lia. replace (n - List.length front)%nat with (S (n - List.length front - 1)) in Hm by lia. cbn [firstn] in Hm.
    apply map_eq_app in Hm as (t1 & t2 & -> & M1 & M2). destruct t2 as [|[m o] t2]; [discriminate|]. cbn [map fst] in M2. injection M2 as -> M2.
    apply Forall_app in He as [_ He]. inversion_clear He as [|? ? Ho He']. unfold executed in Ho. cbn in Ho. subst o.
    rewrite play_app, (play_nothing t1) by (apply (Forall_map fst (fun m => effect_of m = Nothing \/ effect_of m = SetsLevel)); rewrite M1; exact Hf).
    rewrite play_cons. unfold play1. cbn [fst snd]. rewrite Hs. unfold pending. rewrite Hn, app_nil_r.
    destruct (play_plain t2 [] (durable s)) as (q & -> & _); [|reflexivity].
    apply (Forall_map fst plain). rewrite M2. apply Forall_some. exact Hi.
Qed.

(* ---- what arrives of a unit ---- *)

Lemma dmsg_close ty pl : dmsg ty pl = Some MExpectClose -> pl = [].
Proof.
  intros H. assert (C : ty = 25%N \/ dmsg ty pl <> Some MExpectClose).
  { unfold dmsg. repeat match goal with |- context [match ?x with _ => _ end] => is_var x; destruct x end; auto; right;
    unfold dcapabilities_set, dauth_start, dauth_continue, dreset, dstmt_execute, dinsert, dupdate, ddelete, dexpect_open, dprepare, dexecute, ddeallocate, obind;
    repeat match goal with |- context [match ?x with _ => _ end] => destruct x end; discriminate. }
  destruct C as [->|C]; [|contradiction]. cbn in H. unfold dexpect_close in H. destruct pl; [reflexivity|discriminate].
Qed.

Lemma dframes_framed bs fs : dframes bs = Some fs -> WireProofs.framed bs fs.
Proof.
  unfold dframes. destruct (forallb (fun b => b <? 256)%N bs) eqn:Hby; [|discriminate]. intros Hf. split; [|exact Hf].
  apply Forall_forall. intros y Hy. rewrite forallb_forall in Hby. apply N.ltb_lt. apply Hby. exact Hy.
Qed.

Lemma dframe_longer a b ty pl r : dframe a = Some (ty, pl, r) -> dframe (a ++ b) = Some (ty, pl, r ++ b).
Proof.
  unfold dframe. intros Hd. destruct (take 4 a) as [[h r1]|] eqn:Ht; [|discriminate]. rewrite (WireProofs.take_app _ _ _ _ b Ht). cbn [obind] in *.
  destruct (1 <=? le h)%N; [|discriminate]. destruct (take (le h) r1) as [[f r2]|] eqn:Ht2; [|discriminate]. rewrite (WireProofs.take_app _ _ _ _ b Ht2). cbn [obind] in *.
  destruct f as [|t f]; [discriminate|]. injection Hd as -> -> <-. reflexivity.
Qed.

Lemma dframes_split : forall k a b fa fs, (List.length a <= k)%nat -> dframes_k (List.length a) a = Some fa -> dframes_k (List.length (a ++ b)) (a ++ b) = Some fs ->
  exists fb, fs = fa ++ fb /\ dframes_k (List.length b) b = Some fb.
Proof.
  induction k as [|k IH]; intros a b fa fs Hk Ha Hs.
  - destruct a; [|cbn in Hk; lia]. injection Ha as <-. exists fs. auto.
  - destruct a as [|x a]; [injection Ha as <-; exists fs; auto|]. cbn [app List.length dframes_k] in Ha, Hs.
    destruct (dframe (x :: a)) as [[[ty pl] r]|] eqn:Hd; [|discriminate]. cbn [obind] in Ha. pose proof (WireProofs.dframe_shorter _ _ _ _ Hd) as Sh. cbn [List.length] in Sh, Hk.
    change (x :: a ++ b) with ((x :: a) ++ b) in Hs. rewrite (dframe_longer _ b _ _ _ Hd) in Hs. cbn [obind] in Hs.
    rewrite WireProofs.dframes_k_fuel in Ha by lia. rewrite WireProofs.dframes_k_fuel in Hs by (rewrite !app_length; lia).
    destruct (dframes_k (List.length r) r) as [f1|] eqn:H1; [|discriminate]. destruct (dframes_k (List.length (r ++ b)) (r ++ b)) as [f2|] eqn:H2; [|discriminate].
    cbn [obind] in Ha, Hs. injection Ha as <-. injection Hs as <-. destruct (IH r b f1 f2 ltac:(lia) H1 H2) as (fb & -> & Hb). exists fb. auto.
Qed.

Lemma omap_app_inv {A B} (f : A -> option B) a b l : omap f (a ++ b) = Some l -> exists la lb, l = la ++ lb /\ omap f a = Some la /\ omap f b = Some lb.
Proof.
  revert l. induction a as [|x a IH]; intros l H; [exists [], l; auto|]. cbn [app omap] in H. destruct (f x) as [y|] eqn:E; [|discriminate]. cbn [obind] in H.
  destruct (omap f (a ++ b)) as [l'|]; [|discriminate]. cbn [obind] in H. injection H as <-. destruct (IH l' eq_refl) as (la & lb & -> & H1 & H2).
  exists (y :: la), lb. cbn [omap]. rewrite E, H1. auto.
Qed.

(* The whole messages at the beginning of a stream are the first of its messages. *)
Lemma arrived j bs ms handled : dstream bs = Some ms -> dstream (firstn j bs) = Some handled -> exists rest, ms = handled ++ rest /\ dstream (skipn j bs) = Some rest.
Proof.
  unfold dstream. intros H1 H2. destruct (dframes bs) as [fs|] eqn:F1; [|discriminate]. destruct (dframes (firstn j bs)) as [fa|] eqn:F2; [|discriminate]. cbn [obind] in H1, H2.
  destruct (dframes_framed _ _ F1) as [B1 D1]. destruct (dframes_framed _ _ F2) as [_ D2]. rewrite <- (firstn_skipn j bs) in D1.
  destruct (dframes_split _ _ _ _ _ (le_n _) D2 D1) as (fb & -> & D3). destruct (omap_app_inv _ _ _ _ H1) as (la & lb & -> & M1 & M2). rewrite M1 in H2. injection H2 as ->.
  exists lb. split; [reflexivity|]. rewrite (WireProofs.framed_dframes (skipn j bs) fb); [exact M2|]. split; [|exact D3].
  rewrite <- (firstn_skipn j bs) in B1. apply Forall_app in B1. apply B1.
Qed.

Lemma close_length bs : dstream bs = Some [MExpectClose] -> List.length bs = 5%nat.
Proof.
  unfold dstream. intros H. destruct (dframes bs) as [fs|] eqn:F; [|discriminate]. cbn [obind] in H. apply dframes_framed in F. destruct (ShapeProofs.framed_frame _ _ F) as [-> _].
  destruct fs as [|[ty pl] [|g fs]]; cbn [omap fst snd] in H; [discriminate| |].
  - destruct (dmsg ty pl) as [m|] eqn:D; [|discriminate]. cbn [obind] in H. injection H as ->. rewrite (dmsg_close _ _ D). reflexivity.
  - destruct (dmsg ty pl); [|discriminate]. cbn [obind] in H. destruct (dmsg _ _); [|discriminate]. cbn [obind] in H. destruct (omap _ fs); discriminate.
Qed.

(* ---- the result of Send ---- *)

Lemma aread_other : forall k bs, (List.length bs <= k)%nat -> forall w32 ct fin r x q, ConnProofs.aread w32 ct fin bs <> ((r, Some (CDeadline x)), q).
Proof.
  induction k as [|k IH]; intros bs Hk w32 ct fin r x q H; rewrite ConnProofs.aread_eq in H.
  - destruct bs; [|cbn in Hk; lia]. cbn in H. discriminate.
  - destruct (ConnProofs.amessage w32 fin bs) as [[[[st b] n]|e'] q'] eqn:E.
    + pose proof (ConnProofs.amessage_consumes _ _ _ _ _ _ _ E) as C. destruct (dispatch ct st b) as [[resp o]|] eqn:D; [|exact (IH (skipN n q') ltac:(lia) _ _ _ _ _ _ H)].
      assert (o = Some (CDeadline x)) as -> by (destruct o as [[]|]; injection H as ? ? ?; congruence).
      unfold dispatch, answer_error in D. repeat match type of D with context [if ?c then _ else _] => destruct c | context [match ?c with _ => _ end] => destruct c end; discriminate.
    + injection H as <- -> <-. unfold ConnProofs.amessage in E. repeat match type of E with context [if ?c then _ else _] => destruct c end; discriminate.
Qed.

Lemma areads_other : forall cts w32 fin bs rs x q, ReplyProofs.areads w32 cts fin bs <> ((rs, Some (CDeadline x)), q).
Proof.
  induction cts as [|ct cts IH]; intros w32 fin bs rs x q H; cbn [ReplyProofs.areads] in H; [discriminate|].
  destruct (ConnProofs.aread w32 ct fin bs) as [[o [e|]] b] eqn:R; cbn [fst snd] in H.
  - injection H as _ -> _. exact (aread_other _ _ (le_n _) _ _ _ _ _ _ R).
  - destruct (ReplyProofs.areads w32 cts fin b) as [[rs' e'] b'] eqn:R'. cbn [fst snd] in H. injection H as _ -> _. exact (IH _ _ _ _ _ _ R').
Qed.

Lemma given_app c d l : log d = l ++ log c -> given c d = concat (map (fun e => match e with Write _ b _ => b | _ => [] end) (rev l)).
Proof. intros E. unfold given. rewrite E, app_length. replace (List.length l + List.length (log c) - List.length (log c))%nat with (List.length l) by lia. rewrite firstn_app, Nat.sub_diag, firstn_all. cbn [firstn]. rewrite app_nil_r. reflexivity. Qed.

Lemma send_cases w32 d fs c rs e c' : Forall (fun f => 1 + nlen (snd f) < 2 ^ 32)%N fs -> conn_send w32 d (concat (map frame fs)) c = Ok ((rs, e), c') ->
  (given c c' = [] /\ rs = [] /\ exists x, e = Some (CDeadline x)) \/
  (given c c' = concat (map frame fs) /\ rs = [] /\ exists x, e = Some (CWrite x)) \/
  (given c c' = concat (map frame fs) /\ exists q, ReplyProofs.areads w32 (map fst fs) (ended (rd c)) (unread c) = ((rs, e), q)).
Proof.
  intros Hf Hs. destruct (fst (next_result (deadlines c))) as [x|] eqn:D1.
  { left. unfold conn_send, set_deadline in Hs. destruct (next_result (deadlines c)) as [o l]. cbn in D1, Hs. subst o. injection Hs as <- <- <-. split; [rewrite (given_app c _ [SetDeadline (ckind c) d (Some x)]); reflexivity|]. eauto. }
  destruct (fst (next_result (writes c))) as [x|] eqn:D2.
  { right. left. unfold conn_send, set_deadline, write in Hs. destruct (next_result (deadlines c)) as [o l]. cbn [fst] in D1. subst o. cbn [writes] in Hs.
    destruct (next_result (writes c)) as [o l']. cbn [fst] in D2. subst o. injection Hs as <- <- <-.
    split; [rewrite (given_app c _ [Write (ckind c) (concat (map frame fs)) (Some x); SetDeadline (ckind c) d None]); [apply app_nil_r|reflexivity]|]. eauto. }
  right. right. destruct (ReplyProofs.send_spec w32 d fs c Hf (conj D1 D2)) as (c2 & A & _ & _ & _ & L & _). cbn zeta in A. rewrite A in Hs.
  destruct (ReplyProofs.areads w32 (map fst fs) (ended (rd c)) (unread c)) as [[rs' e'] q]. cbn [fst] in Hs. injection Hs as <- <- <-. split; [rewrite (given_app c _ _ L); apply app_nil_r|]. eauto.
Qed.

(* ---- what a try does ---- *)

Lemma try_facts w32 p fs bs ms s j rs e s' : bs = concat (map frame fs) -> Forall (fun f => 1 + nlen (snd f) < 2 ^ 32)%N fs -> dstream bs = Some ms ->
  try_of w32 p bs s j rs e s' ->
  exists n tr, serve p [] (firstn n ms) tr /\ s' = play tr s /\ (n <= List.length ms)%nat /\
    ((exists x, e = Some (CDeadline x)) -> n = 0%nat) /\
    (forall i x, nth_error rs i = Some (Some x) -> exists t, nth_error tr i = Some t /\ ~ executed t) /\
    (forall i, nth_error rs i = Some None -> e = None \/ (S i < List.length rs)%nat -> exists t, nth_error tr i = Some t /\ executed t) /\
    (forall i m, nth_error ms i = Some m -> nth_error ms (S i) = Some MExpectClose -> List.length ms = S (S i) -> (j + 5 < List.length bs)%nat -> (n <= i)%nat).
Proof.
  intros Eb Hf Hm (d & c & c' & handled & tr & ps & missing & H1 & H2 & H3 & H4 & H5 & H6 & H7). rewrite Eb in H1.
  destruct (send_cases w32 d fs c rs e c' Hf H1) as [(G & -> & x & ->)|G'].
  - rewrite G, firstn_nil in H2. injection H2 as <-. exists 0%nat, tr. cbn [firstn]. split; [exact H3|]. split; [exact H4|]. split; [lia|]. split; [reflexivity|]. split; [intros [|i] ? X; discriminate X|]. split; [intros [|i] X; discriminate X|]. intros. lia.
  - assert (G : given c c' = bs) by (rewrite Eb; destruct G' as [[G _]|[G _]]; exact G). rewrite G in H2. destruct (arrived j bs ms handled Hm H2) as (rest & -> & R).
    exists (List.length handled), tr. rewrite firstn_app, Nat.sub_diag, firstn_all. cbn [firstn]. rewrite app_nil_r. split; [exact H3|]. split; [exact H4|]. split; [rewrite app_length; lia|]. split.
    { intros [x ->]. exfalso. destruct G' as [(_ & _ & y & Y)|(_ & q & Q)]; [discriminate|]. exact (areads_other _ _ _ _ _ _ _ Q). }
    split.
    { intros i x Hi. destruct G' as [(_ & -> & _)|(_ & q & Q)]; [destruct i; discriminate|].
      destruct (areads_error w32 (ended (rd c)) tr ps H5 _ _ missing rs e q H7 H6 Q i x Hi) as (t & T1 & T2). exists t. split; [exact T1|]. intros X. apply T2 in X. discriminate. }
    split.
    { intros i Hi Hc. destruct G' as [(_ & -> & _)|(_ & q & Q)]; [destruct i; discriminate|].
      destruct (areads_truth w32 (ended (rd c)) tr ps H5 _ _ missing rs e q H7 H6 Q) as [_ T]. destruct (T i None Hi Hc) as (t & T1 & T2). exists t. split; [exact T1|]. apply T2. reflexivity. }
    intros i m Hi Hl Ll Hj. destruct (Nat.le_gt_cases (List.length handled) i) as [L|L]; [exact L|exfalso].
    rewrite app_length in Ll. assert (C : rest = [] \/ rest = [MExpectClose]).
    { destruct rest as [|r [|r' rest]]; cbn [List.length] in Ll; [auto| |lia]. right. rewrite nth_error_app2 in Hl by lia. replace (S i - List.length handled)%nat with 0%nat in Hl by lia. cbn in Hl. congruence. }
    destruct C as [->| ->].
    + assert (skipn j bs = []). { unfold dstream in R. destruct (dframes (skipn j bs)) as [fr|] eqn:F; [|discriminate]. cbn [obind] in R. apply dframes_framed in F. destruct (ShapeProofs.framed_frame _ _ F) as [-> _]. destruct fr as [|g fr]; [reflexivity|]. cbn [omap] in R. destruct (dmsg _ _); [|discriminate]. cbn [obind] in R. destruct (omap _ fr); discriminate. }
      apply (f_equal (@List.length _)) in H. rewrite skipn_length in H. cbn in H. lia.
    + apply close_length in R. rewrite skipn_length in R. lia.
Qed.

(* The unit as it is on the wire. *)
Lemma unit_wire (E : Env) b context cs level body bs : empty b -> Forall prepares cs -> prog_ok word32 (unit_of_work context cs level body) -> delivers b (unit_of_work context cs level body) bs -> (nlen bs < 2 ^ 32)%N ->
  exists fs, dframes_k (List.length bs) bs = Some fs /\ bs = concat (map frame fs) /\ Forall (fun f => 1 + nlen (snd f) < 2 ^ 32)%N fs.
Proof.
  intros He Hc Hok Hd Hl. destruct (unit_delivered E b context cs level body bs He Hc Hok Hd Hl) as (l & prepared & inner & ids & out & _ & _ & _ & A & _).
  unfold dstream in A. destruct (dframes bs) as [fs|] eqn:F; [|discriminate]. apply dframes_framed in F. exists fs. split; [apply F|]. apply ShapeProofs.framed_frame. exact F.
Qed.

Lemma unit_length context prepared l inner : List.length (unit_messages context prepared l inner) = S (S (1 + List.length prepared + List.length l + List.length inner)).
Proof. unfold unit_messages. cbn [List.length]. rewrite !app_length, map_length. cbn. lia. Qed.
Lemma unit_last context prepared l inner : let pos := (1 + List.length prepared + List.length l + List.length inner)%nat in
  nth_error (unit_messages context prepared l inner) pos = Some commit /\ nth_error (unit_messages context prepared l inner) (S pos) = Some MExpectClose.
Proof.
  cbv zeta. assert (G : forall (a : list msg) x y, nth_error (a ++ [x; y]) (List.length a) = Some x /\ nth_error (a ++ [x; y]) (S (List.length a)) = Some y).
  { induction a as [|z a IH]; intros x y; [split; reflexivity|]. exact (IH x y). }
  specialize (G (MExpectOpen context [no_error_1] :: prepared ++ map statement l ++ inner) commit MExpectClose). cbn [List.length app] in G. rewrite <- !app_assoc in G.
  replace (List.length (prepared ++ map statement l ++ inner)) with (List.length prepared + List.length l + List.length inner)%nat in G by (rewrite !app_length, map_length; lia). exact G.
Qed.

(* What a try does, in numbers: n messages of ms were handled. *)
Definition try_told (p : bool) (bs : bytes) (ms : list msg) (s : session) (j : nat) (rs : list response) (e : option cerr) (s' : session) : Prop :=
  exists n tr, serve p [] (firstn n ms) tr /\ s' = play tr s /\ (n <= List.length ms)%nat /\
    ((exists x, e = Some (CDeadline x)) -> n = 0%nat) /\
    (forall i x, nth_error rs i = Some (Some x) -> exists t, nth_error tr i = Some t /\ ~ executed t) /\
    (forall i, nth_error rs i = Some None -> e = None \/ (S i < List.length rs)%nat -> exists t, nth_error tr i = Some t /\ executed t) /\
    (forall i m, nth_error ms i = Some m -> nth_error ms (S i) = Some MExpectClose -> List.length ms = S (S i) -> (j + 5 < List.length bs)%nat -> (n <= i)%nat).

Lemma told_result p bs context prepared lv st inner s j rs e s' :
  Forall (fun m => exists id q, m = MPrepare id q) prepared -> Forall is_level lv -> effect_of (statement st) = Begins -> Forall plain inner -> strict inner -> p = true \/ Forall ordinary inner -> in_progress s = None ->
  try_told p bs (unit_messages context prepared (lv ++ [st]) inner) s j rs e s' -> let position := (1 + List.length prepared + List.length (lv ++ [st]) + List.length inner)%nat in
  (surely_undone bs position j rs e -> durable s' = durable s) /\ (surely_done position rs e -> s' = mksess None (durable s ++ changes inner)) /\
  (durable s' = durable s \/ s' = mksess None (durable s ++ changes inner)).
Proof.
  intros Hp Hl Hs Hi Hst Hpr Hn T. cbv zeta. set (pos := (1 + List.length prepared + List.length (lv ++ [st]) + List.length inner)%nat). set (ms := unit_messages context prepared (lv ++ [st]) inner) in *.
  destruct T as (n & tr & S1 & -> & Ln & F1 & F2 & F3 & F4).
  destruct (serve_extend _ _ _ _ S1 (skipn n ms)) as [more X]. rewrite firstn_skipn in X. pose proof (serve_msgs _ _ _ _ S1) as Mtr. pose proof (serve_length _ _ _ _ S1) as Ltr. rewrite firstn_length in Ltr.
  pose proof (serve_length _ _ _ _ X) as Lx. rewrite app_length in Lx. assert (Lms : List.length ms = S (S pos)) by apply unit_length.
  assert (P : pending s = []) by (unfold pending; rewrite Hn; reflexivity).
  pose proof (unit_played p context prepared lv st inner (tr ++ more) s Hp Hl Hs Hi Hst Hpr X) as W. cbv zeta in W. fold pos in W. destruct W as [(W1 & W2 & W3 & _)|(o & W1 & W2 & W3)].
  - rewrite P in W3. cbn [app] in W3. pose proof W2 as W2'. apply Forall_app in W2' as [Wt _].
    assert (U : (n <= pos)%nat -> durable (play tr s) = durable s) by (intros Lp; exact (before_commit tr prepared lv st inner n context s Hp Hl Hs Hi Hn Lp Mtr Wt)).
    assert (D : (S pos <= n)%nat -> play tr s = mksess None (durable s ++ changes inner)).
    { intros Lp. rewrite <- W3, play_app. symmetry. apply play_nothing. pose proof (serve_msgs _ _ _ _ X) as Mm. rewrite map_app, Mtr in Mm. fold ms in Mm. rewrite <- (firstn_skipn n ms) in Mm at 2. apply app_inv_head in Mm.
      apply (Forall_map fst (fun m => effect_of m = Nothing \/ effect_of m = SetsLevel)). rewrite Mm. destruct (unit_last context prepared (lv ++ [st]) inner) as [_ U2]. fold pos ms in U2.
      destruct (Nat.eq_dec n (S pos)) as [->|]; [|rewrite skipn_all2 by lia; constructor].
      assert (Sk : skipn (S pos) ms = [MExpectClose]); [|rewrite Sk; constructor; [left; reflexivity|constructor]].
      assert (L1 : List.length (skipn (S pos) ms) = 1%nat) by (rewrite skipn_length; lia).
      rewrite <- (firstn_skipn (S pos) ms), nth_error_app2, firstn_length in U2 by (rewrite firstn_length; lia). replace (S pos - Init.Nat.min (S pos) (List.length ms))%nat with 0%nat in U2 by lia.
      destruct (skipn (S pos) ms) as [|m [|m' r]]; cbn in L1; try discriminate L1. cbn in U2. congruence. }
    split; [|split].
    + intros [V|[(i & x & _ & V)|V]].
      * apply U. rewrite (F1 V). lia.
      * exfalso. destruct (F2 i x V) as (t & T1 & T2). apply T2. rewrite Forall_forall in Wt. apply Wt. exact (nth_error_In _ _ T1).
      * apply U. destruct (unit_last context prepared (lv ++ [st]) inner) as [U1 U2]. fold pos ms in U1, U2. exact (F4 pos commit U1 U2 Lms V).
    + intros [V1 V2]. destruct (F3 pos V1 V2) as (t & T1 & _). apply D. apply nth_error_lt in T1. lia.
    + destruct (Nat.le_gt_cases n pos) as [C|C]; [left; auto|right; apply D; lia].
  - assert (U : durable (play tr s) = durable s).
    { apply (durable_stays tr more). destruct W3 as [[(q & unmade & _ & ->) _]| ->]; [cbn; rewrite P; apply app_nil_r|reflexivity]. }
    split; [auto|]. split; [|auto]. intros [V1 V2]. exfalso. destruct (F3 pos V1 V2) as ([m o'] & T1 & T2). unfold executed in T2. cbn in T2. subst o'.
    rewrite nth_error_app1 in W1 by exact (nth_error_lt _ _ _ T1). congruence.
Qed.

Lemma try_result w32 p bs fs context prepared lv st inner s j rs e s' :
  bs = concat (map frame fs) -> Forall (fun f => 1 + nlen (snd f) < 2 ^ 32)%N fs -> dstream bs = Some (unit_messages context prepared (lv ++ [st]) inner) ->
  Forall (fun m => exists id q, m = MPrepare id q) prepared -> Forall is_level lv -> effect_of (statement st) = Begins -> Forall plain inner -> strict inner -> p = true \/ Forall ordinary inner -> in_progress s = None ->
  try_of w32 p bs s j rs e s' -> let position := (1 + List.length prepared + List.length (lv ++ [st]) + List.length inner)%nat in
  (surely_undone bs position j rs e -> durable s' = durable s) /\ (surely_done position rs e -> s' = mksess None (durable s ++ changes inner)) /\
  (durable s' = durable s \/ s' = mksess None (durable s ++ changes inner)).
Proof. intros Eb Hf Hm Hp Hl Hs Hi Hst Hpr Hn T. apply (told_result p bs context); try assumption. exact (try_facts w32 p fs bs _ s j rs e s' Eb Hf Hm T). Qed.

(* C108: whatever becomes of the connection, all changes of the unit are durable or none; and there are results from which one knows which. *)
Theorem C108_what_the_result_tells_partial : forall (E : Env) b context cs level body bs, empty b -> Forall prepares cs ->
  prog_ok word32 (unit_of_work context cs level body) -> delivers b (unit_of_work context cs level body) bs -> (nlen bs < 2 ^ 32)%N ->
  exists opening prepared inner ids out, tx_opening level = Some opening /\ Forall2 call_denotes cs prepared /\ prog_msgs body inner ids out /\
    dstream bs = Some (unit_messages context prepared opening inner) /\
    forall propagates s reached rs e s', Forall plain inner -> propagates = true \/ Forall ordinary inner -> in_progress s = None ->
      try_of word32 propagates bs s reached rs e s' ->
      let position := (1 + List.length prepared + List.length opening + List.length inner)%nat in
      (durable s' = durable s \/ durable s' = durable s ++ changes inner) /\
      (surely_undone bs position reached rs e -> durable s' = durable s) /\
      (surely_done position rs e -> durable s' = durable s ++ changes inner).
Proof.
  intros E b context cs level body bs He Hc Hok Hd Hl. destruct (unit_delivered E b context cs level body bs He Hc Hok Hd Hl) as (l & prepared & inner & ids & out & A1 & A2 & A3 & A4 & A5 & A6).
  destruct (unit_wire E b context cs level body bs He Hc Hok Hd Hl) as (fs & _ & F1 & F2).
  exists l, prepared, inner, ids, out. repeat (split; [assumption|]). intros p s j rs e s' Hi Hpr Hn T. destruct (opening_shape level l A1) as (lv & st & -> & B1 & B2 & _).
  destruct (try_result word32 p bs fs context prepared lv st inner s j rs e s' F1 F2 A4 A5 B1 B2 Hi A6 Hpr Hn T) as (R1 & R2 & R3). cbv zeta in *.
  split; [destruct R3 as [R3|R3]; [auto|right; rewrite R3; reflexivity]|]. split; [exact R1|]. intros D. rewrite (R2 D). reflexivity.
Qed.

(* C108: after any number of tries that surely did nothing, a last one that surely did the work leaves it done once. *)
Theorem C108_repeated_until_done_partial : forall (E : Env) b context cs level body bs, empty b -> Forall prepares cs ->
  prog_ok word32 (unit_of_work context cs level body) -> delivers b (unit_of_work context cs level body) bs -> (nlen bs < 2 ^ 32)%N ->
  exists opening prepared inner ids out, tx_opening level = Some opening /\ Forall2 call_denotes cs prepared /\ prog_msgs body inner ids out /\
    dstream bs = Some (unit_messages context prepared opening inner) /\
    forall propagates s s1 reached rs e s', Forall plain inner -> propagates = true \/ Forall ordinary inner -> in_progress s = None ->
      let position := (1 + List.length prepared + List.length opening + List.length inner)%nat in
      tries (try_of word32 propagates bs) (surely_undone bs position) s s1 ->
      durable s1 = durable s /\
      (try_of word32 propagates bs s1 reached rs e s' -> surely_done position rs e -> s' = mksess None (durable s ++ changes inner)).
Proof.
  intros E b context cs level body bs He Hc Hok Hd Hl. destruct (unit_delivered E b context cs level body bs He Hc Hok Hd Hl) as (l & prepared & inner & ids & out & A1 & A2 & A3 & A4 & A5 & A6).
  destruct (unit_wire E b context cs level body bs He Hc Hok Hd Hl) as (fs & _ & F1 & F2).
  exists l, prepared, inner, ids, out. repeat (split; [assumption|]). intros p s s1 j rs e s' Hi Hpr Hn. cbv zeta. intros T. destruct (opening_shape level l A1) as (lv & st & -> & B1 & B2 & _).
  pose proof (fun s j rs e s' Hn T => try_result word32 p bs fs context prepared lv st inner s j rs e s' F1 F2 A4 A5 B1 B2 Hi A6 Hpr Hn T) as R. cbv zeta in R.
  assert (G : durable s1 = durable s /\ in_progress s1 = None).
  { induction T as [s|s k r x s2 s3 T1 T2 T3 IH]; [auto|]. destruct (R s k r x s2 Hn T1) as (R1 & _ & _). specialize (R1 T2). specialize (IH eq_refl). cbn [gone durable] in IH. rewrite R1 in IH. exact IH. }
  destruct G as [G1 G2]. split; [exact G1|]. intros T1 T2. destruct (R s1 j rs e s' G2 T1) as (_ & R2 & _). rewrite (R2 T2), G1. reflexivity.
Qed.

(* ---- what the result does not tell ---- *)

Lemma dframe_head bs ty pl r : dframe bs = Some (ty, pl, r) -> exists a, bs = a ++ r /\ dframe a = Some (ty, pl, []).
Proof.
  unfold dframe. intros H. destruct (take 4 bs) as [[h r1]|] eqn:T1; [|discriminate]. cbn [obind] in H. destruct (1 <=? le h)%N eqn:Lh; [|discriminate].
  destruct (take (le h) r1) as [[f r2]|] eqn:T2; [|discriminate]. cbn [obind] in H. destruct f as [|t f]; [discriminate|]. injection H as -> -> ->.
  apply WireProofs.take_split in T1 as [-> N1]. apply WireProofs.take_split in T2 as [-> N2]. exists (h ++ ty :: pl). split; [rewrite <- app_assoc; reflexivity|].
  rewrite (WireProofs.take_exact h (ty :: pl) 4%N (eq_sym N1)). cbn [obind]. rewrite Lh. pose proof (WireProofs.take_exact (ty :: pl) [] (le h) (eq_sym N2)) as T3. rewrite app_nil_r in T3. rewrite T3. reflexivity.
Qed.

Lemma first_frames : forall n bs fs, dframes_k (List.length bs) bs = Some fs -> exists j, (j <= List.length bs)%nat /\ dframes_k (List.length (firstn j bs)) (firstn j bs) = Some (firstn n fs).
Proof.
  induction n as [|n IH]; intros bs fs H; [exists 0%nat; split; [lia|reflexivity]|]. destruct bs as [|x bs]; [injection H as <-; exists 0%nat; split; [lia|reflexivity]|].
  cbn [List.length dframes_k] in H. destruct (dframe (x :: bs)) as [[[ty pl] r]|] eqn:D; [|discriminate]. cbn [obind] in H. pose proof (WireProofs.dframe_shorter _ _ _ _ D) as Sh. cbn [List.length] in Sh.
  rewrite WireProofs.dframes_k_fuel in H by lia. destruct (dframes_k (List.length r) r) as [fr|] eqn:F; [|discriminate]. cbn [obind] in H. injection H as <-.
  destruct (IH r fr F) as (j & Lj & J). destruct (dframe_head _ _ _ _ D) as (a & Ea & Da). exists (List.length a + j)%nat. rewrite Ea. rewrite app_length. split; [lia|].
  rewrite firstn_app_2. pose proof (dframe_longer a (firstn j r) ty pl [] Da) as D2. cbn [app] in D2. destruct a as [|y a]; [discriminate Da|].
  cbn [app List.length dframes_k]. change (y :: a ++ firstn j r) with ((y :: a) ++ firstn j r). rewrite D2. cbn [obind]. rewrite WireProofs.dframes_k_fuel by (rewrite app_length; lia). rewrite J. reflexivity.
Qed.

Lemma omap_first {A B} (f : A -> option B) n : forall l r, omap f l = Some r -> omap f (firstn n l) = Some (firstn n r).
Proof.
  induction n as [|n IH]; intros [|x l] r H; cbn [omap firstn] in *; try (injection H as <-); try reflexivity.
  destruct (f x) as [y|]; [|discriminate]. cbn [obind] in *. destruct (omap f l) as [r'|] eqn:E; [|discriminate]. cbn [obind] in H. injection H as <-. rewrite (IH l r' E). reflexivity.
Qed.

(* The server can get any number of the first messages. *)
Lemma first_messages bs ms n : dstream bs = Some ms -> exists j, dstream (firstn j bs) = Some (firstn n ms).
Proof.
  unfold dstream. destruct (dframes bs) as [fs|] eqn:F; [|discriminate]. cbn [obind]. intros H. apply dframes_framed in F as [B F]. destruct (first_frames n bs fs F) as (j & _ & J). exists j.
  rewrite (WireProofs.framed_dframes (firstn j bs) (firstn n fs)); [apply omap_first; exact H|]. split; [apply Forall_some; exact B|exact J].
Qed.

Definition done (ms : list msg) : list (msg * outcome) := map (fun m => (m, Executed)) ms.

Lemma all_done p ms : balanced ms -> forall st rest tr, rejecting st = false -> serve p st rest tr -> serve p st (ms ++ rest) (done ms ++ tr).
Proof.
  intros B. induction B as [|m ms N1 N2 B IH|o body c ms Ho B1 IH1 Hc B2 IH2]; intros st rest tr Hr Hs; cbn [app done map].
  - exact Hs.
  - apply S_exec; [destruct m; cbn in *; tauto|exact Hr|]. apply IH; assumption.
  - destruct o; try contradiction. destruct c; try contradiction. apply S_open; [exact Hr|]. unfold done in *. rewrite map_app. cbn [map]. rewrite <- !app_assoc. cbn [app].
    apply IH1; [reflexivity|]. apply S_close; [reflexivity|]. apply IH2; assumption.
Qed.

Lemma serve_first p st a tr : serve p st a tr -> forall n, serve p st (firstn n a) (firstn n tr).
Proof.
  intros H. induction H; intros [|n]; cbn [firstn]; try apply S_done;
  [eapply S_skip|eapply S_exec|eapply S_fail|eapply S_open|eapply S_open_fail|eapply S_open_skip|eapply S_close|eapply S_close_failed|eapply S_close_none]; auto.
Qed.

Definition good : reply := mkreply [] (0%N, []).
Lemma good_answers w32 : answers w32 good None.
Proof. split; [constructor|]. split; [cbn; auto|]. constructor; [|constructor]. unfold fits. cbn. destruct w32; reflexivity. Qed.
Definition goods (n : nat) : bytes := concat (map reply_bytes (repeat good n)).

Lemma good_acknowledges w32 ms : Forall2 (acknowledges w32) (done ms) (repeat good (List.length ms)).
Proof. induction ms as [|m ms IH]; [constructor|]. cbn. constructor; [|exact IH]. exists None. split; [apply good_answers|]. split; reflexivity. Qed.

Lemma areads_goods w32 fin : forall n cts, (n < List.length cts)%nat -> ReplyProofs.areads w32 cts fin (goods n) = ((repeat None (S n), Some (CRead fin)), []).
Proof.
  induction n as [|n IH]; intros [|ct cts] L; cbn [List.length] in L; try lia; cbn [ReplyProofs.areads].
  - rewrite ConnProofs.aread_eq. reflexivity.
  - unfold goods. cbn [repeat map concat]. fold (goods n). rewrite (ReplyProofs.aread_reply w32 ct fin good None (goods n) (good_answers w32)). cbn [fst snd ReplyProofs.outcome]. rewrite IH by lia. reflexivity.
Qed.

Lemma goods_bytes n : is_bytes (goods n).
Proof. induction n as [|n IH]; [constructor|]. unfold goods. cbn [repeat map concat]. apply Forall_app. split; [|exact IH]. vm_compute. repeat constructor. Qed.

Lemma goods_app n k : goods (n + k) = goods n ++ goods k.
Proof. unfold goods. rewrite repeat_app, map_app, concat_app. reflexivity. Qed.

(* A try in which n good replies arrive before the connection ends. *)
Lemma some_try w32 p fs bs s handled n j fin k : bs = concat (map frame fs) -> Forall (fun f => 1 + nlen (snd f) < 2 ^ 32)%N fs -> (n < List.length fs)%nat ->
  dstream (firstn j bs) = Some handled -> serve p [] handled (done handled) -> List.length handled = (n + k)%nat ->
  try_of w32 p bs s j (repeat None (S n)) (Some (CRead fin)) (play (done handled) s).
Proof.
  intros Eb Hf Ln Hd Hs Lh. set (c := mkc Tcp (mkr [] [goods n] fin) [] [] []).
  destruct (ReplyProofs.send_spec w32 None fs c Hf) as (c' & A & _ & _ & _ & L & _); [split; reflexivity|]. cbv zeta in A.
  assert (U : unread c = goods n) by (unfold unread, ConnProofs.flat; cbn; apply app_nil_r). rewrite U in A. cbn [ended rd c] in A. rewrite areads_goods in A by (rewrite map_length; exact Ln). cbn [fst] in A.
  exists None, c, c', handled, (done handled), (repeat good (List.length handled)), (goods k). rewrite Eb in *. split; [exact A|]. split.
  { rewrite (given_app c c' _ L). cbn [rev map concat app]. rewrite app_nil_r. exact Hd. }
  split; [exact Hs|]. split; [reflexivity|]. split; [apply good_acknowledges|]. split; [rewrite U, <- goods_app, Lh; reflexivity|]. rewrite U. apply goods_bytes.
Qed.

Lemma done_facts p context prepared lv st inner s : Forall (fun m => exists id q, m = MPrepare id q) prepared -> Forall is_level lv -> effect_of (statement st) = Begins -> Forall plain inner -> strict inner -> p = true \/ Forall ordinary inner -> in_progress s = None ->
  balanced (unit_messages context prepared (lv ++ [st]) inner) ->
  let ms := unit_messages context prepared (lv ++ [st]) inner in
  serve p [] ms (done ms) /\ play (done ms) s = mksess None (durable s ++ changes inner) /\
  forall n, (n <= 1 + List.length prepared + List.length (lv ++ [st]) + List.length inner)%nat -> serve p [] (firstn n ms) (done (firstn n ms)) /\ durable (play (done (firstn n ms)) s) = durable s.
Proof.
  intros Hp Hl Hs Hi Hst Hpr Hn B ms. assert (S1 : serve p [] ms (done ms)).
  { pose proof (all_done p ms B [] [] [] eq_refl (S_done p [])) as A. rewrite !app_nil_r in A. exact A. }
  assert (Fx : forall l, Forall executed (done l)) by (intros l; unfold done; apply Forall_map, Forall_forall; reflexivity).
  split; [exact S1|]. split.
  - pose proof (unit_played p context prepared lv st inner (done ms) s Hp Hl Hs Hi Hst Hpr S1) as W. cbv zeta in W. destruct W as [(_ & _ & W & _)|(o & W1 & W2 & _)].
    + unfold pending in W. rewrite Hn in W. exact W.
    + exfalso. apply nth_error_In in W1. pose proof (Fx ms) as F. rewrite Forall_forall in F. specialize (F _ W1). unfold executed in F. cbn in F. congruence.
  - intros n Ln. split.
    + pose proof (serve_first _ _ _ _ S1 n) as S2. unfold done in *. rewrite firstn_map in S2. exact S2.
    + apply (before_commit _ prepared lv st inner n context s Hp Hl Hs Hi Hn Ln); [|apply Fx]. unfold done. rewrite map_map. cbn [fst]. apply map_id.
Qed.

(* C108: for every unit, for every number of replies up to the COMMIT's that arrive before the connection ends, and for every error it ends with: what Send returns is the same
   whether the work was done or not. *)
Theorem C108_result_may_not_tell_refuted : forall (E : Env) b context cs level body bs, empty b -> Forall prepares cs ->
  prog_ok word32 (unit_of_work context cs level body) -> delivers b (unit_of_work context cs level body) bs -> (nlen bs < 2 ^ 32)%N ->
  exists opening prepared inner ids out, tx_opening level = Some opening /\ Forall2 call_denotes cs prepared /\ prog_msgs body inner ids out /\
    dstream bs = Some (unit_messages context prepared opening inner) /\
    forall propagates s n fin, Forall plain inner -> propagates = true \/ Forall ordinary inner -> in_progress s = None ->
      let position := (1 + List.length prepared + List.length opening + List.length inner)%nat in
      (n <= position)%nat -> exists rs e reached1 reached2 s1 s2,
        rs = repeat None (S n) /\ e = Some (CRead fin) /\
        try_of word32 propagates bs s reached1 rs e s1 /\ durable s1 = durable s /\
        try_of word32 propagates bs s reached2 rs e s2 /\ durable s2 = durable s ++ changes inner.
Proof.
  intros E b context cs level body bs He Hc Hok Hd Hl. destruct (unit_delivered E b context cs level body bs He Hc Hok Hd Hl) as (l & prepared & inner & ids & out & A1 & A2 & A3 & A4 & A5 & A6).
  destruct (unit_wire E b context cs level body bs He Hc Hok Hd Hl) as (fs & F0 & F1 & F2). destruct (ThmBuilder.C15_expectation_blocks_balanced E b _ bs He Hok Hd Hl) as (ms' & M1 & M2). rewrite A4 in M1. injection M1 as <-.
  exists l, prepared, inner, ids, out. repeat (split; [assumption|]). intros p s n fin Hi Hpr Hn. cbv zeta. intros Ln. destruct (opening_shape level l A1) as (lv & st & -> & B1 & B2 & _).
  destruct (done_facts p context prepared lv st inner s A5 B1 B2 Hi A6 Hpr Hn M2) as (D1 & D2 & D3). set (ms := unit_messages context prepared (lv ++ [st]) inner) in *. destruct (D3 n Ln) as [D4 D5].
  assert (Lms : List.length ms = S (S (1 + List.length prepared + List.length (lv ++ [st]) + List.length inner))) by apply unit_length.
  assert (Lf : List.length fs = List.length ms).
  { unfold dstream in A4. destruct (dframes bs) as [fs'|] eqn:Fd; [|discriminate]. cbn [obind] in A4. apply dframes_framed in Fd as [_ Fd]. rewrite F0 in Fd. injection Fd as <-. clear - A4. revert A4. generalize ms. induction fs as [|f fs IH]; intros ms0 H; cbn [omap] in H; [injection H as <-; reflexivity|].
    destruct (dmsg _ _); [|discriminate]. cbn [obind] in H. destruct (omap _ fs); [|discriminate]. cbn [obind] in H. injection H as <-. cbn. f_equal. apply IH. reflexivity. }
  destruct (first_messages bs ms n A4) as (j & J).
  exists (repeat None (S n)), (Some (CRead fin)), j, (List.length bs), (play (done (firstn n ms)) s), (play (done ms) s). split; [reflexivity|]. split; [reflexivity|].
  split; [apply (some_try word32 p fs bs s (firstn n ms) n j fin 0 F1 F2 ltac:(lia) J D4); rewrite firstn_length; lia|]. split; [exact D5|].
  split; [|rewrite D2; reflexivity]. apply (some_try word32 p fs bs s ms n (List.length bs) fin (List.length ms - n) F1 F2 ltac:(lia)); [rewrite firstn_all; exact A4|exact D1|lia].
Qed.

Lemma some_write w32 p fs bs s handled j x : bs = concat (map frame fs) -> Forall (fun f => 1 + nlen (snd f) < 2 ^ 32)%N fs ->
  dstream (firstn j bs) = Some handled -> serve p [] handled (done handled) ->
  try_of w32 p bs s j [] (Some (CWrite x)) (play (done handled) s).
Proof.
  intros Eb Hf Hd Hs. set (c := mkc Tcp (mkr [] [] IoEOF) [] [Some x] []).
  exists None, c, (mkc Tcp (mkr [] [] IoEOF) [] [] [Write Tcp bs (Some x); SetDeadline Tcp None None]), handled, (done handled), (repeat good (List.length handled)), (goods (List.length handled)).
  split; [reflexivity|]. split; [|split; [exact Hs|split; [reflexivity|split; [apply good_acknowledges|split; [reflexivity|constructor]]]]].
  rewrite (given_app c _ [Write Tcp bs (Some x); SetDeadline Tcp None None]) by reflexivity. cbn [rev map concat app]. rewrite app_nil_r. exact Hd.
Qed.

Lemma areads_all w32 fin : forall cts, ReplyProofs.areads w32 cts fin (goods (List.length cts)) = ((repeat None (List.length cts), None), []).
Proof.
  induction cts as [|ct cts IH]; [reflexivity|]. cbn [List.length ReplyProofs.areads]. unfold goods. cbn [repeat map concat]. fold (goods (List.length cts)).
  rewrite (ReplyProofs.aread_reply w32 ct fin good None _ (good_answers w32)). cbn [fst snd ReplyProofs.outcome]. rewrite IH. reflexivity.
Qed.

Lemma whole_try w32 p fs bs s ms : bs = concat (map frame fs) -> Forall (fun f => 1 + nlen (snd f) < 2 ^ 32)%N fs -> List.length fs = List.length ms ->
  dstream bs = Some ms -> serve p [] ms (done ms) -> try_of w32 p bs s (List.length bs) (repeat None (List.length ms)) None (play (done ms) s).
Proof.
  intros Eb Hf Lf Hd Hs. set (c := mkc Tcp (mkr [] [goods (List.length ms)] IoEOF) [] [] []).
  destruct (ReplyProofs.send_spec w32 None fs c Hf) as (c' & A & _ & _ & _ & L & _); [split; reflexivity|]. cbv zeta in A.
  assert (U : unread c = goods (List.length ms)) by (unfold unread, ConnProofs.flat; cbn; apply app_nil_r). rewrite U in A. cbn [ended rd c] in A.
  replace (List.length ms) with (List.length (map fst fs)) in A by (rewrite map_length; exact Lf). rewrite areads_all in A. cbn [fst] in A. rewrite map_length, Lf in A.
  exists None, c, c', ms, (done ms), (repeat good (List.length ms)), []. rewrite Eb in *. split; [exact A|]. split.
  { rewrite (given_app c c' _ L). cbn [rev map concat app]. rewrite app_nil_r, firstn_all. exact Hd. }
  split; [exact Hs|]. split; [reflexivity|]. split; [apply good_acknowledges|]. split; [rewrite U; apply app_nil_r|]. rewrite U. apply goods_bytes.
Qed.

Lemma messages_frames bs fs ms : dframes_k (List.length bs) bs = Some fs -> dstream bs = Some ms -> List.length fs = List.length ms.
Proof.
  intros F0 A4. unfold dstream in A4. destruct (dframes bs) as [fs'|] eqn:Fd; [|discriminate]. cbn [obind] in A4. apply dframes_framed in Fd as [_ Fd]. rewrite F0 in Fd. injection Fd as <-. clear F0.
  revert ms A4. induction fs as [|f fs IH]; intros ms H; cbn [omap] in H; [injection H as <-; reflexivity|].
  destruct (dmsg _ _); [|discriminate]. cbn [obind] in H. destruct (omap _ fs); [|discriminate]. cbn [obind] in H. injection H as <-. cbn. f_equal. apply IH. reflexivity.
Qed.

(* C108: nor does an error of Write tell: the bytes that were not accepted may be the last message only. *)
Theorem C108_write_error_may_not_tell_refuted : forall (E : Env) b context cs level body bs, empty b -> Forall prepares cs ->
  prog_ok word32 (unit_of_work context cs level body) -> delivers b (unit_of_work context cs level body) bs -> (nlen bs < 2 ^ 32)%N ->
  exists opening prepared inner ids out, tx_opening level = Some opening /\ Forall2 call_denotes cs prepared /\ prog_msgs body inner ids out /\
    dstream bs = Some (unit_messages context prepared opening inner) /\
    forall propagates s x, Forall plain inner -> propagates = true \/ Forall ordinary inner -> in_progress s = None ->
      exists reached1 reached2 s1 s2,
        try_of word32 propagates bs s reached1 [] (Some (CWrite x)) s1 /\ durable s1 = durable s /\
        try_of word32 propagates bs s reached2 [] (Some (CWrite x)) s2 /\ durable s2 = durable s ++ changes inner /\ (reached1 < reached2 < List.length bs)%nat.
Proof.
  intros E b context cs level body bs He Hc Hok Hd Hl. destruct (unit_delivered E b context cs level body bs He Hc Hok Hd Hl) as (l & prepared & inner & ids & out & A1 & A2 & A3 & A4 & A5 & A6).
  destruct (unit_wire E b context cs level body bs He Hc Hok Hd Hl) as (fs & F0 & F1 & F2). destruct (ThmBuilder.C15_expectation_blocks_balanced E b _ bs He Hok Hd Hl) as (ms' & M1 & M2). rewrite A4 in M1. injection M1 as <-.
  exists l, prepared, inner, ids, out. repeat (split; [assumption|]). intros p s x Hi Hpr Hn. destruct (opening_shape level l A1) as (lv & st & -> & B1 & B2 & _).
  destruct (done_facts p context prepared lv st inner s A5 B1 B2 Hi A6 Hpr Hn M2) as (D1 & D2 & D3). set (ms := unit_messages context prepared (lv ++ [st]) inner) in *.
  set (pos := (1 + List.length prepared + List.length (lv ++ [st]) + List.length inner)%nat) in *.
  assert (Lms : List.length ms = S (S pos)) by apply unit_length.
  destruct (first_messages bs ms (S pos) A4) as (j & J). pose proof (serve_first _ _ _ _ D1 (S pos)) as S2. unfold done in S2. rewrite firstn_map in S2. fold (done (firstn (S pos) ms)) in S2.
  assert (Ed : play (done (firstn (S pos) ms)) s = mksess None (durable s ++ changes inner)).
  { rewrite <- D2. rewrite <- (firstn_skipn (S pos) ms) at 2. unfold done at 2. rewrite map_app, play_app. symmetry. apply play_nothing. apply Forall_map. cbn [fst].
    destruct (unit_last context prepared (lv ++ [st]) inner) as [_ U2]. fold pos ms in U2.
    assert (L1 : List.length (skipn (S pos) ms) = 1%nat) by (rewrite skipn_length; lia).
    rewrite <- (firstn_skipn (S pos) ms), nth_error_app2, firstn_length in U2 by (rewrite firstn_length; lia). replace (S pos - Init.Nat.min (S pos) (List.length ms))%nat with 0%nat in U2 by lia.
    destruct (skipn (S pos) ms) as [|m [|m' r]]; cbn in L1; try discriminate L1. cbn in U2. injection U2 as ->. constructor; [left; reflexivity|constructor]. }
  assert (Lj : (0 < j < List.length bs)%nat).
  { split; [destruct j; [|lia]; cbn [firstn] in J; destruct ms; [discriminate Lms|discriminate J]|].
    destruct (Nat.lt_ge_cases j (List.length bs)) as [L|L]; [exact L|]. rewrite firstn_all2 in J by exact L. rewrite A4 in J. assert (J' : List.length ms = List.length (firstn (S pos) ms)) by congruence. rewrite firstn_length in J'. lia. }
  exists 0%nat, j, (play (done []) s), (play (done (firstn (S pos) ms)) s).
  split; [apply (some_write word32 p fs bs s [] 0 x F1 F2); [reflexivity|constructor]|]. split; [reflexivity|].
  split; [apply (some_write word32 p fs bs s _ j x F1 F2 J S2)|]. split; [rewrite Ed; reflexivity|exact Lj].
Qed.

(* C108: so sending the unit again after such a result may do the work twice. *)
Theorem C108_done_twice_refuted : forall (E : Env) b context cs level body bs, empty b -> Forall prepares cs ->
  prog_ok word32 (unit_of_work context cs level body) -> delivers b (unit_of_work context cs level body) bs -> (nlen bs < 2 ^ 32)%N ->
  exists opening prepared inner ids out, tx_opening level = Some opening /\ Forall2 call_denotes cs prepared /\ prog_msgs body inner ids out /\
    dstream bs = Some (unit_messages context prepared opening inner) /\
    forall propagates s n fin, Forall plain inner -> propagates = true \/ Forall ordinary inner -> in_progress s = None ->
      let position := (1 + List.length prepared + List.length opening + List.length inner)%nat in
      (n <= position)%nat -> exists reached1 s1 reached2 rs s2,
        try_of word32 propagates bs s reached1 (repeat None (S n)) (Some (CRead fin)) s1 /\
        try_of word32 propagates bs (gone s1) reached2 rs None s2 /\ surely_done position rs None /\
        s2 = mksess None (durable s ++ changes inner ++ changes inner).
Proof.
  intros E b context cs level body bs He Hc Hok Hd Hl. destruct (unit_delivered E b context cs level body bs He Hc Hok Hd Hl) as (l & prepared & inner & ids & out & A1 & A2 & A3 & A4 & A5 & A6).
  destruct (unit_wire E b context cs level body bs He Hc Hok Hd Hl) as (fs & F0 & F1 & F2). destruct (ThmBuilder.C15_expectation_blocks_balanced E b _ bs He Hok Hd Hl) as (ms' & M1 & M2). rewrite A4 in M1. injection M1 as <-.
  exists l, prepared, inner, ids, out. repeat (split; [assumption|]). intros p s n fin Hi Hpr Hn. cbv zeta. intros Ln. destruct (opening_shape level l A1) as (lv & st & -> & B1 & B2 & _).
  destruct (done_facts p context prepared lv st inner s A5 B1 B2 Hi A6 Hpr Hn M2) as (D1 & D2 & _). set (ms := unit_messages context prepared (lv ++ [st]) inner) in *.
  assert (Lms : List.length ms = S (S (1 + List.length prepared + List.length (lv ++ [st]) + List.length inner))) by apply unit_length.
  pose proof (messages_frames bs fs ms F0 A4) as Lf.
  exists (List.length bs), (play (done ms) s), (List.length bs), (repeat None (List.length ms)), (play (done ms) (gone (play (done ms) s))).
  split; [apply (some_try word32 p fs bs s ms n (List.length bs) fin (List.length ms - n) F1 F2 ltac:(lia)); [rewrite firstn_all; exact A4|exact D1|lia]|].
  split; [exact (whole_try word32 p fs bs (gone (play (done ms) s)) ms F1 F2 Lf A4 D1)|].
  split; [split; [|left; reflexivity]; rewrite Lms; generalize (1 + List.length prepared + List.length (lv ++ [st]) + List.length inner)%nat; intros k; induction k as [|k IH]; [reflexivity|exact IH]|].
  destruct (done_facts p context prepared lv st inner (gone (play (done ms) s)) A5 B1 B2 Hi A6 Hpr eq_refl M2) as (_ & D4 & _). fold ms in D4. rewrite D4, D2. cbn [gone durable]. rewrite <- app_assoc. reflexivity.
Qed.

(* The hypotheses are met: the unit that inserts one row; after the START TRANSACTION was acknowledged the connection is gone, and the row is there or not; and sent again
   until it is acknowledged the row may be there twice. *)
Example retry_meets : exists bs inner, @delivers ThmBuilder.plain (new_pipe 0) ThmTx.one_row bs /\ prog_ok false ThmTx.one_row /\ (nlen bs < 2 ^ 32)%N /\
  dstream bs = Some (unit_messages 0 [] [s2b "START TRANSACTION"] inner) /\ Forall SpecSession.plain inner /\ Forall ordinary inner /\ changes inner = [insert_of "(3)"] /\
  exists r1 r2 s1 s2 r3 s3,
    try_of false true bs (mksess None []) r1 [None; None; None] (Some (CRead IoEOF)) s1 /\ durable s1 = [] /\
    try_of false true bs (mksess None []) r2 [None; None; None] (Some (CRead IoEOF)) s2 /\ durable s2 = [insert_of "(3)"] /\
    try_of false true bs (gone s2) r3 [None; None; None; None; None] None s3 /\ durable s3 = [insert_of "(3)"; insert_of "(3)"].
Proof.
  exists (sent_by ThmTx.one_row), [insert_of "(3)"]. split; [apply sent_by_frames; cbn; auto|]. split; [cbn; repeat split; try constructor; intros; repeat constructor|]. split; [vm_compute; reflexivity|]. split; [vm_compute; reflexivity|].
  split; [repeat constructor; left; vm_compute; reflexivity|]. split; [repeat constructor|]. split; [vm_compute; reflexivity|].
  assert (F : exists fs, dframes_k (List.length (sent_by ThmTx.one_row)) (sent_by ThmTx.one_row) = Some fs /\ sent_by ThmTx.one_row = concat (map frame fs) /\ Forall (fun f => 1 + nlen (snd f) < 2 ^ 32)%N fs).
  { eexists. split; [vm_compute; reflexivity|]. split; [vm_compute; reflexivity|]. repeat (constructor; [vm_compute; reflexivity|]). constructor. }
  destruct F as (fs & F0 & F1 & F2). set (bs := sent_by ThmTx.one_row) in *.
  assert (A4 : dstream bs = Some (map fst trace_b)) by (vm_compute; reflexivity).
  assert (D1 : serve true [] (map fst trace_b) (done (map fst trace_b))).
  { apply S_open; [reflexivity|]. repeat (apply S_exec; [exact I|reflexivity|]). apply S_close; [reflexivity|]. constructor. }
  pose proof (messages_frames bs fs _ F0 A4) as Lf. cbn [List.length trace_b map] in Lf.
  destruct (first_messages bs _ 2 A4) as (j & J). pose proof (serve_first _ _ _ _ D1 2) as S2. unfold done in S2. rewrite firstn_map in S2. fold (done (firstn 2 (map fst trace_b))) in S2.
  exists j, (List.length bs), (play (done (firstn 2 (map fst trace_b))) (mksess None [])), (play (done (map fst trace_b)) (mksess None [])), (List.length bs), (play (done (map fst trace_b)) (gone (play (done (map fst trace_b)) (mksess None [])))).
  split; [apply (some_try false true fs bs (mksess None []) _ 2 j IoEOF 0 F1 F2 ltac:(lia) J S2); reflexivity|]. split; [vm_compute; reflexivity|].
  split; [apply (some_try false true fs bs (mksess None []) (map fst trace_b) 2 (List.length bs) IoEOF 3 F1 F2 ltac:(lia)); [rewrite firstn_all; exact A4|exact D1|reflexivity]|]. split; [vm_compute; reflexivity|].
  split; [apply (whole_try false true fs bs _ (map fst trace_b) F1 F2 Lf A4 D1)|vm_compute; reflexivity].
Qed.

Print Assumptions C108_what_the_result_tells_partial.
Print Assumptions C108_repeated_until_done_partial.
Print Assumptions C108_result_may_not_tell_refuted.
Print Assumptions C108_write_error_may_not_tell_refuted.
Print Assumptions C108_done_twice_refuted.
