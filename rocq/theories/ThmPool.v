(* The connection pool: C37 - C41, C57. All statements are about every interleaving of any number of
   concurrent Send and Close calls. *)
From Coq Require Import List Arith Bool Lia.
From Verif Require Import Pool SpecPool PoolProofs.
Import ListNotations.

(* ---- C37: one user at a time ---- *)

Theorem C37_one_user : forall n s i j c, reachable n s -> holds s i c -> holds s j c -> i = j.
Proof.
  intros n s i j c R (p & b & Hi & Ip) (q & b' & Hj & Iq). destruct (inv_reachable _ _ R) as [I1 _ _ _]. specialize (I1 c). destruct (Nat.eq_dec i j) as [|Hne]; [assumption|].
  pose proof (held_twice _ _ _ _ _ _ _ _ Hne Hi Hj Ip Iq). unfold here in I1. destruct (c <? next s); lia.
Qed.
Theorem C37_used_is_not_idle : forall n s i c, reachable n s -> holds s i c -> ~ In c (idle s) /\ ~ is_closed s c.
Proof.
  intros n s i c R H. destruct (inv_reachable _ _ R) as [I1 _ _ _]. specialize (I1 c). assert (Ih : In c (held (calls s))) by (apply held_holds; eauto). apply cnt_in in Ih. unfold here in I1.
  split; intros K; [apply cnt_in in K|apply closings_in, cnt_in in K]; destruct (c <? next s); lia.
Qed.

(* ---- C38: at most size idle connections ---- *)

Theorem C38_idle_bounded : forall n s, reachable n s -> length (idle s) <= n /\ NoDup (idle s).
Proof.
  intros n s R. destruct (inv_reachable _ _ R) as [I1 I2 _ _]. destruct R as [acts R]. rewrite (size_run _ _ _ R) in I2. split; [exact I2|].
  apply (NoDup_count_occ Nat.eq_dec). intros c. specialize (I1 c). unfold here, cnt in I1. destruct (c <? next s); lia.
Qed.

(* ---- C39: failed connections are closed and never reused ---- *)

(* Every connection created is idle, in use, or closed, and only one of them. *)
Theorem C39_every_connection_accounted_for : forall n s c, reachable n s -> created s c ->
  (In c (idle s) /\ ~ (exists i, holds s i c) /\ ~ is_closed s c) \/
  (~ In c (idle s) /\ (exists i, holds s i c) /\ ~ is_closed s c) \/
  (~ In c (idle s) /\ ~ (exists i, holds s i c) /\ is_closed s c).
Proof.
  intros n s c R Hc. destruct (inv_reachable _ _ R) as [I1 _ _ I4]. specialize (I1 c). apply I4 in Hc. unfold here in I1. destruct (Nat.ltb_spec c (next s)); [|lia].
  rewrite <- held_holds, <- closings_in, !cnt_in. lia.
Qed.

(* No connection is closed twice. *)
Theorem C39_closed_once : forall n s, reachable n s -> NoDup (closings (history s)).
Proof.
  intros n s R. destruct (inv_reachable _ _ R) as [I1 _ _ _]. apply (NoDup_count_occ Nat.eq_dec). intros c. specialize (I1 c). unfold here, cnt in I1. destruct (c <? next s); lia. Qed.

Lemma split_log : forall (e x : event) es later earlier, e :: es = later ++ x :: earlier -> (later = [] /\ e = x /\ es = earlier) \/ exists l, later = e :: l /\ es = l ++ x :: earlier.
Proof. intros e x es later earlier H. destruct later as [|y l]; cbn in H; [injection H as -> ->; auto|injection H as -> ->; right; eauto]. Qed.

Lemma closed_log : forall s c i, In (Closed i c) (log s) -> is_closed s c.
Proof. intros s c i H. exists i. unfold history. apply -> in_rev. exact H. Qed.
Lemma emits_not_closed : forall s e c, inv s -> emits s e -> touches c e -> ~ is_closed s c.
Proof.
  intros s e c [I1 _ _ I4] He Ht Hc. apply closings_in, cnt_in in Hc. specialize (I1 c).
  assert (Z : cnt c (idle s) = 0 /\ cnt c (held (calls s)) = 0 /\ c < next s) by (unfold here in I1; destruct (Nat.ltb_spec c (next s)); lia). destruct Z as (Z1 & Z2 & Z3).
  assert (Zi : ~ In c (idle s)) by (rewrite cnt_in; lia). assert (Zh : ~ In c (held (calls s))) by (rewrite cnt_in; lia). rewrite held_holds in Zh.
  destruct e as [i c'|i|i c'|i c' ok|i c'|i c']; cbn in Ht, He; try subst c'.
  - destruct He as [q He]. apply Zi. rewrite He. left. reflexivity.
  - destruct Ht.
  - lia.
  - destruct He as [b He]. apply Zh. exists i, (SSend c), b. split; [exact He|left; reflexivity].
  - destruct He as [b He]. apply Zh. exists i, (SReturn c), b. split; [exact He|left; reflexivity].
  - destruct He as (p & b & He & Hp). apply Zh. exists i, p, b. split; [exact He|]. destruct Hp as [<-|[<-|[<-|[]]]]; left; reflexivity.
Qed.

(* After a connection was closed nothing happens to it any more. *)
Lemma dead_log : forall n s, reachable n s -> forall later i c earlier, log s = later ++ Closed i c :: earlier -> Forall (fun e => ~ touches c e) later.
Proof.
  intros n s R. pattern s. revert s R. apply reachable_ind.
  - intros [|? ?] i c ea H; discriminate.
  - intros a s s' R IH S later i c earlier L. destruct (step_spec _ _ _ S) as (es & Le & Es & _). rewrite Le in L. destruct Es as [->|(e & -> & He)]; [exact (IH _ _ _ _ L)|].
    destruct (split_log _ _ _ _ _ L) as [(Z1 & Z2 & Z3)|(l & Z1 & L')]; subst later; [constructor|]. constructor; [|exact (IH _ _ _ _ L')].
    intros T. apply (emits_not_closed s e c (inv_reachable _ _ R) He T). apply (closed_log s c i). rewrite L'. apply in_or_app. right. left. reflexivity.
Qed.
Lemma history_log : forall s h1 e h2, history s = h1 ++ e :: h2 -> log s = rev h2 ++ e :: rev h1.
Proof. intros s h1 e h2 H. unfold history in H. rewrite <- (rev_involutive (log s)), H, rev_app_distr. cbn. rewrite <- app_assoc. reflexivity. Qed.

Theorem C39_nothing_after_close : forall n s i c before after, reachable n s -> history s = before ++ Closed i c :: after ->
  Forall (fun e => ~ touches c e) after.
Proof.
  intros n s i c h1 h2 R H. apply history_log in H. pose proof (dead_log _ _ R _ _ _ _ H) as F. rewrite Forall_forall in *. intros e He. apply F. apply -> in_rev. exact He. Qed.

(* The Send that failed is about to close the connection, or has closed it. *)
Definition doomed (s : state) (i c : nat) : Prop := is_closed s c \/ exists b, nth_error (calls s) i = Some (SFail c, b).

Lemma closed_grows : forall a s s' c, step a s = Some s' -> is_closed s c -> is_closed s' c.
Proof.
  intros a s s' c S [i H]. destruct (step_spec _ _ _ S) as (es & Le & _). exists i. unfold history in *. apply -> in_rev. rewrite Le. apply in_or_app. right. apply in_rev. exact H. Qed.

Lemma doomed_step : forall a s s' i c, step a s = Some s' -> doomed s i c -> doomed s' i c.
Proof.
  intros a s s' i c S [D|[b D]]; [left; exact (closed_grows _ _ _ _ S D)|].
  assert (Dec : actor a = Some i \/ actor a <> Some i) by (destruct (actor a) as [j|]; [destruct (Nat.eq_dec j i) as [->|]; [auto|right; congruence]|right; discriminate]).
  destruct Dec as [A|A]; [|right; exact (other_call _ _ _ _ _ _ S A D)].
  left. unfold step in S. destruct (crashed s); [discriminate|].
  destruct a as [| |j|j|j|j|j ok|j ok|j|j|j]; cbn in A; try discriminate A; injection A as ->; rewrite D in S; try discriminate S; try (destruct (idle s); discriminate S).
  injection S as <-. exists i. unfold history, go. cbn. apply in_or_app. right. left. reflexivity.
Qed.
Lemma doomed_emits : forall s e i c, inv s -> doomed s i c -> emits s e -> touches c e -> exists j, e = Closed j c.
Proof.
  intros s e i c Hinv [D|[b D]] He Ht; [destruct (emits_not_closed _ _ _ Hinv He Ht D)|]. destruct Hinv as [I1 _ _ _]. specialize (I1 c).
  assert (Ih : In c (held (calls s))) by (apply held_holds; exists i, (SFail c), b; split; [exact D|left; reflexivity]). apply cnt_in in Ih.
  assert (Z : cnt c (idle s) = 0 /\ cnt c (held (calls s)) = 1 /\ c < next s) by (unfold here in I1; destruct (Nat.ltb_spec c (next s)); lia). destruct Z as (Z1 & Z2 & Z3).
  assert (Only : forall j p b', nth_error (calls s) j = Some (p, b') -> In c (holding p) -> p = SFail c).
  { intros j p b' Hj Ip. destruct (Nat.eq_dec i j) as [<-|Hne]; [congruence|]. pose proof (held_twice _ _ _ _ _ _ _ c Hne D Hj (or_introl eq_refl) Ip). lia. }
  destruct e as [j c'|j|j c'|j c' ok|j c'|j c']; cbn in Ht, He; try subst c'.
  - destruct He as [q He]. rewrite He, cnt_cons in Z1. destruct (Nat.eq_dec c c); lia.
  - destruct Ht.
  - lia.
  - destruct He as [b' He]. discriminate (Only _ _ _ He (or_introl eq_refl)).
  - destruct He as [b' He]. discriminate (Only _ _ _ He (or_introl eq_refl)).
  - eauto.
Qed.
Lemma failed_use : forall a s s' i c, step a s = Some s' -> log s' = Used i c false :: log s -> exists b, nth_error (calls s') i = Some (SFail c, b).
Proof.
  intros a s s' i c S L. unfold step in S. destruct (crashed s); [discriminate|].
  assert (No : forall l : list event, l <> Used i c false :: l) by (intros l E; apply (f_equal (@length event)) in E; cbn in E; lia).
  destruct a as [| |j|j|j|j|j ok|j ok|j|j|j]; split_step S; injection S as <-; cbn [go crash log app calls] in *; try (destruct (No _ L)); try discriminate L.
  injection L as -> ->. exists b. exact (nth_set_same _ _ _ _ _ E).
Qed.

Lemma fail_log : forall n s, reachable n s -> forall later i c earlier, log s = later ++ Used i c false :: earlier ->
  doomed s i c /\ Forall (fun e => touches c e -> exists j, e = Closed j c) later.
Proof.
  intros n s R. pattern s. revert s R. apply reachable_ind.
  - intros [|? ?] i c ea H; discriminate.
  - intros a s s' R IH S later i c earlier L. pose proof (inv_reachable _ _ R) as Hinv. destruct (step_spec _ _ _ S) as (es & Le & Es & _). rewrite Le in L.
    destruct Es as [->|(e & -> & He)].
    + destruct (IH _ _ _ _ L) as [D F]. split; [exact (doomed_step _ _ _ _ _ S D)|exact F].
    + destruct (split_log _ _ _ _ _ L) as [(Z1 & Z2 & Z3)|(l & Z1 & L')]; subst later; try subst e.
      * split; [right; exact (failed_use _ _ _ _ _ S Le)|constructor].
      * destruct (IH _ _ _ _ L') as [D F]. split; [exact (doomed_step _ _ _ _ _ S D)|]. constructor; [|exact F]. intros T. exact (doomed_emits _ _ _ _ Hinv D He T).
Qed.

(* After a Send on a connection failed nobody gets or uses the connection again: all that may still happen
   to it is Close. By the time the caller sees the error it is closed. *)
Theorem C39_failed_is_never_reused : forall n s i c before after, reachable n s -> history s = before ++ Used i c false :: after ->
  Forall (fun e => touches c e -> exists j, e = Closed j c) after /\
  ((exists o b, nth_error (calls s) i = Some (Returned o, b)) -> is_closed s c).
Proof.
  intros n s i c h1 h2 R H. apply history_log in H. destruct (fail_log _ _ R _ _ _ _ H) as [D F]. split.
  - rewrite Forall_forall in *. intros e He. apply F. apply -> in_rev. exact He.
  - intros (o & b & Ho). destruct D as [D|[b' D]]; [exact D|congruence].
Qed.

(* ---- C40: first in, first out ---- *)

(* The connections handed out are those put back, in the same order; those not handed out are idle. *)
Theorem C40_first_in_first_out : forall n s, reachable n s -> puts (history s) = takes (history s) ++ idle s.
Proof. intros n s R. exact (fifo _ (inv_reachable _ _ R)). Qed.

(* A Send dials only when nothing is idle. *)
Lemma none_log : forall n s, reachable n s -> forall later i earlier, log s = later ++ NoneIdle i :: earlier -> puts (rev earlier) = takes (rev earlier).
Proof.
  intros n s R. pattern s. revert s R. apply reachable_ind.
  - intros [|? ?] i ea H; discriminate.
  - intros a s s' R IH S later i earlier L. destruct (step_spec _ _ _ S) as (es & Le & Es & _). rewrite Le in L. destruct Es as [->|(e & -> & He)]; [exact (IH _ _ _ L)|].
    destruct (split_log _ _ _ _ _ L) as [(Z1 & Z2 & Z3)|(l & Z1 & L')]; subst later; try subst e; try subst earlier; [|exact (IH _ _ _ L')].
    cbn in He. pose proof (fifo _ (inv_reachable _ _ R)) as F. rewrite He, app_nil_r in F. exact F.
Qed.
Theorem C40_new_only_if_none_idle : forall n s i before after, reachable n s -> history s = before ++ NoneIdle i :: after -> puts before = takes before.
Proof. intros n s i h1 h2 R H. apply history_log in H. pose proof (none_log _ _ R _ _ _ H) as E. rewrite rev_involutive in E. exact E. Qed.

(* and a connection is created only by a Send that found none idle. *)
Lemma dial_log : forall n s, reachable n s ->
  (forall i b, nth_error (calls s) i = Some (SDial, b) -> exists later earlier, log s = later ++ NoneIdle i :: earlier) /\
  (forall later i c earlier, log s = later ++ Created i c :: earlier -> In (NoneIdle i) earlier).
Proof.
  intros n s R. pattern s. revert s R. apply reachable_ind.
  - split; [intros [|i] b H; discriminate|intros [|? ?] i c ea H; discriminate].
  - intros a s s' R [IH1 IH2] S. destruct (step_spec _ _ _ S) as (es & Le & Es & _).
    assert (Old : forall i, (exists later earlier, log s = later ++ NoneIdle i :: earlier) -> exists later earlier, log s' = later ++ NoneIdle i :: earlier).
    { intros i (x & y & E). exists (es ++ x), y. rewrite Le, E. apply app_assoc. }
    split.
    + intros i b Hi. destruct (new_calls _ _ _ _ _ S Hi) as [[[p b0] Hp]|(_ & [[_ K]|[_ K]])]; try discriminate K.
      assert (Dec : p = SDial \/ p <> SDial) by (destruct p; auto; right; discriminate). destruct Dec as [->|Hne]; [apply Old; eauto|].
      assert (A : actor a = Some i).
      { assert (Dec : actor a = Some i \/ actor a <> Some i) by (destruct (actor a) as [j|]; [destruct (Nat.eq_dec j i) as [->|]; [auto|right; congruence]|right; discriminate]). destruct Dec as [A|A]; [exact A|]. destruct (other_call _ _ _ _ _ _ S A Hp) as [b' Q]. congruence. }
      unfold step in S. destruct (crashed s); [discriminate|]. destruct a as [| |j|j|j|j|j ok|j ok|j|j|j]; cbn in A; try discriminate A; injection A as ->; rewrite Hp in S; split_step S; injection S as <-; cbn [go crash calls log app] in Hi |- *;
        try (rewrite (nth_set_same _ _ _ _ _ Hp) in Hi; try discriminate Hi; try (exists [], (log s); reflexivity)); try congruence.
      all: try (destruct ok; discriminate Hi).
    + intros later i c earlier L. rewrite Le in L. destruct Es as [->|(e & -> & He)]; [exact (IH2 _ _ _ _ L)|].
      destruct (split_log _ _ _ _ _ L) as [(Z1 & Z2 & Z3)|(l & Z1 & L')]; subst later; try subst e; try subst earlier; [|exact (IH2 _ _ _ _ L')].
      assert (P : exists b, nth_error (calls s) i = Some (SDial, b)).
      { unfold step in S. destruct (crashed s); [discriminate|]. assert (No : forall l : list event, l <> [Created i c] ++ l) by (intros l0 E; apply (f_equal (@length event)) in E; cbn in E; lia).
        destruct a as [| |j|j|j|j|j ok|j ok|j|j|j]; split_step S; injection S as <-; cbn [go crash log app] in Le; try (destruct (No _ Le)); try discriminate Le. injection Le as -> <-. eauto. }
      destruct P as [b P]. destruct (IH1 _ _ P) as (x & y & E). rewrite E. apply in_or_app. right. left. reflexivity.
Qed.
Theorem C40_created_after_none_idle : forall n s i c before after, reachable n s -> history s = before ++ Created i c :: after -> In (NoneIdle i) before.
Proof. intros n s i c h1 h2 R H. apply history_log in H. apply in_rev. exact (proj2 (dial_log _ _ R) _ _ _ _ H). Qed.

(* ---- C41: Close ---- *)

(* The promise: whatever is going on, Close returns nil only if afterwards every connection is closed, Send
   gives an error, and no call panics. *)
Definition close_keeps_promise (n : nat) : Prop := forall s, reachable n s ->
  crashed s = false /\
  (forall i b, nth_error (calls s) i = Some (Returned CloseNil, b) -> forall c, created s c -> is_closed s c).

(* A second Close panics. *)
Definition close_twice : list action := [CallClose; Default 0; CloseCh 0; CallClose; Receive 1; CloseCh 1].
Theorem C41_close_twice_panics_refuted : forall n, exists s, run close_twice (new_pool n) = Some s /\ crashed s = true.
Proof. intros n. eexists. split; [cbv; reflexivity|reflexivity]. Qed.

(* A Send whose reply arrives after Close panics, although the server accepted it. *)
Definition close_during_send : list action := [CallSend; Default 0; Dialled 0 true; CallClose; Default 1; CloseCh 1; Sent 0 true; Return 0].
Theorem C41_close_during_send_panics_refuted : forall n, exists s, run close_during_send (new_pool n) = Some s /\ crashed s = true /\ In (Used 0 0 true) (history s).
Proof. intros n. eexists. split; [cbv; reflexivity|]. split; [reflexivity|]. cbn. auto. Qed.

(* Close returns nil, and a connection put back meanwhile stays open. The next Send gets it, uses it, and panics. *)
Definition close_leaves_open : list action := [CallSend; Default 0; Dialled 0 true; Sent 0 true; CallClose; Default 1; Return 0; CloseCh 1].
Theorem C41_close_leaves_open_refuted : forall n, exists s, run close_leaves_open (new_pool (S n)) = Some s /\
  crashed s = false /\ nth_error (calls s) 1 = Some (Returned CloseNil, false) /\ created s 0 /\ ~ is_closed s 0 /\
  exists t, run [CallSend; Receive 2; Sent 2 true; Return 2] s = Some t /\ In (Used 2 0 true) (history t) /\ crashed t = true.
Proof.
  intros n. eexists. split; [cbv; reflexivity|]. split; [reflexivity|]. split; [reflexivity|]. split; [exists 0; cbn; auto|]. split.
  - intros [i H]. cbn in H. repeat (destruct H as [H|H]; [discriminate H|]). destruct H.
  - eexists. split; [cbv; reflexivity|]. split; [cbn; tauto|reflexivity].
Qed.

(* A Close whose context is done returns an error, closes the channel, and leaves the idle connections open;
   a later Close cannot finish either: it panics. *)
Definition cancelled_close : list action := [CallSend; Default 0; Dialled 0 true; Sent 0 true; Return 0; CallClose; Cancel 1; Done 1; CloseCh 1].
Theorem C41_cancelled_close_refuted : forall n, exists s, run cancelled_close (new_pool (S n)) = Some s /\ finished s /\ In 0 (idle s) /\ ~ is_closed s 0 /\
  exists t, run [CallClose; Receive 2; CloseConn 2; Receive 2; CloseCh 2] s = Some t /\ crashed t = true.
Proof.
  intros n. eexists. split; [cbv; reflexivity|]. split; [|split; [cbn; auto|split]].
  - intros i p b H. cbn in H. destruct i as [|[|i]]; cbn in H; try (injection H as <- _; eauto). destruct i; discriminate H.
  - intros [i H]. cbn in H. repeat (destruct H as [H|H]; [discriminate H|]). destruct H.
  - eexists. split; [cbv; reflexivity|reflexivity].
Qed.

Theorem C41_promise_refuted : forall n, ~ close_keeps_promise n.
Proof.
  intros n P. destruct (C41_close_twice_panics_refuted n) as (s & R & C). destruct (P s (ex_intro _ _ R)) as [C' _]. rewrite C in C'. discriminate. Qed.

(* What does hold. Nobody called Close: no panic, whatever the interleaving. *)
Theorem C41_no_close_no_panic : forall n acts s, ~ In CallClose acts -> run acts (new_pool n) = Some s -> crashed s = false /\ ch_closed s = false.
Proof.
  intros n acts s HN R.
  pose (P := fun t => crashed t = false /\ ch_closed t = false /\ forall i p b, nth_error (calls t) i = Some (p, b) -> ~ In p [KSelect; KFinish CloseNil; KFinish CtxError] /\ forall c, p <> KDrop c /\ forall o, p <> KFinish o).
  assert (Hs : P s).
  { apply (run_ind P (fun a => a <> CallClose)) with (acts := acts) (s := new_pool n); [|apply Forall_forall; intros a Ha ->; exact (HN Ha)| |exact R].
    - intros a t t' Ha (P1 & P2 & P3) S.
      assert (K3 : crashed t' = false /\ ch_closed t' = false).
      { unfold step in S. rewrite P1, P2 in S. destruct a as [| |j|j|j|j|j ok|j ok|j|j|j]; split_step S; injection S as <-; cbn [go crash crashed ch_closed]; auto; try (destruct (P3 _ _ _ E) as [_ Q]; destruct (Q 0) as [_ Q']; destruct (Q' _ eq_refl)). }
      destruct K3 as [K1 K2]. split; [exact K1|]. split; [exact K2|]. intros i p b Hi.
      destruct (new_calls _ _ _ _ _ S Hi) as [[[p0 b0] Hp]|(_ & [[_ K]|[K _]])]; [|injection K as -> ->; split; [cbn; intuition discriminate|intros c; split; [discriminate|discriminate]]|contradiction].
      pose proof (P3 _ _ _ Hp) as Q0.
      assert (Dec : actor a = Some i \/ actor a <> Some i) by (destruct (actor a) as [j|]; [destruct (Nat.eq_dec j i) as [->|]; [auto|right; congruence]|right; discriminate]).
      destruct Dec as [A|A]; [|destruct (other_call _ _ _ _ _ _ S A Hp) as [b' Q]; rewrite Q in Hi; injection Hi as <- _; exact Q0].
      unfold step in S. rewrite P1, P2 in S. destruct Q0 as [Q1 Q2].
      destruct a as [| |j|j|j|j|j ok|j ok|j|j|j]; cbn in A; try discriminate A; injection A as ->; rewrite Hp in S; split_step S; injection S as <-; cbn [go crash calls] in Hi;
        try (exfalso; apply Q1; cbn; tauto); try (exfalso; destruct (Q2 c) as [Q3 _]; exact (Q3 eq_refl)); try (exfalso; destruct (Q2 0) as [_ Q3]; exact (Q3 _ eq_refl));
        rewrite (nth_set_same _ _ _ _ _ Hp) in Hi; try destruct ok; injection Hi as <- _; (split; [cbn; intuition discriminate|intros c'; split; discriminate]).
    - split; [reflexivity|]. split; [reflexivity|]. intros [|i] p b H; discriminate. }
  destruct Hs as (H1 & H2 & _). auto.
Qed.

(* Close is called when no other call is running, none is made until it returns, and its context is not done:
   it closes every connection there is and returns nil. *)
Definition alone (i : nat) (a : action) : Prop := actor a = Some i.
Definition closing (s t : state) : Prop := exists p, calls t = calls s ++ [(p, false)] /\ crashed t = false /\ next t = next s /\
  ((p = KSelect /\ ch_closed t = false) \/ (exists c, p = KDrop c /\ ch_closed t = false) \/
   (p = KFinish CloseNil /\ ch_closed t = false /\ idle t = []) \/ (p = Returned CloseNil /\ ch_closed t = true /\ idle t = [])).

Lemma set_last : forall A (l : list A) x y, set_nth (length l) y (l ++ [x]) = l ++ [y].
Proof. induction l as [|z l IH]; intros x y; cbn; [reflexivity|]. rewrite IH. reflexivity. Qed.
Lemma nth_last : forall A (l : list A) x, nth_error (l ++ [x]) (length l) = Some x.
Proof. intros. rewrite nth_error_app2, Nat.sub_diag by lia. reflexivity. Qed.

Lemma closing_step : forall s a t t', alone (length (calls s)) a -> closing s t -> step a t = Some t' -> closing s t'.
Proof.
  intros s a t t' A (p & C & K & N & D) S. unfold alone in A. assert (Hn : nth_error (calls t) (length (calls s)) = Some (p, false)) by (rewrite C; apply nth_last).
  unfold step in S. rewrite K in S. unfold closing.
  destruct a as [| |j|j|j|j|j ok|j ok|j|j|j]; cbn in A; try discriminate A; injection A as ->; rewrite Hn in S;
    (destruct D as [(-> & D)|[(c & -> & D)|[(-> & D & D')|(-> & D & D')]]]); try discriminate S; try (rewrite D' in S; discriminate S);
    rewrite ?D, ?D' in S; split_step S; injection S as <-; cbn [go calls crashed next idle ch_closed]; rewrite C, set_last; eexists; (split; [reflexivity|]); (split; [exact K || reflexivity|]); (split; [exact N|]); eauto 10.
Qed.

Lemma no_holder : forall s t, closing s t -> finished s -> forall i c, holds t i c -> exists c', nth_error (calls t) (length (calls s)) = Some (KDrop c', false).
Proof.
  intros s t (p & C & _ & _ & D) F i c (q & b & Hi & Iq). rewrite C in Hi |- *. rewrite nth_last.
  destruct (Nat.lt_ge_cases i (length (calls s))) as [L|L].
  - rewrite nth_error_app1 in Hi by exact L. destruct (F _ _ _ Hi) as [o ->]. destruct Iq.
  - rewrite nth_error_app2 in Hi by exact L. destruct (i - length (calls s)) as [|k]; [|destruct k; discriminate]. injection Hi as -> _.
    destruct D as [(-> & _)|[(c' & -> & _)|[(-> & _)|(-> & _)]]]; try (destruct Iq; fail); eauto.
Qed.

Lemma closing_starts : forall s t, crashed s = false -> ch_closed s = false -> step CallClose s = Some t -> closing s t.
Proof. intros s t H1 H2 S. unfold step in S. rewrite H1 in S. injection S as <-. exists KSelect. cbn. auto 10. Qed.

Theorem C41_quiet_close_partial : forall n s acts t, reachable n s -> crashed s = false -> ch_closed s = false -> finished s ->
  Forall (alone (length (calls s))) acts -> run (CallClose :: acts) s = Some t -> finished t ->
  crashed t = false /\ nth_error (calls t) (length (calls s)) = Some (Returned CloseNil, false) /\
  (forall c, created s c <-> created t c) /\ (forall c, created t c -> is_closed t c).
Proof.
  intros n s acts t R H1 H2 F A H Ft. assert (Rt : reachable n t) by (destruct R as [x R]; exists (x ++ CallClose :: acts); rewrite run_app, R; exact H).
  cbn [run] in H. destruct (step CallClose s) as [s1|] eqn:S; [|discriminate].
  pose proof (run_ind (closing s) (alone (length (calls s))) (fun a u u' => closing_step s a u u') acts s1 t A (closing_starts _ _ H1 H2 S) H) as K.
  pose proof (no_holder _ _ K F) as NH. destruct K as (p & C & K & N & D).
  assert (Hn : nth_error (calls t) (length (calls s)) = Some (p, false)) by (rewrite C; apply nth_last). destruct (Ft _ _ _ Hn) as [o ->].
  destruct D as [(E & _)|[(c & E & _)|[(E & _)|(E & D & D')]]]; try discriminate E. injection E as ->.
  split; [exact K|]. split; [exact Hn|]. destruct (inv_reachable _ _ R) as [_ _ _ J]. destruct (inv_reachable _ _ Rt) as [I1 _ _ I4]. split.
  - intros c. rewrite J, I4, N. tauto.
  - intros c Hc. apply closings_in, cnt_in. specialize (I1 c). apply I4 in Hc. unfold here in I1. rewrite D', cnt_nil in I1. destruct (Nat.ltb_spec c (next t)); [|lia].
    assert (cnt c (held (calls t)) = 0); [|lia]. destruct (cnt c (held (calls t))) eqn:Z; [reflexivity|]. assert (In c (held (calls t))) as Ic by (apply cnt_in; lia). apply held_holds in Ic. destruct Ic as [i Ic].
    destruct (NH _ _ Ic) as [c' Hc']. congruence.
Qed.

(* Such a Close finishes: its own steps alone lead to the end. *)
Theorem C41_quiet_close_finishes : forall n s, reachable n s -> crashed s = false -> ch_closed s = false -> finished s ->
  exists acts t, Forall (alone (length (calls s))) acts /\ run (CallClose :: acts) s = Some t /\ finished t.
Proof.
  intros n s R H1 H2 F.
  assert (G : forall q u, calls u = calls s ++ [(KSelect, false)] -> crashed u = false -> ch_closed u = false -> idle u = q ->
    exists acts t, Forall (alone (length (calls s))) acts /\ run acts u = Some t /\ finished t).
  { induction q as [|c q IH]; intros u C K D Q.
    - exists [Default (length (calls s)); CloseCh (length (calls s))]. eexists. split; [repeat constructor|]. split.
      + cbn [run]. unfold step at 1. rewrite K, C, nth_last, Q, D. unfold step at 1. cbn [go crashed calls ch_closed idle]. rewrite K, C, set_last, nth_last, D. reflexivity.
      + intros i p b Hi. cbn [calls go] in Hi. rewrite set_last in Hi. destruct (Nat.lt_ge_cases i (length (calls s))) as [L|L].
        * rewrite nth_error_app1 in Hi by exact L. exact (F _ _ _ Hi).
        * rewrite nth_error_app2 in Hi by exact L. destruct (i - length (calls s)) as [|k]; [|destruct k; discriminate]. injection Hi as <- _. eauto.
    - set (i := length (calls s)) in *. set (v := go (go u i (KDrop c) false q [Taken i c]) i KSelect false q [Closed i c]).
      assert (Cv : calls v = calls s ++ [(KSelect, false)]) by (unfold v, go; cbn [calls]; rewrite C; unfold i; rewrite !set_last; reflexivity).
      destruct (IH v Cv K D eq_refl) as (acts & t & A & Ru & Ft). exists (Receive i :: CloseConn i :: acts), t. split; [repeat constructor; exact A|]. split; [|exact Ft].
      cbn [run]. unfold step at 1. rewrite K, C. unfold i at 1. rewrite nth_last, Q. unfold step at 1. cbn [go crashed calls idle]. rewrite K, C. unfold i at 1 2. rewrite set_last, nth_last. fold i. exact Ru. }
  destruct (G (idle s) (mks (size s) (idle s) (ch_closed s) (next s) (calls s ++ [(KSelect, false)]) false (log s)) eq_refl eq_refl H2 eq_refl) as (acts & t & A & Ru & Ft).
  exists acts, t. split; [exact A|]. split; [|exact Ft]. cbn [run]. unfold step at 1. rewrite H1. exact Ru.
Qed.

(* After it, as long as Close is not called again: no panic, nothing is created, handed out or used, and every
   Send returns ErrPoolClosed or its context's error. *)
Definition shut (m : nat) (l : list event) (t : state) : Prop :=
  idle t = [] /\ ch_closed t = true /\ crashed t = false /\ log t = l /\
  (forall i p b, nth_error (calls t) i = Some (p, b) -> (exists o, p = Returned o) \/ p = SSelect) /\
  (forall i p b, m <= i -> nth_error (calls t) i = Some (p, b) -> In p [SSelect; Returned PoolClosed; Returned CtxError]) /\ m <= length (calls t).

Lemma shut_step : forall m l a t t', a <> CallClose -> shut m l t -> step a t = Some t' -> shut m l t'.
Proof.
  intros m l a t t' Ha (Q & D & K & L & P1 & P2 & M) S.
  assert (Calls : (idle t' = [] /\ ch_closed t' = true /\ crashed t' = false /\ log t' = l) /\
    (a = CallSend /\ calls t' = calls t ++ [(SSelect, false)] \/
     exists i p b p' b', nth_error (calls t) i = Some (p, b) /\ calls t' = set_nth i (p', b') (calls t) /\ (p' = p \/ (p = SSelect /\ In p' [Returned PoolClosed; Returned CtxError])))).
  { unfold step in S. rewrite K in S. destruct a as [| |j|j|j|j|j ok|j ok|j|j|j]; try contradiction;
      try (destruct (nth_error (calls t) j) as [[p b]|] eqn:Hj; [|discriminate S]; destruct (P1 _ _ _ Hj) as [[o ->]| ->]); rewrite ?Q, ?D in S; split_step S; try discriminate S; injection S as <-; cbn [go idle ch_closed crashed log calls app];
      (split; [auto|]); try (left; split; reflexivity); right; do 5 eexists; (split; [exact Hj|]); (split; [reflexivity|]); cbn; auto. }
  destruct Calls as ((Z1 & Z2 & Z3 & Z4) & Cs). split; [exact Z1|]. split; [exact Z2|]. split; [exact Z3|]. split; [exact Z4|].
  destruct Cs as [[_ ->]|(i & p & b & p' & b' & Hi & -> & Hp)].
  - split; [|split].
    + intros i p b H. destruct (Nat.lt_ge_cases i (length (calls t))) as [Li|Li]; [rewrite nth_error_app1 in H by exact Li; eauto|].
      rewrite nth_error_app2 in H by exact Li. destruct (i - length (calls t)) as [|k]; [|destruct k; discriminate]. injection H as <- _. auto.
    + intros i p b Hm H. destruct (Nat.lt_ge_cases i (length (calls t))) as [Li|Li]; [rewrite nth_error_app1 in H by exact Li; eauto|].
      rewrite nth_error_app2 in H by exact Li. destruct (i - length (calls t)) as [|k]; [|destruct k; discriminate]. injection H as <- _. cbn. auto.
    + rewrite app_length. lia.
  - split; [|split].
    + intros j q c H. rewrite nth_set in H. destruct (Nat.eq_dec i j) as [<-|]; [|eauto]. rewrite Hi in H. injection H as <- _. destruct Hp as [->|[_ [<-|[<-|[]]]]]; eauto.
    + intros j q c Hm H. rewrite nth_set in H. destruct (Nat.eq_dec i j) as [<-|]; [|eauto]. rewrite Hi in H. injection H as <- _. destruct Hp as [->|[_ [<-|[<-|[]]]]]; cbn; eauto. exact (P2 _ _ _ Hm Hi).
    + rewrite set_nth_length. exact M.
Qed.

Theorem C41_closed_pool_refuses_partial : forall n s acts t acts' u, reachable n s -> crashed s = false -> ch_closed s = false -> finished s ->
  Forall (alone (length (calls s))) acts -> run (CallClose :: acts) s = Some t -> finished t ->
  ~ In CallClose acts' -> run acts' t = Some u ->
  crashed u = false /\ history u = history t /\
  forall i o b, length (calls t) <= i -> nth_error (calls u) i = Some (Returned o, b) -> o = PoolClosed \/ o = CtxError.
Proof.
  intros n s acts t acts' u R H1 H2 F A H Ft HN Hu.
  assert (Sh : shut (length (calls t)) (log t) t).
  { cbn [run] in H. destruct (step CallClose s) as [s1|] eqn:S; [|discriminate].
    pose proof (run_ind (closing s) (alone (length (calls s))) (fun a v v' => closing_step s a v v') acts s1 t A (closing_starts _ _ H1 H2 S) H) as (p & C & K & N & D).
    assert (Hn : nth_error (calls t) (length (calls s)) = Some (p, false)) by (rewrite C; apply nth_last). destruct (Ft _ _ _ Hn) as [o ->].
    destruct D as [(E & _)|[(c & E & _)|[(E & _)|(E & D & D')]]]; try discriminate E.
    split; [exact D'|]. split; [exact D|]. split; [exact K|]. split; [reflexivity|]. split; [intros i p b Hi; left; exact (Ft _ _ _ Hi)|]. split; [|lia].
    intros i p b Hm Hi. apply nth_error_None in Hm. congruence. }
  pose proof (run_ind (shut (length (calls t)) (log t)) (fun a => a <> CallClose) (fun a v v' => shut_step _ _ a v v') acts' t u) as G.
  destruct (G ltac:(apply Forall_forall; intros a Ha ->; exact (HN Ha)) Sh Hu) as (_ & _ & K & L & _ & P2 & _).
  split; [exact K|]. split; [unfold history; rewrite L; reflexivity|]. intros i o b Hm Hi. destruct (P2 _ _ _ Hm Hi) as [E|[E|[E|[]]]]; try discriminate E; injection E as <-; auto.
Qed.

(* ---- C57: no call waits for another ---- *)

(* A call that has not returned can always make a step of its own. *)
Theorem C57_never_blocked : forall n s i p b, reachable n s -> crashed s = false -> nth_error (calls s) i = Some (p, b) -> (forall o, p <> Returned o) ->
  exists a s', actor a = Some i /\ step a s = Some s'.
Proof.
  intros n s i p b R H1 H Hp.
  assert (G : forall a, actor a = Some i -> step a s <> None -> exists a s', actor a = Some i /\ step a s = Some s') by (intros a Ha Hs; destruct (step a s) as [s'|] eqn:E; [eauto|contradiction]).
  destruct p; [| | | | | | | | |destruct (Hp _ eq_refl)].
  - destruct (idle s) as [|c q] eqn:Q; [destruct (ch_closed s) eqn:D; [|destruct b]|].
    + apply (G (Receive i)); [reflexivity|]. unfold step. rewrite H1, H, Q, D. discriminate.
    + apply (G (Done i)); [reflexivity|]. unfold step. rewrite H1, H. discriminate.
    + apply (G (Default i)); [reflexivity|]. unfold step. rewrite H1, H, Q, D. discriminate.
    + apply (G (Receive i)); [reflexivity|]. unfold step. rewrite H1, H, Q. discriminate.
  - apply (G (Dialled i false)); [reflexivity|]. unfold step. rewrite H1, H. discriminate.
  - apply (G (Sent i true)); [reflexivity|]. unfold step. rewrite H1, H. discriminate.
  - apply (G (CloseConn i)); [reflexivity|]. unfold step. rewrite H1, H. discriminate.
  - apply (G (Return i)); [reflexivity|]. unfold step. rewrite H1, H. destruct (ch_closed s); [discriminate|]. destruct (length (idle s) <? size s); discriminate.
  - apply (G (CloseConn i)); [reflexivity|]. unfold step. rewrite H1, H. discriminate.
  - destruct (idle s) as [|c q] eqn:Q; [destruct (ch_closed s) eqn:D; [|destruct b]|].
    + apply (G (Receive i)); [reflexivity|]. unfold step. rewrite H1, H, Q, D. discriminate.
    + apply (G (Done i)); [reflexivity|]. unfold step. rewrite H1, H. discriminate.
    + apply (G (Default i)); [reflexivity|]. unfold step. rewrite H1, H, Q, D. discriminate.
    + apply (G (Receive i)); [reflexivity|]. unfold step. rewrite H1, H, Q. discriminate.
  - apply (G (CloseConn i)); [reflexivity|]. unfold step. rewrite H1, H. discriminate.
  - apply (G (CloseCh i)); [reflexivity|]. unfold step. rewrite H1, H. destruct (ch_closed s); discriminate.
Qed.

(* A Send returns after at most five steps of its own, whatever the other calls do in between. *)
Definition mine (i : nat) (a : action) : bool := match actor a with Some j => i =? j | None => false end.
Definition rank (p : pc) : nat :=
  match p with SSelect => 5 | SDial => 4 | SSend _ => 3 | SReturn _ => 2 | SFail _ | SDrop _ => 1 | _ => 0 end.
Definition is_send (p : pc) : Prop :=
  match p with KSelect | KDrop _ | KFinish _ => False | _ => True end.

Lemma send_step : forall a s s' i p b, step a s = Some s' -> actor a = Some i -> nth_error (calls s) i = Some (p, b) -> is_send p ->
  1 <= rank p /\ (crashed s' = true \/ exists p' b', nth_error (calls s') i = Some (p', b') /\ is_send p' /\ rank p' + 1 <= rank p).
Proof.
  intros a s s' i p b S A H Hp. unfold step in S. destruct (crashed s); [discriminate|].
  destruct a as [| |j|j|j|j|j ok|j ok|j|j|j]; cbn in A; try discriminate A; injection A as ->; rewrite H in S; split_step S; try (destruct Hp; fail); injection S as <-; cbn [go crash calls crashed rank]; (split; [lia|]);
    try (left; reflexivity); right; do 2 eexists; (split; [exact (nth_set_same _ _ _ _ _ H)|]); (split; [try destruct ok; exact I|]); cbn [rank]; try destruct ok; cbn [rank]; lia.
Qed.
Lemma send_steps : forall acts s s' i p b, run acts s = Some s' -> nth_error (calls s) i = Some (p, b) -> is_send p -> length (filter (mine i) acts) <= rank p.
Proof.
  induction acts as [|a acts IH]; intros s s' i p b R H Hp; cbn [filter length]; [lia|]. cbn [run] in R. destruct (step a s) as [s1|] eqn:S; [|discriminate].
  destruct (mine i a) eqn:M.
  - assert (A : actor a = Some i) by (unfold mine in M; destruct (actor a) as [j|]; [apply Nat.eqb_eq in M; congruence|discriminate]). cbn [length].
    destruct (send_step _ _ _ _ _ _ S A H Hp) as [L [K|(p' & b' & H' & Hp' & L')]].
    + destruct acts as [|x acts]; [cbn; lia|]. cbn [run] in R. unfold step in R. rewrite K in R. discriminate.
    + specialize (IH _ _ _ _ _ R H' Hp'). lia.
  - assert (A : actor a <> Some i) by (intros A; unfold mine in M; rewrite A, Nat.eqb_refl in M; discriminate).
    destruct (other_call _ _ _ _ _ _ S A H) as [b' H']. exact (IH _ _ _ _ _ R H' Hp).
Qed.
Theorem C57_send_is_short : forall n s i b acts s', reachable n s -> nth_error (calls s) i = Some (SSelect, b) -> run acts s = Some s' -> length (filter (mine i) acts) <= 5.
Proof. intros n s i b acts s' _ H R. exact (send_steps _ _ _ _ _ _ R H I). Qed.

(* ---- C59: one exchange on one connection, reported as it was ---- *)

(* What a call has done by the time it is at p. *)
Definition done_at (i : nat) (p : pc) (h : list event) : Prop :=
  match p with
  | SSelect | SDial => exchanges i h = [] /\ obtained i h = []
  | SSend c => exchanges i h = [] /\ obtained i h = [c]
  | SFail c => exchanges i h = [(c, false)] /\ obtained i h = [c]
  | SReturn c | SDrop c => exchanges i h = [(c, true)] /\ obtained i h = [c]
  | KSelect | KDrop _ | KFinish CloseNil | KFinish CtxError | Returned CloseNil => exchanges i h = []
  | KFinish _ => False
  | Returned Responses => exists c, exchanges i h = [(c, true)] /\ obtained i h = [c]
  | Returned SendError => exists c, exchanges i h = [(c, false)] /\ obtained i h = [c]
  | Returned PoolClosed | Returned DialError => exchanges i h = [] /\ obtained i h = []
  | Returned CtxError => exchanges i h = []
  end.

Lemma exchanges_app : forall i a b, exchanges i (a ++ b) = exchanges i a ++ exchanges i b. Proof. intros. apply flat_map_app. Qed.
Lemma obtained_app : forall i a b, obtained i (a ++ b) = obtained i a ++ obtained i b. Proof. intros. apply flat_map_app. Qed.

Definition books (s : state) : Prop :=
  (forall i p b, nth_error (calls s) i = Some (p, b) -> done_at i p (history s)) /\
  (forall i, length (calls s) <= i -> exchanges i (history s) = [] /\ obtained i (history s) = []).

(* Events of another call do not count. *)
Lemma done_other : forall i p h es, exchanges i es = [] -> obtained i es = [] -> done_at i p h -> done_at i p (h ++ es).
Proof.
  intros i p h es E O. unfold done_at. rewrite exchanges_app, obtained_app, E, O, !app_nil_r. auto. Qed.

Lemma books_go : forall s i p b p' b' q es, books s -> nth_error (calls s) i = Some (p, b) ->
  (forall j, j <> i -> exchanges j (rev es) = [] /\ obtained j (rev es) = []) ->
  done_at i p' (history s ++ rev es) -> books (go s i p' b' q es).
Proof.
  intros s i p b p' b' q es [B1 B2] H He Hd. split.
  - intros j r c Hj. rewrite history_app. cbn [go calls] in Hj. destruct (Nat.eq_dec i j) as [<-|Hne].
    + rewrite (nth_set_same _ _ _ _ _ H) in Hj. injection Hj as <- <-. exact Hd.
    + rewrite nth_set_other in Hj by exact Hne. destruct (He j ltac:(auto)) as [E1 E2]. exact (done_other _ _ _ _ E1 E2 (B1 _ _ _ Hj)).
  - intros j Hj. cbn [go calls] in Hj. rewrite set_nth_length in Hj. rewrite history_app, exchanges_app, obtained_app. destruct (B2 j Hj) as [-> ->].
    apply He. intros ->. apply nth_error_None in Hj. congruence.
Qed.

Ltac notmine := intros; cbn; repeat match goal with |- context [?a =? ?b] => destruct (Nat.eqb_spec a b); [congruence|] end; split; reflexivity.
Ltac accounts B Hn := let D := fresh "D" in pose proof (proj1 B _ _ _ Hn) as D; cbn [done_at] in D |- *;
  rewrite ?exchanges_app, ?obtained_app; cbn [rev app exchanges obtained flat_map]; rewrite ?Nat.eqb_refl, ?app_nil_r;
  repeat match goal with H : _ /\ _ |- _ => destruct H end;
  repeat match goal with H : exchanges _ _ = _ |- _ => rewrite H end; repeat match goal with H : obtained _ _ = _ |- _ => rewrite H end; cbn [app]; eauto.

Lemma books_step : forall a s s', books s -> step a s = Some s' -> books s'.
Proof.
  intros a s s' B H. unfold step in H. destruct (crashed s) eqn:Hcr; [discriminate|].
  assert (New : forall p, (p = SSelect \/ p = KSelect) -> books (mks (size s) (idle s) (ch_closed s) (next s) (calls s ++ [(p, false)]) false (log s))).
  { intros p Hp. destruct B as [B1 B2]. unfold history in *. split; cbn [calls log].
    - intros i q b Hi. destruct (Nat.lt_ge_cases i (length (calls s))) as [L|L].
      + rewrite nth_error_app1 in Hi by exact L. exact (B1 _ _ _ Hi).
      + destruct (B2 i L) as [E1 E2]. rewrite nth_error_app2 in Hi by exact L. destruct (i - length (calls s)) as [|k]; cbn in Hi; [|destruct k; discriminate].
        injection Hi as <- <-. destruct Hp as [-> | ->]; cbn; auto.
    - intros i Hi. rewrite app_length in Hi. cbn in Hi. apply B2. lia. }
  destruct a as [| |i|i|i|i|i ok|i ok|i|i|i].
  - injection H as <-. apply New. auto.
  - injection H as <-. apply New. auto.
  - destruct (nth_error (calls s) i) as [[p b]|] eqn:Hn; [|discriminate]. injection H as <-. eapply books_go; [exact B|exact Hn|notmine|]. cbn [rev]. rewrite app_nil_r. exact (proj1 B _ _ _ Hn).
  - destruct (nth_error (calls s) i) as [[p b]|] eqn:Hn; [|discriminate].
    destruct p; try discriminate; destruct (idle s) as [|c q]; try discriminate; try (destruct (ch_closed s); try discriminate); injection H as <-;
      (eapply books_go; [exact B|exact Hn|notmine|accounts B Hn]).
  - destruct (nth_error (calls s) i) as [[p b]|] eqn:Hn; [|discriminate]. destruct p; try discriminate; destruct b; try discriminate; injection H as <-;
      (eapply books_go; [exact B|exact Hn|notmine|accounts B Hn]).
  - destruct (nth_error (calls s) i) as [[p b]|] eqn:Hn; [|discriminate]. destruct p; try discriminate; destruct b; try discriminate; destruct (idle s); try discriminate; destruct (ch_closed s); try discriminate; injection H as <-;
      (eapply books_go; [exact B|exact Hn|notmine|accounts B Hn]).
  - destruct (nth_error (calls s) i) as [[p b]|] eqn:Hn; [|discriminate]. destruct p; try discriminate. destruct ok; injection H as <-.
    + assert (G : books (go s i (SSend (next s)) b (idle s) [Created i (next s)])) by (eapply books_go; [exact B|exact Hn|notmine|accounts B Hn]). exact G.
    + eapply books_go; [exact B|exact Hn|notmine|accounts B Hn].
  - destruct (nth_error (calls s) i) as [[p b]|] eqn:Hn; [|discriminate]. destruct p; try discriminate. destruct ok; injection H as <-;
      (eapply books_go; [exact B|exact Hn|notmine|accounts B Hn]).
  - destruct (nth_error (calls s) i) as [[p b]|] eqn:Hn; [|discriminate]. destruct p; try discriminate; injection H as <-;
      (eapply books_go; [exact B|exact Hn|notmine|accounts B Hn]).
  - destruct (nth_error (calls s) i) as [[p b]|] eqn:Hn; [|discriminate]. destruct p; try discriminate. destruct (ch_closed s); [injection H as <-; exact B|].
    destruct (length (idle s) <? size s); injection H as <-; (eapply books_go; [exact B|exact Hn|notmine|accounts B Hn]).
  - destruct (nth_error (calls s) i) as [[p b]|] eqn:Hn; [|discriminate]. destruct p; try discriminate. destruct (ch_closed s); [injection H as <-; exact B|]. injection H as <-.
    assert (G : books (go s i (Returned o) b (idle s) [])) by (eapply books_go; [exact B|exact Hn|notmine|destruct o; accounts B Hn; try contradiction]).
    exact G.
Qed.

Lemma books_reachable : forall n s, reachable n s -> books s.
Proof.
  intros n. apply reachable_ind.
  - split; [intros [|i] p b H; discriminate H|intros; split; reflexivity].
  - intros a s s' _ B S. exact (books_step _ _ _ B S).
Qed.

(* Every call hands its unit to at most one connection, at most once: nothing is ever retried. *)
Theorem C59_at_most_once : forall n s i, reachable n s -> length (exchanges i (history s)) <= 1.
Proof.
  intros n s i R. pose proof (books_reachable _ _ R) as [B1 B2]. destruct (nth_error (calls s) i) as [[p b]|] eqn:E.
  - specialize (B1 _ _ _ E).
    assert (K : exchanges i (history s) = [] \/ exists x, exchanges i (history s) = [x]).
    { destruct p as [| | | | | | | |o|o]; try destruct o; cbn in B1; try contradiction; firstorder eauto. }
    destruct K as [-> | [x ->]]; cbn; lia.
  - apply nth_error_None in E. rewrite (proj1 (B2 i E)). cbn. lia.
Qed.

(* What a call returns is what happened: success exactly if its only exchange succeeded, on the only connection
   it got; the error of that exchange if it failed; and the other errors mean that nothing was sent. *)
Theorem C59_outcome_is_what_happened : forall n s i o b, reachable n s -> nth_error (calls s) i = Some (Returned o, b) ->
  match o with
  | Responses => exists c, exchanges i (history s) = [(c, true)] /\ obtained i (history s) = [c]
  | SendError => exists c, exchanges i (history s) = [(c, false)] /\ obtained i (history s) = [c]
  | PoolClosed | DialError => exchanges i (history s) = [] /\ obtained i (history s) = []
  | CtxError | CloseNil => exchanges i (history s) = []
  end.
Proof.
  intros n s i o b R H. pose proof (proj1 (books_reachable _ _ R) _ _ _ H) as D. destruct o; exact D. Qed.

(* The context's error is returned only if the context is done, and ErrPoolClosed only after a Close call
   closed the pool. *)
Definition founded (closed : bool) (t : pc * bool) : Prop :=
  match t with
  | (Returned CtxError, b) | (KFinish CtxError, b) => b = true
  | (Returned PoolClosed, _) => closed = true
  | _ => True
  end.
Lemma founded_set : forall closed i t l, founded closed t -> Forall (founded closed) l -> Forall (founded closed) (set_nth i t l).
Proof.
  intros closed i t l Ht. revert i. induction l as [|x l IH]; intros [|i] F; cbn; auto; inversion F; subst; constructor; auto. Qed.
Lemma founded_later : forall l, Forall (founded false) l -> Forall (founded true) l.
Proof.
  intros l. apply Forall_impl. intros [p b]. destruct p as [| | | | | | | |o|o]; try destruct o; cbn; auto. Qed.
Lemma founded_step : forall a s s', Forall (founded (ch_closed s)) (calls s) -> step a s = Some s' -> Forall (founded (ch_closed s')) (calls s').
Proof.
  intros a s s' F H. unfold step in H. destruct (crashed s) eqn:Hcr; [discriminate|].
  assert (Old : forall i t, nth_error (calls s) i = Some t -> founded (ch_closed s) t) by (intros i t Hi; apply nth_error_In in Hi; rewrite Forall_forall in F; auto).
  destruct a as [| |i|i|i|i|i ok|i ok|i|i|i]; split_step H; injection H as <-; cbn [go crash ch_closed calls]; try exact F;
  repeat match goal with Hn : nth_error (calls s) _ = Some _ |- _ => apply Old in Hn; cbn in Hn end;
  repeat match goal with Hc : ch_closed s = _ |- _ => rewrite Hc in * end;
  try (apply Forall_app; split; [exact F|constructor; [exact I|constructor]]);
  try (apply founded_set; [solve [reflexivity|exact I|assumption|destruct ok; exact I]|assumption]).
  all: try (apply founded_set; [|solve [exact F|apply founded_later; exact F]]).
  all: cbn in *; repeat match goal with |- context [match ?o with _ => _ end] => destruct o end; auto.
Qed.
Lemma flag_step : forall a s s' i p, step a s = Some s' -> nth_error (calls s') i = Some (p, true) ->
  a = Cancel i \/ exists p0, nth_error (calls s) i = Some (p0, true).
Proof.
  intros a s s' i p H Hi. unfold step in H. destruct (crashed s) eqn:Hcr; [discriminate|].
  assert (New : forall q, nth_error (calls s ++ [(q, false)]) i = Some (p, true) -> exists p0, nth_error (calls s) i = Some (p0, true)).
  { intros q Hq. destruct (Nat.lt_ge_cases i (length (calls s))) as [L|L]; [rewrite nth_error_app1 in Hq by exact L; eauto|].
    rewrite nth_error_app2 in Hq by exact L. destruct (i - length (calls s)) as [|k]; [discriminate|destruct k; discriminate]. }
  assert (Own : forall j p0 q b, nth_error (calls s) j = Some (p0, b) -> nth_error (set_nth j (q, b) (calls s)) i = Some (p, true) -> exists p0, nth_error (calls s) i = Some (p0, true)).
  { intros j p0 q b Hj Hq. destruct (Nat.eq_dec j i) as [->|Hne].
    - rewrite (nth_set_same _ _ _ _ _ Hj) in Hq. injection Hq as _ ->. eauto.
    - rewrite nth_set_other in Hq by exact Hne. eauto. }
  destruct a as [| |j|j|j|j|j ok|j ok|j|j|j]; split_step H; injection H as <-; cbn [go crash calls] in Hi; try (right; eapply New; exact Hi);
  try (right; eapply Own; [|exact Hi]; eassumption); try (right; eauto; fail).
  destruct (Nat.eq_dec j i) as [->|Hne]; [left; reflexivity|]. rewrite nth_set_other in Hi by exact Hne. right. eauto.
Qed.
Lemma closed_step : forall a s s', step a s = Some s' -> ch_closed s' = true -> (exists j, a = CloseCh j) \/ ch_closed s = true.
Proof.
  intros a s s' H Hc. unfold step in H. destruct (crashed s) eqn:Hcr; [discriminate|].
  destruct a as [| |j|j|j|j|j ok|j ok|j|j|j]; split_step H; injection H as <-; cbn [go crash ch_closed] in Hc; first [solve [eauto]|right; congruence].
Qed.
Lemma run_flags : forall n acts s, run acts (new_pool n) = Some s ->
  (forall i p, nth_error (calls s) i = Some (p, true) -> In (Cancel i) acts) /\ (ch_closed s = true -> exists j, In (CloseCh j) acts).
Proof.
  intros n acts. induction acts as [|a acts IH] using rev_ind; intros s H.
  - injection H as <-. split; [intros i p Hi; destruct i; discriminate Hi|discriminate].
  - rewrite run_app in H. destruct (run acts (new_pool n)) as [s1|] eqn:R; [|discriminate]. cbn in H. destruct (step a s1) as [s2|] eqn:S; [|discriminate]. injection H as <-.
    destruct (IH s1 eq_refl) as [I1 I2]. split.
    + intros i p Hi. apply in_or_app. destruct (flag_step _ _ _ _ _ S Hi) as [->|[p0 H0]]; [right; left; reflexivity|left; eapply I1; exact H0].
    + intros Hc. destruct (closed_step _ _ _ S Hc) as [[j ->]|H0]; [exists j; apply in_or_app; right; left; reflexivity|].
      destruct (I2 H0) as [j Hj]. exists j. apply in_or_app. left. exact Hj.
Qed.
Theorem C59_errors_are_founded : forall n acts s i b, run acts (new_pool n) = Some s ->
  (nth_error (calls s) i = Some (Returned CtxError, b) -> In (Cancel i) acts) /\
  (nth_error (calls s) i = Some (Returned PoolClosed, b) -> exists j, In (CloseCh j) acts).
Proof.
  intros n acts s i b Hr. assert (R : reachable n s) by (exists acts; exact Hr). assert (F : Forall (founded (ch_closed s)) (calls s)).
  { clear Hr. revert s R. apply reachable_ind; [constructor|]. intros a s s' _ F S. exact (founded_step _ _ _ F S). }
  destruct (run_flags n acts s Hr) as [F1 F2].
  rewrite Forall_forall in F. split; intros H; pose proof (F _ (nth_error_In _ _ H)) as Hf; cbn in Hf; [subst b; exact (F1 _ _ H)|exact (F2 Hf)].
Qed.

Lemma undialled_step : forall a t t' i p, step a t = Some t' -> nth_error (calls t) i = Some (p, true) -> p <> SDial ->
  (exists p', nth_error (calls t') i = Some (p', true) /\ p' <> SDial) /\ forall c, In (Created i c) (log t') -> In (Created i c) (log t).
Proof.
  intros a t t' i p H Hp Hne. unfold step in H. destruct (crashed t) eqn:Hcr; [discriminate|].
  assert (New : forall q, (exists p', nth_error (calls t ++ [(q, false)]) i = Some (p', true) /\ p' <> SDial))
    by (intros q; rewrite nth_error_app1 by (apply nth_error_Some; congruence); eauto).
  assert (Own : forall j q0 q b, nth_error (calls t) j = Some (q0, b) -> (b = true -> q <> SDial) -> (exists p', nth_error (set_nth j (q, b) (calls t)) i = Some (p', true) /\ p' <> SDial)).
  { intros j q0 q b Hj Hq. destruct (Nat.eq_dec j i) as [->|Hji].
    - rewrite (nth_set_same _ _ _ _ _ Hj). rewrite Hp in Hj. injection Hj as <- <-. eauto.
    - rewrite nth_set_other by exact Hji. eauto. }
  destruct a as [| |j|j|j|j|j ok|j ok|j|j|j]; split_step H; injection H as <-; cbn [go crash calls log];
    try (split; [apply New|auto]; fail);
    try (split; [eapply Own; [eassumption|]; intros; discriminate|intros c0 Hin; cbn in Hin; first [exact Hin|destruct Hin as [Ev|Ev]; [discriminate|exact Ev]]]; fail);
    try (split; [eauto|auto]; fail).
  - split; [|auto]. destruct (Nat.eq_dec j i) as [->|Hji]; [|rewrite nth_set_other by exact Hji; eauto].
    erewrite nth_set_same by eassumption. assert (p1 = p) by congruence. subst p1. eauto.
  - split; [|intros c0 [Ev|Ev]; [|exact Ev]].
    + eapply Own; [eassumption|]. intros; discriminate.
    + injection Ev as -> _. exfalso. congruence.
Qed.
(* A Send whose context is done before it looks for a connection makes no new one. *)
Theorem C59_done_context_never_dials : forall n s acts s' i, reachable n s -> nth_error (calls s) i = Some (SSelect, true) -> run acts s = Some s' ->
  forall c, In (Created i c) (history s') -> In (Created i c) (history s).
Proof.
  intros n s acts s' i _ H0 Hr c.
  assert (HP : (exists p, nth_error (calls s') i = Some (p, true) /\ p <> SDial) /\ (In (Created i c) (log s') -> In (Created i c) (log s))).
  { apply (run_ind (fun t => (exists p, nth_error (calls t) i = Some (p, true) /\ p <> SDial) /\ (In (Created i c) (log t) -> In (Created i c) (log s))) (fun _ => True)) with (acts := acts) (s := s);
      [|apply Forall_forall; auto|split; [exists SSelect; split; [exact H0|discriminate]|auto]|exact Hr].
    intros a t t' _ [(p & Hp & Hne) Hc] H. destruct (undialled_step _ _ _ _ _ H Hp Hne) as [U1 U2]. split; [exact U1|]. intros Hin. apply Hc. apply U2. exact Hin. }
  unfold history. intros Hin. apply in_rev in Hin. apply -> in_rev. exact (proj2 HP Hin).
Qed.

(* ---- Concrete runs ---- *)

(* A pool of one: two Sends at once, both dial, the second to finish finds the pool full and closes its
   connection; a third Send reuses the first, the server fails it. *)
Definition busy : list action :=
  [CallSend; CallSend; Default 0; Default 1; Dialled 0 true; Dialled 1 true; Sent 1 true; Sent 0 true; Return 1; Return 0; CloseConn 0;
   CallSend; Receive 2; Sent 2 false; CloseConn 2; CallSend; Default 3; Dialled 3 true; Sent 3 true; Return 3].
Example busy_runs : exists s, run busy (new_pool 1) = Some s /\ idle s = [2] /\ finished s /\ crashed s = false /\ ch_closed s = false /\
  history s = [NoneIdle 0; NoneIdle 1; Created 0 0; Created 1 1; Used 1 1 true; Used 0 0 true; PutBack 1 1; Closed 0 0; Taken 2 1; Used 2 1 false; Closed 2 1;
               NoneIdle 3; Created 3 2; Used 3 2 true; PutBack 3 2].
Proof.
  eexists. split; [vm_compute; reflexivity|]. split; [reflexivity|]. split; [|split; [reflexivity|split; reflexivity]].
  intros i p b H. cbn in H. destruct i as [|[|[|[|i]]]]; cbn in H; try (injection H as <- _; eauto). destruct i; discriminate H.
Qed.
Example busy_outcomes : exists s, run busy (new_pool 1) = Some s /\ map fst (calls s) = [Returned Responses; Returned Responses; Returned SendError; Returned Responses] /\
  exchanges 2 (history s) = [(1, false)] /\ obtained 2 (history s) = [1] /\ exchanges 3 (history s) = [(2, true)].
Proof. eexists. split; [cbv; reflexivity|]. cbv. auto. Qed.
(* A quiet Close of it, and a Send afterwards. *)
Example quiet_close_runs : exists s, run (busy ++ [CallClose; Receive 4; CloseConn 4; Default 4; CloseCh 4; CallSend; Receive 5]) (new_pool 1) = Some s /\
  nth_error (calls s) 5 = Some (Returned PoolClosed, false) /\ is_closed s 2 /\ Forall (alone 4) [Receive 4; CloseConn 4; Default 4; CloseCh 4].
Proof.
  eexists. split; [vm_compute; reflexivity|]. split; [reflexivity|]. split; [exists 4; cbn; tauto|repeat constructor]. Qed.
(* A Send that is cancelled before it looks for a connection, and one that meets a closed pool. *)
Example refused_runs : exists s s', run (busy ++ [CallSend; Cancel 4]) (new_pool 1) = Some s /\ nth_error (calls s) 4 = Some (SSelect, true) /\
  run [Done 4; CallClose; Receive 5; CloseConn 5; Default 5; CloseCh 5; CallSend; Receive 6] s = Some s' /\
  nth_error (calls s') 4 = Some (Returned CtxError, true) /\ nth_error (calls s') 6 = Some (Returned PoolClosed, false).
Proof. do 2 eexists. split; [vm_compute; reflexivity|]. split; [reflexivity|]. split; [vm_compute; reflexivity|]. split; reflexivity. Qed.
(* Two calls holding different connections. *)
Example two_users : exists s, run (firstn 6 busy) (new_pool 1) = Some s /\ holds s 0 0 /\ holds s 1 1.
Proof. eexists. split; [vm_compute; reflexivity|]. split; do 2 eexists; (split; [reflexivity|cbn; auto]). Qed.

Print Assumptions C37_one_user.
Print Assumptions C37_used_is_not_idle.
Print Assumptions C38_idle_bounded.
Print Assumptions C39_every_connection_accounted_for.
Print Assumptions C39_closed_once.
Print Assumptions C39_nothing_after_close.
Print Assumptions C39_failed_is_never_reused.
Print Assumptions C40_first_in_first_out.
Print Assumptions C40_new_only_if_none_idle.
Print Assumptions C40_created_after_none_idle.
Print Assumptions C41_close_twice_panics_refuted.
Print Assumptions C41_close_during_send_panics_refuted.
Print Assumptions C41_close_leaves_open_refuted.
Print Assumptions C41_cancelled_close_refuted.
Print Assumptions C41_promise_refuted.
Print Assumptions C41_no_close_no_panic.
Print Assumptions C41_quiet_close_partial.
Print Assumptions C41_quiet_close_finishes.
Print Assumptions C41_closed_pool_refuses_partial.
Print Assumptions C57_never_blocked.
Print Assumptions C57_send_is_short.
Print Assumptions C59_at_most_once.
Print Assumptions C59_outcome_is_what_happened.
Print Assumptions C59_errors_are_founded.
Print Assumptions C59_done_context_never_dials.
