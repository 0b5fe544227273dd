(* C40: idle connections take turns. C117: a pool holds no more connections than calls were in progress at once, and a pool of that size keeps
   every connection that works. *)
From Coq Require Import List Arith Bool Lia.
From Verif Require Import Pool SpecPool PoolProofs SpecPeak PeakProofs.
Import ListNotations.

(* In every interleaving, with failures, cancellations and Close: the connections that are open are at most
   as many as the calls that were in progress at the busiest moment so far. *)
Theorem C117_open_at_most_busiest : forall m n acts s l, at_most m n acts -> run acts (new_pool n) = Some s -> open s l -> length l <= m.
Proof.
  intros m n acts s l Hm H [Hd Ho]. pose proof (live_run _ _ _ _ Hm H) as L. unfold live in L. rewrite <- has_held in L.
  assert (I : incl l (idle s ++ held (calls s))).
  { intros c Hc. destruct (Ho c Hc) as [Cr Cl]. destruct (inv_reachable n s (ex_intro _ acts H)) as [I1 _ _ I4]. specialize (I1 c). apply I4 in Cr. unfold here in I1. destruct (Nat.ltb_spec c (next s)); [|lia].
    rewrite <- closings_in, cnt_in in Cl. apply in_or_app. rewrite !cnt_in. lia. }
  pose proof (NoDup_incl_length Hd I) as G. rewrite app_length in G. lia.
Qed.

(* When the pool is as big as that and nobody calls Close, a connection is closed only because an exchange on it failed. *)
Theorem C117_working_ones_are_kept : forall m n acts s i c, at_most m n acts -> m <= n -> ~ In CallClose acts ->
  run acts (new_pool n) = Some s -> In (Closed i c) (history s) -> In (Used i c false) (history s).
Proof. intros m n acts s i c Hm Hmn Hc H. apply (k_closed s). exact (kept_run _ _ _ _ Hmn Hm Hc H). Qed.

(* So all the Sends together dial no more often than that, and once more for each exchange that failed. *)
Theorem C117_dials : forall m n acts s l, at_most m n acts -> m <= n -> ~ In CallClose acts ->
  run acts (new_pool n) = Some s -> dialled s l -> length l <= m + failures (history s).
Proof.
  intros m n acts s l Hm Hmn Hc H [Hd Hl]. pose proof (live_run _ _ _ _ Hm H) as L. pose proof (book_run _ _ _ H) as B. destruct (kept_run _ _ _ _ Hmn Hm Hc H) as [_ _ K _]. unfold book in B. unfold live in L.
  assert (I : incl l (seq 0 (next s))).
  { intros c C. apply in_seq. destruct (inv_reachable n s (ex_intro _ acts H)) as [_ _ _ I4]. pose proof (proj1 (I4 c) (Hl c C)). lia. }
  pose proof (NoDup_incl_length Hd I) as G. rewrite seq_length in G. lia.
Qed.

Lemma history_run : forall acts s t, run acts s = Some t -> exists es, history t = history s ++ es.
Proof.
  induction acts as [|a acts IH]; intros s t H; cbn in H; [injection H as <-; exists []; rewrite app_nil_r; reflexivity|].
  destruct (step a s) as [s1|] eqn:E; [|discriminate]. destruct (step_spec _ _ _ E) as (es & L & _). destruct (IH _ _ H) as [more M].
  exists (rev es ++ more). rewrite M. unfold history. rewrite L, rev_app_distr, app_assoc. reflexivity.
Qed.

(* C40: idle connections take turns. Whatever happens, an idle connection is handed out, at the latest, with the one that is the size-th from now on;
   so are the others that are idle now, each once before any of them is handed out again, in their order. *)
Theorem C40_idle_connections_take_turns : forall n s acts t, reachable n s -> run acts s = Some t ->
  exists since, history t = history s ++ since /\ (n <= length (takes since) -> firstn (length (idle s)) (takes since) = idle s /\ forall c, In c (idle s) -> In c (firstn n (takes since))).
Proof.
  intros n s acts t R H. destruct (history_run _ _ _ H) as [es He]. exists es. split; [exact He|]. intros L.
  destruct (inv_reachable _ _ R) as [_ I2 I3 _]. assert (Rt : reachable n t) by (destruct R as [a0 R]; exists (a0 ++ acts); rewrite run_app, R; exact H).
  destruct (inv_reachable _ _ Rt) as [_ _ I3' _]. destruct R as [a0 R]. rewrite (size_run _ _ _ R) in I2. cbn [new_pool size] in I2.
  rewrite He, puts_app, takes_app, I3, <- !app_assoc in I3'. apply app_inv_head in I3'.
  assert (F : firstn (length (idle s)) (takes es) = idle s).
  { pose proof (f_equal (firstn (length (idle s))) I3') as F. rewrite firstn_app, Nat.sub_diag, firstn_all in F. cbn in F. rewrite app_nil_r in F. rewrite firstn_app in F.
    replace (length (idle s) - length (takes es)) with 0 in F by lia. cbn in F. rewrite app_nil_r in F. symmetry. exact F. }
  split; [exact F|]. intros c Hc. rewrite <- F in Hc. rewrite <- (Nat.min_l (length (idle s)) n I2), <- firstn_firstn in Hc. rewrite <- (firstn_skipn (length (idle s)) (firstn n (takes es))). apply in_or_app. left. exact Hc.
Qed.

Print Assumptions C40_idle_connections_take_turns.
Print Assumptions C117_open_at_most_busiest.
Print Assumptions C117_working_ones_are_kept.
Print Assumptions C117_dials.

(* Two Sends at once, one after the other again, one of which fails. *)
Definition two_at_once : list action :=
  [CallSend; CallSend; Default 0; Default 1; Dialled 0 true; Dialled 1 true; Sent 0 true; Return 0; CallSend; Receive 2;
   Sent 1 false; CloseConn 1; Sent 2 true; Return 2].

Lemma at_most_of_step : forall m n acts, (fix go (acts : list action) (s : state) {struct acts} : Prop :=
    in_progress s <= m /\ match acts with [] => True | a :: acts => match step a s with Some t => go acts t | None => True end end) acts (new_pool n) -> at_most m n acts.
Proof.
  intros m n acts H before. generalize dependent (new_pool n). revert acts.
  induction before as [|b before IH]; intros acts s0 H after s E R.
  - injection R as <-. destruct acts; exact (proj1 H).
  - rewrite E in H. cbn [app] in H. destruct H as [_ H]. cbn in R. destruct (step b s0) as [t|]; [|discriminate].
    exact (IH _ _ H after s eq_refl R).
Qed.

(* The theorems' hypotheses are met, and the bounds are reached: two connections were open at once, one was closed. *)
Example peak_meets : at_most 2 2 two_at_once /\ exists s, run two_at_once (new_pool 2) = Some s /\ open s [0] /\ dialled s [0; 1] /\
  history s = [NoneIdle 0; NoneIdle 1; Created 0 0; Created 1 1; Used 0 0 true; PutBack 0 0; Taken 2 0; Used 1 1 false; Closed 1 1; Used 2 0 true; PutBack 2 0].
Proof.
  split; [apply at_most_of_step; vm_compute; repeat split; lia|]. eexists. split; [vm_compute; reflexivity|]. unfold open, dialled, created, is_closed, history. cbn [log rev app]. repeat split.
  - repeat constructor; cbn; tauto.
  - destruct H as [<-|[]]. exists 0. cbn. tauto.
  - destruct H as [<-|[]]. intros [i J]. cbn in J. repeat (destruct J as [J|J]; [discriminate|]). destruct J.
  - repeat constructor; cbn; intuition discriminate.
  - intros c [<-|[<-|[]]]; [exists 0|exists 1]; cbn; tauto.
Qed.
Example two_open : at_most 2 2 (firstn 6 two_at_once) /\ exists s, run (firstn 6 two_at_once) (new_pool 2) = Some s /\ open s [0; 1].
Proof.
  split; [apply at_most_of_step; vm_compute; repeat split; lia|]. eexists. split; [vm_compute; reflexivity|]. unfold open, created, is_closed, history. cbn [log rev app]. repeat split.
  - repeat constructor; cbn; intuition discriminate.
  - destruct H as [<-|[<-|[]]]; [exists 0|exists 1]; cbn; tauto.
  - intros [i J]. cbn in J. repeat (destruct J as [J|J]; [discriminate|]). destruct J.
Qed.

(* The condition on the size is needed: with room for none, a connection that works is closed. *)
Example too_small : exists s, at_most 1 0 [CallSend; Default 0; Dialled 0 true; Sent 0 true; Return 0; CloseConn 0] /\
  run [CallSend; Default 0; Dialled 0 true; Sent 0 true; Return 0; CloseConn 0] (new_pool 0) = Some s /\ In (Closed 0 0) (history s) /\ failures (history s) = 0.
Proof. eexists. split; [apply at_most_of_step; vm_compute; repeat split; lia|]. split; [vm_compute; reflexivity|]. split; [cbn; tauto|reflexivity]. Qed.

(* Two connections, both idle; the second Send after that gets the second of them. *)
Example turns_meet : exists s t, run [CallSend; CallSend; Default 0; Default 1; Dialled 0 true; Dialled 1 true; Sent 1 true; Return 1; Sent 0 true; Return 0] (new_pool 2) = Some s /\
  idle s = [1; 0] /\ run [CallSend; Receive 2; Sent 2 true; Return 2; CallSend; Receive 3] s = Some t /\
  exists since, history t = history s ++ since /\ takes since = [1; 0].
Proof. eexists _, _. split; [vm_compute; reflexivity|]. split; [reflexivity|]. split; [vm_compute; reflexivity|]. exists [Taken 2 1; Used 2 1 true; PutBack 2 1; Taken 3 0]. split; reflexivity. Qed.
