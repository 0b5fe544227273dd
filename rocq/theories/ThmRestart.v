(* C119: a pool recovers when its connections have broken: each costs one Send at most. *)
From Coq Require Import List Arith Bool Lia.
From Verif Require Import Pool SpecPool PoolProofs SpecPeak PeakProofs ThmPool ThmPeak.
Import ListNotations.

Lemma calls_grow : forall a s s', step a s = Some s' -> length (calls s) <= length (calls s').
Proof.
  intros a s s' H. unfold step in H. destruct (crashed s); [discriminate|].
  destruct a as [| |i|i|i|i|i ok|i ok|i|i|i]; split_step H; injection H as <-; cbn [go crash calls]; rewrite ?set_nth_length, ?app_length; cbn; lia.
Qed.
Lemma user_exists : forall n acts s i c ok, run acts (new_pool n) = Some s -> In (Used i c ok) (history s) -> i < length (calls s).
Proof.
  intros n acts. induction acts as [|a acts IH] using rev_ind; intros s i c ok H Hu.
  - injection H as <-. destruct Hu.
  - destruct (run_split _ _ _ _ H) as (t & Ht & Hs). pose proof (calls_grow _ _ _ Hs) as G. destruct (step_spec _ _ _ Hs) as (es & L & E & _).
    unfold history in Hu. rewrite L, rev_app_distr in Hu. apply in_app_or in Hu. destruct Hu as [Hu|Hu]; [specialize (IH t i c ok Ht Hu); lia|].
    destruct E as [->|(e & -> & E)]; [destruct Hu|]. destruct Hu as [->|[]]. cbn in E. destruct E as [b E]. apply Nat.lt_le_trans with (2 := G). apply nth_error_Some. congruence.
Qed.

Lemma exchange_in : forall i h c ok, exchanges i h = [(c, ok)] -> In (Used i c ok) h.
Proof.
  intros i h c ok H. assert (I : In (c, ok) (exchanges i h)) by (rewrite H; left; reflexivity). unfold exchanges in I. apply in_flat_map in I. destruct I as (e & He & I).
  destruct e as [| | |j c' ok'| |]; try destruct I. destruct (Nat.eqb_spec i j) as [->|]; [|destruct I]. destruct I as [E|[]]. injection E as -> ->. exact He.
Qed.
(* A connection fails one Send at most. *)
Theorem C119_one_failure_per_connection : forall n s i j c, reachable n s -> In (Used i c false) (history s) -> In (Used j c false) (history s) -> i = j.
Proof.
  intros n s i j c R Hi Hj. apply in_split in Hi. destruct Hi as (before & after & H). destruct (C39_failed_is_never_reused _ _ _ _ _ _ R H) as [F _].
  rewrite Forall_forall in F. assert (Later : forall k, ~ In (Used k c false) after) by (intros k K; destruct (F _ K eq_refl) as [j' E]; discriminate).
  rewrite H in Hj. apply in_app_or in Hj. destruct Hj as [Hj|[Hj|Hj]]; [|injection Hj as ->; reflexivity|destruct (Later _ Hj)].
  apply in_split in Hj. destruct Hj as (b1 & a1 & E). rewrite E, <- app_assoc in H. cbn in H. destruct (C39_failed_is_never_reused _ _ _ _ _ _ R H) as [F' _].
  rewrite Forall_forall in F'. destruct (F' (Used i c false)) as [j' X]; [apply in_or_app; right; left; reflexivity|reflexivity|discriminate].
Qed.

Lemma choose : forall (P : nat -> nat -> Prop) is, (forall i, In i is -> exists c, P i c) -> exists cs, Forall2 P is cs.
Proof.
  intros P is. induction is as [|i is IH]; intros H; [exists []; constructor|]. destruct (H i) as [c Hc]; [left; reflexivity|]. destruct IH as [cs Hcs]; [intros j Hj; apply H; right; exact Hj|].
  exists (c :: cs). constructor; assumption.
Qed.
Lemma choice_nodup : forall (P : nat -> nat -> Prop) is cs, Forall2 P is cs -> NoDup is -> (forall i j c, P i c -> P j c -> i = j) -> NoDup cs.
Proof.
  intros P is cs H N U. induction H as [|i c is cs Hc H IH]; [constructor|]. inversion N as [|? ? N1 N2]; subst. constructor; [|exact (IH N2)].
  intros Hin. apply N1. clear IH N N1 N2. induction H as [|j d is cs Hd H IH]; [destruct Hin|]. destruct Hin as [->|Hin]; [left; exact (U _ _ _ Hd Hc)|right; exact (IH Hin)].
Qed.

(* At the state s all connections break (the server was restarted, say): from then on the exchanges that fail are on connections there were at s; dialling anew
   works or not, and new connections work. Then, of the Sends called after s, at most as many return an exchange's error as there were connections open at s,
   whatever the interleaving: so at most as many as calls were in progress at the busiest moment up to s, and at most the pool's size if none was in progress at s. *)
Theorem C119_broken_connections_cost_one_send_each : forall m n acts s more t is,
  at_most m n acts -> run acts (new_pool n) = Some s -> run more s = Some t ->
  (forall i c, In (Used i c false) (history t) -> In (Used i c false) (history s) \/ created s c) ->
  NoDup is -> (forall i, In i is -> length (calls s) <= i /\ exists b, nth_error (calls t) i = Some (Returned SendError, b)) ->
  exists cs, open s cs /\ length cs = length is /\ length is <= m /\ (finished s -> length is <= n).
Proof.
  intros m n acts s more t is Hm Hs Ht Ho Hd Hi. assert (Rs : reachable n s) by (exists acts; exact Hs).
  assert (Rt : reachable n t) by (exists (acts ++ more); rewrite run_app, Hs; exact Ht).
  destruct (history_run _ _ _ Ht) as [es He].
  assert (C : forall i, In i is -> exists c, In (Used i c false) es /\ created s c).
  { intros i I. destruct (Hi i I) as [L [b Hb]]. destruct (C59_outcome_is_what_happened _ _ _ _ _ Rt Hb) as (c & X & _). apply exchange_in in X.
    assert (Y : ~ In (Used i c false) (history s)) by (intros Y; pose proof (user_exists _ _ _ _ _ _ Hs Y); lia).
    exists c. split; [|destruct (Ho _ _ X) as [Z|Z]; [contradiction|exact Z]]. rewrite He in X. apply in_app_or in X. tauto. }
  destruct (choose _ is C) as [cs Hcs].
  assert (N : NoDup cs).
  { refine (choice_nodup _ _ _ Hcs Hd _). intros i j c [A _] [B _]. apply (C119_one_failure_per_connection n t i j c Rt); rewrite He; apply in_or_app; right; assumption. }
  assert (Op : open s cs).
  { split; [exact N|]. intros c Hc. clear - Hcs Hc He Rt. induction Hcs as [|i d is cs [A B] H IH]; [destruct Hc|]. destruct Hc as [->|Hc]; [|exact (IH Hc)].
    split; [exact B|]. intros [k K]. apply in_split in K. destruct K as (before & after & K). rewrite K, <- app_assoc in He. cbn in He.
    pose proof (C39_nothing_after_close _ _ _ _ _ _ Rt He) as F. rewrite Forall_forall in F. apply (F (Used i c false)); [apply in_or_app; right; exact A|reflexivity]. }
  assert (L : length cs = length is) by (clear - Hcs; induction Hcs; cbn; congruence).
  exists cs. split; [exact Op|]. split; [exact L|]. rewrite <- L. split; [exact (C117_open_at_most_busiest _ _ _ _ _ Hm Hs Op)|].
  intros F. destruct (C38_idle_bounded _ _ Rs) as [I1 _]. apply Nat.le_trans with (2 := I1). apply NoDup_incl_length; [exact N|]. intros c Hc. destruct Op as [_ Op]. destruct (Op c Hc) as [Cr Cl].
  destruct (C39_every_connection_accounted_for _ _ _ Rs Cr) as [(A & _)|[(_ & (i & p & b & A & B) & _)|(_ & _ & A)]]; [exact A| |contradiction].
  destruct (F _ _ _ A) as [o ->]. destruct B.
Qed.

Print Assumptions C119_one_failure_per_connection.
Print Assumptions C119_broken_connections_cost_one_send_each.

(* Two connections are idle when the server is restarted. Two Sends fail, the third dials and succeeds. *)
Definition before_restart : list action :=
  [CallSend; CallSend; Default 0; Default 1; Dialled 0 true; Dialled 1 true; Sent 1 true; Return 1; Sent 0 true; Return 0].
Definition after_restart : list action :=
  [CallSend; Receive 2; Sent 2 false; CallSend; Receive 3; CloseConn 2; Sent 3 false; CloseConn 3; CallSend; Default 4; Dialled 4 true; Sent 4 true; Return 4].
Example restart_meets : at_most 2 2 before_restart /\ exists s t, run before_restart (new_pool 2) = Some s /\ run after_restart s = Some t /\
  (forall i c, In (Used i c false) (history t) -> In (Used i c false) (history s) \/ created s c) /\
  (forall i, In i [2; 3] -> length (calls s) <= i /\ exists b, nth_error (calls t) i = Some (Returned SendError, b)) /\
  finished s /\ nth_error (calls t) 4 = Some (Returned Responses, false).
Proof.
  split; [apply at_most_of_step; vm_compute; repeat split; lia|]. eexists _, _. split; [vm_compute; reflexivity|]. split; [vm_compute; reflexivity|]. unfold history, created, finished. cbn [log rev app calls length].
  split; [|split; [|split; [|reflexivity]]].
  - intros i c H. right. cbn in H. repeat (destruct H as [H|H]; [first [discriminate|injection H as <- <-; first [exists 1; cbn; tauto|exists 0; cbn; tauto]]|]). destruct H.
  - intros i [<-|[<-|[]]]; (split; [lia|exists false; reflexivity]).
  - intros [|[|[|i]]] p b H; cbn in H; try discriminate; injection H as <- _; eexists; reflexivity.
Qed.
