(* C86: what panics that callers of a pool recover from do to the others. *)
From Coq Require Import List Arith Bool Lia.
From Verif Require Import Pool SpecPool PoolProofs PoolPanic ThmPool.
Import ListNotations.

(* The states any calls can reach, in any interleaving, with any panics, all of them recovered from. *)
Definition rreachable (n : nat) (r : rstate) : Prop := exists acts, rrun acts (rnew n) = Some r.
(* Call i is under way: it has been made, has not panicked, and has not returned. *)
Definition under_way (r : rstate) (i : nat) : Prop :=
  ~ In i (gone r) /\ exists p b, nth_error (calls (pool r)) i = Some (p, b) /\ forall o, p <> Returned o.
(* The connection call i held when it panicked. *)
Definition loses (r : rstate) (i c : nat) : Prop := In i (gone r) /\ holds (pool r) i c.

Lemma is_gone_in : forall i r, is_gone i r = true <-> In i (gone r).
Proof.
  intros i r. unfold is_gone. rewrite existsb_exists. split; [intros (j & H & E); apply Nat.eqb_eq in E; subst; exact H|intros H; exists i; split; [exact H|apply Nat.eqb_refl]].
Qed.

Lemma rrun_app : forall a b r, rrun (a ++ b) r = match rrun a r with Some t => rrun b t | None => None end.
Proof. induction a as [|x a IH]; intros b r; cbn [app rrun]; [reflexivity|]. destruct (rstep x r); [apply IH|reflexivity]. Qed.

(* What a step does: one of the pool, in which no call panics, or it only ends a call. *)
Lemma rstep_cases : forall a r r', crashed (pool r) = false -> rstep a r = Some r' ->
  (exists x, a = Do x /\ (forall i, actor x = Some i -> ~ In i (gone r)) /\ step x (pool r) = Some (pool r') /\ gone r' = gone r /\ crashed (pool r') = false) \/
  (exists i, ~ In i (gone r) /\ pool r' = pool r /\ gone r' = i :: gone r /\
    ((a = Breaks i /\ exists b, nth_error (calls (pool r)) i = Some (SDial, b) \/ exists c, nth_error (calls (pool r)) i = Some (SSend c, b)) \/
     (a = Do (Return i) /\ ch_closed (pool r) = true /\ exists c b, nth_error (calls (pool r)) i = Some (SReturn c, b)) \/
     (a = Do (CloseCh i) /\ ch_closed (pool r) = true /\ exists o b, nth_error (calls (pool r)) i = Some (KFinish o, b)))).
Proof.
  intros a r r' Hc H. destruct a as [x|i]; cbn [rstep] in H.
  - destruct (actor x) as [i|] eqn:Ha.
    + destruct (is_gone i r) eqn:Hg; [discriminate|]. assert (Hn : ~ In i (gone r)) by (rewrite <- is_gone_in, Hg; discriminate).
      destruct (step x (pool r)) as [s|] eqn:Hs; [|discriminate]. destruct (crashed s) eqn:Hk; injection H as <-; cbn [pool gone].
      * right. exists i. split; [exact Hn|]. split; [reflexivity|]. split; [reflexivity|]. right.
        unfold step in Hs. rewrite Hc in Hs. destruct x as [| |j|j|j|j|j ok|j ok|j|j|j]; cbn [actor] in Ha; try discriminate Ha; injection Ha as ->;
          split_step Hs; injection Hs as <-; cbn [go crashed] in Hk; try congruence; [left|right]; (split; [reflexivity|]); (split; [reflexivity|]); eauto.
      * left. exists x. split; [reflexivity|]. split; [intros j Hj; rewrite Ha in Hj; injection Hj as <-; exact Hn|]. auto.
    + destruct (step x (pool r)) as [s|] eqn:Hs; [|discriminate]. injection H as <-. left. exists x. split; [reflexivity|]. split; [intros j Hj; congruence|]. cbn [pool gone]. split; [exact Hs|]. split; [reflexivity|].
      unfold step in Hs. rewrite Hc in Hs. destruct x as [| |j|j|j|j|j ok|j ok|j|j|j]; cbn [actor] in Ha; try discriminate Ha; split_step Hs; injection Hs as <-; auto.
  - destruct (is_gone i r) eqn:Hg; [discriminate|]. assert (Hn : ~ In i (gone r)) by (rewrite <- is_gone_in, Hg; discriminate).
    right. exists i. destruct (nth_error (calls (pool r)) i) as [[p b]|] eqn:Hp; [|discriminate].
    destruct p; try discriminate; injection H as <-; cbn [pool gone]; (split; [exact Hn|]); (split; [reflexivity|]); (split; [reflexivity|]); left; (split; [reflexivity|]); eauto.
Qed.

(* Nothing but the pool's own steps: the pool is in a state it could be in without any panic. *)
Lemma rreachable_pool : forall n r, rreachable n r -> reachable n (pool r) /\ crashed (pool r) = false.
Proof.
  intros n r (acts & H). revert r H. induction acts as [|a acts IH] using rev_ind; intros r H; [injection H as <-; split; [exists []; reflexivity|reflexivity]|].
  rewrite rrun_app in H. destruct (rrun acts (rnew n)) as [r1|] eqn:R; [|discriminate]. cbn [rrun] in H. destruct (rstep a r1) as [r2|] eqn:S; [|discriminate]. injection H as ->.
  destruct (IH _ eq_refl) as [R1 C1]. destruct (rstep_cases _ _ _ C1 S) as [(x & _ & _ & S' & _ & C')|(i & _ & E & _)].
  - split; [|exact C']. destruct R1 as [l R1]. exists (l ++ [x]). rewrite run_app, R1. cbn [run]. rewrite S'. reflexivity.
  - rewrite E. split; assumption.
Qed.

(* ---- the others ---- *)

(* C86: whatever calls panic, all of C37-C40 stays true: one user at a time, which is not idle; at most n idle; first in, first
   out; nothing is closed twice, or touched after it was closed, and a failed connection is never used again. *)
Theorem C86_others_are_safe : forall n r, rreachable n r ->
  (forall i j c, holds (pool r) i c -> holds (pool r) j c -> i = j) /\
  (forall i c, holds (pool r) i c -> ~ In c (idle (pool r)) /\ ~ is_closed (pool r) c) /\
  length (idle (pool r)) <= n /\ NoDup (idle (pool r)) /\
  puts (history (pool r)) = takes (history (pool r)) ++ idle (pool r) /\
  NoDup (closings (history (pool r))) /\
  (forall i c before after, history (pool r) = before ++ Closed i c :: after -> Forall (fun e => ~ touches c e) after) /\
  (forall i c before after, history (pool r) = before ++ Used i c false :: after -> Forall (fun e => touches c e -> exists j, e = Closed j c) after).
Proof.
  intros n r R. destruct (rreachable_pool _ _ R) as [P _]. split; [intros i j c; exact (C37_one_user n _ i j c P)|]. split; [intros i c; exact (C37_used_is_not_idle n _ i c P)|].
  destruct (C38_idle_bounded n _ P) as [A B]. split; [exact A|]. split; [exact B|]. split; [exact (C40_first_in_first_out n _ P)|]. split; [exact (C39_closed_once n _ P)|].
  split; [intros i c x y; exact (C39_nothing_after_close n _ i c x y P)|]. intros i c x y H. exact (proj1 (C39_failed_is_never_reused n _ i c x y P H)).
Qed.

(* C86: no call waits for one that panicked. *)
Theorem C86_others_go_on : forall n r i, rreachable n r -> under_way r i -> exists a r', actor a = Some i /\ rstep (Do a) r = Some r'.
Proof.
  intros n r i R (Hg & p & b & Hp & Ho). destruct (rreachable_pool _ _ R) as [P C]. destruct (C57_never_blocked n _ i p b P C Hp Ho) as (a & s' & Ha & Hs).
  exists a. cbn [rstep]. rewrite Ha, Hs. destruct (is_gone i r) eqn:G; [apply is_gone_in in G; contradiction|]. destruct (crashed s'); eauto.
Qed.

(* C86: and they return what they would have without the panics: taking the panics out of a run leaves a run of the pool, with the
   same calls, the same history and the same results, in which the calls that panicked just never go on, and nothing panics. *)
Fixpoint without_panics (acts : list raction) (r : rstate) : list action :=
  match acts with
  | [] => []
  | a :: acts =>
      match rstep a r with
      | Some r' => match a with Do x => if length (gone r) <? length (gone r') then [] else [x] | Breaks _ => [] end ++ without_panics acts r'
      | None => []
      end
  end.
Theorem C86_as_if_calls_stopped : forall n acts r, rrun acts (rnew n) = Some r ->
  run (without_panics acts (rnew n)) (new_pool n) = Some (pool r) /\ crashed (pool r) = false.
Proof.
  intros n acts r H. assert (G : forall acts t, crashed (pool t) = false -> rrun acts t = Some r -> run (without_panics acts t) (pool t) = Some (pool r) /\ crashed (pool r) = false).
  { clear. induction acts as [|a acts IH]; intros t C H; cbn [rrun without_panics] in *; [injection H as <-; auto|].
    destruct (rstep a t) as [t'|] eqn:S; [|discriminate]. destruct (rstep_cases _ _ _ C S) as [(x & -> & _ & S' & E & C')|(i & _ & E & E' & K)].
    - rewrite E, Nat.ltb_irrefl. cbn [app run]. rewrite S'. exact (IH _ C' H).
    - assert (Z : match a with Do x => if length (gone t) <? length (gone t') then [] else [x] | Breaks _ => [] end = []).
      { rewrite E'. cbn [length]. destruct a; [|reflexivity]. match goal with |- context [?a <? ?b] => destruct (Nat.ltb_spec a b) end; [reflexivity|lia]. }
      rewrite Z. cbn [app]. rewrite <- E. apply IH; [congruence|exact H]. }
  exact (G acts (rnew n) eq_refl H).
Qed.

(* ---- which calls panic ---- *)

(* C86: a step makes a call panic exactly if the connector or the connection it is in does, or it is a Send about to return its connection,
   or a Close about to return, and the pool has been closed already. *)
Theorem C86_panics_exactly : forall n r a r', rreachable n r -> rstep a r = Some r' ->
  (forall i, gone r' = i :: gone r <->
    a = Breaks i \/ (ch_closed (pool r) = true /\ (a = Do (Return i) \/ a = Do (CloseCh i)))) /\
  (gone r' = gone r \/ exists i, gone r' = i :: gone r /\ ~ In i (gone r)).
Proof.
  intros n r a r' R S. destruct (rreachable_pool _ _ R) as [_ C].
  assert (No : forall A (x : A) l, l <> x :: l) by (intros A x l E; apply (f_equal (@length A)) in E; cbn in E; lia).
  destruct (rstep_cases _ _ _ C S) as [(x & -> & Hx & S' & E & C')|(i & Hn & E & E' & K)].
  - split; [|auto]. intros i. rewrite E. split; [intros H; destruct (No _ _ _ H)|]. intros [H|[D H]]; [discriminate|]. exfalso.
    unfold step in S'. rewrite C in S'. destruct H as [[= ->]|[= ->]]; split_step S'; try congruence; injection S' as S'; rewrite <- S' in C'; discriminate C'.
  - split; [|right; eauto]. intros j. rewrite E'. split.
    + intros [= <-]. destruct K as [[-> _]|[(-> & D & _)|(-> & D & _)]]; auto.
    + intros H. f_equal. destruct K as [[-> _]|[(-> & D & _)|(-> & D & _)]]; destruct H as [H|[_ [H|H]]]; congruence.
Qed.

(* C86: so if no pool method panics in the code below it, and the pool is not closed, nothing does. *)
Theorem C86_no_panic_unless_closed : forall n acts r, rrun acts (rnew n) = Some r -> (forall i, ~ In (Breaks i) acts) -> ~ In (Do CallClose) acts -> gone r = [].
Proof.
  intros n acts. induction acts as [|a acts IH] using rev_ind; intros r H HB HC; [injection H as <-; reflexivity|].
  rewrite rrun_app in H. destruct (rrun acts (rnew n)) as [r1|] eqn:R; [|discriminate]. cbn [rrun] in H. destruct (rstep a r1) as [r2|] eqn:S; [|discriminate]. injection H as ->.
  assert (G : gone r1 = []) by (apply IH; [reflexivity|intros i K; apply (HB i); apply in_or_app; auto|intros K; apply HC; apply in_or_app; auto]).
  destruct (C86_panics_exactly n r1 a r (ex_intro _ _ R) S) as [A [B|(i & B & _)]]; [congruence|]. exfalso. apply A in B. destruct B as [->|[D _]].
  { apply (HB i). apply in_or_app. right. left. reflexivity. }
  destruct (C86_as_if_calls_stopped n acts r1 R) as [Q _].
  assert (NC : ~ In CallClose (without_panics acts (rnew n))).
  { intros K. assert (I : forall l t, In CallClose (without_panics l t) -> In (Do CallClose) l).
    { clear. induction l as [|x l IH]; intros t K; cbn [without_panics] in K; [destruct K|]. destruct (rstep x t) as [t'|]; [|destruct K]. apply in_app_or in K. destruct K as [K|K]; [|right; exact (IH _ K)].
      destruct x as [y|]; [|destruct K]. destruct (_ <? _); [destruct K|]. destruct K as [->|[]]. left. reflexivity. }
    apply HC. apply in_or_app. left. exact (I _ _ K). }
  destruct (C41_no_close_no_panic n _ _ NC Q) as [_ D']. congruence.
Qed.

(* ---- what is lost ---- *)

Lemma gone_grows : forall acts r t i, crashed (pool r) = false -> rrun acts r = Some t -> In i (gone r) -> In i (gone t).
Proof.
  induction acts as [|a acts IH]; intros r t i C H Hi; cbn [rrun] in H; [injection H as <-; exact Hi|]. destruct (rstep a r) as [r1|] eqn:S; [|discriminate].
  destruct (rstep_cases _ _ _ C S) as [(x & _ & _ & _ & E & C')|(j & _ & E & E' & _)]; (apply (IH r1 t i); [congruence|exact H|]); [rewrite E; exact Hi|rewrite E'; right; exact Hi].
Qed.

Lemma lost_stays : forall acts r t i p b, crashed (pool r) = false -> rrun acts r = Some t -> In i (gone r) -> nth_error (calls (pool r)) i = Some (p, b) -> exists b', nth_error (calls (pool t)) i = Some (p, b').
Proof.
  induction acts as [|a acts IH]; intros r t i p b C H Hi Hp; cbn [rrun] in H; [injection H as <-; eauto|]. destruct (rstep a r) as [r1|] eqn:S; [|discriminate].
  destruct (rstep_cases _ _ _ C S) as [(x & _ & N & S' & E & C')|(j & _ & E & E' & _)].
  - destruct (other_call _ _ _ i p b S') as [b' Hb]; [intros K; exact (N _ K Hi)|exact Hp|]. apply (IH r1 t i p b' C' H); [rewrite E; exact Hi|exact Hb].
  - apply (IH r1 t i p b); [congruence|exact H|rewrite E'; right; exact Hi|rewrite E; exact Hp].
Qed.

(* C86: but a connection that was held by a call that panicked is lost: it stays open, and whatever is called from then on - Close included -
   nobody closes it, nobody puts it back, nobody uses it. *)
Theorem C86_connection_is_lost_refuted : forall n r i c acts t, rreachable n r -> loses r i c -> rrun acts r = Some t ->
  loses t i c /\ ~ is_closed (pool t) c /\ ~ In c (idle (pool t)) /\
  (forall j, holds (pool t) j c -> j = i) /\
  forall j, ~ In j (gone t) -> ~ holds (pool t) j c.
Proof.
  intros n r i c acts t R (Hg & p & b & Hp & Hc) H. destruct (rreachable_pool _ _ R) as [_ C].
  assert (Rt : rreachable n t) by (destruct R as [l R]; exists (l ++ acts); rewrite rrun_app, R; exact H). destruct (rreachable_pool _ _ Rt) as [Pt _].
  destruct (lost_stays _ _ _ _ _ _ C H Hg Hp) as [b' Hb]. assert (Hh : holds (pool t) i c) by (exists p, b'; auto). pose proof (gone_grows _ _ _ _ C H Hg) as Gt.
  destruct (C37_used_is_not_idle n _ i c Pt Hh) as [A B]. split; [split; assumption|]. split; [exact B|]. split; [exact A|].
  split; [intros j Hj; exact (C37_one_user n _ j i c Pt Hj Hh)|]. intros j Hj Hk. pose proof (C37_one_user n _ j i c Pt Hk Hh). subst. contradiction.
Qed.

(* C86: nothing else is lost, and a call loses at most one connection: once every other call has returned, each connection ever made is idle, closed, or lost by a call that panicked. *)
Theorem C86_nothing_else_is_lost : forall n r c, rreachable n r -> (forall i, ~ under_way r i) -> created (pool r) c ->
  In c (idle (pool r)) \/ is_closed (pool r) c \/ exists i, loses r i c /\ forall c', loses r i c' -> c' = c.
Proof.
  intros n r c R F Hc. destruct (rreachable_pool _ _ R) as [P _]. destruct (C39_every_connection_accounted_for n _ c P Hc) as [(A & _)|[(_ & (i & A) & _)|(_ & _ & A)]]; [auto| |auto].
  right. right. exists i. destruct A as (p & b & Hp & Hi). destruct (in_dec Nat.eq_dec i (gone r)) as [G|G].
  - split; [split; [exact G|exists p, b; auto]|]. intros c' (_ & p' & b' & Hp' & Hi'). rewrite Hp in Hp'. injection Hp' as <- <-.
    destruct p; cbn in Hi, Hi'; try contradiction; destruct Hi as [<-|[]]; destruct Hi' as [<-|[]]; reflexivity.
  - exfalso. apply (F i). split; [exact G|]. exists p, b. split; [exact Hp|]. intros o ->. destruct Hi.
Qed.

(* ---- the hypotheses can be met ---- *)

(* Call 0 dials and its connection panics; call 1 dials, succeeds and puts its connection back; call 2 gets that connection, is
   overtaken by a Close, and panics when it returns; a second Close panics; then a Send is refused. *)
Definition troubled : list raction :=
  [Do CallSend; Do (Default 0); Do (Dialled 0 true); Do CallSend; Do (Default 1); Do (Dialled 1 true); Breaks 0; Do (Sent 1 true); Do (Return 1);
   Do CallSend; Do (Receive 2); Do CallClose; Do (Default 3); Do (CloseCh 3); Do (Sent 2 true); Do (Return 2); Do CallClose; Do (Receive 4); Do (CloseCh 4);
   Do CallSend; Do (Receive 5)].
Example troubled_runs : exists r, rrun troubled (rnew 2) = Some r /\ gone r = [4; 2; 0] /\ loses r 0 0 /\ loses r 2 1 /\ (forall i, ~ under_way r i) /\ created (pool r) 1 /\
  nth_error (calls (pool r)) 5 = Some (Returned PoolClosed, false) /\ nth_error (calls (pool r)) 1 = Some (Returned Responses, false).
Proof.
  let q := eval vm_compute in (rrun troubled (rnew 2)) in match q with Some ?r => exists r end.
  split; [vm_compute; reflexivity|]. split; [reflexivity|]. split; [split; [cbn; auto|exists (SSend 0), false; split; [reflexivity|left; reflexivity]]|].
  split; [split; [cbn; auto|exists (SReturn 1), false; split; [reflexivity|left; reflexivity]]|].
  split; [|split; [exists 1; vm_compute; tauto|split; reflexivity]].
  intros i (G & p & b & Hp & Ho). cbn in Hp, G. destruct i as [|[|[|[|[|[|i]]]]]]; cbn in Hp; try (injection Hp as <- <-); try (exact (Ho _ eq_refl)); try (apply G; tauto). destruct i; discriminate.
Qed.
Definition quiet_so_far : list raction := firstn 6 troubled.
Example quiet_meets : exists r, rrun quiet_so_far (rnew 2) = Some r /\ (forall i, ~ In (Breaks i) quiet_so_far) /\ ~ In (Do CallClose) quiet_so_far /\ under_way r 0 /\ under_way r 1.
Proof.
  let q := eval vm_compute in (rrun quiet_so_far (rnew 2)) in match q with Some ?r => exists r end.
  split; [vm_compute; reflexivity|]. split; [intros i H; cbn in H; intuition discriminate|]. split; [intros H; cbn in H; intuition discriminate|].
  split; (split; [intros []|]); eexists; eexists; (split; [reflexivity|discriminate]).
Qed.

(* A connector that panics: the call is gone, no connection is lost, and another call goes on. *)
Example dial_breaks : exists r, rrun [Do CallSend; Do (Default 0); Do CallSend; Breaks 0; Do (Default 1); Do (Dialled 1 true); Do (Sent 1 true); Do (Return 1)] (rnew 2) = Some r /\
  gone r = [0] /\ (forall i c, ~ loses r i c) /\ idle (pool r) = [0].
Proof.
  let q := eval vm_compute in (rrun [Do CallSend; Do (Default 0); Do CallSend; Breaks 0; Do (Default 1); Do (Dialled 1 true); Do (Sent 1 true); Do (Return 1)] (rnew 2)) in match q with Some ?r => exists r end.
  split; [vm_compute; reflexivity|]. split; [reflexivity|]. split; [|reflexivity]. intros i c ([<-|[]] & p & b & Hp & Hc). cbn in Hp. injection Hp as <- <-. destruct Hc.
Qed.

Print Assumptions C86_others_are_safe.
Print Assumptions C86_others_go_on.
Print Assumptions C86_as_if_calls_stopped.
Print Assumptions C86_panics_exactly.
Print Assumptions C86_no_panic_unless_closed.
Print Assumptions C86_connection_is_lost_refuted.
Print Assumptions C86_nothing_else_is_lost.
