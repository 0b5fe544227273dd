(* C79: a Send whose context is done. *)
From Coq Require Import List NArith Arith Bool Lia.
From Verif Require Import Base Conn SpecReply System SpecSystem SystemProofs ThmSystem.
From Verif Require Pool SpecPool PoolProofs ThmPool.
Import ListNotations.

(* The call has not chosen a connection yet, and its context is done. *)
Definition waits_done (s : Pool.state) (i : nat) : Prop := nth_error (Pool.calls s) i = Some (Pool.SSelect, true).

(* What such a call may still come to. *)
Definition sender (p : Pool.pc) : Prop :=
  match p with
  | Pool.SSelect | Pool.SSend _ | Pool.SFail _ | Pool.SReturn _ | Pool.SDrop _ => True
  | Pool.Returned (Pool.Responses | Pool.SendError | Pool.PoolClosed | Pool.CtxError) => True
  | _ => False
  end.
Lemma sender_step a t t' i p : Pool.step a t = Some t' -> nth_error (Pool.calls t) i = Some (p, true) -> sender p -> exists p', nth_error (Pool.calls t') i = Some (p', true) /\ sender p'.
Proof.
  intros H Hp Hs. unfold Pool.step in H. destruct (Pool.crashed t) eqn:Hcr; [discriminate|].
  assert (New : forall q, exists p', nth_error (Pool.calls t ++ [(q, false)]) i = Some (p', true) /\ sender p') by (intros q; rewrite nth_error_app1 by (apply nth_error_Some; congruence); eauto).
  assert (Own : forall j q0 q b, nth_error (Pool.calls t) j = Some (q0, b) -> (b = true -> sender q0 -> sender q) -> exists p', nth_error (Pool.set_nth j (q, b) (Pool.calls t)) i = Some (p', true) /\ sender p').
  { intros j q0 q b Hj Hq. destruct (Nat.eq_dec j i) as [->|Hji].
    - rewrite (PoolProofs.nth_set_same _ _ _ _ _ Hj). rewrite Hp in Hj. injection Hj as <- <-. eauto.
    - rewrite PoolProofs.nth_set_other by exact Hji. eauto. }
  destruct a as [| |j|j|j|j|j ok|j ok|j|j|j]; PoolProofs.split_step H; injection H as <-; cbn [Pool.go Pool.crash Pool.calls Pool.log];
    try (apply New); try (eapply Own; [eassumption|]; cbn; intros; try discriminate; try contradiction; auto; fail); eauto.
  destruct (Nat.eq_dec j i) as [->|Hji]; [|rewrite PoolProofs.nth_set_other by exact Hji; eauto].
  erewrite PoolProofs.nth_set_same by eassumption. match goal with |- exists p', Some (?q, true) = _ /\ _ => assert (q = p) by congruence; subst q end. eauto.
Qed.
Lemma sender_run n s acts s' i b o : SpecPool.reachable n s -> waits_done s i -> Pool.run acts s = Some s' -> nth_error (Pool.calls s') i = Some (Pool.Returned o, b) -> sender (Pool.Returned o).
Proof.
  intros _ W Hr Ho. assert (G : forall acts s, (exists p, nth_error (Pool.calls s) i = Some (p, true) /\ sender p) -> Pool.run acts s = Some s' -> exists p, nth_error (Pool.calls s') i = Some (p, true) /\ sender p).
  { clear. induction acts as [|a acts IH]; intros s P H; cbn [Pool.run] in H; [injection H as <-; exact P|]. destruct (Pool.step a s) as [s1|] eqn:S; [|discriminate]. destruct P as (p & P1 & P2).
    exact (IH s1 (sender_step _ _ _ _ _ S P1 P2) H). }
  destruct (G acts s (ex_intro _ _ (conj W I)) Hr) as (p & P1 & P2). rewrite Ho in P1. injection P1 as <- _. exact P2.
Qed.

(* C79: it does nothing at all, unless it happens to find an idle connection: no connection is dialled, none is
   closed but the one it takes, and it returns the context's error or, if the pool is closed, that one. *)
Theorem C79_done_context_does_nothing_partial : forall n s acts s' i o b,
  SpecPool.reachable n s -> waits_done s i -> Pool.run acts s = Some s' -> nth_error (Pool.calls s') i = Some (Pool.Returned o, b) ->
  (forall c, ~ In (Pool.Created i c) (SpecPool.history s')) /\
  ((o = Pool.CtxError \/ o = Pool.PoolClosed) /\ SpecPool.exchanges i (SpecPool.history s') = [] \/
   exists c ok, In (Pool.Taken i c) (SpecPool.history s') /\ SpecPool.exchanges i (SpecPool.history s') = [(c, ok)] /\ o = (if ok then Pool.Responses else Pool.SendError)).
Proof.
  intros n s acts s' i o b R W Hr Ho.
  assert (R' : SpecPool.reachable n s') by (destruct R as [x R]; exists (x ++ acts); rewrite PoolProofs.run_app, R; exact Hr).
  assert (N0 : forall c, ~ In (Pool.Created i c) (SpecPool.history s')).
  { intros c I. apply (ThmPool.C59_done_context_never_dials n s acts s' i R W Hr) in I. destruct (proj1 (ThmPool.books_reachable _ _ R) _ _ _ W) as [_ O].
    assert (J : In c (SpecPool.obtained i (SpecPool.history s))); [|rewrite O in J; exact J]. unfold SpecPool.obtained. apply in_flat_map. exists (Pool.Created i c). split; [exact I|]. cbn. rewrite Nat.eqb_refl. left. reflexivity. }
  split; [exact N0|]. pose proof (ThmPool.C59_outcome_is_what_happened n s' i o b R' Ho) as D.
  assert (K : forall c, SpecPool.obtained i (SpecPool.history s') = [c] -> In (Pool.Taken i c) (SpecPool.history s')).
  { intros c O. assert (J : In c (SpecPool.obtained i (SpecPool.history s'))) by (rewrite O; left; reflexivity). unfold SpecPool.obtained in J. apply in_flat_map in J. destruct J as (e & I & J).
    destruct e as [j d|j|j d|j d ok|j d|j d]; cbn in J; try contradiction; (destruct (Nat.eqb_spec i j) as [<-|]; [|contradiction]); destruct J as [<-|[]]; [exact I|destruct (N0 d I)]. }
  destruct o.
  - destruct D as (c & D1 & D2). right. exists c, true. auto.
  - destruct D as (c & D1 & D2). right. exists c, false. auto.
  - left. destruct D. auto.
  - left. auto.
  - destruct (sender_run n s acts s' i b _ R W Hr Ho).
  - destruct (sender_run n s acts s' i b _ R W Hr Ho).
Qed.

(* C79: but if there is an idle connection it may send its unit all the same, and report success: select chooses
   among the ready cases. *)
Definition keen_said (i : nat) : list exchange := unit2.
Definition keen : list action :=
  [CallSend None (request_bytes unit2); Step (Pool.Default 0); Connected 0 (mkc Tcp (mkr [] [] IoEOF) [] [] []); Exchange 0 [replies_bytes unit2]; Step (Pool.Return 0);
   CallSend None (request_bytes unit2); Step (Pool.Cancel 1)].
Theorem C79_done_context_does_nothing_refuted : forall w32 n, exists s s',
  run w32 keen (new_system (S n)) = Some s /\ waits_done (pool s) 1 /\
  run w32 [Step (Pool.Receive 1); Exchange 1 [replies_bytes unit2]; Step (Pool.Return 1)] s = Some s' /\
  nth_error (Pool.calls (pool s')) 1 = Some (Pool.Returned Pool.Responses, true) /\
  got s' 1 (map seen_as unit2) None /\ map attempts (conns s') = [[(request_bytes unit2, None); (request_bytes unit2, None)]].
Proof.
  intros w32 n. eexists _, _. split; [destruct w32; vm_compute; reflexivity|]. split; [reflexivity|]. split; [destruct w32; vm_compute; reflexivity|]. split; [reflexivity|]. split; [left; reflexivity|reflexivity].
Qed.

(* The theorem's premises hold in that state, and the other choice is possible too. *)
Example keen_refused : exists s s', run false keen (new_system 1) = Some s /\ waits_done (pool s) 1 /\ SpecPool.reachable 1 (pool s) /\
  Pool.run [Pool.Done 1] (pool s) = Some s' /\ nth_error (Pool.calls s') 1 = Some (Pool.Returned Pool.CtxError, true) /\ Pool.idle s' = [0%nat].
Proof.
  eexists _, _. split; [vm_compute; reflexivity|]. split; [reflexivity|]. split.
  - exists [Pool.CallSend; Pool.Default 0; Pool.Dialled 0 true; Pool.Sent 0 true; Pool.Return 0; Pool.CallSend; Pool.Cancel 1]. vm_compute. reflexivity.
  - split; [vm_compute; reflexivity|]. split; reflexivity.
Qed.

Print Assumptions C79_done_context_does_nothing_partial.
Print Assumptions C79_done_context_does_nothing_refuted.
