(* What holds of a pool with its connections, whatever the servers send. *)
From Coq Require Import List NArith Arith Bool Lia.
From Verif Require Import Base Conn System.
From Verif Require Pool SpecPool PoolProofs ThmPool SystemProofs.
Import ListNotations.
Local Open Scope nat_scope.

Record shape (n : nat) (s : system) : Prop := {
  sh_pool : Pool.crashed (pool s) = false -> SpecPool.reachable n (pool s);
  sh_conns : length (conns s) = Pool.next (pool s);
  sh_units : length (units s) = length (Pool.calls (pool s)) }.

Lemma step_next a p p' : Pool.step a p = Some p' ->
  Pool.next p' = (match a with Pool.Dialled _ true => 1 | _ => 0 end) + Pool.next p /\
  length (Pool.calls p') = length (Pool.calls p) + (match a with Pool.CallSend | Pool.CallClose => 1 | _ => 0 end).
Proof.
  unfold Pool.step. destruct (Pool.crashed p); [discriminate|]. intros H.
  destruct a;
    repeat match type of H with context [match ?x with _ => _ end] => destruct x; try discriminate end; injection H as <-;
    cbn [Pool.next Pool.calls Pool.go Pool.crash]; rewrite ?app_length, ?PoolProofs.set_nth_length; cbn [length]; lia.
Qed.

Lemma shape_new n : shape n (new_system n).
Proof. constructor; try reflexivity. intros _. exists []. reflexivity. Qed.

Lemma step_not_crashed a p p' : Pool.step a p = Some p' -> Pool.crashed p = false.
Proof. unfold Pool.step. destruct (Pool.crashed p); [discriminate|reflexivity]. Qed.

Lemma shape_step n w a s s' : shape n s -> step w a s = Some s' -> shape n s'.
Proof.
  intros [R C U] H.
  assert (Rs : forall a p, Pool.step a (pool s) = Some p -> SpecPool.reachable n p).
  { intros b p Hp. eapply SystemProofs.reachable_step; [|exact Hp]. apply R. eapply step_not_crashed; exact Hp. }
  unfold step in H. destruct a as [a|d b|j c|j chunks].
  - assert (H' : match Pool.step a (pool s) with
         | Some p => Some (mksys p (conns s) (started s) (units s ++ match a with Pool.CallClose => [None] | _ => [] end) (results s))
         | None => None end = Some s' /\ match a with Pool.CallSend | Pool.Dialled _ true => False | _ => True end)
      by (destruct a as [| | | | | |? []| | | |]; try discriminate; auto).
    destruct H' as [H' Hq]. destruct (Pool.step a (pool s)) as [p|] eqn:Ep; [|discriminate]. injection H' as <-. destruct (step_next _ _ _ Ep) as [N L].
    constructor; cbn [pool conns units]; [intros _; eapply Rs; exact Ep| |].
    + rewrite C, N. destruct a as [| | | | | |? []| | | |]; try contradiction; reflexivity.
    + rewrite app_length, U, L. destruct a as [| | | | | |? []| | | |]; try contradiction; reflexivity.
  - destruct (Pool.step Pool.CallSend (pool s)) as [p|] eqn:Ep; [|discriminate]. injection H as <-. destruct (step_next _ _ _ Ep) as [N L].
    constructor; cbn [pool conns units]; [intros _; eapply Rs; exact Ep|lia|]. rewrite app_length, U, L. reflexivity.
  - destruct (Pool.step (Pool.Dialled j true) (pool s)) as [p|] eqn:Ep; [|discriminate]. injection H as <-. destruct (step_next _ _ _ Ep) as [N L].
    constructor; cbn [pool conns units]; [intros _; eapply Rs; exact Ep| |lia]. rewrite app_length, C, N. cbn. lia.
  - destruct (nth_error (Pool.calls (pool s)) j) as [[[] ?]|] eqn:Ej; try discriminate.
    destruct (nth_error (units s) j) as [[[d0 b0]|]|]; try discriminate. destruct (nth_error (conns s) _); [|discriminate].
    destruct (conn_send w d0 b0 _) as [[rr c']|].
    + destruct (Pool.step (Pool.Sent j (is_none (snd rr))) (pool s)) as [p|] eqn:Ep; [|discriminate]. injection H as <-. destruct (step_next _ _ _ Ep) as [N L].
      constructor; cbn [pool conns units]; [intros _; eapply Rs; exact Ep| |lia]. rewrite PoolProofs.set_nth_length, C, N. reflexivity.
    + injection H as <-. constructor; cbn [pool conns units Pool.crash Pool.crashed Pool.next Pool.calls]; [discriminate|exact C|exact U].
Qed.

Lemma shape_run n w acts : forall s s', shape n s -> run w acts s = Some s' -> shape n s'.
Proof.
  induction acts as [|a acts IH]; intros s s' S H; cbn [run] in H; [injection H as <-; exact S|].
  destruct (step w a s) as [u|] eqn:Eu; [|discriminate]. eapply IH; [|exact H]. eapply shape_step; eassumption.
Qed.

Lemma sending_exists n s i k b : shape n s -> Pool.crashed (pool s) = false -> nth_error (Pool.calls (pool s)) i = Some (Pool.SSend k, b) -> exists c, nth_error (conns s) k = Some c.
Proof.
  intros [R C U] Nc Hi. specialize (R Nc).
  destruct (nth_error (conns s) k) as [c|] eqn:Ec; [eauto|]. apply nth_error_None in Ec. exfalso.
  pose proof (PoolProofs.one_place _ (PoolProofs.inv_reachable _ _ R) k) as P.
  assert (In k (PoolProofs.held (Pool.calls (pool s)))) as Hh by (apply PoolProofs.held_holds; exists i, (Pool.SSend k), b; split; [exact Hi|left; reflexivity]).
  apply PoolProofs.cnt_in in Hh. unfold PoolProofs.here in P. destruct (k <? Pool.next (pool s)) eqn:El; [apply Nat.ltb_lt in El; lia|lia].
Qed.
