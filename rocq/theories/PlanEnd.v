(* A goroutine with a plan makes finitely many steps. *)
From Coq Require Import String List NArith ZArith Arith Bool Lia.
From Coq Require Import List.
From Verif Require Import Base GoSlice Values Builder Conn System Mem MemModel MemPipes Fine FineModel FineRun FineProofs FineAll FinePool SpecPlan PlanProofs PlanSys.
From Verif Require Pool PoolProofs ThmPool.
Import ListNotations.
Local Open Scope nat_scope.
Local Notation length := List.length.

Section Proofs.
Context `{E : Env}.

(* What a goroutine has left to do: its code, and, in a call of the pool, the steps this still takes and what comes after. *)
Definition todo : Type := go stage * option (nat * hbuilder * (seen + answer -> plan) * list told).

Inductive less : todo -> todo -> Prop :=
| less_access c c' w : part c' c -> less (c', w) (c, w)
| less_call d q b k l c r : less (c, Some (r, b, k, l)) (Return (Asks d q b k l), None)
| less_pool c r r' b k l : r' < r -> less (c, Some (r', b, k, l)) (c, Some (r, b, k, l))
| less_back c r b k l a : less (g_plan (k (inr a)) (Some b) (Answered a :: l), None) (c, Some (r, b, k, l)).

Lemma acc_waiting k : (forall a b l, Acc less (g_plan (k (inr a)) b l, None)) -> forall r c b l, Acc less (c, Some (r, b, k, l)).
Proof.
  intros H r. induction r as [r IHr] using lt_wf_ind. intros c. induction c as [c IHc] using (well_founded_induction part_wf).
  intros b l. constructor. intros y Y. inversion Y; subst; auto.
Qed.

Fixpoint leaves {A} (P : A -> Prop) (c : go A) : Prop :=
  match c with
  | Return a => P a
  | Stop => True
  | Load _ _ k => forall v, leaves P (k v)
  | Store _ _ _ k => leaves P k
  | Alloc _ k => forall a, leaves P (k a)
  end.

Lemma leaves_bind {A B} (P : B -> Prop) (c : go A) f : (forall x, leaves P (f x)) -> leaves P (gbind c f).
Proof. intros H. induction c; cbn [gbind leaves]; auto. Qed.

Lemma acc_leaves c : leaves (fun x => Acc less (Return x, None)) c -> Acc less (c, None).
Proof.
  induction c as [r| |a x k IH|a x v k IH|l k IH]; cbn [leaves]; intros H; [exact H|..];
    constructor; intros y Y; inversion Y; subst; match goal with P : part _ _ |- _ => inversion P; subst end; auto.
Qed.

Lemma plan_leaves p : forall b l, leaves (fun x => Acc less (Return x, None)) (g_plan p b l).
Proof.
  induction p as [|a k IH|d k IH]; intros b l; cbn [g_plan].
  - cbn [leaves]. constructor. intros y Y. inversion Y; subst. match goal with P : part _ _ |- _ => inversion P end.
  - apply leaves_bind. intros [b' s]. apply IH.
  - destruct b as [b|]; [|apply IH]. apply leaves_bind. intros [[s|e]|]; [|apply IH..].
    cbn [leaves]. constructor. intros y Y. inversion Y; subst; [match goal with P : part _ _ |- _ => inversion P end|].
    apply acc_waiting. intros a b' l'. apply acc_leaves, IH.
Qed.

(* ------------------------------------------------------------ calls of Send stay calls of Send, and come nearer to their end *)

Definition sends_at (p : Pool.state) (i : nat) : Prop := exists c b, nth_error (Pool.calls p) i = Some (c, b) /\ ThmPool.is_send c.
Definition rank_at (p : Pool.state) (i : nat) : nat := match nth_error (Pool.calls p) i with Some (c, _) => ThmPool.rank c | None => 0 end.

Lemma pool_other a p p' i : Pool.step a p = Some p' -> sends_at p i -> Pool.actor a <> Some i -> sends_at p' i /\ rank_at p' i = rank_at p i.
Proof.
  intros H [c [b [Hc Hs]]] Na. unfold rank_at, sends_at. rewrite Hc.
  assert (G : exists b', nth_error (Pool.calls p') i = Some (c, b')); [|destruct G as [b' ->]; eauto 6].
  assert (Li : i < length (Pool.calls p)) by (apply nth_error_Some; congruence).
  unfold Pool.step in H. destruct (Pool.crashed p); [discriminate|].
  destruct a;
    repeat match type of H with context [match ?x with _ => _ end] => let Ex := fresh "Ex" in destruct x eqn:Ex; try discriminate end;
    injection H as <-; cbn [Pool.calls Pool.go Pool.crash Pool.actor] in *;
    rewrite ?nth_set; try (rewrite nth_error_app1 by exact Li); try (destruct (Nat.eqb_spec i i0) as [->|]; [try congruence|]); eauto.
  rewrite Ex in *. injection Hc as -> ->. eauto.
Qed.

Lemma pool_own a p p' i : Pool.step a p = Some p' -> sends_at p i -> Pool.actor a = Some i -> Pool.crashed p' = false -> sends_at p' i /\ rank_at p' i < rank_at p i.
Proof.
  intros H [c [b [Hc Hs]]] Ha Nc. destruct (ThmPool.send_step _ _ _ _ _ _ H Ha Hc Hs) as [_ [Cr|[c' [b' [Hc' [Hs' L]]]]]]; [congruence|].
  unfold rank_at, sends_at. rewrite Hc, Hc'. split; [eauto|lia].
Qed.

Lemma pool_step_sends a p p' i : Pool.step a p = Some p' -> sends_at p i -> Pool.crashed p' = false ->
  sends_at p' i /\ rank_at p' i <= rank_at p i /\ (Pool.actor a = Some i -> rank_at p' i < rank_at p i).
Proof.
  intros H S Nc. destruct (Pool.actor a) as [j|] eqn:Ea.
  - destruct (Nat.eq_dec j i) as [->|N].
    + destruct (pool_own _ _ _ _ H S Ea Nc). split; [assumption|]. split; [lia|auto].
    + destruct (pool_other _ _ _ i H S ltac:(congruence)) as [S' R]. split; [exact S'|]. split; [lia|congruence].
  - destruct (pool_other _ _ _ i H S ltac:(congruence)) as [S' R]. split; [exact S'|]. split; [lia|discriminate].
Qed.

Definition own_action (a : action) (i : nat) : Prop :=
  match a with Step a => Pool.actor a = Some i | Connected j _ | Exchange j _ => j = i | CallSend _ _ => False end.

Lemma sys_step_sends w a s s' i : step w a s = Some s' -> sends_at (pool s) i -> Pool.crashed (pool s') = false ->
  sends_at (pool s') i /\ rank_at (pool s') i <= rank_at (pool s) i /\ (own_action a i -> rank_at (pool s') i < rank_at (pool s) i).
Proof.
  intros H S Nc. unfold step in H. destruct a as [a|d b|j c|j chunks].
  - assert (H' : match Pool.step a (pool s) with
         | Some p => Some (mksys p (conns s) (started s) (units s ++ match a with Pool.CallClose => [None] | _ => [] end) (results s))
         | None => None end = Some s') by (destruct a as [| | | | | |? []| | | |]; try discriminate; exact H).
    destruct (Pool.step a (pool s)) as [p|] eqn:Ep; [|discriminate]. injection H' as <-. eapply pool_step_sends; eassumption.
  - destruct (Pool.step Pool.CallSend (pool s)) as [p|] eqn:Ep; [|discriminate]. injection H as <-.
    destruct (pool_step_sends _ _ _ _ Ep S Nc) as [S' [L _]]. cbn [pool own_action]. tauto.
  - destruct (Pool.step (Pool.Dialled j true) (pool s)) as [p|] eqn:Ep; [|discriminate]. injection H as <-.
    destruct (pool_step_sends _ _ _ _ Ep S Nc) as [S' [L O]]. cbn [pool own_action]. split; [exact S'|]. split; [exact L|]. intros ->. apply O. reflexivity.
  - destruct (nth_error (Pool.calls (pool s)) j) as [[[] ?]|] eqn:Ej; try discriminate.
    destruct (nth_error (units s) j) as [[[d0 b0]|]|]; try discriminate. destruct (nth_error (conns s) _); [|discriminate].
    destruct (conn_send w d0 b0 _) as [[rr c']|].
    + destruct (Pool.step (Pool.Sent j (is_none (snd rr))) (pool s)) as [p|] eqn:Ep; [|discriminate]. injection H as <-.
      destruct (pool_step_sends _ _ _ _ Ep S Nc) as [S' [L O]]. cbn [pool own_action]. split; [exact S'|]. split; [exact L|]. intros ->. apply O. reflexivity.
    + injection H as <-. discriminate Nc.
Qed.

(* Every call with a unit is one of Send. *)
Definition units_send (s : system) : Prop := forall i d x, nth_error (units s) i = Some (Some (d, x)) -> sends_at (pool s) i.

Lemma units_send_step n w a s s' : shape n s -> units_send s -> step w a s = Some s' -> Pool.crashed (pool s') = false -> units_send s'.
Proof.
  intros Sh U H Nc i d x Hu. destruct (unit_new _ _ _ _ _ _ _ H Hu) as [H0|[-> ->]].
  - apply (sys_step_sends _ _ _ _ _ H (U _ _ _ H0) Nc).
  - cbn [step] in H. destruct (Pool.step Pool.CallSend (pool s)) as [p|] eqn:Ep; [|discriminate]. injection H as <-. cbn [pool].
    unfold Pool.step in Ep. destruct (Pool.crashed (pool s)); [discriminate|]. injection Ep as <-. exists Pool.SSelect, false. cbn [Pool.calls].
    rewrite (sh_units _ _ Sh). rewrite nth_error_app2 by lia. rewrite Nat.sub_diag. split; [reflexivity|exact I].
Qed.

(* ------------------------------------------------------------ a step of the goroutine leaves it less to do *)

Definition left_over (s : all) (g : nat) : todo :=
  (code s g, match waits s g with Some (i, b, k, l) => Some (rank_at (pool (sys s)) i, b, k, l) | None => None end).

Lemma crashed_stays w a s s' : step w a s = Some s' -> Pool.crashed (pool s') = false -> Pool.crashed (pool s) = false.
Proof.
  intros H Nc. unfold step in H. destruct a as [a|d b|j c|j chunks].
  - assert (H' : match Pool.step a (pool s) with
         | Some p => Some (mksys p (conns s) (started s) (units s ++ match a with Pool.CallClose => [None] | _ => [] end) (results s))
         | None => None end = Some s') by (destruct a as [| | | | | |? []| | | |]; try discriminate; exact H).
    destruct (Pool.step a (pool s)) as [p|] eqn:Ep; [|discriminate]. eapply step_not_crashed; exact Ep.
  - destruct (Pool.step Pool.CallSend (pool s)) as [p|] eqn:Ep; [|discriminate]. eapply step_not_crashed; exact Ep.
  - destruct (Pool.step (Pool.Dialled j true) (pool s)) as [p|] eqn:Ep; [|discriminate]. eapply step_not_crashed; exact Ep.
  - destruct (nth_error (Pool.calls (pool s)) j) as [[[] ?]|] eqn:Ej; try discriminate.
    destruct (nth_error (units s) j) as [[[d0 b0]|]|]; try discriminate. destruct (nth_error (conns s) _); [|discriminate].
    destruct (conn_send w d0 b0 _) as [[rr c']|].
    + destruct (Pool.step (Pool.Sent j (is_none (snd rr))) (pool s)) as [p|] eqn:Ep; [|discriminate]. eapply step_not_crashed; exact Ep.
    + injection H as <-. discriminate Nc.
Qed.

Lemma move_less m0 n P tr s l s' g : good m0 n P tr s -> units_send (sys s) -> moves s l s' -> Pool.crashed (pool (sys s')) = false ->
  (left_over s' g = left_over s g \/ less (left_over s' g) (left_over s g)) /\ (step_of g s l s' -> less (left_over s' g) (left_over s g)).
Proof.
  intros [Q [Iv [_ [PhA _]]]] US M Nc. assert (Ph := PhA g). unfold phase in Ph.
  assert (Wt : forall i b k t, waits s g = Some (i, b, k, t) -> sends_at (pool (sys s)) i).
  { intros i b k t Hw. rewrite Hw in Ph. destruct Ph as [o [v [is_ [d [x [_ [_ [Hu _]]]]]]]]. exact (US _ _ _ Hu). }
  assert (Pl : forall s2 a, step word32 a (sys s) = Some s2 -> Pool.crashed (pool s2) = false -> waits s' g = waits s g -> code s' g = code s g -> sys s' = s2 ->
    (left_over s' g = left_over s g \/ less (left_over s' g) (left_over s g)) /\
    ((exists i b k t, waits s g = Some (i, b, k, t) /\ own_action a i) -> less (left_over s' g) (left_over s g))).
  { intros s2 a Hs Nc2 Ew Ec Es. unfold left_over. rewrite Ew, Ec, Es. destruct (waits s g) as [[[[i b] k] t]|] eqn:Hw.
    - destruct (sys_step_sends _ _ _ _ i Hs (Wt _ _ _ _ eq_refl) Nc2) as [_ [L O]]. split.
      + destruct (Nat.eq_dec (rank_at (pool s2) i) (rank_at (pool (sys s)) i)) as [->|Ne]; [left; reflexivity|right; constructor; lia].
      + intros [i' [b' [k' [t' [Ei Oi]]]]]. injection Ei as <- <- <- <-. constructor. exact (O Oi).
    - split; [left; reflexivity|]. intros [? [? [? [? [? _]]]]]. discriminate. }
  destruct M as [m c w s h g0 x m' c' Hw H|m c w s h g0 d q b k t s' Hw Hc H|m c w s h g0 x m' c' i b k t Hw Hi H|
    m c w s h g0 i b k t x chunks s' Hw Hc H|m c w s h g0 i b k t a Hw Ha|m c w s h a s' Na H]; cbn [waits made sys code] in *.
  - destruct (happens_part _ _ _ _ H) as [Hp Ho]. cbn [doing] in *. unfold left_over. cbn [waits sys code step_of]. destruct (Nat.eq_dec g0 g) as [->|N].
    + assert (less (c' g, match w g with Some (i, b, k, l) => Some (rank_at (pool s) i, b, k, l) | None => None end) (c g, match w g with Some (i, b, k, l) => Some (rank_at (pool s) i, b, k, l) | None => None end)) by (constructor; exact Hp). auto.
    + rewrite Ho by congruence. split; [left; reflexivity|]. intros ->. contradiction.
  - destruct (Nat.eq_dec g0 g) as [->|N].
    + assert (L : less (left_over (mka m (put c g (let! x := g_read q in Return (Hands x))) (put w g (Some (length (units s), b, k, t))) s' (put h g (length (units s) :: h g))) g) (left_over (mka m c w s h) g)).
      { unfold left_over. cbn [waits sys code]. rewrite !put_eq, Hc, Hw. constructor. }
      auto.
    + destruct (Pl s' _ H Nc) as [G _]; [apply put_ne; congruence|apply put_ne; congruence|reflexivity|]. split; [exact G|].
      cbn [step_of made]. rewrite put_ne by congruence. intros Hn; contradiction.
  - destruct (happens_part _ _ _ _ H) as [Hp Ho]. cbn [doing] in *. unfold left_over. cbn [waits sys code step_of]. destruct (Nat.eq_dec g0 g) as [->|N].
    + rewrite Hw. assert (less (c' g, Some (rank_at (pool s) i, b, k, t)) (c g, Some (rank_at (pool s) i, b, k, t))) by (constructor; exact Hp). auto.
    + rewrite Ho by congruence. split; [left; reflexivity|]. intros ->. contradiction.
  - assert (Pg := PhA g0). unfold phase in Pg. cbn [waits made sys code] in Pg. rewrite Hw in Pg. destruct Pg as [o [v [is_ [d [y [Em [Ho [Hu [EQ [Lk Al]]]]]]]]]].
    destruct (inv_at _ _ _ _ g0 Iv Lk) as [hh [r [Hq [Er0 _]]]]. rewrite (Er0 _ Hc), EQ in Hq. destruct Hq as [Er _]. inversion Er; subst y. clear Er.
    rewrite (set_unit_same _ _ _ _ Hu) in H. destruct (Pl s' _ H Nc eq_refl eq_refl eq_refl) as [G O]. split; [exact G|]. intros Hs. apply O. exact Hs.
  - unfold left_over. cbn [waits sys code step_of]. destruct (Nat.eq_dec g0 g) as [->|N].
    + rewrite !put_eq, Hw. match goal with |- (_ \/ ?L) /\ _ => assert L by constructor end. auto.
    + rewrite !put_ne by congruence. split; [left; reflexivity|]. intros ->. contradiction.
  - destruct (Pl s' a H Nc eq_refl eq_refl eq_refl) as [G O]. split; [exact G|]. intros Hs. apply O.
    destruct a as [a| |j cn|]; try contradiction; exact Hs.
Qed.

(* All that holds on the way, as long as no call of the pool panics. *)
Lemma on_the_way m n P tr s : moves_on (begin m n P) tr s -> Pool.crashed (pool (sys s)) = false ->
  good m n P tr s /\ units_send (sys s) /\ forall g, Acc less (left_over s g).
Proof.
  intros M. assert (G := good_moves _ _ _ _ _ M). remember (begin m n P) as s0 eqn:E0. induction M as [s|s tr s' l s'' M IH Mv].
  - subst. intros _. split; [exact G|]. split; [intros i d x H; destruct i; discriminate|]. intros g. apply acc_leaves, plan_leaves.
  - intros Nc. subst s. assert (G' := good_moves _ _ _ _ _ M).
    assert (Nc' : Pool.crashed (pool (sys s')) = false).
    { destruct Mv; cbn [sys] in *; try assumption; try (eapply crashed_stays; eassumption).
      match goal with H : step _ _ (set_unit _ _ _) = _ |- _ => apply crashed_stays in H; [exact H|exact Nc] end. }
    destruct (IH eq_refl G' Nc') as [_ [US Ac]]. split; [exact G|].
    assert (Sh : shape n (sys s')) by (destruct G' as [Q [_ [R _]]]; eapply shape_run; [apply shape_new|exact R]).
    split.
    + destruct G as [Q [_ [R _]]]. rewrite at_pool_app, run_app in R. destruct G' as [Q' [_ [R' _]]]. rewrite R' in R.
      destruct l as [g x|a|g]; cbn [at_pool flat_map app System.run] in R; try (injection R as <-; exact US).
      destruct (step word32 a (sys s')) as [u|] eqn:Eu; [|discriminate]. injection R as ->. eapply units_send_step; eassumption.
    + intros g. destruct (move_less _ _ _ _ _ _ _ g G' US Mv Nc) as [[->|L] _]; [apply Ac|exact (Acc_inv (Ac g) L)].
Qed.

End Proofs.
