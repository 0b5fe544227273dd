(* Proofs about Pool. *)
From Coq Require Import List Arith Bool Lia.
From Verif Require Import Pool SpecPool.
Import ListNotations.

Definition cnt (c : nat) (l : list nat) : nat := count_occ Nat.eq_dec l c.
Definition held (ts : list (pc * bool)) : list nat := flat_map (fun t => holding (fst t)) ts.
Definition here (c n : nat) : nat := if c <? n then 1 else 0.

Lemma cnt_app : forall c a b, cnt c (a ++ b) = cnt c a + cnt c b.
Proof. intros. apply count_occ_app. Qed.
Lemma cnt_cons : forall c x l, cnt c (x :: l) = (if Nat.eq_dec x c then 1 else 0) + cnt c l.
Proof. intros. unfold cnt. cbn. destruct (Nat.eq_dec x c); lia. Qed.
Lemma cnt_nil : forall c, cnt c [] = 0. Proof. reflexivity. Qed.
Lemma held_app : forall a b, held (a ++ b) = held a ++ held b.
Proof. intros. apply flat_map_app. Qed.

Lemma set_nth_split : forall A (l : list A) i x y, nth_error l i = Some x ->
  exists a b, l = a ++ x :: b /\ length a = i /\ set_nth i y l = a ++ y :: b.
Proof.
  induction l as [|z l IH]; intros [|i] x y H; cbn in *; try discriminate.
  - injection H as ->. exists [], l. auto.
  - destruct (IH i x y H) as (a & b & -> & <- & E). exists (z :: a), b. rewrite E. auto.
Qed.
Lemma nth_set_same : forall A (l : list A) i x y, nth_error l i = Some x -> nth_error (set_nth i y l) i = Some y.
Proof.
  intros A l i x y H. destruct (set_nth_split _ _ _ _ y H) as (a & b & -> & <- & E). rewrite E. rewrite nth_error_app2, Nat.sub_diag by lia. reflexivity. Qed.
Lemma nth_set_other : forall A (l : list A) i j y, i <> j -> nth_error (set_nth i y l) j = nth_error l j.
Proof. induction l as [|z l IH]; intros [|i] [|j] y H; cbn; try reflexivity; try lia. apply IH. lia. Qed.
Lemma set_nth_length : forall A (l : list A) i y, length (set_nth i y l) = length l.
Proof. induction l as [|z l IH]; intros [|i] y; cbn; auto. Qed.

Lemma takes_app : forall a b, takes (a ++ b) = takes a ++ takes b. Proof. intros. apply flat_map_app. Qed.
Lemma puts_app : forall a b, puts (a ++ b) = puts a ++ puts b. Proof. intros. apply flat_map_app. Qed.
Lemma closings_app : forall a b, closings (a ++ b) = closings a ++ closings b. Proof. intros. apply flat_map_app. Qed.

(* Every connection that exists is in exactly one place. *)
Record inv (s : state) : Prop := {
  one_place : forall c, cnt c (idle s) + cnt c (held (calls s)) + cnt c (closings (history s)) = here c (next s);
  fits : length (idle s) <= size s;
  fifo : puts (history s) = takes (history s) ++ idle s;
  known : forall c, created s c <-> c < next s }.

Lemma history_app : forall (s : state) es q p i b, history (go s i p b q es) = history s ++ rev es.
Proof. intros. unfold history, go. cbn. apply rev_app_distr. Qed.

Lemma created_app : forall (s s' : state) es, history s' = history s ++ es -> (forall i c, ~ In (Created i c) es) -> forall c, created s' c <-> created s c.
Proof.
  intros s s' es H N c. unfold created. rewrite H. split; intros [i I].
  - apply in_app_or in I. destruct I as [I|I]; [eauto|destruct (N _ _ I)].
  - exists i. apply in_or_app. auto.
Qed.

(* A call goes on. *)
Lemma inv_go : forall s i p b p' b' q es, inv s -> nth_error (calls s) i = Some (p, b) ->
  (forall c, cnt c q + cnt c (holding p') + cnt c (closings (rev es)) = cnt c (idle s) + cnt c (holding p)) ->
  length q <= size s -> puts (history s ++ rev es) = takes (history s ++ rev es) ++ q -> (forall j c, ~ In (Created j c) (rev es)) ->
  inv (go s i p' b' q es).
Proof.
  intros s i p b p' b' q es [I1 I2 I3 I4] H Hc Hl Hp Hn. destruct (set_nth_split _ _ _ _ (p', b') H) as (x & y & E & _ & E').
  split.
  - intros c. rewrite history_app, closings_app, cnt_app. cbn [go calls idle next]. rewrite E'. specialize (I1 c). specialize (Hc c). rewrite E in I1. rewrite held_app, cnt_app in *. unfold held at 2 in I1. unfold held at 2. cbn [flat_map fst] in *.
    fold (held y) in *. rewrite cnt_app in *. lia.
  - exact Hl.
  - rewrite history_app. exact Hp.
  - intros c. rewrite (created_app s _ (rev es)) by (rewrite ?history_app; auto). exact (I4 c).
Qed.

Ltac count := let c := fresh "c" in intros c; cbn [rev app closings flat_map holding]; rewrite ?cnt_app, ?cnt_cons, ?cnt_nil; lia.

Lemma inv_step : forall a s s', inv s -> step a s = Some s' -> inv s'.
Proof.
  intros a s s' Hi H. unfold step in H. destruct (crashed s) eqn:Hcr; [discriminate|]. pose proof Hi as [I1 I2 I3 I4].
  assert (Keep : forall i p b p' b', nth_error (calls s) i = Some (p, b) -> holding p' = holding p -> inv (go s i p' b' (idle s) [])).
  { intros i p b p' b' Hn Hp. eapply inv_go; [exact Hi|exact Hn|rewrite Hp; count|exact I2| |cbn; tauto]. cbn [rev]. rewrite app_nil_r. exact I3. }
  destruct a as [| |i|i|i|i|i ok|i ok|i|i|i].
  - injection H as <-. split; cbn [size idle ch_closed next calls log]; auto. intros c. specialize (I1 c). rewrite held_app, cnt_app. cbn [held flat_map fst holding app]. rewrite cnt_nil. unfold history in *. cbn [log]. lia.
  - injection H as <-. split; cbn [size idle ch_closed next calls log]; auto. intros c. specialize (I1 c). rewrite held_app, cnt_app. cbn [held flat_map fst holding app]. rewrite cnt_nil. unfold history in *. cbn [log]. lia.
  - destruct (nth_error (calls s) i) as [[p b]|] eqn:Hn; [|discriminate]. injection H as <-. (refine (Keep _ _ _ _ _ Hn _); reflexivity).
  - destruct (nth_error (calls s) i) as [[p b]|] eqn:Hn; [|discriminate]. destruct (idle s) as [|c q] eqn:Hq.
    + destruct p; try discriminate; destruct (ch_closed s); try discriminate; injection H as <-; refine (Keep _ _ _ _ _ Hn _); reflexivity.
    + assert (G : forall p', holding p' = [c] -> holding p = [] -> inv (go s i p' b q [Taken i c])).
      { intros p' E1 E2. eapply inv_go; [exact Hi|exact Hn|rewrite E1, E2, Hq; count|cbn [length] in I2; lia| |].
        - rewrite puts_app, takes_app. cbn [rev app puts takes flat_map]. rewrite ?app_nil_r, I3, <- app_assoc. rewrite ?Hq. reflexivity.
        - intros j c' [E|[]]. discriminate. }
      destruct p; try discriminate; injection H as <-; apply G; reflexivity.
  - destruct (nth_error (calls s) i) as [[p b]|] eqn:Hn; [|discriminate]. destruct p; try discriminate; destruct b; try discriminate; injection H as <-; (refine (Keep _ _ _ _ _ Hn _); reflexivity).
  - destruct (nth_error (calls s) i) as [[p b]|] eqn:Hn; [|discriminate]. destruct p; try discriminate; destruct b; try discriminate; destruct (idle s) as [|c q] eqn:Hq; try discriminate; destruct (ch_closed s); try discriminate; injection H as <-.
    + eapply inv_go; [exact Hi|exact Hn|rewrite Hq; count|cbn; lia| |].
      * rewrite puts_app, takes_app. cbn [rev app puts takes flat_map]. rewrite ?app_nil_r, I3, ?Hq, app_nil_r. reflexivity.
      * intros j c' [E|[]]. discriminate.
    + refine (Keep _ _ _ _ _ Hn _). reflexivity.
  - destruct (nth_error (calls s) i) as [[p b]|] eqn:Hn; [|discriminate]. destruct p; try discriminate. destruct ok; injection H as <-; [|(refine (Keep _ _ _ _ _ Hn _); reflexivity)].
    destruct (set_nth_split _ _ _ _ (SSend (next s), b) Hn) as (x & y & E & _ & E'). split; cbn [size idle ch_closed next calls log].
    + intros c. specialize (I1 c). unfold history in *. cbn [log rev]. rewrite closings_app, cnt_app. rewrite E' . rewrite E in I1. rewrite held_app, cnt_app in *. unfold held at 2 in I1. unfold held at 2. cbn [flat_map fst holding closings app] in *.
      fold (held y) in *. rewrite cnt_nil, cnt_cons. unfold here in *. destruct (Nat.eq_dec (next s) c) as [<-|Hne].
      * rewrite (proj2 (Nat.ltb_lt _ _)) by lia. rewrite Nat.ltb_irrefl in I1. lia.
      * destruct (Nat.ltb_spec c (next s)); destruct (Nat.ltb_spec c (S (next s))); lia.
    + exact I2.
    + unfold history in *. cbn [log rev]. rewrite puts_app, takes_app, I3. cbn [puts takes flat_map]. rewrite !app_nil_r. reflexivity.
    + intros c. unfold created, history in *. cbn [log rev]. split.
      * intros [j J]. apply in_app_or in J. destruct J as [J|[J|[]]]; [assert (c < next s) by (apply I4; eauto); lia|injection J as _ <-; lia].
      * intros L. destruct (Nat.eq_dec c (next s)) as [->|Hne]; [exists i; apply in_or_app; right; left; reflexivity|]. destruct (proj2 (I4 c) ltac:(lia)) as [j J]. exists j. apply in_or_app. auto.
  - destruct (nth_error (calls s) i) as [[p b]|] eqn:Hn; [|discriminate]. destruct p; try discriminate. injection H as <-.
    eapply inv_go; [exact Hi|exact Hn|destruct ok; count|exact I2| |].
    + rewrite puts_app, takes_app. cbn [rev app puts takes flat_map]. rewrite !app_nil_r. exact I3.
    + intros j c' [E|[]]. discriminate.
  - destruct (nth_error (calls s) i) as [[p b]|] eqn:Hn; [|discriminate].
    assert (G : forall c p', holding p = [c] -> holding p' = [] -> inv (go s i p' b (idle s) [Closed i c])).
    { intros c p' E1 E2. eapply inv_go; [exact Hi|exact Hn|rewrite E1, E2; count|exact I2| |].
      - rewrite puts_app, takes_app. cbn [rev app puts takes flat_map]. rewrite !app_nil_r. exact I3.
      - intros j c' [E|[]]. discriminate. }
    destruct p; try discriminate; injection H as <-; apply G; reflexivity.
  - destruct (nth_error (calls s) i) as [[p b]|] eqn:Hn; [|discriminate]. destruct p; try discriminate. destruct (ch_closed s); [injection H as <-; split; assumption|].
    destruct (Nat.ltb_spec (length (idle s)) (size s)) as [L|L]; injection H as <-; [|(refine (Keep _ _ _ _ _ Hn _); reflexivity)].
    eapply inv_go; [exact Hi|exact Hn|count|rewrite app_length; cbn [length]; lia| |].
    + rewrite puts_app, takes_app. cbn [rev app puts takes flat_map]. rewrite app_nil_r, I3, <- app_assoc. reflexivity.
    + intros j c' [E|[]]. discriminate.
  - destruct (nth_error (calls s) i) as [[p b]|] eqn:Hn; [|discriminate]. destruct p; try discriminate. destruct (ch_closed s); [injection H as <-; split; assumption|]. injection H as <-.
    assert (K := Keep i _ _ (Returned o) b Hn eq_refl). destruct K as [K1 K2 K3 K4]. split; assumption.
Qed.

Lemma inv_new : forall n, inv (new_pool n).
Proof.
  intros n. split; cbn; auto; try lia.
  - intros c. unfold created. cbn. split; [intros [i []]|lia].
Qed.
Lemma inv_run : forall acts s s', inv s -> run acts s = Some s' -> inv s'.
Proof.
  induction acts as [|a acts IH]; intros s s' Hi H; cbn in H; [injection H as <-; exact Hi|]. destruct (step a s) as [s1|] eqn:E; [|discriminate]. exact (IH _ _ (inv_step _ _ _ Hi E) H). Qed.
Lemma inv_reachable : forall n s, reachable n s -> inv s.
Proof. intros n s [acts H]. exact (inv_run _ _ _ (inv_new n) H). Qed.

Lemma run_app : forall a b s, run (a ++ b) s = match run a s with Some s' => run b s' | None => None end.
Proof. induction a as [|x a IH]; intros b s; cbn; [reflexivity|]. destruct (step x s); [apply IH|reflexivity]. Qed.

(* counting and membership *)
Lemma cnt_in : forall c l, In c l <-> 1 <= cnt c l.
Proof. intros. unfold cnt. rewrite (count_occ_In Nat.eq_dec). lia. Qed.
Lemma held_holds : forall s c, In c (held (calls s)) <-> exists i, holds s i c.
Proof.
  intros s c. unfold held, holds. rewrite in_flat_map. split.
  - intros ([p b] & I & J). destruct (In_nth_error _ _ I) as [i Hi]. exists i, p, b. auto.
  - intros (i & p & b & H & J). exists (p, b). split; [exact (nth_error_In _ _ H)|exact J].
Qed.
Lemma held_twice : forall ts i j p b q b' c, i <> j -> nth_error ts i = Some (p, b) -> nth_error ts j = Some (q, b') -> In c (holding p) -> In c (holding q) -> 2 <= cnt c (held ts).
Proof.
  assert (K : forall ts i j p b q b' c, i < j -> nth_error ts i = Some (p, b) -> nth_error ts j = Some (q, b') -> In c (holding p) -> In c (holding q) -> 2 <= cnt c (held ts)).
  { intros ts i j p b q b' c Hij Hi Hj Ip Iq. destruct (nth_error_split _ _ Hi) as (x & y & -> & Lx).
    rewrite held_app, cnt_app. unfold held at 2. cbn [flat_map fst]. fold (held y). rewrite cnt_app. apply cnt_in in Ip.
    rewrite nth_error_app2 in Hj by lia. replace (j - length x) with (S (j - length x - 1)) in Hj by lia. cbn in Hj.
    assert (In c (held y)) as Iy by (unfold held; apply in_flat_map; exists (q, b'); split; [exact (nth_error_In _ _ Hj)|exact Iq]). apply cnt_in in Iy. lia. }
  intros ts i j p b q b' c Hne Hi Hj Ip Iq. destruct (Nat.lt_total i j) as [L|[L|L]]; [eapply K; eauto|contradiction|eapply K; eauto]. Qed.
Lemma closings_in : forall s c, In c (closings (history s)) <-> is_closed s c.
Proof.
  intros s c. unfold closings, is_closed. rewrite in_flat_map. split.
  - intros ([i c'|i|i c'|i c' ok|i c'|i c'] & I & J); cbn in J; try tauto. destruct J as [<-|[]]. eauto.
  - intros [i I]. exists (Closed i c). split; [exact I|left; reflexivity].
Qed.

Lemma nth_set : forall A (l : list A) i j x, nth_error (set_nth i x l) j = if Nat.eq_dec i j then (match nth_error l i with Some _ => Some x | None => None end) else nth_error l j.
Proof.
  intros A l i j x. destruct (Nat.eq_dec i j) as [<-|Hne]; [|apply nth_set_other; exact Hne]. destruct (nth_error l i) eqn:E; [exact (nth_set_same _ _ _ _ _ E)|].
  apply nth_error_None in E. apply nth_error_None. rewrite set_nth_length. exact E.
Qed.

Ltac split_step H := repeat (match type of H with context [match ?x with _ => _ end] => let E := fresh "E" in destruct x eqn:E; try discriminate H end); subst.

(* What one step can do, event by event. *)
Definition emits (s : state) (e : event) : Prop :=
  match e with
  | Taken i c => exists q, idle s = c :: q
  | NoneIdle i => idle s = []
  | Created i c => c = next s
  | Used i c ok => sending s i c
  | PutBack i c => exists b, nth_error (calls s) i = Some (SReturn c, b)
  | Closed i c => exists p b, nth_error (calls s) i = Some (p, b) /\ In p [SFail c; SDrop c; KDrop c]
  end.
(* Call j after a step of another call, or a cancellation. *)
Lemma step_spec : forall a s s', step a s = Some s' -> exists es, log s' = es ++ log s /\ (es = [] \/ exists e, es = [e] /\ emits s e) /\ size s' = size s.
Proof.
  intros a s s' H. unfold step in H. destruct (crashed s); [discriminate|].
  destruct a as [| |i|i|i|i|i ok|i ok|i|i|i]; split_step H; injection H as <-;
  (eexists; split; [solve [reflexivity | cbn; apply (eq_sym (app_nil_l _)) | change (Created i (next s) :: log s) with ([Created i (next s)] ++ log s); reflexivity]|]; split; [|reflexivity]);
  solve [left; reflexivity | right; eexists; split; [reflexivity|]; cbn; unfold sending; eauto 10].
Qed.

Lemma size_run : forall acts s s', run acts s = Some s' -> size s' = size s.
Proof.
  induction acts as [|a acts IH]; intros s s' H; cbn in H; [injection H as <-; reflexivity|]. destruct (step a s) as [s1|] eqn:E; [|discriminate].
  destruct (step_spec _ _ _ E) as (es & _ & _ & Z). rewrite (IH _ _ H). exact Z. Qed.

(* A property of all reachable states, from the empty pool and each step. *)
Lemma reachable_ind : forall n (P : state -> Prop), P (new_pool n) ->
  (forall a s s', reachable n s -> P s -> step a s = Some s' -> P s') -> forall s, reachable n s -> P s.
Proof.
  intros n P H0 Hs s [acts H]. revert s H. induction acts as [|a acts IH] using rev_ind; intros s H.
  - injection H as <-. exact H0.
  - rewrite run_app in H. destruct (run acts (new_pool n)) as [s1|] eqn:R; [|discriminate]. cbn in H. destruct (step a s1) as [s2|] eqn:S; [|discriminate]. injection H as <-.
    apply (Hs a s1); [exists acts; exact R|apply IH; reflexivity|exact S].
Qed.
Lemma run_ind : forall (P : state -> Prop) (A : action -> Prop), (forall a s s', A a -> P s -> step a s = Some s' -> P s') ->
  forall acts s s', Forall A acts -> P s -> run acts s = Some s' -> P s'.
Proof.
  intros P A Hs acts. induction acts as [|a acts IH]; intros s s' F H0 H; cbn in H; [injection H as <-; exact H0|]. inversion_clear F. destruct (step a s) as [s1|] eqn:E; [|discriminate].
  eapply IH; [eassumption| |exact H]. eapply Hs; eauto. Qed.

(* A call that makes no step stays where it is, except that its ctx may become done. *)
Lemma other_call : forall a s s' j p b, step a s = Some s' -> actor a <> Some j -> nth_error (calls s) j = Some (p, b) -> exists b', nth_error (calls s') j = Some (p, b').
Proof.
  intros a s s' j p b H Ha Hj. unfold step in H. destruct (crashed s); [discriminate|].
  assert (Gen : forall i x (l : list (pc * bool)), i <> j -> nth_error l j = Some (p, b) -> exists b', nth_error (set_nth i x l) j = Some (p, b')) by (intros i x l Hne Hl; rewrite nth_set_other by exact Hne; eauto).
  destruct a as [| |i|i|i|i|i ok|i ok|i|i|i]; cbn [actor] in Ha; split_step H; injection H as <-; cbn [go crash calls];
    try (apply Gen; [congruence|exact Hj]); try (rewrite nth_error_app1 by (apply nth_error_Some; congruence); eauto); try (eauto; fail).
  rewrite nth_set. destruct (Nat.eq_dec i j) as [->|]; [|eauto]. rewrite Hj in E. injection E as -> ->. rewrite Hj. eauto.
Qed.

(* Where a call can come from. *)
Lemma new_calls : forall a s s' j t, step a s = Some s' -> nth_error (calls s') j = Some t ->
  (exists t', nth_error (calls s) j = Some t') \/ (j = length (calls s) /\ (a = CallSend /\ t = (SSelect, false) \/ a = CallClose /\ t = (KSelect, false))).
Proof.
  intros a s s' j t H Hj. destruct (nth_error (calls s) j) as [t'|] eqn:E; [eauto|]. right. apply nth_error_None in E. unfold step in H. destruct (crashed s); [discriminate|].
  assert (Gen : forall i x, nth_error (set_nth i x (calls s)) j <> Some t) by (intros i x K; assert (nth_error (set_nth i x (calls s)) j = None) by (apply nth_error_None; rewrite set_nth_length; exact E); congruence).
  assert (Gen' : nth_error (calls s) j <> Some t) by (intros K; apply nth_error_None in E; congruence).
  destruct a as [| |i|i|i|i|i ok|i ok|i|i|i]; split_step H; injection H as <-; cbn [go crash calls] in Hj; try (destruct (Gen _ _ Hj)); try (destruct (Gen' Hj)).
  - rewrite nth_error_app2 in Hj by exact E. destruct (j - length (calls s)) as [|k] eqn:Ek; [|destruct k; discriminate]. injection Hj as <-. split; [lia|auto].
  - rewrite nth_error_app2 in Hj by exact E. destruct (j - length (calls s)) as [|k] eqn:Ek; [|destruct k; discriminate]. injection Hj as <-. split; [lia|auto].
Qed.
