(* Proofs about how many connections a pool needs. *)
From Coq Require Import List Arith Bool Lia.
From Verif Require Import Pool SpecPool PoolProofs SpecPeak.
Import ListNotations.

(* The connections a call has or will have. *)
Definition dialling (p : pc) : nat := match p with SDial => 1 | _ => 0 end.
Definition failing (p : pc) : nat := match p with SFail _ => 1 | _ => 0 end.
Definition active (p : pc) : nat := if returned p then 0 else 1.
Definition total (f : pc -> nat) (ts : list (pc * bool)) : nat := list_sum (map (fun t => f (fst t)) ts).
Definition has (p : pc) : nat := length (holding p).

Lemma total_app : forall f a b, total f (a ++ b) = total f a + total f b.
Proof. intros. unfold total. rewrite map_app, list_sum_app. reflexivity. Qed.
Lemma total_cons : forall f t b, total f (t :: b) = f (fst t) + total f b. Proof. reflexivity. Qed.
Lemma total_set : forall f ts i p b p' b', nth_error ts i = Some (p, b) -> total f (set_nth i (p', b') ts) + f p = total f ts + f p'.
Proof.
  intros f ts i p b p' b' H. destruct (set_nth_split _ _ _ _ (p', b') H) as (x & y & -> & _ & ->). rewrite !total_app, !total_cons. cbn [fst]. lia. Qed.
Lemma total_ge : forall f ts i p b, nth_error ts i = Some (p, b) -> f p <= total f ts.
Proof. intros f ts i p b H. destruct (nth_error_split _ _ H) as (x & y & -> & _). rewrite total_app, total_cons. cbn [fst]. lia. Qed.
Lemma total_le : forall f g ts, (forall p, f p <= g p) -> total f ts <= total g ts.
Proof. intros f g ts H. induction ts as [|t ts IH]; [apply le_n|]. rewrite !total_cons. specialize (H (fst t)). lia. Qed.
Lemma total_add : forall f g ts, total (fun p => f p + g p) ts = total f ts + total g ts.
Proof. intros f g ts. induction ts as [|t ts IH]; [reflexivity|]. rewrite !total_cons, IH. lia. Qed.
Lemma has_held : forall ts, length (held ts) = total has ts.
Proof. induction ts as [|t ts IH]; [reflexivity|]. unfold held in *. cbn [flat_map]. rewrite app_length, IH, total_cons. reflexivity. Qed.
Lemma active_total : forall s, in_progress s = total active (calls s).
Proof.
  intros s. unfold in_progress. induction (calls s) as [|t ts IH]; [reflexivity|]. rewrite total_cons. cbn [filter]. unfold active at 1. destruct (returned (fst t)); cbn [negb length]; rewrite IH; reflexivity. Qed.
Lemma busy : forall ts, total has ts + total dialling ts <= total active ts.
Proof. intros ts. rewrite <- total_add. apply total_le. intros []; cbn; lia. Qed.

Definition live (s : state) : nat := length (idle s) + total has (calls s) + total dialling (calls s).
Definition quits (h : list event) : nat := length (closings h).

(* The books: every connection is idle, held or closed. *)
Definition book (s : state) : Prop := next s = length (idle s) + total has (calls s) + quits (history s).

Lemma quits_app : forall a b, quits (a ++ b) = quits a + quits b.
Proof. intros. unfold quits. rewrite closings_app, app_length. reflexivity. Qed.
Lemma failures_app : forall a b, failures (a ++ b) = failures a + failures b.
Proof. intros. unfold failures. rewrite filter_app, app_length. reflexivity. Qed.

Ltac sets f := match goal with
  | H : nth_error (calls ?s) ?i = Some (?p, ?b) |- context [set_nth ?i (?p', ?b') (calls ?s)] =>
      let K := fresh "K" in pose proof (total_set f (calls s) i p b p' b' H) as K; cbn [has holding length dialling failing active returned] in K
  end.

(* What a step does to the number of connections open or being dialled. *)
Lemma live_step : forall a s s', step a s = Some s' -> live s' <= live s \/ (idle s' = [] /\ live s' <= in_progress s').
Proof.
  intros a s s' H. unfold step in H. destruct (crashed s); [discriminate|].
  destruct a as [| |i|i|i|i|i ok|i ok|i|i|i].
  1,2: injection H as <-; left; unfold live; cbn [idle calls]; rewrite !total_app; cbn; lia.
  all: destruct (nth_error (calls s) i) as [[p b]|] eqn:Hn; [|discriminate].
  - injection H as <-. left. unfold live, go. cbn [idle calls]. sets has; sets dialling. lia.
  - left. unfold live. destruct (idle s) as [|c q]; destruct p; try discriminate; try (destruct (ch_closed s); [|discriminate]); injection H as <-; unfold go; cbn [idle calls length]; sets has; sets dialling; lia.
  - left. unfold live. destruct p; try discriminate; destruct b; try discriminate; injection H as <-; unfold go; cbn [idle calls length]; sets has; sets dialling; lia.
  - destruct p; try discriminate; destruct b; try discriminate; destruct (idle s) as [|c q] eqn:Hq; try discriminate; destruct (ch_closed s); try discriminate; injection H as <-; [right|left].
    + split; [reflexivity|]. rewrite active_total. unfold live, go. cbn [idle calls length]. pose proof (busy (set_nth i (SDial, false) (calls s))). lia.
    + unfold live, go. cbn [idle calls length]. sets has; sets dialling. lia.
  - left. unfold live. destruct p; try discriminate. destruct ok; injection H as <-; unfold go; cbn [idle calls length]; sets has; sets dialling; lia.
  - left. unfold live. destruct p; try discriminate. destruct ok; injection H as <-; unfold go; cbn [idle calls length]; sets has; sets dialling; lia.
  - left. unfold live. destruct p; try discriminate; injection H as <-; unfold go; cbn [idle calls length]; sets has; sets dialling; lia.
  - left. unfold live. destruct p; try discriminate. destruct (ch_closed s); [injection H as <-; cbn [crash idle calls]; lia|]. destruct (length (idle s) <? size s); injection H as <-; unfold go; cbn [idle calls length]; rewrite ?app_length; cbn [length]; sets has; sets dialling; lia.
  - left. unfold live. destruct p; try discriminate. destruct (ch_closed s); injection H as <-; [cbn [crash idle calls]; lia|]. cbn [idle calls]. sets has; sets dialling. lia.
Qed.

Lemma book_step : forall a s s', book s -> step a s = Some s' -> book s'.
Proof.
  unfold book. intros a s s' Hb H. unfold step in H. destruct (crashed s); [discriminate|].
  destruct a as [| |i|i|i|i|i ok|i ok|i|i|i].
  1,2: injection H as <-; unfold history in *; cbn [next idle calls log] in *; rewrite !total_app; cbn; lia.
  all: destruct (nth_error (calls s) i) as [[p b]|] eqn:Hn; [|discriminate].
  - injection H as <-. rewrite history_app, quits_app. unfold go. cbn [next idle calls rev]. sets has. cbn. lia.
  - destruct (idle s) as [|c q]; destruct p; try discriminate; try (destruct (ch_closed s); [|discriminate]); injection H as <-; rewrite history_app, quits_app; unfold go; cbn [next idle calls rev length] in *; sets has; cbn; lia.
  - destruct p; try discriminate; destruct b; try discriminate; injection H as <-; rewrite history_app, quits_app; unfold go; cbn [next idle calls rev length] in *; sets has; cbn; lia.
  - destruct p; try discriminate; destruct b; try discriminate; destruct (idle s) as [|c q] eqn:Hq; try discriminate; destruct (ch_closed s); try discriminate; injection H as <-;
    rewrite history_app, quits_app; unfold go; cbn [next idle calls rev length] in *; sets has; cbn; lia.
  - destruct p; try discriminate. destruct ok; injection H as <-.
    + unfold history in *. cbn [next idle calls log rev]. rewrite quits_app. sets has. cbn. lia.
    + rewrite history_app, quits_app; unfold go; cbn [next idle calls rev length] in *; sets has; cbn; lia.
  - destruct p; try discriminate. destruct ok; injection H as <-; rewrite history_app, quits_app; unfold go; cbn [next idle calls rev length] in *; sets has; cbn; lia.
  - destruct p; try discriminate; injection H as <-; rewrite history_app, quits_app; unfold go; cbn [next idle calls rev length] in *; sets has; cbn; lia.
  - destruct p; try discriminate. destruct (ch_closed s); [injection H as <-; exact Hb|]. destruct (length (idle s) <? size s); injection H as <-; rewrite history_app, quits_app; unfold go; cbn [next idle calls rev length] in *; rewrite ?app_length; cbn [length]; sets has; cbn; lia.
  - destruct p; try discriminate. destruct (ch_closed s); injection H as <-; [exact Hb|]. unfold history in *. cbn [next idle calls log]. sets has. lia.
Qed.

(* Without Close, and with room for everything that is open, only failed connections are closed. *)
Definition sender (p : pc) : Prop := match p with SDrop _ | KSelect | KDrop _ | KFinish _ => False | _ => True end.
Record kept (s : state) : Prop := {
  k_send : forall i p b, nth_error (calls s) i = Some (p, b) -> sender p /\ (forall c, p = SFail c -> In (Used i c false) (history s));
  k_closed : forall i c, In (Closed i c) (history s) -> In (Used i c false) (history s);
  k_count : quits (history s) + total failing (calls s) <= failures (history s);
  k_open : ch_closed s = false }.

Lemma kept_go : forall s i p b p' b' q es, kept s -> nth_error (calls s) i = Some (p, b) -> sender p' ->
  (forall c, p' = SFail c -> In (Used i c false) (history s ++ rev es)) ->
  (forall j c, In (Closed j c) (rev es) -> j = i /\ p = SFail c) ->
  quits (rev es) + failing p' <= failures (rev es) + failing p ->
  kept (go s i p' b' q es).
Proof.
  intros s i p b p' b' q es [K1 K2 K3 K4] Hn Hs Hf Hc Hq. split.
  - intros j p2 b2 Hj. rewrite history_app. unfold go in Hj. cbn [calls] in Hj. destruct (Nat.eq_dec i j) as [<-|Hne].
    + rewrite (nth_set_same _ _ _ _ _ Hn) in Hj. injection Hj as <- <-. split; assumption.
    + rewrite nth_set_other in Hj by exact Hne. destruct (K1 _ _ _ Hj) as [A B]. split; [exact A|]. intros c E. apply in_or_app. left. exact (B c E).
  - intros j c Hj. rewrite history_app in *. apply in_or_app. left. apply in_app_or in Hj. destruct Hj as [Hj|Hj]; [exact (K2 _ _ Hj)|]. destruct (Hc _ _ Hj) as [-> ->]. exact (proj2 (K1 _ _ _ Hn) c eq_refl).
  - rewrite history_app, quits_app, failures_app. unfold go. cbn [calls]. pose proof (total_set failing _ _ _ _ p' b' Hn). lia.
  - exact K4.
Qed.

Lemma kept_step : forall a s s', kept s -> live s <= size s -> a <> CallClose -> step a s = Some s' -> kept s'.
Proof.
  intros a s s' K L Na H. unfold step in H. destruct (crashed s); [discriminate|]. pose proof K as [K1 K2 K3 K4].
  destruct a as [| |i|i|i|i|i ok|i ok|i|i|i].
  - injection H as <-. split; unfold history in *; cbn [calls log ch_closed].
    + intros i p b Hn. destruct (Nat.lt_ge_cases i (length (calls s))) as [Hi|Hi].
      * rewrite nth_error_app1 in Hn by exact Hi. exact (K1 _ _ _ Hn).
      * rewrite nth_error_app2 in Hn by exact Hi. destruct (i - length (calls s)) as [|[]]; cbn in Hn; try discriminate. injection Hn as <- <-. split; [exact Logic.I|]. intros c E. discriminate.
    + exact K2.
    + rewrite total_app. cbn. lia.
    + exact K4.
  - destruct (Na eq_refl).
  - destruct (nth_error (calls s) i) as [[p b]|] eqn:Hn; [|discriminate]. injection H as <-. destruct (K1 _ _ _ Hn) as [A B].
    eapply kept_go; [exact K|exact Hn|exact A| | |]; cbn [rev]; rewrite ?app_nil_r; [exact B|intros j c []|cbn; lia].
  - destruct (nth_error (calls s) i) as [[p b]|] eqn:Hn; [|discriminate]. rewrite K4 in H. destruct (K1 _ _ _ Hn) as [A _]. destruct (idle s) as [|c q]; destruct p; try discriminate; try destruct A. injection H as <-.
    eapply kept_go; [exact K|exact Hn|exact Logic.I|discriminate| |cbn; lia]. intros j c' [E|[]]. discriminate.
  - destruct (nth_error (calls s) i) as [[p b]|] eqn:Hn; [|discriminate]. destruct (K1 _ _ _ Hn) as [A _]. destruct p; try discriminate; try destruct A. destruct b; [|discriminate]. injection H as <-.
    eapply kept_go; [exact K|exact Hn|exact Logic.I|discriminate|intros j c []|cbn; lia].
  - destruct (nth_error (calls s) i) as [[p b]|] eqn:Hn; [|discriminate]. destruct (K1 _ _ _ Hn) as [A _]. destruct p; try discriminate; try destruct A. destruct b; [discriminate|]. destruct (idle s); [|discriminate]. rewrite K4 in H. injection H as <-.
    eapply kept_go; [exact K|exact Hn|exact Logic.I|discriminate| |cbn; lia]. intros j c' [E|[]]. discriminate.
  - destruct (nth_error (calls s) i) as [[p b]|] eqn:Hn; [|discriminate]. destruct p; try discriminate. destruct ok; injection H as <-.
    + pose proof (kept_go s i _ _ (SSend (next s)) b (idle s) [Created i (next s)] K Hn Logic.I) as G. destruct G as [G1 G2 G3 G4]; [discriminate|intros j c' [E|[]]; discriminate|cbn; lia|]. split; assumption.
    + eapply kept_go; [exact K|exact Hn|exact Logic.I|discriminate|intros j c []|cbn; lia].
  - destruct (nth_error (calls s) i) as [[p b]|] eqn:Hn; [|discriminate]. destruct p; try discriminate. injection H as <-.
    eapply kept_go; [exact K|exact Hn|destruct ok; exact Logic.I| | |destruct ok; cbn; lia].
    + intros c' E. destruct ok; [discriminate|]. injection E as <-. apply in_or_app. right. left. reflexivity.
    + intros j c' [E|[]]. discriminate.
  - destruct (nth_error (calls s) i) as [[p b]|] eqn:Hn; [|discriminate]. destruct (K1 _ _ _ Hn) as [A _]. destruct p; try discriminate; try destruct A. injection H as <-.
    eapply kept_go; [exact K|exact Hn|exact Logic.I|discriminate| |cbn; lia]. intros j c' [E|[]]. injection E as <- <-. split; reflexivity.
  - destruct (nth_error (calls s) i) as [[p b]|] eqn:Hn; [|discriminate]. destruct p; try discriminate. rewrite K4 in H.
    pose proof (total_ge has _ _ _ _ Hn) as G. cbn [has holding length] in G. unfold live in L. rewrite (proj2 (Nat.ltb_lt _ _)) in H by lia. injection H as <-.
    eapply kept_go; [exact K|exact Hn|exact Logic.I|discriminate| |cbn; lia]. intros j c' [E|[]]. discriminate.
  - destruct (nth_error (calls s) i) as [[p b]|] eqn:Hn; [|discriminate]. destruct (K1 _ _ _ Hn) as [A _]. destruct p; try discriminate; destruct A.
Qed.

Lemma run_split : forall acts a n s, run (acts ++ [a]) (new_pool n) = Some s -> exists t, run acts (new_pool n) = Some t /\ step a t = Some s.
Proof.
  intros acts a n s H. rewrite run_app in H. destruct (run acts (new_pool n)) as [t|]; [|discriminate]. exists t. split; [reflexivity|]. cbn in H. destruct (step a t); [exact H|discriminate]. Qed.
Lemma at_most_front : forall m n acts a, at_most m n (acts ++ [a]) -> at_most m n acts.
Proof. intros m n acts a H before after s E R. apply (H before (after ++ [a]) s); [|exact R]. rewrite E, <- app_assoc. reflexivity. Qed.

Lemma live_run : forall m n acts s, at_most m n acts -> run acts (new_pool n) = Some s -> live s <= m.
Proof.
  intros m n acts. induction acts as [|a acts IH] using rev_ind; intros s Hm H.
  - injection H as <-. unfold live. cbn. lia.
  - destruct (run_split _ _ _ _ H) as (t & Ht & Hs). specialize (IH t (at_most_front _ _ _ _ Hm) Ht). destruct (live_step _ _ _ Hs) as [L|[_ L]]; [lia|].
    specialize (Hm (acts ++ [a]) [] s). rewrite app_nil_r in Hm. specialize (Hm eq_refl H). lia.
Qed.
Lemma book_run : forall n acts s, run acts (new_pool n) = Some s -> book s.
Proof.
  intros n acts. induction acts as [|a acts IH] using rev_ind; intros s H.
  - injection H as <-. reflexivity.
  - destruct (run_split _ _ _ _ H) as (t & Ht & Hs). exact (book_step _ _ _ (IH _ Ht) Hs).
Qed.
Lemma size_is : forall acts n s, run acts (new_pool n) = Some s -> size s = n.
Proof. intros acts n s H. exact (size_run _ _ _ H). Qed.
Lemma kept_run : forall m n acts s, m <= n -> at_most m n acts -> ~ In CallClose acts -> run acts (new_pool n) = Some s -> kept s.
Proof.
  intros m n acts. induction acts as [|a acts IH] using rev_ind; intros s Hmn Hm Hc H.
  - injection H as <-. split; cbn; try reflexivity; try tauto. intros [] p b E; discriminate.
  - destruct (run_split _ _ _ _ H) as (t & Ht & Hs). pose proof (at_most_front _ _ _ _ Hm) as Hm'. rewrite in_app_iff in Hc.
    apply (kept_step a t s); [apply IH; tauto| | |exact Hs].
    + pose proof (live_run _ _ _ _ Hm' Ht). rewrite (size_is _ _ _ Ht). lia.
    + intros ->. apply Hc. right. left. reflexivity.
Qed.
