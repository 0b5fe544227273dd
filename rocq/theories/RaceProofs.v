(* Proofs about the pool with its mutex and the memory its calls use. *)
From Coq Require Import List Arith Bool Lia.
From Verif Require Import Pool SpecPool PoolProofs PoolMu SpecRace.
From Verif Require ThmPool.
Import ListNotations.

(* ---- every step is one of Pool, or none ---- *)

Lemma mstep_pool a m m' : mstep a m = Some m' -> crashed (pool m) = false /\ (pool m' = pool m \/ exists b, a = Do b /\ step b (pool m) = Some (pool m')).
Proof.
  unfold mstep. destruct (crashed (pool m)) eqn:C; [discriminate|]. intros H. split; [reflexivity|]. destruct a as [b|i|i|i|i].
  - destruct (step b (pool m)) as [s'|] eqn:E; [|discriminate]. right. exists b. split; [reflexivity|].
    destruct b; try (injection H as <-; exact E); (destruct (nth_error (stages m) i) as [[]|]; try discriminate; destruct (nth_error (calls (pool m)) i) as [[p f]|]; try discriminate; injection H as <-; exact E).
  - left. destruct (nth_error (stages m) i) as [[]|]; try discriminate. destruct (nth_error (calls (pool m)) i) as [[p f]|]; try discriminate. destruct (in_use p); [|discriminate]. injection H as <-. reflexivity.
  - left. destruct (nth_error (stages m) i) as [[]|]; try discriminate. destruct (mu m); [discriminate|]. injection H as <-. reflexivity.
  - left. destruct (nth_error (stages m) i) as [[]|]; try discriminate. injection H as <-. reflexivity.
  - left. destruct (nth_error (stages m) i) as [[]|]; try discriminate. injection H as <-. reflexivity.
Qed.

Lemma reachable_step n a s s' : reachable n s -> step a s = Some s' -> reachable n s'.
Proof. intros (acts & R) E. exists (acts ++ [a]). rewrite run_app, R. cbn. rewrite E. reflexivity. Qed.

Lemma mrun_app : forall a b m, mrun (a ++ b) m = match mrun a m with Some m' => mrun b m' | None => None end.
Proof. induction a as [|x a IH]; intros b m; cbn [app mrun]; [reflexivity|]. destruct (mstep x m); [apply IH|reflexivity]. Qed.

Lemma mreachable_ind n (P : mstate -> Prop) : P (mnew n) -> (forall a m m', reachable n (pool m) -> reachable n (pool m') -> P m -> mstep a m = Some m' -> P m') -> forall m, mreachable n m -> P m /\ reachable n (pool m).
Proof.
  intros H0 HS m (acts & R). revert m R. induction acts as [|a acts IH] using rev_ind; intros m R.
  - cbn in R. injection R as <-. split; [exact H0|]. exists []. reflexivity.
  - rewrite mrun_app in R. destruct (mrun acts (mnew n)) as [m1|] eqn:E; [|discriminate]. cbn in R. destruct (mstep a m1) as [m2|] eqn:E2; [|discriminate]. injection R as <-.
    destruct (IH _ eq_refl) as [P1 R1]. assert (R2 : reachable n (pool m2)).
    { destruct (mstep_pool _ _ _ E2) as [_ [->|(b & _ & B)]]; [exact R1|]. exact (reachable_step _ _ _ _ R1 B). }
    split; [exact (HS _ _ _ R1 R2 P1 E2)|exact R2].
Qed.

(* ---- happens before, in longer histories ---- *)

Lemma at_app tr l k g o : at_ tr k g o -> at_ (tr ++ l) k g o.
Proof. unfold at_. intros H. rewrite nth_error_app1; [exact H|]. apply nth_error_Some. congruence. Qed.
Lemma at_lt tr k g o : at_ tr k g o -> k < length tr.
Proof. unfold at_. intros H. apply nth_error_Some. congruence. Qed.
Lemma at_snoc tr e k g o : at_ (tr ++ [e]) k g o -> at_ tr k g o \/ k = length tr /\ e = (g, o).
Proof.
  unfold at_. intros H. destruct (Nat.lt_ge_cases k (length tr)) as [L|L]; [left; rewrite nth_error_app1 in H by exact L; exact H|].
  right. rewrite nth_error_app2 in H by exact L. destruct (k - length tr) as [|d] eqn:D; cbn in H; [|destruct d; discriminate]. split; [lia|congruence].
Qed.
Lemma at_last tr g o : at_ (tr ++ [(g, o)]) (length tr) g o.
Proof. unfold at_. rewrite nth_error_app2, Nat.sub_diag by lia. reflexivity. Qed.
Lemma before_app f tr l k : k <= length tr -> before f (tr ++ l) k = before f tr k.
Proof. intros H. unfold before. rewrite firstn_app. replace (k - length tr) with 0 by lia. cbn. rewrite app_nil_r. reflexivity. Qed.
Lemma hb_app tr l j k : happens_before tr j k -> happens_before (tr ++ l) j k.
Proof.
  induction 1 as [j k g o o' L A B|j k g o L A B|j k g g' L A B|j k g g' c c' A B E|j k g g' A B|i j k _ IH _ IH'].
  - eapply hb_program; [exact L|apply at_app; exact A|apply at_app; exact B].
  - eapply hb_publish; [exact L|apply at_app; exact A|apply at_app; exact B].
  - eapply hb_mutex; [exact L|apply at_app; exact A|apply at_app; exact B].
  - eapply hb_channel; [apply at_app; exact A|apply at_app; exact B|]. rewrite !before_app; [exact E| |]; apply Nat.lt_le_incl; eapply at_lt; eassumption.
  - eapply hb_close; apply at_app; eassumption.
  - eapply hb_trans; eassumption.
Qed.

(* Event a is call i's or happens before one of them. *)
Definition upto (tr : list ev) (a b : nat) : Prop := a = b \/ happens_before tr a b.
Definition reaches (tr : list ev) (a i : nat) : Prop := exists e o, at_ tr e (Some i) o /\ upto tr a e.
Lemma upto_app tr l a b : upto tr a b -> upto (tr ++ l) a b.
Proof. intros [->|H]; [left; reflexivity|right; apply hb_app; exact H]. Qed.
Lemma reaches_app tr l a i : reaches tr a i -> reaches (tr ++ l) a i.
Proof. intros (e & o & A & U). exists e, o. split; [apply at_app; exact A|apply upto_app; exact U]. Qed.
Lemma reaches_hb tr a i o : reaches tr a i -> happens_before (tr ++ [(Some i, o)]) a (length tr).
Proof.
  intros (e & o' & A & U). assert (H : happens_before (tr ++ [(Some i, o)]) e (length tr)).
  { eapply hb_program; [eapply at_lt; exact A|apply at_app; exact A|apply at_last]. }
  destruct U as [->|U]; [exact H|]. eapply hb_trans; [apply hb_app; exact U|exact H].
Qed.

(* ---- the invariant ---- *)

Definition nrecv (tr : list ev) : nat := before is_recv tr (length tr).
Definition nsend (tr : list ev) : nat := before is_send tr (length tr).
Lemma count_snoc f tr e : before f (tr ++ [e]) (length (tr ++ [e])) = before f tr (length tr) + (if f e then 1 else 0).
Proof. unfold before. rewrite !firstn_all, filter_app, app_length. cbn. destruct (f e); reflexivity. Qed.

(* The send that put the q-th idle connection into the channel. *)
Definition put_at (tr : list ev) (q c p : nat) : Prop := exists g, at_ tr p g (ChanSend c) /\ before is_send tr p = nrecv tr + q.

Record rinv (s : state) (tr : list ev) : Prop := {
  r_init : at_ tr 0 None Init;
  r_who : forall k o, at_ tr k None o -> k = 0 /\ o = Init;
  r_only : forall k g, at_ tr k g Init -> k = 0;
  r_count : nsend tr = nrecv tr + length (idle s);
  r_queue : forall q c, nth_error (idle s) q = Some c -> exists p, put_at tr q c p;
  r_bound : forall a g c, at_ tr a g (Use c) -> c < next s;
  r_use : forall a g c, at_ tr a g (Use c) -> (forall i, holds s i c -> reaches tr a i) /\
    (forall q, nth_error (idle s) q = Some c -> exists p, put_at tr q c p /\ upto tr a p);
  r_order : forall j k, j < k -> conflict tr j k -> happens_before tr j k }.

Lemma put_at_app tr e q c p : is_recv e = false -> put_at tr q c p -> put_at (tr ++ [e]) q c p.
Proof.
  intros N (g & A & B). exists g. split; [apply at_app; exact A|]. rewrite before_app by (apply Nat.lt_le_incl; eapply at_lt; exact A).
  unfold nrecv. rewrite count_snoc, N, Nat.add_0_r. exact B.
Qed.
Lemma put_at_recv tr e q c p : is_recv e = true -> put_at tr (S q) c p -> put_at (tr ++ [e]) q c p.
Proof.
  intros N (g & A & B). exists g. split; [apply at_app; exact A|]. rewrite before_app by (apply Nat.lt_le_incl; eapply at_lt; exact A).
  unfold nrecv in *. rewrite count_snoc, N. lia.
Qed.

(* A conflict in a longer history is an old one, or of an old event with the new one. *)
Lemma conflict_snoc tr e j k : j < k -> conflict (tr ++ [e]) j k -> conflict tr j k \/ k = length tr /\ exists g o l w w',
  at_ tr j g o /\ g <> fst e /\ accesses o l w /\ accesses (snd e) l w' /\ (w = true \/ w' = true).
Proof.
  intros L (g & g' & o & o' & l & w & w' & A & B & N & C & D & W). apply at_snoc in B.
  assert (A' : at_ tr j g o).
  { apply at_snoc in A. destruct A as [A|[-> _]]; [exact A|]. destruct B as [B|[-> _]]; [apply at_lt in B; lia|lia]. }
  destruct B as [B|[-> ->]]; [left|right].
  - exists g, g', o, o', l, w, w'. auto 10.
  - split; [reflexivity|]. exists g, o, l, w, w'. auto.
Qed.

Definition neutral (o : op) : Prop := match o with Init | ChanSend _ | ChanRecv _ | Use _ => False | _ => True end.

Lemma rinv_neutral s tr i o : neutral o -> rinv s tr -> rinv s (tr ++ [(Some i, o)]).
Proof.
  intros N [I0 I1 I2 I3 I4 I5 I6 I7]. assert (NS : is_send (Some i, o) = false) by (destruct o; try reflexivity; destruct N). assert (NR : is_recv (Some i, o) = false) by (destruct o; try reflexivity; destruct N).
  constructor.
  - apply at_app. exact I0.
  - intros k o' H. apply at_snoc in H. destruct H as [H|[_ H]]; [exact (I1 _ _ H)|discriminate].
  - intros k g H. apply at_snoc in H. destruct H as [H|[_ H]]; [exact (I2 _ _ H)|]. injection H as _ ->. destruct N.
  - unfold nsend, nrecv in *. rewrite !count_snoc, NS, NR. lia.
  - intros q c H. destruct (I4 q c H) as (p & P). exists p. apply put_at_app; assumption.
  - intros a g c H. apply at_snoc in H. destruct H as [H|[_ H]]; [exact (I5 _ _ _ H)|]. injection H as _ ->. destruct N.
  - intros a g c H. apply at_snoc in H. destruct H as [H|[_ H]]; [|injection H as _ ->; destruct N]. destruct (I6 _ _ _ H) as [U V]. split.
    + intros j Hj. apply reaches_app. auto.
    + intros q Hq. destruct (V q Hq) as (p & P & Q). exists p. split; [apply put_at_app; assumption|apply upto_app; exact Q].
  - intros j k L C. apply conflict_snoc in C; [|exact L]. destruct C as [C|(-> & g & o' & l & w & w' & A & _ & B & D & W)]; [apply hb_app; auto|].
    assert (E : o' = Init). { cbn [snd] in D. destruct o', o, l; cbn in *; try reflexivity; try contradiction; subst; destruct W; discriminate. }
    subst o'. pose proof (I2 _ _ A) as ->. eapply hb_publish; [exact L|apply at_app; exact I0|apply at_last].
Qed.

(* Call i, the only one that has c, uses it. *)
Lemma rinv_use s tr i c : c < next s -> (forall j, holds s j c -> j = i) -> ~ In c (idle s) ->
  (forall a g, at_ tr a g (Use c) -> reaches tr a i) -> rinv s tr -> rinv s (tr ++ [(Some i, Use c)]).
Proof.
  intros Hc Hu Hn Hr [I0 I1 I2 I3 I4 I5 I6 I7]. constructor.
  - apply at_app. exact I0.
  - intros k o' H. apply at_snoc in H. destruct H as [H|[_ H]]; [exact (I1 _ _ H)|discriminate].
  - intros k g H. apply at_snoc in H. destruct H as [H|[_ H]]; [exact (I2 _ _ H)|discriminate].
  - unfold nsend, nrecv in *. rewrite !count_snoc. cbn. lia.
  - intros q d H. destruct (I4 q d H) as (p & P). exists p. apply put_at_app; [reflexivity|assumption].
  - intros a g d H. apply at_snoc in H. destruct H as [H|[_ H]]; [exact (I5 _ _ _ H)|]. injection H as _ ->. exact Hc.
  - intros a g d H. apply at_snoc in H. destruct H as [H|[-> H]].
    + destruct (I6 _ _ _ H) as [U V]. split.
      * intros j Hj. apply reaches_app. auto.
      * intros q Hq. destruct (V q Hq) as (p & P & Q). exists p. split; [apply put_at_app; [reflexivity|assumption]|apply upto_app; exact Q].
    + injection H as <- <-. split.
      * intros j Hj. rewrite (Hu j Hj). exists (length tr), (Use c). split; [apply at_last|left; reflexivity].
      * intros q Hq. apply nth_error_In in Hq. contradiction.
  - intros j k L C. apply conflict_snoc in C; [|exact L]. destruct C as [C|(-> & g & o' & l & w & w' & A & _ & B & D & W)]; [apply hb_app; auto|].
    cbn [snd] in D. destruct l as [| |d]; cbn in D; try contradiction. destruct D as [<- ->]. destruct o'; cbn in B; try contradiction. destruct B as [-> ->].
    apply reaches_hb. exact (Hr _ _ A).
Qed.

(* Call i receives the first idle connection. *)
Lemma rinv_recv s s' tr i c q : idle s = c :: q -> idle s' = q -> next s' = next s -> (forall j d, holds s' j d -> holds s j d \/ j = i /\ d = c) ->
  rinv s tr -> rinv s' (tr ++ [(Some i, ChanRecv c)]).
Proof.
  intros Hs Hq Hx Hh [I0 I1 I2 I3 I4 I5 I6 I7]. rewrite Hs in *.
  assert (Hp : forall a p, put_at tr 0 c p -> upto tr a p -> reaches (tr ++ [(Some i, ChanRecv c)]) a i).
  { intros a p (g & A & B) U. exists (length tr), (ChanRecv c). split; [apply at_last|]. right.
    assert (H : happens_before (tr ++ [(Some i, ChanRecv c)]) p (length tr)).
    { eapply hb_channel; [apply at_app; exact A|apply at_last|]. rewrite !before_app; [|lia|apply Nat.lt_le_incl; eapply at_lt; exact A]. rewrite B. unfold nrecv. lia. }
    destruct U as [->|U]; [exact H|]. eapply hb_trans; [apply hb_app; exact U|exact H]. }
  constructor.
  - apply at_app. exact I0.
  - intros k o' H. apply at_snoc in H. destruct H as [H|[_ H]]; [exact (I1 _ _ H)|discriminate].
  - intros k g H. apply at_snoc in H. destruct H as [H|[_ H]]; [exact (I2 _ _ H)|discriminate].
  - unfold nsend, nrecv in *. rewrite !count_snoc, Hq. cbn in *. lia.
  - intros k d H. rewrite Hq in H. destruct (I4 (S k) d H) as (p & P). exists p. apply put_at_recv; [reflexivity|assumption].
  - intros a g d H. rewrite Hx. apply at_snoc in H. destruct H as [H|[_ H]]; [exact (I5 _ _ _ H)|discriminate].
  - intros a g d H. apply at_snoc in H. destruct H as [H|[_ H]]; [|discriminate]. destruct (I6 _ _ _ H) as [U V]. split.
    + intros j Hj. destruct (Hh j d Hj) as [Hj'|[-> ->]]; [apply reaches_app; auto|]. destruct (V 0 eq_refl) as (p & P & Q). exact (Hp _ _ P Q).
    + intros k Hk. rewrite Hq in Hk. destruct (V (S k) Hk) as (p & P & Q). exists p. split; [apply put_at_recv; [reflexivity|assumption]|apply upto_app; exact Q].
  - intros j k L C. apply conflict_snoc in C; [|exact L]. destruct C as [C|(-> & g & o' & l & w & w' & A & _ & B & D & W)]; [apply hb_app; auto|]. destruct l; destruct D.
Qed.

(* Call i puts its connection into the channel. *)
Lemma rinv_send s s' tr i c : idle s' = idle s ++ [c] -> next s' = next s -> holds s i c -> (forall j d, holds s' j d -> holds s j d) ->
  rinv s tr -> rinv s' (tr ++ [(Some i, ChanSend c)]).
Proof.
  intros Hq Hx Hi Hh [I0 I1 I2 I3 I4 I5 I6 I7].
  assert (Hl : put_at (tr ++ [(Some i, ChanSend c)]) (length (idle s)) c (length tr)).
  { exists (Some i). split; [apply at_last|]. rewrite before_app by lia. unfold nrecv, nsend in *. rewrite count_snoc. cbn. lia. }
  assert (Hk : forall k d, nth_error (idle s') k = Some d -> nth_error (idle s) k = Some d \/ k = length (idle s) /\ d = c).
  { intros k d H. rewrite Hq in H. destruct (Nat.lt_ge_cases k (length (idle s))) as [L|L]; [rewrite nth_error_app1 in H by exact L; auto|]. rewrite nth_error_app2 in H by exact L.
    right. destruct (k - length (idle s)) as [|z] eqn:Z; cbn in H; [|destruct z; discriminate]. split; [lia|congruence]. }
  constructor.
  - apply at_app. exact I0.
  - intros k o' H. apply at_snoc in H. destruct H as [H|[_ H]]; [exact (I1 _ _ H)|discriminate].
  - intros k g H. apply at_snoc in H. destruct H as [H|[_ H]]; [exact (I2 _ _ H)|discriminate].
  - unfold nsend, nrecv in *. rewrite !count_snoc, Hq, app_length. cbn. lia.
  - intros k d H. destruct (Hk k d H) as [H'|[-> ->]]; [|eauto]. destruct (I4 k d H') as (p & P). exists p. apply put_at_app; [reflexivity|assumption].
  - intros a g d H. rewrite Hx. apply at_snoc in H. destruct H as [H|[_ H]]; [exact (I5 _ _ _ H)|discriminate].
  - intros a g d H. apply at_snoc in H. destruct H as [H|[_ H]]; [|discriminate]. destruct (I6 _ _ _ H) as [U V]. split.
    + intros j Hj. apply reaches_app. auto.
    + intros k H'. destruct (Hk k d H') as [H''|[-> ->]].
      * destruct (V k H'') as (p & P & Q). exists p. split; [apply put_at_app; [reflexivity|assumption]|apply upto_app; exact Q].
      * exists (length tr). split; [exact Hl|]. right. apply reaches_hb. auto.
  - intros j k L C. apply conflict_snoc in C; [|exact L]. destruct C as [C|(-> & g & o' & l & w & w' & A & _ & B & D & W)]; [apply hb_app; auto|]. destruct l; destruct D.
Qed.

(* A step without such effects; connections that did not exist before may be held after it. *)
Lemma rinv_weaken s s' tr : idle s' = idle s -> next s <= next s' -> (forall j d, d < next s -> holds s' j d -> holds s j d) -> rinv s tr -> rinv s' tr.
Proof.
  intros Hq Hx Hh [I0 I1 I2 I3 I4 I5 I6 I7]. constructor; rewrite ?Hq; try assumption.
  - intros a g c H. specialize (I5 _ _ _ H). lia.
  - intros a g c H. destruct (I6 _ _ _ H) as [U V]. split; [|exact V]. intros j Hj. apply U, Hh; [exact (I5 _ _ _ H)|exact Hj].
Qed.

(* ---- all steps ---- *)

Lemma holds_go s i p b p' b' q es j c : nth_error (calls s) i = Some (p, b) -> holds (go s i p' b' q es) j c -> holds s j c \/ j = i /\ In c (holding p').
Proof.
  intros H (x & y & N & I). cbn [calls go] in N. rewrite nth_set in N. destruct (Nat.eq_dec i j) as [<-|]; [|left; exists x, y; auto].
  rewrite H in N. injection N as <- <-. auto.
Qed.
Lemma held_below n s i c : reachable n s -> holds s i c -> c < next s.
Proof.
  intros R H. destruct (inv_reachable _ _ R) as [I1 _ _ _]. specialize (I1 c). assert (Ih : In c (held (calls s))) by (apply held_holds; eauto). apply cnt_in in Ih. unfold here in I1.
  destruct (Nat.ltb_spec c (next s)); lia.
Qed.
Lemma in_use_holding p c : in_use p = Some c -> In c (holding p).
Proof. destruct p; intros [= ->]; cbn; auto. Qed.

(* The use of a connection by the call that has it. *)
Lemma rinv_mine n s tr i p b c : reachable n s -> nth_error (calls s) i = Some (p, b) -> In c (holding p) -> rinv s tr -> rinv s (tr ++ [(Some i, Use c)]).
Proof.
  intros R H I V. assert (Hh : holds s i c) by (exists p, b; auto). apply rinv_use; [exact (held_below _ _ _ _ R Hh)| | | |exact V].
  - intros j Hj. exact (ThmPool.C37_one_user _ _ _ _ _ R Hj Hh).
  - apply (ThmPool.C37_used_is_not_idle _ _ _ _ R Hh).
  - intros a g A. apply (r_use _ _ V _ _ _ A). exact Hh.
Qed.

(* A step of a call that goes on with at most the connection it had. *)
Lemma rinv_go s tr i p b p' b' es : nth_error (calls s) i = Some (p, b) -> incl (holding p') (holding p) -> rinv s tr -> rinv (go s i p' b' (idle s) es) tr.
Proof.
  intros H I V. apply (rinv_weaken s); [reflexivity|cbn; lia| |exact V]. intros j d _ Hj. destruct (holds_go _ _ _ _ _ _ _ _ _ _ H Hj) as [|[-> Hi]]; [assumption|]. exists p, b. auto.
Qed.

Definition who_did (i : nat) (os : list op) : list ev := map (fun o => (Some i, o)) os.

Lemma rinv_pool n a s s' i p b tr : reachable n s -> reachable n s' -> actor a = Some i -> nth_error (calls s) i = Some (p, b) -> step a s = Some s' ->
  rinv s tr -> rinv s' (tr ++ who_did i (ops a p s)).
Proof.
  intros R R' Ha Hi St V. assert (St0 := St). unfold step in St. destruct (crashed s) eqn:Cr; [discriminate|].
  destruct a; try discriminate Ha; injection Ha as ->; rewrite Hi in St.
  - (* Receive *) cbn [ops]. destruct p; try discriminate St; destruct (idle s) as [|c q] eqn:Q.
    + destruct (ch_closed s); [|discriminate]. injection St as <-. cbn [who_did map]. apply rinv_neutral; [exact I|].
      rewrite <- Q. apply (rinv_go s tr i SSelect b); [exact Hi|intros x []|exact V].
    + injection St as <-. cbn [who_did map]. apply (rinv_recv s _ _ _ _ q); [exact Q|reflexivity|reflexivity| |exact V].
      intros j d Hj. destruct (holds_go _ _ _ _ _ _ _ _ _ _ Hi Hj) as [|[-> [<-|[]]]]; auto.
    + destruct (ch_closed s); [|discriminate]. injection St as <-. cbn [who_did map]. apply rinv_neutral; [exact I|].
      rewrite <- Q. apply (rinv_go s tr i KSelect b); [exact Hi|intros x []|exact V].
    + injection St as <-. cbn [who_did map]. apply (rinv_recv s _ _ _ _ q); [exact Q|reflexivity|reflexivity| |exact V].
      intros j d Hj. destruct (holds_go _ _ _ _ _ _ _ _ _ _ Hi Hj) as [|[-> [<-|[]]]]; auto.
  - (* Done *) cbn [ops who_did map]. rewrite app_nil_r. destruct p; try discriminate St; destruct b; try discriminate St; injection St as <-; (apply (rinv_go s tr i _ _ _ _ _ Hi); [intros x []|exact V]).
  - (* Default *) cbn [ops who_did map]. rewrite app_nil_r. destruct p; try discriminate St; destruct b; try discriminate St; destruct (idle s) eqn:Q; try discriminate St; destruct (ch_closed s); try discriminate St; injection St as <-;
      rewrite <- Q; (apply (rinv_go s tr i _ _ _ _ _ Hi); [intros x []|exact V]).
  - (* Dialled *) destruct p; try discriminate St. cbn [ops who_did map]. destruct ok.
    + injection St as <-. set (s' := mks _ _ _ _ _ _ _) in *. change (map (fun o => (Some i, o)) [Use (next s)]) with [(Some i, Use (next s))]. change [(Some i, ReadConnector); (Some i, Use (next s))] with ([(Some i, ReadConnector)] ++ [(Some i, Use (next s))]).
      rewrite app_assoc. assert (N : nth_error (calls s') i = Some (SSend (next s), b)) by (cbn [calls s']; exact (nth_set_same _ _ _ _ _ Hi)).
      apply (rinv_mine n s' _ i (SSend (next s)) b); [exact R'|exact N|left; reflexivity|]. apply (rinv_weaken s); [reflexivity|cbn; lia| |].
      * intros j d L (x & y & M & K). cbn [calls s'] in M. rewrite nth_set in M. destruct (Nat.eq_dec i j) as [<-|]; [|exists x, y; auto]. rewrite Hi in M. injection M as <- <-. cbn in K. destruct K as [K|[]]; lia.
      * apply rinv_neutral; [exact I|exact V].
    + injection St as <-. apply rinv_neutral; [exact I|]. apply (rinv_go s tr i _ _ _ _ _ Hi); [intros x []|exact V].
  - (* Sent *) destruct p; try discriminate St. injection St as <-. cbn [ops who_did map in_use opt_use]. apply (rinv_go s _ i _ _ _ _ _ Hi); [destruct ok; apply incl_refl|].
    apply (rinv_mine n s tr i (SSend c) b); [exact R|exact Hi|left; reflexivity|exact V].
  - (* CloseConn *) destruct p; try discriminate St; injection St as <-; cbn [ops who_did map in_use opt_use]; (apply (rinv_go s _ i _ _ _ _ _ Hi); [intros x []|]);
      (eapply (rinv_mine n s tr i); [exact R|exact Hi|left; reflexivity|exact V]).
  - (* Return *) destruct p; try discriminate St. cbn [ops]. destruct (ch_closed s).
    + injection St as <-. cbn [negb andb who_did map]. rewrite app_nil_r. apply (rinv_weaken s); [reflexivity|cbn; lia|intros j d _ H; exact H|exact V].
    + cbn [negb andb]. destruct (length (idle s) <? size s).
      * injection St as <-. cbn [who_did map]. apply (rinv_send s); [reflexivity|reflexivity|exists (SReturn c), b; split; [exact Hi|left; reflexivity]| |exact V].
        intros j d Hj. destruct (holds_go _ _ _ _ _ _ _ _ _ _ Hi Hj) as [|[_ []]]; assumption.
      * injection St as <-. cbn [who_did map]. rewrite app_nil_r. apply (rinv_go s _ i _ _ _ _ _ Hi); [apply incl_refl|exact V].
  - (* CloseCh *) destruct p; try discriminate St. cbn [ops]. destruct (ch_closed s).
    + injection St as <-. cbn [who_did map]. rewrite app_nil_r. apply (rinv_weaken s); [reflexivity|cbn; lia|intros j d _ H; exact H|exact V].
    + injection St as <-. cbn [who_did map]. apply rinv_neutral; [exact I|]. apply (rinv_weaken s); [reflexivity|cbn; lia| |exact V].
      intros j d _ (x & y & M & K). cbn [calls] in M. rewrite nth_set in M. destruct (Nat.eq_dec i j) as [<-|]; [|exists x, y; auto]. rewrite Hi in M. injection M as <- <-. destruct K.
Qed.

Lemma rinv_new n : rinv (new_pool n) [(None, Init)].
Proof.
  assert (A : forall k g o, at_ [(None, Init)] k g o -> k = 0 /\ g = None /\ o = Init).
  { intros k g o H. unfold at_ in H. destruct k as [|k]; [cbn in H; injection H as <- <-; auto|]. destruct k; discriminate. }
  constructor; cbn [new_pool idle next].
  - reflexivity.
  - intros k o H. destruct (A _ _ _ H) as (-> & _ & ->). auto.
  - intros k g H. apply (A _ _ _ H).
  - reflexivity.
  - intros q c H. destruct q; discriminate.
  - intros a g c H. destruct (A _ _ _ H) as (_ & _ & X). discriminate.
  - intros a g c H. destruct (A _ _ _ H) as (_ & _ & X). discriminate.
  - intros j k L (g & g' & o & o' & l & w & w' & X & Y & _). destruct (A _ _ _ X) as (-> & _). destruct (A _ _ _ Y) as (-> & _). lia.
Qed.

Lemma rinv_step n a m m' : reachable n (pool m) -> reachable n (pool m') -> rinv (pool m) (trace m) -> mstep a m = Some m' -> rinv (pool m') (trace m').
Proof.
  intros R R' V H. unfold mstep in H. destruct (crashed (pool m)) eqn:Cr; [discriminate|]. destruct a as [a|i|i|i|i].
  - destruct (step a (pool m)) as [s'|] eqn:St; [|discriminate].
    assert (X : forall i, actor a = Some i -> match nth_error (stages m) i, nth_error (calls (pool m)) i with
       | Some Ready, Some (p, _) => Some (mkm s' (mu m) (match a with Sent _ true => set_stage i AtLock m | _ => stages m end) (trace m ++ who_did i (ops a p (pool m))))
       | _, _ => None end = Some m' -> rinv (pool m') (trace m')).
    { intros i Ha E. destruct (nth_error (stages m) i) as [[]|]; try discriminate E. destruct (nth_error (calls (pool m)) i) as [[p f]|] eqn:Hi; [|discriminate E]. injection E as <-. cbn [pool trace] in *.
      exact (rinv_pool n _ _ _ _ _ _ _ R R' Ha Hi St V). }
    destruct a; try (apply (X i); [reflexivity|exact H]).
    + injection H as <-. cbn [pool trace] in *. unfold step in St. rewrite Cr in St. injection St as <-. apply (rinv_weaken (pool m)); [reflexivity|cbn; lia| |exact V].
      intros j d _ (x & y & M & K). cbn [calls] in M. destruct (Nat.lt_ge_cases j (length (calls (pool m)))) as [L|L]; [rewrite nth_error_app1 in M by exact L; exists x, y; auto|].
      rewrite nth_error_app2 in M by exact L. destruct (j - _) as [|z]; cbn in M; [injection M as <- <-; destruct K|destruct z; discriminate].
    + injection H as <-. cbn [pool trace] in *. unfold step in St. rewrite Cr in St. injection St as <-. apply (rinv_weaken (pool m)); [reflexivity|cbn; lia| |exact V].
      intros j d _ (x & y & M & K). cbn [calls] in M. destruct (Nat.lt_ge_cases j (length (calls (pool m)))) as [L|L]; [rewrite nth_error_app1 in M by exact L; exists x, y; auto|].
      rewrite nth_error_app2 in M by exact L. destruct (j - _) as [|z]; cbn in M; [injection M as <- <-; destruct K|destruct z; discriminate].
    + injection H as <-. cbn [pool trace] in *. unfold step in St. rewrite Cr in St. destruct (nth_error (calls (pool m)) i) as [[p f]|] eqn:Hi; [|discriminate]. injection St as <-.
      apply (rinv_go _ _ _ _ _ _ _ _ Hi); [apply incl_refl|exact V].
  - destruct (nth_error (stages m) i) as [[]|]; try discriminate H. destruct (nth_error (calls (pool m)) i) as [[p f]|] eqn:Hi; [|discriminate H]. destruct (in_use p) as [c|] eqn:U; [|discriminate H]. injection H as <-. cbn [pool trace] in *.
    eapply (rinv_mine n); [exact R|exact Hi|exact (in_use_holding _ _ U)|exact V].
  - destruct (nth_error (stages m) i) as [[]|]; try discriminate H. destruct (mu m); [discriminate H|]. injection H as <-. apply rinv_neutral; [exact I|exact V].
  - destruct (nth_error (stages m) i) as [[]|]; try discriminate H. injection H as <-. apply rinv_neutral; [exact I|exact V].
  - destruct (nth_error (stages m) i) as [[]|]; try discriminate H. injection H as <-. apply rinv_neutral; [exact I|exact V].
Qed.

Lemma rinv_reachable n m : mreachable n m -> rinv (pool m) (trace m).
Proof.
  intros H. apply (mreachable_ind n (fun m => rinv (pool m) (trace m))) in H; [apply H|apply rinv_new|]. intros a m0 m1 R R' V E. exact (rinv_step n a m0 m1 R R' V E).
Qed.

(* ---- the mutex ---- *)

Record minv (m : mstate) : Prop := {
  m_len : length (stages m) = length (calls (pool m));
  m_mu : forall i, mu m = Some i <-> nth_error (stages m) i = Some AtRead \/ nth_error (stages m) i = Some AtUnlock }.

Lemma step_len a s s' : step a s = Some s' -> length (calls s') = match a with CallSend | CallClose => S (length (calls s)) | _ => length (calls s) end.
Proof.
  unfold step. destruct (crashed s); [discriminate|].
  assert (G : forall i p b q es, length (calls (go s i p b q es)) = length (calls s)) by (intros; cbn [calls go]; apply set_nth_length).
  destruct a; intros H.
  - injection H as <-. cbn [calls]. rewrite app_length. cbn. lia.
  - injection H as <-. cbn [calls]. rewrite app_length. cbn. lia.
  - destruct (nth_error (calls s) i) as [[p b]|]; [|discriminate]. injection H as <-. apply G.
  - destruct (nth_error (calls s) i) as [[[] b]|]; try discriminate; (destruct (idle s); [destruct (ch_closed s); [|discriminate]|]); injection H as <-; apply G.
  - destruct (nth_error (calls s) i) as [[[] []]|]; try discriminate; injection H as <-; apply G.
  - destruct (nth_error (calls s) i) as [[[] []]|]; try discriminate; destruct (idle s); try discriminate; destruct (ch_closed s); try discriminate; injection H as <-; apply G.
  - destruct (nth_error (calls s) i) as [[[] b]|]; try discriminate; destruct ok; injection H as <-; [cbn [calls]; apply set_nth_length|apply G].
  - destruct (nth_error (calls s) i) as [[[] b]|]; try discriminate; injection H as <-; apply G.
  - destruct (nth_error (calls s) i) as [[[] b]|]; try discriminate; injection H as <-; apply G.
  - destruct (nth_error (calls s) i) as [[[] b]|]; try discriminate; destruct (ch_closed s); [injection H as <-; reflexivity|]. destruct (length (idle s) <? size s); injection H as <-; apply G.
  - destruct (nth_error (calls s) i) as [[[] b]|]; try discriminate; destruct (ch_closed s); injection H as <-; [reflexivity|cbn [calls]; apply set_nth_length].
Qed.

Lemma minv_reachable n m : mreachable n m -> minv m.
Proof.
  intros H. apply (mreachable_ind n minv) in H; [apply H| |]; clear H m.
  { constructor; [reflexivity|]. intros i. cbn. split; [discriminate|]. destruct i; intros [X|X]; discriminate X. }
  intros a m m' R R' [L U] H. unfold mstep in H. destruct (crashed (pool m)) eqn:Cr; [discriminate|]. destruct a as [a|i|i|i|i].
  - destruct (step a (pool m)) as [s'|] eqn:St; [|discriminate]. pose proof (step_len _ _ _ St) as L'.
    assert (New : forall tr, length (calls s') = S (length (calls (pool m))) -> minv (mkm s' (mu m) (stages m ++ [AtLock]) tr)).
    { intros tr E. constructor; cbn [pool stages mu]; [rewrite app_length, L, E; cbn; lia|]. intros i. rewrite (U i). destruct (Nat.lt_ge_cases i (length (stages m))) as [Q|Q].
      - rewrite nth_error_app1 by exact Q. tauto.
      - rewrite nth_error_app2 by exact Q. assert (N : nth_error (stages m) i = None) by (apply nth_error_None; exact Q). rewrite N. destruct (i - _) as [|z]; cbn; [|destruct z]; split; intros [X|X]; discriminate X. }
    assert (Same : forall tr, length (calls s') = length (calls (pool m)) -> minv (mkm s' (mu m) (stages m) tr)) by (intros tr E; constructor; cbn [pool stages mu]; [congruence|exact U]).
    destruct a; cbn in L'; try (injection H as <-; auto; fail);
      (destruct (nth_error (stages m) i) as [[]|] eqn:Si; try discriminate H; destruct (nth_error (calls (pool m)) i) as [[p f]|]; try discriminate H; injection H as <-; try (apply Same; exact L')).
    destruct ok; [|apply Same; exact L']. constructor; cbn [pool stages mu]; unfold set_stage; [rewrite set_nth_length; congruence|]. intros j. rewrite (U j), nth_set. destruct (Nat.eq_dec i j) as [<-|]; [|tauto].
    rewrite Si. split; intros [X|X]; discriminate X.
  - destruct (nth_error (stages m) i) as [[]|]; try discriminate H. destruct (nth_error (calls (pool m)) i) as [[p f]|] eqn:Hi; [|discriminate H]. destruct (in_use p) as [c|]; [|discriminate H]. injection H as <-. constructor; [exact L|exact U].
  - destruct (nth_error (stages m) i) as [[]|] eqn:Si; try discriminate H. destruct (mu m) as [|] eqn:M; [discriminate H|]. injection H as <-. constructor; cbn [pool stages mu]; unfold set_stage; [rewrite set_nth_length; exact L|].
    intros j. rewrite nth_set. destruct (Nat.eq_dec i j) as [<-|N]; [rewrite Si; split; auto|]. rewrite <- (U j). split; [congruence|discriminate].
  - destruct (nth_error (stages m) i) as [[]|] eqn:Si; try discriminate H. injection H as <-. constructor; cbn [pool stages mu]; unfold set_stage; [rewrite set_nth_length; exact L|].
    intros j. rewrite nth_set. destruct (Nat.eq_dec i j) as [<-|N]; [rewrite Si, (U i), Si; split; auto|]. apply U.
  - destruct (nth_error (stages m) i) as [[]|] eqn:Si; try discriminate H. injection H as <-. constructor; cbn [pool stages mu]; unfold set_stage; [rewrite set_nth_length; exact L|].
    intros j. rewrite nth_set. destruct (Nat.eq_dec i j) as [<-|N]; [rewrite Si; split; [discriminate|intros [X|X]; discriminate X]|]. split; [discriminate|]. intros X. apply U in X. pose proof (proj2 (U i) (or_intror Si)). congruence.
Qed.

(* ---- happens before goes forward ---- *)

Record finv (s : state) (tr : list ev) : Prop := {
  f_chan : forall k g c, at_ tr k g (ChanRecv c) -> before is_recv tr k < before is_send tr k;
  f_open : ch_closed s = false -> forall k g, ~ at_ tr k g ChanRecvClosed /\ ~ at_ tr k g ChanClose;
  f_close : forall j k g g', at_ tr j g ChanClose -> at_ tr k g' ChanRecvClosed -> j < k }.

Lemma before_mono f tr j k : j <= k -> before f tr j <= before f tr k.
Proof.
  intros H. unfold before. replace (firstn j tr) with (firstn j (firstn k tr)) by (rewrite firstn_firstn; f_equal; lia).
  rewrite <- (firstn_skipn j (firstn k tr)) at 2. rewrite filter_app, app_length. lia.
Qed.

Lemma forward s tr j k : finv s tr -> happens_before tr j k -> j < k.
Proof.
  intros [F1 F2 F3]. induction 1 as [j k g o o' L A B|j k g o L A B|j k g g' L A B|j k g g' c c' A B E|j k g g' A B|i j k _ IH _ IH']; try assumption.
  - specialize (F1 _ _ _ B). destruct (Nat.lt_ge_cases j k) as [|G]; [assumption|]. pose proof (before_mono is_send tr k j G). lia.
  - exact (F3 _ _ _ _ A B).
  - lia.
Qed.

Definition plain (o : op) : Prop := match o with ChanRecv _ | ChanRecvClosed | ChanClose => False | _ => True end.
Lemma finv_plain s tr i o : plain o -> finv s tr -> finv s (tr ++ [(i, o)]).
Proof.
  intros P [F1 F2 F3]. constructor.
  - intros k g c H. apply at_snoc in H. destruct H as [H|[_ H]]; [|injection H as _ ->; destruct P]. rewrite !before_app by (apply Nat.lt_le_incl; eapply at_lt; exact H). eauto.
  - intros C k g. split; intros H; apply at_snoc in H; (destruct H as [H|[_ H]]; [destruct (F2 C k g); contradiction|injection H as _ ->; destruct P]).
  - intros j k g g' A B. apply at_snoc in A. apply at_snoc in B. destruct A as [A|[_ A]]; [|injection A as _ ->; destruct P]. destruct B as [B|[_ B]]; [|injection B as _ ->; destruct P]. eauto.
Qed.
Lemma finv_state s s' tr : (ch_closed s' = false -> ch_closed s = false) -> finv s tr -> finv s' tr.
Proof. intros H [F1 F2 F3]. constructor; auto. Qed.

Lemma finv_reachable n m : mreachable n m -> finv (pool m) (trace m).
Proof.
  intros M. apply (mreachable_ind n (fun m => rinv (pool m) (trace m) /\ finv (pool m) (trace m))) in M; [apply M| |]; clear M m.
  { split; [apply rinv_new|]. assert (A : forall k g o, at_ [(None, Init)] k g o -> o = Init).
    { intros k g o H. unfold at_ in H. destruct k as [|k]; [cbn in H; congruence|]. destruct k; discriminate. }
    constructor; [intros k g c H|intros _ k g; split; intros H|intros j k g g' H _]; apply A in H; discriminate. }
  intros a m m' R R' [V F] H. split; [exact (rinv_step n _ _ _ R R' V H)|]. unfold mstep in H. destruct (crashed (pool m)) eqn:Cr; [discriminate|]. destruct a as [a|i|i|i|i].
  - destruct (step a (pool m)) as [s'|] eqn:St; [|discriminate]. assert (St0 := St). unfold step in St. rewrite Cr in St.
    destruct a; lazymatch type of H with context [nth_error (stages m) ?i] => destruct (nth_error (stages m) i) as [[]|]; try discriminate H; destruct (nth_error (calls (pool m)) i) as [[p f]|] eqn:Hi; [|discriminate H] | _ => idtac end; injection H as <-; cbn [pool trace].
    + injection St as <-. apply (finv_state (pool m)); [auto|exact F].
    + injection St as <-. apply (finv_state (pool m)); [auto|exact F].
    + destruct (nth_error (calls (pool m)) i) as [[p f]|]; [|discriminate St]. injection St as <-. apply (finv_state (pool m)); [auto|exact F].
    + (* Receive *) cbn [ops]. destruct (idle (pool m)) as [|c q] eqn:Q.
      * assert (E : ch_closed (pool m) = true /\ ch_closed s' = true) by (destruct p; try discriminate St; (destruct (ch_closed (pool m)) eqn:D; [|discriminate St]; injection St as <-; cbn; auto)).
        destruct E as [E E']. cbn [map]. destruct F as [F1 F2 F3]. constructor.
        -- intros k g c H. apply at_snoc in H. destruct H as [H|[_ H]]; [|discriminate]. rewrite !before_app by (apply Nat.lt_le_incl; eapply at_lt; exact H). eauto.
        -- congruence.
        -- intros j k g g' A B. apply at_snoc in A. apply at_snoc in B. destruct A as [A|[_ A]]; [|discriminate]. destruct B as [B|[-> _]]; [eauto|]. eapply at_lt. exact A.
      * assert (E : ch_closed s' = ch_closed (pool m)) by (destruct p; try discriminate St; injection St as <-; reflexivity).
        cbn [map]. destruct F as [F1 F2 F3]. constructor.
        -- intros k g d H. apply at_snoc in H. destruct H as [H|[-> _]].
           ++ rewrite !before_app by (apply Nat.lt_le_incl; eapply at_lt; exact H). eauto.
           ++ rewrite !before_app by lia. pose proof (r_count _ _ V) as N. rewrite Q in N. cbn in N. unfold nsend, nrecv in N. lia.
        -- rewrite E. intros C k g. split; intros H; apply at_snoc in H; (destruct H as [H|[_ H]]; [destruct (F2 C k g); contradiction|discriminate]).
        -- intros j k g g' A B. apply at_snoc in A. apply at_snoc in B. destruct A as [A|[_ A]]; [|discriminate]. destruct B as [B|[_ B]]; [|discriminate]. eauto.
    + cbn [ops map]. rewrite app_nil_r. destruct p; try discriminate St; destruct f; try discriminate St; injection St as <-; (apply (finv_state (pool m)); [auto|exact F]).
    + cbn [ops map]. rewrite app_nil_r. destruct p; try discriminate St; destruct f; try discriminate St; destruct (idle (pool m)); try discriminate St; destruct (ch_closed (pool m)) eqn:D; try discriminate St; injection St as <-; (apply (finv_state (pool m)); [auto|exact F]).
    + destruct p; try discriminate St. cbn [ops map]. destruct ok; injection St as <-.
      * change (trace m ++ _) with (trace m ++ [(Some i, ReadConnector)] ++ [(Some i, Use (next (pool m)))]). rewrite app_assoc. apply finv_plain; [exact I|]. apply finv_plain; [exact I|]. apply (finv_state (pool m)); [auto|exact F].
      * apply finv_plain; [exact I|]. apply (finv_state (pool m)); [auto|exact F].
    + destruct p; try discriminate St. injection St as <-. cbn [ops map in_use opt_use]. apply finv_plain; [exact I|]. apply (finv_state (pool m)); [auto|exact F].
    + destruct p; try discriminate St; injection St as <-; cbn [ops map in_use opt_use]; (apply finv_plain; [exact I|]); (apply (finv_state (pool m)); [auto|exact F]).
    + destruct p; try discriminate St. cbn [ops]. destruct (ch_closed (pool m)) eqn:D; cbn [negb andb].
      * injection St as <-. cbn [map]. rewrite app_nil_r. apply (finv_state (pool m)); [auto|exact F].
      * destruct (length (idle (pool m)) <? size (pool m)); injection St as <-; cbn [map]; [apply finv_plain; [exact I|]|rewrite app_nil_r]; (apply (finv_state (pool m)); [auto|exact F]).
    + destruct p; try discriminate St. cbn [ops]. destruct (ch_closed (pool m)) eqn:D.
      * injection St as <-. cbn [map]. rewrite app_nil_r. apply (finv_state (pool m)); [auto|exact F].
      * injection St as <-. cbn [map]. destruct F as [F1 F2 F3]. constructor.
        -- intros k g c H. apply at_snoc in H. destruct H as [H|[_ H]]; [|discriminate]. rewrite !before_app by (apply Nat.lt_le_incl; eapply at_lt; exact H). eauto.
        -- discriminate.
        -- intros j k g g' A B. apply at_snoc in B. destruct B as [B|[_ B]]; [|discriminate]. destruct (F2 D k g') as [X _]. contradiction.
  - destruct (nth_error (stages m) i) as [[]|]; try discriminate H. destruct (nth_error (calls (pool m)) i) as [[p f]|] eqn:Hi; [|discriminate H]. destruct (in_use p) as [c|]; [|discriminate H]. injection H as <-. apply finv_plain; [exact I|exact F].
  - destruct (nth_error (stages m) i) as [[]|]; try discriminate H. destruct (mu m); [discriminate H|]. injection H as <-. apply finv_plain; [exact I|exact F].
  - destruct (nth_error (stages m) i) as [[]|]; try discriminate H. injection H as <-. apply finv_plain; [exact I|exact F].
  - destruct (nth_error (stages m) i) as [[]|]; try discriminate H. injection H as <-. apply finv_plain; [exact I|exact F].
Qed.
