(* C98: the pool's calls are free of data races, and its lock is no obstacle. *)
From Coq Require Import List Arith Bool Lia.
From Verif Require Import Pool SpecPool PoolProofs PoolMu SpecRace RaceProofs.
Import ListNotations.

(* C98: whatever calls are made of a pool, in any interleaving: two uses of the same memory by two calls, of which one may be a write, are
   ordered by happens-before, in the order in which they were made. *)
Theorem C98_uses_are_ordered : forall n m j k, mreachable n m -> j < k -> conflict (trace m) j k -> happens_before (trace m) j k.
Proof. intros n m j k R L C. exact (r_order _ _ (rinv_reachable n m R) j k L C). Qed.
Theorem C98_no_data_races : forall n m j k, mreachable n m -> ~ race (trace m) j k.
Proof.
  intros n m j k R (C & N1 & N2). destruct (Nat.lt_trichotomy j k) as [L|[->|L]].
  - exact (N1 (C98_uses_are_ordered n m j k R L C)).
  - destruct C as (g & g' & o & o' & l & w & w' & A & B & N & _). unfold at_ in *. congruence.
  - apply N2, (C98_uses_are_ordered n m k j R L). destruct C as (g & g' & o & o' & l & w & w' & A & B & N & X & Y & W). exists g', g, o', o, l, w', w. intuition congruence.
Qed.
(* C98: and happens-before is an order: nothing happens before itself. *)
Theorem C98_happens_before_goes_forward : forall n m j k, mreachable n m -> happens_before (trace m) j k -> j < k.
Proof. intros n m j k R H. exact (forward _ _ _ _ (finv_reachable n m R) H). Qed.

(* C98: at most one call is between Lock and Unlock, and a call that is not out of getCh yet gets out of it within five steps of its own and
   of the one that has the lock: nobody waits for the network, or for a connection, with the lock held. *)
Theorem C98_lock_is_exclusive : forall n m i j, mreachable n m ->
  nth_error (stages m) i = Some AtRead \/ nth_error (stages m) i = Some AtUnlock -> nth_error (stages m) j = Some AtRead \/ nth_error (stages m) j = Some AtUnlock -> i = j.
Proof. intros n m i j R A B. destruct (minv_reachable n m R) as [_ U]. apply U in A. apply U in B. congruence. Qed.

Lemma pass_lock m i : crashed (pool m) = false -> mu m = None -> nth_error (stages m) i = Some AtLock ->
  mrun [MuLock i; MuRead i; MuUnlock i] m = Some (mkm (pool m) None (set_nth i Ready (stages m)) (trace m ++ [(Some i, Lock); (Some i, ReadCh); (Some i, Unlock)])).
Proof.
  intros C M S. cbn [mrun]. unfold mstep at 1. rewrite C, S, M. cbn [mrun]. unfold mstep at 1. cbn [pool stages set_stage]. unfold set_stage. rewrite C, (nth_set_same _ _ _ _ _ S). cbn [pool mu stages trace].
  unfold mstep. cbn [pool stages]. unfold set_stage. cbn [stages]. rewrite C. pose proof (nth_set_same _ _ _ _ AtUnlock (nth_set_same _ _ _ _ AtRead S)) as X. rewrite X. cbn [trace]. rewrite <- !app_assoc. cbn [app]. do 2 f_equal.
  assert (E : forall (l : list stage) k x y, set_nth k x (set_nth k y l) = set_nth k x l) by (induction l as [|z l IH]; intros [|k] x y; cbn; [reflexivity|reflexivity|reflexivity|f_equal; apply IH]).
  rewrite !E. reflexivity.
Qed.

(* The steps a call needs to get out of getCh. *)
Definition way_out (i : nat) (g : stage) : list maction :=
  match g with AtLock => [MuLock i; MuRead i; MuUnlock i] | AtRead => [MuRead i; MuUnlock i] | AtUnlock => [MuUnlock i] | Ready => [] end.
Lemma get_out m i g : crashed (pool m) = false -> nth_error (stages m) i = Some g -> (g = AtLock -> mu m = None) ->
  exists m', mrun (way_out i g) m = Some m' /\ nth_error (stages m') i = Some Ready /\ pool m' = pool m /\ (forall j, j <> i -> nth_error (stages m') j = nth_error (stages m) j) /\ (g <> Ready -> mu m' = None).
Proof.
  intros C S M. destruct g; cbn [way_out].
  - rewrite (pass_lock m i C (M eq_refl) S). eexists. split; [reflexivity|]. cbn [stages pool mu]. split; [exact (nth_set_same _ _ _ _ _ S)|]. split; [reflexivity|]. split; [intros j N; apply nth_set_other; congruence|reflexivity].
  - cbn [mrun]. unfold mstep at 1. rewrite C, S. cbn [mrun]. unfold mstep, set_stage. cbn [pool stages]. rewrite C, (nth_set_same _ _ _ _ AtUnlock S). eexists. split; [reflexivity|]. cbn [stages pool mu].
    split; [exact (nth_set_same _ _ _ _ _ (nth_set_same _ _ _ _ _ S))|]. split; [reflexivity|]. split; [intros j N; rewrite !nth_set_other by congruence; reflexivity|reflexivity].
  - cbn [mrun]. unfold mstep, set_stage. rewrite C, S. eexists. split; [reflexivity|]. cbn [stages pool mu]. split; [exact (nth_set_same _ _ _ _ _ S)|]. split; [reflexivity|]. split; [intros j N; apply nth_set_other; congruence|reflexivity].
  - exists m. repeat split; auto. congruence.
Qed.

Theorem C98_lock_is_no_obstacle : forall n m i g, mreachable n m -> crashed (pool m) = false -> nth_error (stages m) i = Some g ->
  exists acts m', mrun acts m = Some m' /\ length acts <= 5 /\ (forall a, In a acts -> mactor a = Some i \/ mactor a = mu m) /\
    nth_error (stages m') i = Some Ready /\ pool m' = pool m.
Proof.
  intros n m i g R C S. destruct (minv_reachable n m R) as [_ U]. destruct (mu m) as [h|] eqn:M.
  - destruct (Nat.eq_dec h i) as [->|N].
    + destruct (get_out m i g C S) as (m' & A & B & D & _); [intros ->; destruct (proj1 (U i) eq_refl); congruence|]. exists (way_out i g), m'. split; [exact A|]. split; [destruct g; cbn; lia|].
      split; [|auto]. intros a Ha. left. destruct g; cbn in Ha; intuition (subst; reflexivity).
    + assert (exists g', nth_error (stages m) h = Some g' /\ g' <> Ready /\ g' <> AtLock) as (g' & S' & G1 & G2) by (destruct (proj1 (U h) eq_refl) as [X|X]; eexists; (split; [exact X|split; discriminate])).
      destruct (get_out m h g' C S') as (m1 & A & B & D & E & F); [intros ->; congruence|]. specialize (F G1). assert (S1 : nth_error (stages m1) i = Some g) by (rewrite E by congruence; exact S).
      destruct (get_out m1 i g) as (m2 & A2 & B2 & D2 & _); [rewrite D; exact C|exact S1|auto|]. exists (way_out h g' ++ way_out i g), m2. split; [rewrite mrun_app, A; exact A2|].
      split; [rewrite app_length; destruct g', g; cbn; try lia; congruence|]. split; [|split; [exact B2|congruence]].
      intros a Ha. apply in_app_iff in Ha. destruct Ha as [Ha|Ha]; [right; destruct g'|left; destruct g]; cbn in Ha; intuition (subst; reflexivity).
  - destruct (get_out m i g C S) as (m' & A & B & D & _); [auto|]. exists (way_out i g), m'. split; [exact A|]. split; [destruct g; cbn; lia|]. split; [|auto]. intros a Ha. left. destruct g; cbn in Ha; intuition (subst; reflexivity).
Qed.

(* C98: with the lock the calls do what they do in Pool, nothing else, and all of it: the theorems on the pool hold with it too. *)
Theorem C98_same_pool : forall n s, reachable n s <-> exists m, mreachable n m /\ pool m = s.
Proof.
  intros n s. split.
  2: { intros (m & R & <-). apply (mreachable_ind n (fun _ => True)) in R; [apply R|exact I|auto]. }
  intros (acts & H). assert (G : exists m, mreachable n m /\ pool m = s /\ mu m = None /\ Forall (eq Ready) (stages m) /\ length (stages m) = length (calls (pool m))).
  2: { destruct G as (m & A & B & _). eauto. }
  revert s H. induction acts as [|a acts IH] using rev_ind; intros s H.
  - cbn in H. injection H as <-. exists (mnew n). split; [exists []; reflexivity|]. cbn. auto.
  - rewrite run_app in H. destruct (run acts (new_pool n)) as [s0|] eqn:E; [|discriminate]. cbn in H. destruct (step a s0) as [s1|] eqn:St; [|discriminate]. injection H as <-.
    destruct (IH s0 eq_refl) as (m & (macts & R) & <- & M & F & L).
    assert (Cr : crashed (pool m) = false) by (unfold step in St; destruct (crashed (pool m)); [discriminate|reflexivity]).
    assert (Rd : forall i x, nth_error (calls (pool m)) i = Some x -> nth_error (stages m) i = Some Ready).
    { intros i x X. destruct (nth_error (stages m) i) as [g|] eqn:Y; [rewrite Forall_forall in F; apply nth_error_In in Y; rewrite (F g Y); reflexivity|]. apply nth_error_None in Y. assert (i < length (calls (pool m))) by (apply nth_error_Some; congruence). lia. }
    pose proof (step_len _ _ _ St) as Ln.
    assert (Rep : forall i l, Forall (eq Ready) l -> Forall (eq Ready) (set_nth i Ready l)) by (intros i l Fl; revert i; induction Fl; intros [|i]; cbn; constructor; auto).
    (* the steps after which the call is in getCh *)
    assert (In_getch : forall m1 i, mstep (Do a) m = Some m1 -> pool m1 = s1 -> crashed s1 = false -> mu m1 = None -> nth_error (stages m1) i = Some AtLock -> Forall (eq Ready) (set_nth i Ready (stages m1)) ->
      length (stages m1) = length (calls s1) -> exists m, mreachable n m /\ pool m = s1 /\ mu m = None /\ Forall (eq Ready) (stages m) /\ length (stages m) = length (calls (pool m))).
    { intros m1 i S1 P1 C1 M1 N1 F1 L1. eexists. split; [exists (macts ++ [Do a] ++ [MuLock i; MuRead i; MuUnlock i]); rewrite mrun_app, R; cbn [app]; change (mrun (Do a :: ?l) m) with (match mstep (Do a) m with Some m' => mrun l m' | None => None end);
        rewrite S1; apply pass_lock; [rewrite P1; exact C1|exact M1|exact N1]|]. cbn [pool mu stages]. rewrite set_nth_length, P1. auto. }
    assert (Other : forall m1, mstep (Do a) m = Some m1 -> pool m1 = s1 -> mu m1 = None -> stages m1 = stages m -> length (calls s1) = length (calls (pool m)) ->
      exists m, mreachable n m /\ pool m = s1 /\ mu m = None /\ Forall (eq Ready) (stages m) /\ length (stages m) = length (calls (pool m))).
    { intros m1 S1 P1 M1 N1 L1. exists m1. split; [exists (macts ++ [Do a]); rewrite mrun_app, R; cbn [mrun]; rewrite S1; reflexivity|]. rewrite N1, P1. repeat split; auto. congruence. }
    assert (Fnew : Forall (eq Ready) (set_nth (length (stages m)) Ready (stages m ++ [AtLock]))).
    { clear - F. induction F as [|x l E Fl IHl]; cbn; constructor; auto. }
    assert (Nnew : nth_error (stages m ++ [AtLock]) (length (stages m)) = Some AtLock) by (rewrite nth_error_app2, Nat.sub_diag by lia; reflexivity).
    destruct a; cbn in Ln.
    + eapply (In_getch _ (length (stages m))); [unfold mstep; rewrite Cr, St; reflexivity|reflexivity| |exact M|exact Nnew|exact Fnew|cbn [stages]; rewrite app_length; cbn; lia].
      unfold step in St. rewrite Cr in St. injection St as <-. reflexivity.
    + eapply (In_getch _ (length (stages m))); [unfold mstep; rewrite Cr, St; reflexivity|reflexivity| |exact M|exact Nnew|exact Fnew|cbn [stages]; rewrite app_length; cbn; lia].
      unfold step in St. rewrite Cr in St. injection St as <-. reflexivity.
    + eapply Other; [unfold mstep; rewrite Cr, St; reflexivity|reflexivity|exact M|reflexivity|exact Ln].
    + destruct (nth_error (calls (pool m)) i) as [[p f]|] eqn:Hi; [|unfold step in St; rewrite Cr, Hi in St; discriminate]. eapply Other; [unfold mstep; rewrite Cr, St, (Rd _ _ Hi), Hi; reflexivity|reflexivity|exact M|reflexivity|exact Ln].
    + destruct (nth_error (calls (pool m)) i) as [[p f]|] eqn:Hi; [|unfold step in St; rewrite Cr, Hi in St; discriminate]. eapply Other; [unfold mstep; rewrite Cr, St, (Rd _ _ Hi), Hi; reflexivity|reflexivity|exact M|reflexivity|exact Ln].
    + destruct (nth_error (calls (pool m)) i) as [[p f]|] eqn:Hi; [|unfold step in St; rewrite Cr, Hi in St; discriminate]. eapply Other; [unfold mstep; rewrite Cr, St, (Rd _ _ Hi), Hi; reflexivity|reflexivity|exact M|reflexivity|exact Ln].
    + destruct (nth_error (calls (pool m)) i) as [[p f]|] eqn:Hi; [|unfold step in St; rewrite Cr, Hi in St; discriminate]. eapply Other; [unfold mstep; rewrite Cr, St, (Rd _ _ Hi), Hi; reflexivity|reflexivity|exact M|reflexivity|exact Ln].
    + destruct (nth_error (calls (pool m)) i) as [[p f]|] eqn:Hi; [|unfold step in St; rewrite Cr, Hi in St; discriminate]. destruct ok.
      * eapply (In_getch _ i); [unfold mstep; rewrite Cr, St, (Rd _ _ Hi), Hi; reflexivity|reflexivity| |exact M|exact (nth_set_same _ _ _ _ _ (Rd _ _ Hi))| |].
        -- unfold step in St. rewrite Cr, Hi in St. destruct p; try discriminate St. injection St as <-. exact Cr.
        -- cbn [stages]. unfold set_stage. clear - F. revert i. induction F as [|x l E Fl IHl]; intros [|i]; cbn; constructor; auto.
        -- cbn [stages]. unfold set_stage. rewrite set_nth_length. lia.
      * eapply Other; [unfold mstep; rewrite Cr, St, (Rd _ _ Hi), Hi; reflexivity|reflexivity|exact M|reflexivity|exact Ln].
    + destruct (nth_error (calls (pool m)) i) as [[p f]|] eqn:Hi; [|unfold step in St; rewrite Cr, Hi in St; discriminate]. eapply Other; [unfold mstep; rewrite Cr, St, (Rd _ _ Hi), Hi; reflexivity|reflexivity|exact M|reflexivity|exact Ln].
    + destruct (nth_error (calls (pool m)) i) as [[p f]|] eqn:Hi; [|unfold step in St; rewrite Cr, Hi in St; discriminate]. eapply Other; [unfold mstep; rewrite Cr, St, (Rd _ _ Hi), Hi; reflexivity|reflexivity|exact M|reflexivity|exact Ln].
    + destruct (nth_error (calls (pool m)) i) as [[p f]|] eqn:Hi; [|unfold step in St; rewrite Cr, Hi in St; discriminate]. eapply Other; [unfold mstep; rewrite Cr, St, (Rd _ _ Hi), Hi; reflexivity|reflexivity|exact M|reflexivity|exact Ln].
Qed.

Print Assumptions C98_uses_are_ordered.
Print Assumptions C98_no_data_races.
Print Assumptions C98_happens_before_goes_forward.
Print Assumptions C98_lock_is_exclusive.
Print Assumptions C98_lock_is_no_obstacle.
Print Assumptions C98_same_pool.

(* Call 0 makes connection 0 and puts it back, call 1 takes and uses it, while call 2 waits for the lock, which call 3 has. *)
Definition get (i : nat) : list maction := [MuLock i; MuRead i; MuUnlock i].
Definition sample : list maction :=
  [Do CallSend] ++ get 0 ++ [Do (Default 0); Do (Dialled 0 true); Touch 0; Do (Sent 0 true)] ++ get 0 ++ [Do (Return 0); Do CallSend; Do CallSend; Do CallClose] ++
  get 1 ++ [Do (Receive 1); Touch 1; MuLock 3].
Example sample_runs : exists m, mreachable 1 m /\ conflict (trace m) 5 16 /\ happens_before (trace m) 5 16 /\
  nth_error (stages m) 2 = Some AtLock /\ mu m = Some 3 /\ crashed (pool m) = false.
Proof.
  assert (R : exists m, mrun sample (mnew 1) = Some m) by (eexists; vm_compute; reflexivity). destruct R as [m R]. exists m.
  assert (M : mreachable 1 m) by (exists sample; exact R).
  assert (C : conflict (trace m) 5 16).
  { vm_compute in R. injection R as <-. exists (Some 0), (Some 1), (Use 0), (Use 0), (Memory 0), true, true. repeat split; try reflexivity; try discriminate. left. reflexivity. }
  split; [exact M|]. split; [exact C|]. split; [apply (C98_uses_are_ordered 1 m 5 16 M); [lia|exact C]|].
  vm_compute in R. injection R as <-. repeat split.
Qed.

(* Without the channel between them two uses are a race: the specification can tell. *)
Example two_users_race : race [(None, Init); (Some 0, Use 0); (Some 1, Use 0)] 1 2.
Proof.
  set (tr := [_; _; _]). assert (A : forall k g o, at_ tr k g o -> (k = 0 /\ o = Init) \/ (k = 1 /\ g = Some 0 /\ o = Use 0) \/ (k = 2 /\ g = Some 1 /\ o = Use 0)).
  { intros k g o H. unfold at_, tr in H. destruct k as [|[|[|k]]]; cbn in H; [injection H as <- <-; auto|injection H as <- <-; auto|injection H as <- <-; auto|destruct k; discriminate]. }
  assert (B : forall j k, happens_before tr j k -> j = 0).
  { induction 1 as [j k g o o' L X Y|j k g o L X Y|j k g g' L X Y|j k g g' c c' X Y E|j k g g' X Y|i j k _ IH _ IH'].
    - destruct (A _ _ _ X) as [(-> & _)|[(-> & -> & _)|(-> & -> & _)]]; [reflexivity| |]; destruct (A _ _ _ Y) as [(-> & _)|[(-> & E & _)|(-> & E & _)]]; try lia; discriminate.
    - destruct (A _ _ _ X) as [(-> & _)|[(_ & E & _)|(_ & E & _)]]; [reflexivity|discriminate|discriminate].
    - destruct (A _ _ _ X) as [(_ & E)|[(_ & _ & E)|(_ & _ & E)]]; discriminate.
    - destruct (A _ _ _ X) as [(_ & Q)|[(_ & _ & Q)|(_ & _ & Q)]]; discriminate.
    - destruct (A _ _ _ X) as [(_ & Q)|[(_ & _ & Q)|(_ & _ & Q)]]; discriminate.
    - exact IH. }
  split; [|split; intros H; apply B in H; discriminate].
  exists (Some 0), (Some 1), (Use 0), (Use 0), (Memory 0), true, true. repeat split; try reflexivity; try discriminate. left. reflexivity.
Qed.
