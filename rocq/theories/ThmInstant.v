(* C110: a unit of work takes effect at one instant, between the call and its return. *)
From Coq Require Import String List NArith ZArith Arith Bool Lia.
From Coq Require Import List.
From Verif Require Import Base GoSlice SpecWire SpecMsg SpecValue MsgModel Builder SpecProg SpecUnit Conn SpecReply SpecServer SpecSession SpecCommit Flow SpecFlow Overlap SpecOverlap SpecInstant.
From Verif Require Import ThmServer ThmTx ThmOverlap.
From Verif Require ThmLedger.
Import ListNotations.
Open Scope list_scope.
Open Scope nat_scope.

(* ---- one session ---- *)

Lemma play1_shift o d t : play1 (mksess o d) t = mksess (in_progress (play1 (mksess o []) t)) (d ++ durable (play1 (mksess o []) t)).
Proof.
  unfold play1. destruct (snd t); cbn [in_progress durable]; try (rewrite app_nil_r; reflexivity). destruct (effect_of (fst t)); unfold pending; cbn [in_progress durable app]; try (rewrite app_nil_r; reflexivity); try reflexivity.
  destruct o; cbn [in_progress durable app]; [rewrite app_nil_r|]; reflexivity.
Qed.
Lemma play_shift tr : forall o d, play tr (mksess o d) = mksess (in_progress (play tr (mksess o []))) (d ++ durable (play tr (mksess o []))).
Proof.
  induction tr as [|t tr IH]; intros o d; [cbn; rewrite app_nil_r; reflexivity|]. rewrite !play_cons, (play1_shift o d t). destruct (play1 (mksess o []) t) as [o1 d1]. cbn [in_progress durable].
  rewrite (IH o1 (d ++ d1)), (IH o1 d1). cbn [in_progress durable]. rewrite app_assoc. reflexivity.
Qed.
Lemma durable_prefix a b o : durable (play (a ++ b) (mksess o [])) = [] -> durable (play a (mksess o [])) = [].
Proof.
  rewrite play_app. destruct (play a (mksess o [])) as [o1 d1]. rewrite play_shift. cbn [durable]. intros H. apply app_eq_nil in H as [H _]. exact H.
Qed.

(* The messages of a unit of work: one of them commits, the last but one. *)
Lemma unit_shape context prepared lv st inner : Forall (fun m => exists id q, m = MPrepare id q) prepared -> Forall is_level lv -> effect_of (statement st) = Begins -> Forall plain inner ->
  exists front, unit_messages context prepared (lv ++ [st]) inner = front ++ [commit; MExpectClose] /\ length front = 1 + length prepared + length (lv ++ [st]) + length inner /\
    Forall (fun m => effect_of m <> Commits) front /\ changes (front ++ [commit; MExpectClose]) = changes inner.
Proof.
  intros Hp Hl Hs Hi. exists (MExpectOpen context [no_error_1] :: prepared ++ map statement (lv ++ [st]) ++ inner). split; [unfold unit_messages; cbn [app]; rewrite <- !app_assoc; reflexivity|].
  split; [cbn [length]; rewrite !app_length, map_length, app_length; cbn [length]; lia|]. split.
  - constructor; [discriminate|]. apply Forall_app. split; [eapply Forall_impl; [|exact Hp]; intros m (id & q & ->); discriminate|]. apply Forall_app. split.
    + rewrite map_app. apply Forall_app. split; [apply Forall_map; eapply Forall_impl; [|exact Hl]; intros s E; unfold is_level in E; congruence|]. repeat constructor. congruence.
    + eapply Forall_impl; [|exact Hi]. intros m [E|E]; congruence.
  - unfold changes. cbn [app filter effect_of]. rewrite <- !app_assoc, !filter_app. cbn [filter]. change (effect_of commit) with (effect_of (statement (s2b "COMMIT"))).
    replace (effect_of (statement (s2b "COMMIT"))) with Commits by (vm_compute; reflexivity). cbn [effect_of]. rewrite app_nil_r.
    replace (filter _ prepared) with (@nil msg) by (induction Hp as [|m l (id & q & ->) _ IH]; [reflexivity|exact IH]).
    replace (filter _ (map statement (lv ++ [st]))) with (@nil msg); [reflexivity|]. rewrite map_app, filter_app. cbn [map filter]. rewrite Hs, app_nil_r.
    induction Hl as [|s l E _ IH]; [reflexivity|]. cbn [map filter]. unfold is_level in E. rewrite E. exact IH.
Qed.

(* What the messages of a unit of work do to the durable data, one by one. *)
Lemma unit_steps p context prepared lv st inner tr : 
  Forall (fun m => exists id q, m = MPrepare id q) prepared -> Forall is_level lv -> effect_of (statement st) = Begins -> Forall plain inner -> strict inner -> p = true \/ Forall ordinary inner ->
  serve p [] (unit_messages context prepared (lv ++ [st]) inner) tr -> map fst tr = unit_messages context prepared (lv ++ [st]) inner ->
  forall tr1 t tr2, tr = tr1 ++ t :: tr2 ->
    durable (play1 (mksess (in_progress (play tr1 (mksess None []))) []) t) = (if commits t then changes (map fst tr) else []) /\ (commits t = true <-> S (S (length tr1)) = length tr /\ snd t = Executed).
Proof.
  intros Hp Hl Hs Hi Hst Hpr Hsv Hm tr1 t tr2 E. destruct (unit_shape context prepared lv st inner Hp Hl Hs Hi) as (front & Ef & Lf & Ff & Cf).
  assert (Lt : length tr = length front + 2) by (rewrite <- (map_length fst tr), Hm, Ef, app_length; reflexivity).
  assert (Mt : map fst tr1 ++ fst t :: map fst tr2 = front ++ [commit; MExpectClose]) by (rewrite <- Ef, <- Hm, E, map_app; reflexivity).
  (* where t is *)
  assert (Wh : length tr1 < length front /\ effect_of (fst t) <> Commits \/ length tr1 = length front /\ fst t = commit /\ length tr2 = 1 \/ length tr1 = S (length front) /\ fst t = MExpectClose).
  { assert (L : length tr1 + S (length tr2) = length front + 2) by (rewrite <- Lt, E, app_length; reflexivity). pose proof (f_equal (fun l => nth_error l (length tr1)) Mt) as N. cbn beta in N.
    rewrite nth_error_app2 in N by (rewrite map_length; lia). rewrite map_length, Nat.sub_diag in N. cbn [nth_error] in N.
    destruct (Nat.lt_ge_cases (length tr1) (length front)) as [K|K].
    - left. split; [exact K|]. rewrite nth_error_app1 in N by exact K. rewrite Forall_forall in Ff. apply Ff. symmetry in N. exact (nth_error_In _ _ N).
    - right. rewrite nth_error_app2 in N by exact K. destruct (length tr1 - length front) as [|[|k]] eqn:D; cbn [nth_error] in N; [left|right|lia]; injection N as N; (split; [lia|]); [split; [exact N|lia]|exact N]. }
  assert (Cm : effect_of commit = Commits) by (vm_compute; reflexivity).
  assert (Wc : commits t = true <-> S (S (length tr1)) = length tr /\ snd t = Executed).
  { unfold commits. destruct Wh as [[W1 W2]|[(W1 & -> & _)|[W1 ->]]].
    - split; [destruct (effect_of (fst t)); try discriminate; congruence|]. intros [X _]. lia.
    - rewrite Cm. split; [intros X; split; [lia|destruct (snd t); congruence]|]. intros [_ ->]. reflexivity.
    - cbn [effect_of]. split; [discriminate|]. lia. }
  split; [|exact Wc].
  assert (Dl : durable (play (tr1 ++ [t]) (mksess None [])) = durable (play tr1 (mksess None [])) ++ durable (play1 (mksess (in_progress (play tr1 (mksess None []))) []) t)).
  { rewrite play_app. destruct (play tr1 (mksess None [])) as [o d]. rewrite play_cons, play1_shift. reflexivity. }
  (* nothing durable up to the COMMIT *)
  assert (Front : forall u1 u2, tr = u1 ++ u2 -> length u1 <= length front -> durable (play u1 (mksess None [])) = []).
  { destruct (unit_played p context prepared lv st inner tr (mksess None []) Hp Hl Hs Hi Hst Hpr Hsv) as [(C1 & C2 & C3 & _)|(o & C1 & C2 & C3)].
    - intros u1 u2 Eu Lu.
      assert (G : durable (play (firstn (length front) tr) (mksess None [])) = []).
      { set (f := firstn (length front) tr). assert (Mf : map fst f = front).
        { unfold f. rewrite <- firstn_map, Hm, Ef, firstn_app, Nat.sub_diag, firstn_all. cbn [firstn]. apply app_nil_r. }
        assert (Xf : Forall executed f) by (apply Forall_forall; intros x Hx; rewrite Forall_forall in C2; apply C2; rewrite <- (firstn_skipn (length front) tr); apply in_or_app; left; exact Hx).
        assert (Fr : front = (MExpectOpen context [no_error_1] :: prepared ++ map statement lv) ++ statement st :: inner).
        { apply (app_inv_tail [commit; MExpectClose]). rewrite <- Ef. unfold unit_messages. rewrite map_app. cbn [map app]. rewrite <- !app_assoc. cbn [app]. reflexivity. }
        rewrite Fr in Mf. destruct (map_eq_app _ _ _ _ Mf) as (f1 & f2 & -> & M1 & M2). destruct f2 as [|[m2 o2] f2]; [discriminate M2|]. cbn [map fst] in M2. injection M2 as -> M2.
        apply Forall_app in Xf as [_ Xf]. inversion_clear Xf as [|? ? X1 X2]. unfold executed in X1. cbn [snd] in X1. subst o2. rewrite play_app, (play_nothing f1).
        - rewrite play_cons. unfold play1. cbn [fst snd]. rewrite Hs. unfold pending. cbn [in_progress durable app].
          destruct (play_plain f2 [] [] ltac:(apply executed_fst; rewrite M2; exact Hi)) as (q & -> & _). reflexivity.
        - apply (effects_fst f1 (fun m => effect_of m = Nothing \/ effect_of m = SetsLevel)); [|auto]. rewrite M1. constructor; [left; reflexivity|]. apply Forall_app. split; [eapply Forall_impl; [|exact Hp]; intros m (id & q & ->); left; reflexivity|].
          apply Forall_map. eapply Forall_impl; [|exact Hl]. intros s X. right. exact X. }
      assert (Sp : firstn (length front) tr = u1 ++ firstn (length front - length u1) u2) by (rewrite Eu, firstn_app, firstn_all2 by exact Lu; reflexivity).
      rewrite Sp in G. exact (durable_prefix _ _ _ G).
    - intros u1 u2 Eu Lu. apply (durable_prefix u1 u2). rewrite <- Eu. destruct C3 as [((q & unmade & _ & ->) & _)| ->]; reflexivity. }
  destruct Wh as [[W1 W2]|[(W1 & W2 & W3)|[W1 W2]]].
  - destruct (commits t) eqn:Ct; [apply proj1 in Wc; specialize (Wc eq_refl); lia|].
    rewrite (Front tr1 (t :: tr2) E) in Dl by lia. rewrite (Front (tr1 ++ [t]) tr2 ltac:(rewrite <- app_assoc; exact E)) in Dl by (rewrite app_length; cbn [length]; lia). symmetry. exact Dl.
  - destruct tr2 as [|x [|? ?]]; try discriminate W3. destruct (commits t) eqn:Ct.
    + destruct (proj1 Wc eq_refl) as [_ Ex]. rewrite (Front tr1 [t; x] E) in Dl by lia. cbn [app] in Dl. rewrite <- Dl.
      destruct (unit_played p context prepared lv st inner tr (mksess None []) Hp Hl Hs Hi Hst Hpr Hsv) as [(C1 & C2 & C3 & _)|(o & C1 & C2 & C3)].
      * rewrite E in C3. change (t :: [x]) with ([t] ++ [x]) in C3. rewrite app_assoc, play_app in C3. assert (Fx : fst x = MExpectClose).
        { rewrite W2 in Mt. cbn [map] in Mt. change (commit :: [fst x]) with ([commit] ++ [fst x]) in Mt. change [commit; MExpectClose] with ([commit] ++ [MExpectClose]) in Mt. rewrite !app_assoc in Mt. apply app_inj_tail in Mt as [_ Mt]. exact Mt. }
        replace (play [x] (play (tr1 ++ [t]) (mksess None []))) with (play (tr1 ++ [t]) (mksess None [])) in C3 by (cbn [play fold_left]; unfold play1 at 1; rewrite Fx; cbn [effect_of]; destruct (snd x); reflexivity).
        rewrite C3. unfold pending. cbn [durable in_progress app]. rewrite Hm, Ef, Cf. reflexivity.
      * exfalso. rewrite <- Lf, <- W1, E in C1. rewrite nth_error_app2, Nat.sub_diag in C1 by lia. cbn [nth_error] in C1. injection C1 as ->. cbn [snd] in Ex. congruence.
    + assert (Ne : snd t <> Executed) by (intros X; assert (false = true) by (apply Wc; split; [lia|exact X]); discriminate). unfold play1. destruct (snd t); [congruence|reflexivity|reflexivity].
  - destruct (commits t) eqn:Ct; [apply proj1 in Wc; specialize (Wc eq_refl); lia|]. unfold play1. rewrite W2. cbn [effect_of]. destruct (snd t); reflexivity.
Qed.

(* What there is to know about the trace of a unit of work. *)
Definition steady (tr : list (msg * outcome)) : Prop := forall tr1 t tr2, tr = tr1 ++ t :: tr2 ->
  durable (play1 (mksess (in_progress (play tr1 (mksess None []))) []) t) = (if commits t then changes (map fst tr) else []) /\ (commits t = true <-> S (S (length tr1)) = length tr /\ snd t = Executed).
Lemma works_steady `{E : Env} propagates u tr : works_on propagates u tr -> steady tr /\ 2 <= length tr.
Proof.
  intros (_ & D & Sv & _ & b & context & cs & level & body & He & Hc & Hok & Hd & Hl & Hb). destruct (unit_delivered E b context cs level body _ He Hc Hok Hd Hl) as (l & prepared & inner & ids & out & A1 & A2 & A3 & A4 & A5 & A6).
  destruct (opening_shape level l A1) as (lv & st & -> & B1 & B2 & _). rewrite D in A4. injection A4 as A4. destruct (Hb _ _ _ A3) as [Hpl Hpr]. pose proof Sv as Sv2. rewrite A4 in Sv2. split.
  - exact (unit_steps propagates context prepared lv st inner tr A5 B1 B2 Hpl A6 Hpr Sv2 A4).
  - rewrite <- (map_length fst tr), A4. unfold unit_messages. cbn [length]. rewrite !app_length. cbn [length]. lia.
Qed.

(* ---- all of them ---- *)

Section Together.
Variable does : nat -> list (msg * outcome).
Notation after := (data_after does).

Lemma after_snoc tl e : after (tl ++ [e]) = happens does (after tl) e.
Proof. unfold data_after. rewrite fold_left_app. reflexivity. Qed.
Lemma put_same {A} i (x : A) f : put i x f i = x.
Proof. unfold put. rewrite Nat.eqb_refl. reflexivity. Qed.
Lemma put_other {A} i j (x : A) f : j <> i -> put i x f j = f j.
Proof. intros H. unfold put. rewrite (proj2 (Nat.eqb_neq j i) H). reflexivity. Qed.

Definition knows (tl : list event) (db : database) : Prop :=
  (forall i, read db i = length (handled i tl) /\ transaction db i = in_progress (play (firstn (length (handled i tl)) (does i)) (mksess None []))) /\
  stored db = concat (map (fun i => changes (map fst (does i))) (committed db)) /\ NoDup (committed db) /\
  (forall i, In i (committed db) <-> exists m, nth_error (does i) (length (does i) - 2) = Some (m, Executed) /\ length (does i) - 2 < length (handled i tl)).

(* Every call in the timeline has a steady trace that is long enough. *)
Lemma knows_all tl : (forall i m, In (Handled i m) tl -> steady (does i) /\ 2 <= length (does i)) -> (forall i, length (handled i tl) <= length (does i)) -> knows tl (after tl).
Proof.
  induction tl as [|e tl IH] using rev_ind; intros Hs Hl.
  - split; [intros i; split; reflexivity|]. split; [reflexivity|]. split; [constructor|]. intros i. split; [intros []|]. intros (m & _ & X). cbn in X. lia.
  - rewrite after_snoc. assert (K : knows tl (after tl)).
    { apply IH; [intros i m X; apply (Hs i m); apply in_or_app; left; exact X|]. intros i. specialize (Hl i). rewrite handled_app, app_length in Hl. lia. }
    clear IH. destruct K as (K1 & K2 & K3 & K4). destruct e as [i|i m|i rs e]; cbn [happens].
    + split; [intros j; rewrite handled_app; cbn [handled]; rewrite app_nil_r; apply K1|]. split; [exact K2|]. split; [exact K3|]. intros j. rewrite handled_app. cbn [handled]. rewrite app_nil_r. apply K4.
    + destruct (Hs i m ltac:(apply in_or_app; right; left; reflexivity)) as [St L2]. destruct (K1 i) as [R1 T1]. specialize (Hl i). rewrite handled_app in Hl. cbn [handled] in Hl. rewrite Nat.eqb_refl, app_length in Hl. cbn [length] in Hl.
      set (k := length (handled i tl)) in *. rewrite R1. destruct (nth_error (does i) k) as [t|] eqn:N; [|apply nth_error_None in N; lia].
      assert (Sp : does i = firstn k (does i) ++ t :: skipn (S k) (does i)).
      { apply nth_error_split in N as (l1 & l2 & -> & Lk). rewrite <- Lk. rewrite firstn_app, Nat.sub_diag, firstn_all. cbn [firstn]. rewrite app_nil_r. f_equal. f_equal.
        rewrite skipn_app, skipn_all2 by lia. replace (S (length l1) - length l1) with 1 by lia. reflexivity. }
      assert (Lk : length (firstn k (does i)) = k) by (rewrite firstn_length; lia).
      destruct (St _ _ _ Sp) as [S1 S2]. rewrite Lk in S2. rewrite T1. rewrite play1_shift. cbn [in_progress durable].
      assert (Hi : forall j, length (handled j (tl ++ [Handled i m])) = if Nat.eqb j i then S k else length (handled j tl)).
      { intros j. rewrite handled_app. cbn [handled]. rewrite app_length. destruct (Nat.eqb_spec j i) as [->|_]; cbn [length]; unfold k; lia. }
      split; [|split; [|split]].
      * intros j. rewrite Hi. cbn [read transaction]. destruct (Nat.eqb_spec j i) as [->|Hj]; [|rewrite !put_other by exact Hj; apply K1]. rewrite !put_same. split; [reflexivity|].
        assert (F : firstn (S k) (does i) = firstn k (does i) ++ [t]) by (rewrite Sp at 1; rewrite firstn_app, Lk, firstn_all2 by lia; replace (S k - k) with 1 by lia; reflexivity). rewrite F, play_app.
        destruct (play (firstn k (does i)) (mksess None [])) as [o d]. rewrite play_cons, (play1_shift o d). reflexivity.
      * cbn [stored committed]. rewrite S1, K2. destruct (commits t); [|rewrite !app_nil_r; reflexivity]. rewrite map_app, concat_app. cbn [map concat]. rewrite app_nil_r. reflexivity.
      * cbn [committed]. destruct (commits t) eqn:C; [|rewrite app_nil_r; exact K3]. assert (Ni : ~ In i (committed (after tl))).
        { intros X. apply K4 in X as (m0 & _ & X). fold k in X. destruct (proj1 S2 eq_refl) as [Y _]. lia. }
        apply NoDup_rev in K3. rewrite <- (rev_involutive (committed (after tl) ++ [i])). apply NoDup_rev. rewrite rev_unit. constructor; [|exact K3]. rewrite <- in_rev. exact Ni.
      * intros j. cbn [committed]. rewrite Hi. destruct (Nat.eqb_spec j i) as [->|Hj].
        -- rewrite in_app_iff. rewrite K4. fold k. split.
           ++ intros [(m0 & X1 & X2)|X]; [exists m0; split; [exact X1|lia]|]. destruct (commits t) eqn:C; [|destruct X]. destruct (proj1 S2 eq_refl) as [Y1 Y2]. exists (fst t). replace (length (does i) - 2) with k by lia. split; [|lia]. rewrite N. destruct t as [a o]. cbn [fst snd] in *. rewrite Y2. reflexivity.
           ++ intros (m0 & X1 & X2). destruct (Nat.eq_dec (length (does i) - 2) k) as [Y|Y]; [|left; exists m0; split; [exact X1|lia]]. right. rewrite Y, N in X1. injection X1 as ->. rewrite (proj2 S2); [left; reflexivity|]. cbn [snd]. split; [lia|reflexivity].
        -- rewrite in_app_iff, K4. split; [intros [X|X]; [exact X|]|auto]. destruct (commits t); [destruct X as [X|[]]; congruence|destruct X].
    + split; [intros j; rewrite handled_app; cbn [handled]; rewrite app_nil_r; apply K1|]. split; [exact K2|]. split; [exact K3|]. intros j. rewrite handled_app. cbn [handled]. rewrite app_nil_r. apply K4.
Qed.

Lemma committed_grows a b : exists later, committed (after (a ++ b)) = committed (after a) ++ later.
Proof.
  induction b as [|e b IH] using rev_ind; [exists []; rewrite !app_nil_r; reflexivity|]. destruct IH as (l & IH). rewrite app_assoc, after_snoc. unfold happens. destruct e as [i|i m|i rs e]; [exists l; exact IH| |exists l; exact IH].
  destruct (nth_error _ _) as [t|]; [|exists l; exact IH]. cbn zeta. cbn [committed]. rewrite IH, <- app_assoc. eauto.
Qed.
End Together.

(* ---- C110 ---- *)

Section Calls.
Context `{E : Env}.
Variables (propagates : bool) (out_room in_room : nat) (us : list (list exchange * server)) (does : nat -> list (msg * outcome)).
Hypothesis units : forall i u, nth_error us i = Some u -> works_on propagates u (does i).

Lemma all_served : Forall (served word32) us.
Proof. apply Forall_forall. intros u Hu. apply In_nth_error in Hu as (i & Hi). exact (proj1 (units i u Hi)). Qed.

Lemma run_all acts : forall w w', all_inv out_room in_room us w -> Overlap.run word32 out_room in_room acts w = Some w' -> all_inv out_room in_room us w'.
Proof.
  induction acts as [|a acts IH]; intros w w' I H; cbn [Overlap.run] in H; [injection H as <-; exact I|]. destruct (Overlap.step word32 out_room in_room a w) as [w1|] eqn:S; [|discriminate].
  exact (IH w1 w' (proj1 (all_inv_step word32 out_room in_room us w a w1 all_served I S)) H).
Qed.

Lemma run_knows acts w : Overlap.run word32 out_room in_room acts (new_world (calls_of us)) = Some w -> forall a b, timeline w = a ++ b -> knows does a (data_after does a).
Proof.
  intros H a b Et. pose proof (run_all acts _ w (all_inv_new out_room in_room us) H) as (L & Inv).
  assert (Hl : forall i, (exists u, nth_error us i = Some u /\ length (handled i (timeline w)) <= length (fst u)) \/ nth_error us i = None).
  { intros i. destruct (nth_error us i) as [u|] eqn:U; [left|right; reflexivity]. exists u. split; [reflexivity|]. destruct (nth_error (calls w) i) as [c|] eqn:C; [|apply nth_error_None in C; assert (nth_error us i <> None) as X by congruence; apply nth_error_Some in X; lia].
    destruct (Inv i u c U C) as (_ & _ & f & t & I3 & I4 & _). rewrite I4. pose proof (FlowProofs.i_split _ _ _ _ _ _ I3) as ->. unfold messages. rewrite map_length, app_length. lia. }
  assert (Hn : forall i m, In (Handled i m) (timeline w) -> nth_error us i <> None).
  { clear - H. assert (G : forall acts w w', Overlap.run word32 out_room in_room acts w = Some w' -> length (calls w) = length us -> (forall i m, In (Handled i m) (timeline w) -> nth_error us i <> None) -> forall i m, In (Handled i m) (timeline w') -> nth_error us i <> None).
    { clear H. induction acts0 as [|x acts0 IH]; intros w0 w' H L K; cbn [Overlap.run] in H; [injection H as <-; exact K|]. destruct (Overlap.step word32 out_room in_room x w0) as [w1|] eqn:S; [|discriminate].
      destruct (step_shape word32 out_room in_room x w0 w1 S) as (j & c & c' & new & C & -> & Ab & _). apply (IH _ _ H).
      - cbn [calls]. unfold set_call. rewrite app_length, firstn_length. cbn [length]. rewrite skipn_length. assert (j < length (calls w0)) by (apply nth_error_Some; congruence). lia.
      - intros i m X. cbn [timeline] in X. apply in_app_or in X as [X|X]; [exact (K i m X)|]. rewrite Forall_forall in Ab. specialize (Ab _ X). cbn in Ab. subst j. apply nth_error_Some. rewrite <- L. apply nth_error_Some. congruence. }
    apply (G acts _ w H); [unfold new_world, calls_of; cbn [calls]; rewrite !map_length; reflexivity|]. intros i m []. }
  apply knows_all.
  - intros i m X. assert (Y : nth_error us i <> None) by (apply (Hn i m); rewrite Et; apply in_or_app; left; exact X). destruct (nth_error us i) as [u|] eqn:U; [|congruence]. exact (works_steady propagates u (does i) (units i u U)).
  - intros i. destruct (Hl i) as [(u & U & X)|X].
    + destruct (units i u U) as (_ & _ & _ & F & _).
      assert (length (does i) = length (fst u)) as -> by (clear - F; induction F; cbn; congruence). rewrite Et, handled_app, app_length in X. lia.
    + assert (Z : handled i a = []); [|rewrite Z; cbn [length]; lia]. assert (A : forall m, ~ In (Handled i m) a) by (intros m Y; apply (Hn i m); [rewrite Et; apply in_or_app; left; exact Y|exact X]).
      clear - A. induction a as [|e a IH]; [reflexivity|]. assert (IH' : handled i a = []) by (apply IH; intros m Y; apply (A m); right; exact Y). destruct e as [j|j m|j rs e]; cbn [handled]; try exact IH'.
      destruct (Nat.eqb_spec i j) as [->|_]; [exfalso; apply (A m); left; reflexivity|exact IH'].
Qed.
End Calls.

(* The durable data is at every time made of whole units of work, one after the other, each at most once. *)
Theorem C110_whole_units_one_after_the_other : forall (E : Env) propagates out_room in_room us does acts w,
  (forall i u, nth_error us i = Some u -> works_on propagates u (does i)) ->
  Overlap.run word32 out_room in_room acts (new_world (calls_of us)) = Some w ->
  forall a b, timeline w = a ++ b ->
    stored (data_after does a) = concat (map (fun i => changes (map fst (does i))) (committed (data_after does a))) /\ NoDup (committed (data_after does a)) /\
    exists later, committed (data_after does (timeline w)) = committed (data_after does a) ++ later.
Proof.
  intros E propagates out_room in_room us does acts w U H a b Et. destruct (run_knows propagates out_room in_room us does U acts w H a b Et) as (_ & K2 & K3 & _).
  split; [exact K2|]. split; [exact K3|]. rewrite Et. apply committed_grows.
Qed.

(* A unit is not among them before its Send is called. When its Send has returned without an error its caller knows from the response to the COMMIT, the last but one, whether it
   is among them: if it says so it is now, and if not it never will be. *)
Theorem C110_between_call_and_return : forall (E : Env) propagates out_room in_room us does acts w,
  (forall i u, nth_error us i = Some u -> works_on propagates u (does i)) ->
  Overlap.run word32 out_room in_room acts (new_world (calls_of us)) = Some w ->
  (forall a i b, timeline w = a ++ Began i :: b -> ~ In i (committed (data_after does a))) /\
  (forall a i rs b, timeline w = a ++ Ended i rs None :: b -> i < length us ->
     exists r, nth_error rs (length rs - 2) = Some r /\
       (r = None -> In i (committed (data_after does a))) /\ (r <> None -> ~ In i (committed (data_after does (timeline w))))).
Proof.
  intros E propagates out_room in_room us does acts w U H. pose proof (run_knows propagates out_room in_room us does U acts w H) as Kn.
  destruct (new_in_order word32 out_room in_room us acts w (all_served propagates us does U) H) as (O1 & O2). split.
  - intros a i b Et X. destruct (Kn a _ Et) as (_ & _ & _ & K4). apply K4 in X as (m & _ & X). rewrite (O2 a i b Et) in X. cbn in X. lia.
  - intros a i rs b Et Hi. destruct (nth_error us i) as [u|] eqn:Ui; [|apply nth_error_None in Ui; lia]. destruct (O1 a i rs b u Et Ui) as (A1 & A2 & ->). pose proof (U i u Ui) as W. destruct (works_steady propagates u (does i) W) as [St L2].
    destruct W as (_ & _ & _ & F & _). assert (Lf : length (does i) = length (fst u)) by (clear - F; induction F; cbn; congruence).
    assert (Fn : forall k t, nth_error (does i) k = Some t -> exists x, nth_error (fst u) k = Some x /\ truth t (seen_as x)).
    { clear - F. induction F as [|t x ts xs T F IH]; intros [|k] t0 N; cbn [nth_error] in *; try discriminate; [injection N as <-; eauto|exact (IH k t0 N)]. }
    rewrite map_length, <- Lf. destruct (nth_error (does i) (length (does i) - 2)) as [t|] eqn:N; [|apply nth_error_None in N; lia]. destruct (Fn _ _ N) as (x & Nx & T). exists (seen_as x).
    split; [rewrite nth_error_map, Nx; reflexivity|]. destruct t as [m o]. split.
    + intros Hr. apply T in Hr. cbn [snd] in Hr. subst o. destruct (Kn a _ Et) as (_ & _ & _ & K4). apply K4. exists m. split; [exact N|]. rewrite A1. unfold messages. rewrite map_length. lia.
    + intros Hr X. destruct (Kn (timeline w) [] ltac:(rewrite app_nil_r; reflexivity)) as (_ & _ & _ & K4). apply K4 in X as (m' & N' & _). rewrite N in N'. injection N' as _ ->. apply Hr. apply T. reflexivity.
Qed.

(* So units take effect in the order of their Sends: one whose Send was called after another had returned with success comes after it. *)
Theorem C110_in_the_order_of_calls : forall (E : Env) propagates out_room in_room us does acts w,
  (forall i u, nth_error us i = Some u -> works_on propagates u (does i)) ->
  Overlap.run word32 out_room in_room acts (new_world (calls_of us)) = Some w ->
  forall a i rs b j c, timeline w = a ++ Ended i rs None :: b ++ Began j :: c -> i < length us -> nth_error rs (length rs - 2) = Some None -> In j (committed (data_after does (timeline w))) ->
    exists before between after, committed (data_after does (timeline w)) = before ++ i :: between ++ j :: after.
Proof.
  intros E propagates out_room in_room us does acts w U H a i rs b j c Et Hi Hr Hj. destruct (C110_between_call_and_return E propagates out_room in_room us does acts w U H) as [B R].
  destruct (R a i rs _ Et Hi) as (r & R1 & R2 & _). rewrite Hr in R1. injection R1 as <-. specialize (R2 eq_refl).
  assert (Et' : timeline w = (a ++ Ended i rs None :: b) ++ Began j :: c) by (rewrite <- app_assoc; exact Et). pose proof (B _ j c Et') as Bj.
  assert (X : In i (committed (data_after does (a ++ Ended i rs None :: b)))) by (destruct (committed_grows does a (Ended i rs None :: b)) as (l & ->); apply in_or_app; left; exact R2).
  destruct (committed_grows does (a ++ Ended i rs None :: b) (Began j :: c)) as (l & G). rewrite <- Et' in G. rewrite G in Hj |- *. apply in_app_or in Hj as [Hj|Hj]; [contradiction|].
  apply in_split in X as (x1 & x2 & ->). apply in_split in Hj as (y1 & y2 & ->). exists x1, (x2 ++ y1), y2. rewrite <- !app_assoc. cbn [app]. rewrite <- ?app_assoc. reflexivity.
Qed.

(* ---- the hypotheses are met ---- *)

(* The two units of ThmLedger: the first is refused its second row, the second commits. *)
Definition answering (xs : list exchange) : server := fun ms => nth (length ms - 1) (map (fun x => reply_bytes (replied x)) xs) [].
Lemma answering_serves xs : SpecFlow.serves (answering xs) xs.
Proof. intros before x after ->. unfold answering. rewrite map_length, app_length. cbn [length]. replace (length before + 1 - 1) with (length before) by lia. rewrite map_app, app_nth2; rewrite map_length; [|lia]. rewrite Nat.sub_diag. reflexivity. Qed.

(* The client writes all, the server reads and answers a message at a time, the client reads all. *)
Definition whole_flow (i : nat) (xs : list exchange) : list action :=
  Net i (Put (length (request_bytes xs))) ::
  concat (map (fun x => [Net i (Take 4); Net i (Take (length (frame (asked x)) - 4)); Net i (Reply (length (reply_bytes (replied x))))]) xs) ++ [Net i (Get (length (replies_bytes xs)))].
Definition both : list (list exchange * server) := [(ThmLedger.xa, answering ThmLedger.xa); (ThmLedger.xb, answering ThmLedger.xb)].

Lemma both_work : forall i u, nth_error both i = Some u -> works_on (H := ThmBuilder.plain) true u (ThmLedger.both_done i).
Proof.
  assert (B : forall l : bytes, forallb (fun b => N.ltb b 256) l = true -> is_bytes l) by (intros l H; apply Forall_forall; intros x Hx; rewrite forallb_forall in H; apply N.ltb_lt, (H x Hx)).
  assert (B1 : forall c ms ids out, prog_msgs (PCall 0 c (Ret None [])) ms ids out -> exists m, ms = [m] /\ call_denotes c m) by (intros c ms ids out H; inversion H; subst; match goal with X : prog_msgs (Ret _ _) _ _ _ |- _ => inversion X; subst end; eauto).
  assert (B2 : forall c d ms ids out, prog_msgs (PCall 0 c (PCall 0 d (Ret None []))) ms ids out -> exists m n, ms = [m; n] /\ call_denotes c m /\ call_denotes d n).
  { intros c d ms ids out H. inversion H; subst. match goal with X : prog_msgs (PCall _ _ _) ?l _ _ |- _ => apply B1 in X as (m2 & -> & X) end. eauto 6. }
  assert (N : forall (a b u : list exchange * server) i, nth_error [a; b] i = Some u -> (i = 0 /\ u = a) \/ (i = 1 /\ u = b)) by (intros a b u [|[|[|i]]] H; cbn in H; try discriminate; injection H as <-; auto).
  destruct (ThmTx.sent_by_frames ThmTx.two_rows) as (Da & fa & Fa1 & Fa2); [cbn; auto|]. destruct (ThmTx.sent_by_frames ThmTx.one_row) as (Db & fb & Fb1 & Fb2); [cbn; auto|].
  intros i u Hu. apply N in Hu as [[-> ->]|[-> ->]].
  - assert (Rq : request_bytes ThmLedger.xa = ThmTx.sent_by ThmTx.two_rows) by (vm_compute; reflexivity).
    split; [split; [eapply ThmTx.exchanges_of_ok; eassumption|split; [apply B; vm_compute; reflexivity|apply answering_serves]]|]. cbn [fst]. rewrite Rq. split; [vm_compute; reflexivity|]. split.
    { cbn [ThmLedger.both_done]. unfold ThmTx.trace_a. apply S_open; [reflexivity|]. apply S_exec; [exact Logic.I|reflexivity|]. apply S_exec; [exact Logic.I|reflexivity|]. apply S_fail; [exact Logic.I|reflexivity|]. apply S_skip; [exact Logic.I|reflexivity|]. apply S_close_failed; [reflexivity|]. constructor. }
    split; [vm_compute; repeat (apply Forall2_cons || apply Forall2_nil); split; congruence|].
    exists (new_pipe 0), 0%N, [], 0%N, (PCall 0 (ThmTx.insert_n "(1)") (PCall 0 (ThmTx.insert_n "(2)") (Ret None []))). split; [repeat split|]. split; [constructor|]. split; [cbn; repeat split; try constructor; intros; repeat constructor|].
    split; [exact Da|]. split; [vm_compute; reflexivity|]. intros ms ids out Hm. split; [|left; reflexivity].
    apply B2 in Hm as (m1 & m2 & -> & H1 & H2). inversion H1; subst; inversion H2; subst. clear. repeat (apply Forall_cons || apply Forall_nil); left; vm_compute; reflexivity.
  - assert (Rq : request_bytes ThmLedger.xb = ThmTx.sent_by ThmTx.one_row) by (vm_compute; reflexivity).
    split; [split; [eapply ThmTx.exchanges_of_ok; eassumption|split; [apply B; vm_compute; reflexivity|apply answering_serves]]|]. cbn [fst]. rewrite Rq. split; [vm_compute; reflexivity|]. split.
    { cbn [ThmLedger.both_done]. unfold ThmTx.trace_b. apply S_open; [reflexivity|]. repeat (apply S_exec; [exact Logic.I|reflexivity|]). apply S_close; [reflexivity|]. constructor. }
    split; [vm_compute; repeat (apply Forall2_cons || apply Forall2_nil); split; congruence|].
    exists (new_pipe 0), 0%N, [], 0%N, (PCall 0 (ThmTx.insert_n "(3)") (Ret None [])). split; [repeat split|]. split; [constructor|]. split; [cbn; repeat split; try constructor; intros; repeat constructor|].
    split; [exact Db|]. split; [vm_compute; reflexivity|]. intros ms ids out Hm. split; [|left; reflexivity].
    apply B1 in Hm as (m1 & -> & H1). inversion H1; subst. clear. repeat (apply Forall_cons || apply Forall_nil); left; vm_compute; reflexivity.
Qed.

Example instant_meets : exists w, Overlap.run false 1000 1000 (Begin 0 :: Begin 1 :: whole_flow 1 ThmLedger.xb ++ whole_flow 0 ThmLedger.xa ++ [Finish 1; Finish 0]) (new_world (calls_of both)) = Some w /\
  stored (data_after ThmLedger.both_done (timeline w)) = [ThmTx.insert_of "(3)"] /\ committed (data_after ThmLedger.both_done (timeline w)) = [1] /\
  (exists a b, timeline w = a ++ Ended 1 [None; None; None; None; None] None :: b).
Proof.
  eexists. split; [vm_compute; reflexivity|]. split; [vm_compute; reflexivity|]. split; [vm_compute; reflexivity|].
  set (l := timeline _). exists (firstn 13 l). eexists. vm_compute. reflexivity.
Qed.

Print Assumptions C110_whole_units_one_after_the_other.
Print Assumptions C110_between_call_and_return.
Print Assumptions C110_in_the_order_of_calls.
