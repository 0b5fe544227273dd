(* C109: Sends take effect in the order in which they are made. *)
From Coq Require Import String List NArith ZArith Arith Bool Lia ZifyN ZifyNat ZifyBool.
From Coq Require Import List.
From Verif Require Import Base SpecWire Conn SpecUnit SpecReply Flow SpecFlow Overlap SpecOverlap.
From Verif Require ConnProofs ReplyProofs FlowProofs ThmConn ThmCommit ThmFlow.
Import ListNotations.
Open Scope list_scope.
Open Scope nat_scope.

Lemma replies_cons x xs : replies_bytes (x :: xs) = reply_bytes (replied x) ++ replies_bytes xs.
Proof. reflexivity. Qed.

(* Without an error all replies were read, so all requests were handled, and the responses are those of the replies. *)
Lemma no_error_all : forall w32 fin finished todo g more rs q, Forall (exchange_ok w32) (finished ++ todo) -> is_bytes g -> g ++ more = replies_bytes finished ->
  ReplyProofs.areads w32 (map (fun x => fst (asked x)) (finished ++ todo)) fin g = ((rs, None), q) -> todo = [] /\ rs = map seen_as finished.
Proof.
  intros w32 fin finished. induction finished as [|x f IH]; intros todo g more rs q Ok Hb Hg H.
  - cbn in Hg. apply app_eq_nil in Hg as [-> _]. destruct todo as [|x todo]; [injection H as <- _; auto|]. cbn [app map ReplyProofs.areads] in H. rewrite ConnProofs.aread_eq in H. cbn in H. discriminate.
  - rewrite replies_cons in Hg. cbn [app map ReplyProofs.areads] in H, Ok. inversion Ok as [|? ? [_ A] Ok']; subst. destruct (ThmCommit.prefix_cases _ _ _ _ Hg) as [(u & -> & U)|(y & u & C & _)].
    + rewrite (ReplyProofs.aread_reply w32 _ fin _ _ u A) in H. cbn [fst snd] in H. destruct (ReplyProofs.outcome _ _); [discriminate|].
      destruct (ReplyProofs.areads w32 _ fin u) as [[rs' e'] q'] eqn:R. cbn [fst snd] in H. injection H as <- -> _. apply Forall_app in Hb as [_ Hb]. destruct (IH todo u more rs' q' Ok' Hb U R) as [-> ->]. auto.
    + destruct (ThmCommit.cut_reply w32 (fst (asked x)) fin (replied x) (seen_as x) y u g A C Hb) as (o & e & q' & R). rewrite R in H. cbn [fst snd] in H. discriminate.
Qed.

Lemma sends_eq w32 xs c rs e : Forall (exchange_ok w32) xs -> can_write c -> sends w32 (request_bytes xs) c = Some (rs, e) ->
  exists q, ReplyProofs.areads w32 (map (fun x => fst (asked x)) xs) (ended (rd c)) (unread c) = ((rs, e), q).
Proof.
  intros H Hc Hs. unfold sends in Hs. rewrite FlowProofs.request_bytes_frames in Hs.
  destruct (ReplyProofs.send_spec w32 None (map asked xs) c (ThmConn.requests_fit _ _ H) Hc) as (c' & A & _). cbn zeta in A. rewrite A in Hs. rewrite map_map in Hs.
  destruct (ReplyProofs.areads _ _ _ _) as [x q]. cbn [fst] in Hs. injection Hs as ->. eauto.
Qed.

Lemma handled_app i a b : handled i (a ++ b) = handled i a ++ handled i b.
Proof. induction a as [|[j|j m|j rs e] a IH]; cbn [handled app]; try exact IH; [reflexivity|]. destruct (Nat.eqb i j); [cbn [app]; f_equal|]; exact IH. Qed.
Lemma handled_now_same i l : handled i (map (Handled i) l) = l.
Proof. induction l as [|m l IH]; [reflexivity|]. cbn [map handled]. rewrite Nat.eqb_refl, IH. reflexivity. Qed.
Lemma handled_now_other i j l : i <> j -> handled i (map (Handled j) l) = [].
Proof. intros H. induction l as [|m l IH]; [reflexivity|]. cbn [map handled]. rewrite (proj2 (Nat.eqb_neq i j) H). exact IH. Qed.

Lemma set_same i c l : (exists c0, nth_error l i = Some c0) -> nth_error (set_call i c l) i = Some c.
Proof.
  intros (c0 & H). unfold set_call. apply nth_error_split in H as (l1 & l2 & -> & <-). rewrite firstn_app, firstn_all, Nat.sub_diag. cbn [firstn]. rewrite app_nil_r, nth_error_app2, Nat.sub_diag by lia. reflexivity.
Qed.
Lemma set_other i j c l c0 : nth_error l i = Some c0 -> j <> i -> nth_error (set_call i c l) j = nth_error l j.
Proof.
  intros H Hn. unfold set_call. apply nth_error_split in H as (l1 & l2 & -> & <-). rewrite firstn_app, firstn_all, Nat.sub_diag. cbn [firstn]. rewrite app_nil_r.
  replace (skipn (S (length l1)) (l1 ++ c0 :: l2)) with l2 by (rewrite skipn_app, skipn_all2 by lia; replace (S (length l1) - length l1) with 1 by lia; reflexivity).
  destruct (Nat.lt_ge_cases j (length l1)) as [L|L]; [rewrite !nth_error_app1 by lia; reflexivity|]. rewrite !nth_error_app2 by lia. destruct (j - length l1) as [|k] eqn:K; [lia|reflexivity].
Qed.

Section Network.
Variable w32 : bool.
Variables out_room in_room : nat.
Notation step := (Overlap.step w32 out_room in_room).
Notation run := (Overlap.run w32 out_room in_room).

(* One call, and what the timeline says about it. *)
Definition call_inv (tl : list event) (i : nat) (u : list exchange * server) (c : call) : Prop :=
  unit c = request_bytes (fst u) /\ answer c = snd u /\ exists finished todo,
    FlowProofs.inv out_room in_room (fst u) finished todo (flow c) /\ handled i tl = messages finished /\
    (at_phase c = Waiting -> ~ In (Began i) tl /\ flow c = start (unit c)) /\
    (forall rs, In (Ended i rs None) tl -> todo = [] /\ rs = map seen_as finished) /\ (forall rs e, In (Ended i rs e) tl -> at_phase c = Over).
Definition all_inv (us : list (list exchange * server)) (w : world) : Prop :=
  length (calls w) = length us /\ forall i u c, nth_error us i = Some u -> nth_error (calls w) i = Some c -> call_inv (timeline w) i u c.

(* The events of a step: they are about the call that makes it. *)
Definition about (i : nat) (x : event) : Prop := match x with Began j | Handled j _ | Ended j _ _ => j = i end.

Lemma step_shape a w w' : step a w = Some w' -> exists i c c' new, nth_error (calls w) i = Some c /\ w' = mkworld (set_call i c' (calls w)) (timeline w ++ new) /\ Forall (about i) new /\
  unit c' = unit c /\ answer c' = answer c /\
  ((at_phase c = Waiting /\ at_phase c' = Running /\ flow c' = flow c /\ new = [Began i]) \/
   (at_phase c = Waiting /\ at_phase c' = Over /\ flow c' = flow c /\ exists rs e x, new = [Began i; Ended i rs e] /\ refused w32 (unit c) x = Some (rs, e)) \/
   (at_phase c <> Waiting /\ at_phase c' = at_phase c /\ new = read_now i (flow c) (flow c') /\ exists n, Flow.step w32 out_room in_room (answer c) (unit c) n (flow c) = Some (flow c')) \/
   (at_phase c = Running /\ at_phase c' = Over /\ flow c' = flow c /\ exists rs e, new = [Ended i rs e] /\
      (towrite (flow c) = [] /\ returned w32 (unit c) (got (flow c)) = Some (rs, e) \/ exists x, gave_up w32 (unit c) (flow c) x = Some (rs, e)))).
Proof.
  intros H. destruct a as [i|i x|i n|i|i x]; cbn [Overlap.step] in H; destruct (nth_error (calls w) i) as [c|] eqn:C; try discriminate; exists i, c.
  - destruct (at_phase c) eqn:P; try discriminate. injection H as <-. eexists _, _. split; [exact C|]. split; [reflexivity|]. split; [repeat constructor|]. split; [reflexivity|]. split; [reflexivity|]. left. auto.
  - destruct (at_phase c) eqn:P; try discriminate. destruct (refused w32 (unit c) x) as [[rs e]|] eqn:R; [|discriminate]. injection H as <-. eexists _, _. split; [exact C|]. split; [reflexivity|]. split; [repeat constructor|].
    split; [reflexivity|]. split; [reflexivity|]. right. left. repeat (split; [reflexivity|]). eauto 6.
  - assert (G : exists s, Flow.step w32 out_room in_room (answer c) (unit c) n (flow c) = Some s /\ at_phase c <> Waiting /\
      w' = mkworld (set_call i (mkcall (unit c) (answer c) (at_phase c) s) (calls w)) (timeline w ++ read_now i (flow c) s)).
    { destruct (at_phase c) eqn:P; [discriminate| |].
      - destruct (Flow.step _ _ _ _ _ n _) as [s|]; [|discriminate]. injection H as <-. exists s. repeat split. discriminate.
      - destruct n; try discriminate; destruct (Flow.step _ _ _ _ _ _ _) as [s|]; try discriminate; injection H as <-; exists s; repeat split; discriminate. }
    destruct G as (s & G1 & G2 & ->). eexists _, _. split; [exact C|]. split; [reflexivity|]. split; [apply Forall_map; apply Forall_forall; intros; reflexivity|].
    split; [reflexivity|]. split; [reflexivity|]. right. right. left. cbn [flow at_phase]. eauto 6.
  - destruct (at_phase c) eqn:P; try discriminate. destruct (towrite (flow c)) eqn:T; try discriminate. destruct (returned w32 (unit c) (got (flow c))) as [[rs e]|] eqn:R; [|discriminate]. injection H as <-.
    eexists _, _. split; [exact C|]. split; [reflexivity|]. split; [repeat constructor|]. split; [reflexivity|]. split; [reflexivity|]. right. right. right. repeat (split; [reflexivity|]). eauto 8.
  - destruct (at_phase c) eqn:P; try discriminate. destruct (gave_up w32 (unit c) (flow c) x) as [[rs e]|] eqn:R; [|discriminate]. injection H as <-.
    eexists _, _. split; [exact C|]. split; [reflexivity|]. split; [repeat constructor|]. split; [reflexivity|]. split; [reflexivity|]. right. right. right. repeat (split; [reflexivity|]). eauto 8.
Qed.

Lemma about_other i j new : i <> j -> Forall (about j) new -> handled i new = [] /\ ~ In (Began i) new /\ forall rs e, ~ In (Ended i rs e) new.
Proof.
  intros H F. split.
  - induction F as [|x new X F IH]; [reflexivity|]. destruct x as [k|k m|k rs e]; cbn [about] in X; subst k; cbn [handled]; try exact IH. rewrite (proj2 (Nat.eqb_neq i j) H). exact IH.
  - rewrite Forall_forall in F. split; [intros X; exact (H (F _ X))|intros rs e X; exact (H (F _ X))].
Qed.

Lemma ended_all u finished todo s rs e : served w32 u -> FlowProofs.inv out_room in_room (fst u) finished todo s ->
  (towrite s = [] /\ returned w32 (request_bytes (fst u)) (got s) = Some (rs, e) \/ exists x, gave_up w32 (request_bytes (fst u)) s x = Some (rs, e)) -> e = None -> todo = [] /\ rs = map seen_as finished.
Proof.
  intros (Ok & Hb & _) I H ->. pose proof (FlowProofs.i_split _ _ _ _ _ _ I) as Sp. pose proof (FlowProofs.i_in _ _ _ _ _ _ I) as In'.
  assert (Bg : is_bytes (got s)).
  { rewrite Sp in Hb. unfold replies_bytes in Hb, In'. rewrite map_app, concat_app in Hb. apply Forall_app in Hb as [Hb _]. rewrite In' in Hb. apply Forall_app in Hb as [Hb _]. exact Hb. }
  assert (G : forall fin q, ReplyProofs.areads w32 (map (fun x => fst (asked x)) (fst u)) fin (got s) = ((rs, None), q) -> todo = [] /\ rs = map seen_as finished).
  { intros fin q R. rewrite Sp in R, Ok. exact (no_error_all w32 fin finished todo (got s) _ rs q Ok Bg (eq_sym In') R). }
  destruct H as [[_ H]|(x & H)].
  - rewrite FlowProofs.returned_spec in H by exact Ok. cbn zeta in H. destruct (ReplyProofs.areads _ _ _ _) as [[rs' e'] q] eqn:R. cbn [fst snd] in H. apply (G nothing_yet q). rewrite R.
    destruct e' as [e'|]; [|injection H as ->; reflexivity]. exfalso. destruct e' as [[| |n]| | | | | | | | | |]; try discriminate H. destruct n as [|[]]; discriminate H.
  - unfold gave_up in H. destruct (towrite s).
    + destruct (fun P => sends_eq w32 (fst u) _ rs None Ok P H) as (q & R); [split; reflexivity|]. unfold unread, ConnProofs.flat in R. cbn [rd ended inbound held app concat] in R. rewrite app_nil_r in R. exact (G x q R).
    + unfold sends, conn_send in H. cbn in H. discriminate.
Qed.

Lemma all_inv_step us w a w' : Forall (served w32) us -> all_inv us w -> step a w = Some w' -> all_inv us w' /\
  exists new, timeline w' = timeline w ++ new /\
    (forall i rs, In (Ended i rs None) (timeline w) -> handled i new = []) /\
    (forall i, In (Began i) new -> handled i (timeline w) = [] /\ ~ In (Began i) (timeline w) /\ handled i new = []) /\
    (forall i rs a' b', new = a' ++ Ended i rs None :: b' -> forall u, nth_error us i = Some u -> handled i (timeline w ++ a') = messages (fst u) /\ handled i b' = [] /\ rs = map seen_as (fst u)).
Proof.
  intros Sv (L & Inv) H. destruct (step_shape a w w' H) as (i & c & c' & new & C & -> & Ab & Eu & Ea & K). cbn [timeline calls].
  assert (Lt : i < length us) by (rewrite <- L; apply nth_error_Some; congruence). destruct (nth_error us i) as [u|] eqn:U; [|apply nth_error_None in U; lia].
  pose proof (Inv i u c U C) as (I1 & I2 & f & t & I3 & I4 & I5 & I6 & I7).
  assert (Su : served w32 u) by (rewrite Forall_forall in Sv; apply Sv; exact (nth_error_In _ _ U)).
  (* what has to be shown about call i *)
  assert (G : call_inv (timeline w ++ new) i u c' /\ (forall rs, In (Ended i rs None) (timeline w) -> handled i new = []) /\
      (In (Began i) new -> handled i (timeline w) = [] /\ ~ In (Began i) (timeline w) /\ handled i new = []) /\
      (forall rs a' b', new = a' ++ Ended i rs None :: b' -> handled i (timeline w ++ a') = messages (fst u) /\ handled i b' = [] /\ rs = map seen_as (fst u))).
  { pose proof (FlowProofs.i_split _ _ _ _ _ _ I3) as Sp. assert (W : at_phase c = Waiting -> f = [] /\ handled i (timeline w) = []).
    { intros Hw. destruct (I5 Hw) as [_ I5']. pose proof (FlowProofs.i_requests _ _ _ _ _ _ I3) as Rq. rewrite I5' in Rq. cbn in Rq. destruct f; [rewrite I4; auto|discriminate]. }
    destruct K as [(P & P' & F & ->)|[(P & P' & F & rs & e & x & -> & R)|[(P & P' & -> & n & F)|(P & P' & F & rs & e & -> & R)]]].
    - destruct (I5 P) as [N1 N2]. destruct (W P) as [-> W2]. split; [|split; [|split]].
      + split; [congruence|]. split; [congruence|]. exists [], t. rewrite F. split; [exact I3|]. rewrite handled_app. cbn [handled]. rewrite app_nil_r. split; [exact I4|]. split; [rewrite P'; discriminate|].
        split; [intros rs X|intros rs e X]; apply in_app_or in X as [X|[X|[]]]; try discriminate X; [eauto|]. specialize (I7 _ _ X). congruence.
      + reflexivity.
      + intros _. auto.
      + intros rs [|y [|y' a']] b' X; discriminate X.
    - destruct (I5 P) as [N1 N2]. destruct (W P) as [-> W2]. assert (Ee : e <> None) by (unfold refused, sends, conn_send in R; cbn in R; congruence). split; [|split; [|split]].
      + split; [congruence|]. split; [congruence|]. exists [], t. rewrite F. split; [exact I3|]. rewrite handled_app. cbn [handled]. rewrite app_nil_r. split; [exact I4|]. split; [rewrite P'; discriminate|].
        split; [intros rs0 X|intros rs0 e0 X; exact P']. apply in_app_or in X as [X|[X|[X|[]]]]; try discriminate X; [eauto|]. congruence.
      + reflexivity.
      + intros _. auto.
      + intros rs0 [|y [|y' [|y'' a']]] b' X; try discriminate X. injection X as _ _ X _. congruence.
    - destruct Su as (Ok & Hb & Ho). rewrite I1, I2 in F. destruct (FlowProofs.inv_step w32 out_room in_room (snd u) (fst u) Ok Ho f t _ _ _ I3 F) as (f' & t' & I3' & _ & M).
      assert (Rn : read_now i (flow c) (flow c') = map (Handled i) (skipn (length (messages f)) (messages f'))).
      { unfold read_now. rewrite (FlowProofs.i_requests _ _ _ _ _ _ I3), (FlowProofs.i_requests _ _ _ _ _ _ I3'). reflexivity. }
      assert (Nb : ~ In (Began i) (read_now i (flow c) (flow c')) /\ forall rs e, ~ In (Ended i rs e) (read_now i (flow c) (flow c'))).
      { unfold read_now. split; [intros X|intros rs e X]; apply in_map_iff in X as (? & X & _); discriminate X. }
      assert (Hh : handled i (timeline w ++ read_now i (flow c) (flow c')) = messages f').
      { rewrite handled_app, I4, Rn, handled_now_same. destruct M as [[-> _]|(x & _ & _ & -> & _)]; [rewrite skipn_all; apply app_nil_r|]. unfold messages. rewrite map_app, skipn_app, skipn_all, Nat.sub_diag. reflexivity. }
      assert (Ht : t = [] -> (t' = [] /\ f' = f) /\ handled i (read_now i (flow c) (flow c')) = []).
      { intros ->. destruct M as [[-> ->]|(x & _ & _ & _ & X & _)]; [|discriminate]. split; [auto|]. rewrite Rn, handled_now_same. apply skipn_all. }
      split; [|split; [|split]].
      + split; [congruence|]. split; [congruence|]. exists f', t'. split; [exact I3'|]. split; [exact Hh|]. split; [congruence|].
        split; [intros rs X|intros rs e X]; apply in_app_or in X as [X|X]; try (exfalso; exact (proj2 Nb _ _ X)); [destruct (I6 _ X) as [It ->]; destruct (Ht It) as [[-> ->] _]; auto|]. rewrite P'. eauto.
      + intros rs X. exact (proj2 (Ht (proj1 (I6 _ X)))).
      + intros X. exfalso. exact (proj1 Nb X).
      + intros rs a' b' X. exfalso. apply (proj2 Nb rs None). rewrite X. apply in_or_app. right. left. reflexivity.
    - rewrite I1 in R. pose proof (ended_all u f t (flow c) rs e Su I3 R) as T. split; [|split; [|split]].
      + split; [congruence|]. split; [congruence|]. exists f, t. rewrite F. split; [exact I3|]. rewrite handled_app. cbn [handled]. rewrite app_nil_r. split; [exact I4|]. split; [rewrite P'; discriminate|].
        split; [intros rs0 X|intros rs0 e0 X; exact P']. apply in_app_or in X as [X|[X|[]]]; [eauto|]. injection X as <- X. exact (T X).
      + reflexivity.
      + intros [X|[]]. discriminate X.
      + intros rs0 [|y [|y' a']] b' X; try discriminate X. injection X as <- X <-. rewrite app_nil_r, I4. destruct (T X) as [T1 T2]. rewrite Sp, T1, app_nil_r. auto. }
  destruct G as (G1 & G2 & G3 & G4). split.
  - split; [cbn [calls]; unfold set_call; rewrite app_length, firstn_length; cbn [length]; rewrite skipn_length; lia|]. cbn [calls timeline]. intros j v d V D. destruct (Nat.eq_dec j i) as [->|Hj].
    + rewrite set_same in D by eauto. injection D as <-. rewrite U in V. injection V as <-. exact G1.
    + rewrite (set_other i j c' (calls w) c C Hj) in D. destruct (about_other j i new Hj Ab) as (A1 & A2 & A3). destruct (Inv j v d V D) as (J1 & J2 & f' & t' & J3 & J4 & J5 & J6 & J7).
      split; [exact J1|]. split; [exact J2|]. exists f', t'. split; [exact J3|]. rewrite handled_app, A1, app_nil_r. split; [exact J4|].
      split; [intros X; destruct (J5 X) as [Y1 Y2]; split; [|exact Y2]; intros Z; apply in_app_or in Z as [Z|Z]; contradiction|].
      split; [intros rs X|intros rs e X]; apply in_app_or in X as [X|X]; eauto; exfalso; exact (A3 _ _ X).
  - exists new. split; [reflexivity|]. split; [|split].
    + intros j rs X. destruct (Nat.eq_dec j i) as [->|Hj]; [exact (G2 rs X)|]. apply (about_other j i new Hj Ab).
    + intros j X. destruct (Nat.eq_dec j i) as [->|Hj]; [exact (G3 X)|]. exfalso. exact (proj1 (proj2 (about_other j i new Hj Ab)) X).
    + intros j rs a' b' X v V. destruct (Nat.eq_dec j i) as [->|Hj]; [rewrite U in V; injection V as <-; exact (G4 rs a' b' X)|].
      exfalso. apply (proj2 (proj2 (about_other j i new Hj Ab)) rs None). rewrite X. apply in_or_app. right. left. reflexivity.
Qed.

Lemma inv_start xs : FlowProofs.inv out_room in_room xs [] xs (start (request_bytes xs)).
Proof.
  constructor; cbn [start requests part outward towrite got inward reply length map app]; try reflexivity; try lia; try (intros X; contradiction).
  destruct xs; [reflexivity|]. rewrite FlowProofs.frame_length. lia.
Qed.

Lemma all_inv_new us : all_inv us (new_world (calls_of us)).
Proof.
  split; [unfold new_world, calls_of; cbn [calls]; rewrite !map_length; reflexivity|]. intros i u c U C. unfold new_world, calls_of in C. cbn [calls] in C. rewrite map_map in C. rewrite nth_error_map, U in C. cbn in C. injection C as <-.
  split; [reflexivity|]. split; [reflexivity|]. exists [], (fst u). split; [apply inv_start|]. cbn [timeline new_world handled]. split; [reflexivity|]. split; [intros _; split; [intros []|reflexivity]|]. split; [intros rs []|intros rs e []].
Qed.

Definition in_order (us : list (list exchange * server)) (tl : list event) : Prop :=
  (forall a i rs b u, tl = a ++ Ended i rs None :: b -> nth_error us i = Some u -> handled i a = messages (fst u) /\ handled i b = [] /\ rs = map seen_as (fst u)) /\
  (forall a i b, tl = a ++ Began i :: b -> handled i a = []).

Lemma two_parts {A} (tl new a b : list A) x : tl ++ new = a ++ x :: b -> (exists b0, tl = a ++ x :: b0 /\ b = b0 ++ new) \/ (exists a0, a = tl ++ a0 /\ new = a0 ++ x :: b).
Proof.
  revert a. induction tl as [|y tl IH]; intros a H; [right; exists a; auto|]. destruct a as [|z a]; cbn [app] in H; injection H as -> H.
  - left. exists tl. auto.
  - destruct (IH a H) as [(b0 & -> & ->)|(a0 & -> & ->)]; [left; exists b0; auto|right; exists a0; auto].
Qed.

Lemma run_in_order us : Forall (served w32) us -> forall acts w w', all_inv us w -> in_order us (timeline w) -> run acts w = Some w' -> all_inv us w' /\ in_order us (timeline w').
Proof.
  intros Sv. induction acts as [|a acts IH]; intros w w' I O H; cbn [Overlap.run] in H; [injection H as <-; auto|]. destruct (step a w) as [w1|] eqn:E; [|discriminate].
  destruct (all_inv_step us w a w1 Sv I E) as (I1 & new & T & N1 & N2 & N3). apply (IH w1 w' I1); [|exact H]. rewrite T. destruct O as [O1 O2]. split.
  - intros x i rs b u X U. apply two_parts in X as [(b0 & X & ->)|(a0 & -> & X)].
    + destruct (O1 x i rs b0 u X U) as (A & B & D). split; [exact A|]. split; [|exact D]. rewrite handled_app, B. apply (N1 i rs). rewrite X. apply in_or_app. right. left. reflexivity.
    + exact (N3 i rs a0 b X u U).
  - intros x i b X. apply two_parts in X as [(b0 & X & ->)|(a0 & -> & X)]; [exact (O2 x i b0 X)|].
    destruct (N2 i) as (A & _ & B); [rewrite X; apply in_or_app; right; left; reflexivity|]. rewrite handled_app, A. rewrite X, handled_app in B. apply app_eq_nil in B as [B _]. exact B.
Qed.
End Network.

Lemma new_in_order w32 out_room in_room us acts w : Forall (served w32) us -> Overlap.run w32 out_room in_room acts (new_world (calls_of us)) = Some w -> in_order us (timeline w).
Proof.
  intros Sv H. apply (run_in_order w32 out_room in_room us Sv acts _ w (all_inv_new out_room in_room us)); [|exact H]. split; [intros [|? ?] ? ? ? ? X; discriminate X|intros [|? ?] ? ? X; discriminate X].
Qed.

(* ---- C109 ---- *)

(* A Send that is made after another has returned without an error takes effect after it: when it is made everything of the other unit has been done, in order, nothing of it
   will be done any more, and nothing of the own unit has been done. *)
Theorem C109_in_order_partial : forall w32 out_room in_room us acts w, Forall (served w32) us ->
  Overlap.run w32 out_room in_room acts (new_world (calls_of us)) = Some w ->
  forall a i rs b j c xs s, timeline w = a ++ Ended i rs None :: b ++ Began j :: c -> nth_error us i = Some (xs, s) ->
    handled i a = messages xs /\ handled i (b ++ Began j :: c) = [] /\ handled j (a ++ b) = [].
Proof.
  intros w32 out_room in_room us acts w Sv H a i rs b j c xs s T U. destruct (new_in_order w32 out_room in_room us acts w Sv H) as (O1 & O2).
  destruct (O1 a i rs _ _ T U) as (A & B & _). split; [exact A|]. split; [exact B|].
  pose proof (O2 (a ++ Ended i rs None :: b) j c ltac:(rewrite T, <- app_assoc; reflexivity)) as D. rewrite handled_app in D |- *. exact D.
Qed.

(* ---- after an error ---- *)

Lemma set_twice i c c' l : i < length l -> set_call i c' (set_call i c l) = set_call i c' l.
Proof.
  intros H. unfold set_call. assert (F : length (firstn i l) = i) by (rewrite firstn_length; lia). f_equal.
  - rewrite firstn_app, F, Nat.sub_diag. cbn [firstn]. rewrite app_nil_r, firstn_firstn. f_equal. lia.
  - f_equal. rewrite skipn_app, F. replace (S i - i) with 1 by lia. rewrite (skipn_all2 (firstn i l)) by lia. reflexivity.
Qed.
Lemma run_app w32 o n l1 : forall l2 w, Overlap.run w32 o n (l1 ++ l2) w = match Overlap.run w32 o n l1 w with Some w' => Overlap.run w32 o n l2 w' | None => None end.
Proof. induction l1 as [|a l1 IH]; intros l2 w; cbn [app Overlap.run]; [reflexivity|]. destruct (Overlap.step w32 o n a w); [apply IH|reflexivity]. Qed.

(* The server reads and answers what is on the way to it, whether or not the caller has given up. *)
Lemma drain w32 out_room in_room i xs s : Forall (exchange_ok w32) xs -> serves s xs -> length (replies_bytes xs) <= in_room -> forall k w c f t,
  nth_error (calls w) i = Some c -> unit c = request_bytes xs -> answer c = s -> at_phase c <> Waiting -> FlowProofs.inv out_room in_room xs f t (flow c) -> towrite (flow c) = [] -> got (flow c) = [] ->
  FlowProofs.work t (flow c) <= k ->
  exists acts c', Overlap.run w32 out_room in_room acts w = Some (mkworld (set_call i c' (calls w)) (timeline w ++ map (Handled i) (messages t))) /\
    unit c' = unit c /\ answer c' = answer c /\ at_phase c' = at_phase c /\ flow c' = mkf [] [] [] (messages xs) [] (replies_bytes xs) [].
Proof.
  intros Ok Ho Room. induction k as [k IH] using (well_founded_induction lt_wf). intros w c f t C Hu Ha P I Tw Gt L.
  assert (Li : i < length (calls w)) by (apply nth_error_Some; congruence). pose proof (FlowProofs.i_split _ _ _ _ _ _ I) as Sp. pose proof (FlowProofs.i_in _ _ _ _ _ _ I) as In'. pose proof (FlowProofs.i_out _ _ _ _ _ _ I) as Ot.
  rewrite Gt in In'. rewrite Tw, app_nil_r in Ot. cbn [app] in In'.
  (* one more action *)
  assert (Next : forall a s1, (forall n, a <> Put n) -> (forall n, a <> Get n) -> Flow.step w32 out_room in_room s (request_bytes xs) a (flow c) = Some s1 -> towrite s1 = [] -> got s1 = [] -> exists acts c',
      Overlap.run w32 out_room in_room acts w = Some (mkworld (set_call i c' (calls w)) (timeline w ++ map (Handled i) (messages t))) /\
      unit c' = unit c /\ answer c' = answer c /\ at_phase c' = at_phase c /\ flow c' = mkf [] [] [] (messages xs) [] (replies_bytes xs) []).
  { intros a s1 N1 N2 F T1 G1. destruct (FlowProofs.inv_step w32 out_room in_room s xs Ok Ho f t _ _ _ I F) as (f' & t' & I' & Lt & M).
    set (w1 := mkworld (set_call i (mkcall (unit c) (answer c) (at_phase c) s1) (calls w)) (timeline w ++ read_now i (flow c) s1)).
    destruct (IH _ (Nat.lt_le_trans _ _ _ Lt L) w1 (mkcall (unit c) (answer c) (at_phase c) s1) f' t') as (acts & c' & R & R1 & R2 & R3 & R4); cbn [unit answer at_phase flow calls w1]; try assumption; try lia.
    - apply set_same. eauto.
    - exists (Net i a :: acts), c'. cbn [unit answer at_phase flow] in R1, R2, R3, R4. split; [|auto]. cbn [Overlap.run Overlap.step]. rewrite C, Hu, Ha, F.
      replace (match at_phase c with Waiting => None | Running => _ | Over => _ end) with (Some (mkcall (request_bytes xs) s (at_phase c) s1, read_now i (flow c) s1)).
      2:{ destruct (at_phase c); [congruence|reflexivity|]. destruct a as [n|n|n|n]; try reflexivity; [destruct (N1 n eq_refl)|destruct (N2 n eq_refl)]. }
      rewrite <- Ha, <- Hu. fold w1. rewrite R. unfold w1. cbn [calls timeline]. rewrite set_twice by exact Li. do 2 f_equal. rewrite <- app_assoc. f_equal.
      unfold read_now. rewrite (FlowProofs.i_requests _ _ _ _ _ _ I), (FlowProofs.i_requests _ _ _ _ _ _ I'). destruct M as [[-> ->]|(x & n & _ & -> & -> & _)].
      + rewrite skipn_all. reflexivity.
      + rewrite map_app, skipn_app, skipn_all, Nat.sub_diag. reflexivity. }
  destruct (reply (flow c)) as [|y ys] eqn:Rp.
  - destruct t as [|x t].
    + rewrite app_nil_r in Sp, In'. subst f. exists [], c. cbn [Overlap.run map messages]. rewrite app_nil_r. split; [f_equal; destruct w as [cs tl]; cbn [calls timeline] in *; f_equal|].
      * unfold set_call. apply nth_error_split in C as (l1 & l2 & -> & <-). rewrite firstn_app, firstn_all, Nat.sub_diag. cbn [firstn]. rewrite app_nil_r. f_equal. f_equal. rewrite skipn_app, skipn_all2 by lia. replace (S (length l1) - length l1) with 1 by lia. reflexivity.
      * split; [reflexivity|]. split; [reflexivity|]. split; [reflexivity|]. cbn in Ot. symmetry in Ot. apply app_eq_nil in Ot as [O1 O2]. pose proof (FlowProofs.i_requests _ _ _ _ _ _ I) as Rq.
        destruct (flow c) as [f1 f2 f3 f4 f5 f6 f7]. cbn [towrite outward part requests reply inward got] in *. subst. reflexivity.
    + destruct (FlowProofs.head_prefix w32 out_room in_room xs Ok f x t (flow c) I) as (r & E & Hr & O & Hf). rewrite Tw, app_nil_r in O. pose proof (FlowProofs.wanted_prefix _ _ _ Hf E Hr) as W.
      assert (Lo : 1 <= length (outward (flow c))) by (rewrite <- O, app_length; destruct r; [congruence|cbn [length]; lia]).
      assert (Fs : exists s1, Flow.step w32 out_room in_room s (request_bytes xs) (Take 1) (flow c) = Some s1 /\ towrite s1 = [] /\ got s1 = []).
      { cbn [Flow.step]. rewrite Rp. destruct ((0 <? 1) && (1 <=? length (outward (flow c))) && (1 <=? wanted (part (flow c))))%bool eqn:B; [|exfalso; lia]. cbn zeta. destruct (whole _); eexists; (split; [reflexivity|]); split; assumption. }
      destruct Fs as (s1 & F & T1 & G1). exact (Next (Take 1) s1 ltac:(discriminate) ltac:(discriminate) F T1 G1).
  - assert (Room1 : length (inward (flow c)) + 1 <= in_room).
    { rewrite Sp in Room. unfold replies_bytes in Room, In'. rewrite map_app, concat_app, app_length, In', app_length in Room. cbn [length] in Room. lia. }
    assert (Fs : exists s1, Flow.step w32 out_room in_room s (request_bytes xs) (Reply 1) (flow c) = Some s1 /\ towrite s1 = [] /\ got s1 = []).
    { cbn [Flow.step]. rewrite Rp. cbn [length]. destruct ((0 <? 1) && (1 <=? S (length ys)) && (length (inward (flow c)) + 1 <=? in_room))%bool eqn:B; [|exfalso; lia]. eexists; (split; [reflexivity|]); split; assumption. }
    destruct Fs as (s1 & F & T1 & G1). exact (Next (Reply 1) s1 ltac:(discriminate) ltac:(discriminate) F T1 G1).
Qed.

Lemma requests_some xs : xs <> [] -> 1 <= length (request_bytes xs).
Proof. intros H. destruct xs as [|x xs]; [congruence|]. change (request_bytes (x :: xs)) with (frame (asked x) ++ request_bytes xs). rewrite app_length, FlowProofs.frame_length. lia. Qed.

(* Begin and Put *)
Lemma begins w32 out_room in_room i xs s w : nth_error (calls w) i = Some (mkcall (request_bytes xs) s Waiting (start (request_bytes xs))) -> xs <> [] -> length (request_bytes xs) <= out_room ->
  Overlap.run w32 out_room in_room [Begin i; Net i (Put (length (request_bytes xs)))] w =
  Some (mkworld (set_call i (mkcall (request_bytes xs) s Running (mkf [] (request_bytes xs) [] [] [] [] [])) (calls w)) (timeline w ++ [Began i])).
Proof.
  intros C Hx Hl. assert (Li : i < length (calls w)) by (apply nth_error_Some; congruence). pose proof (requests_some xs Hx) as L1.
  cbn [Overlap.run Overlap.step]. rewrite C. cbn [at_phase unit answer flow calls timeline]. rewrite set_same by eauto. cbn [at_phase unit answer flow].
  cbn [Flow.step start towrite outward part requests reply inward got length]. destruct (_ && _ && _)%bool eqn:B; [|exfalso; lia]. rewrite skipn_all, firstn_all. cbn [app]. rewrite set_twice by exact Li. unfold read_now. cbn [requests length skipn map]. rewrite !app_nil_r. reflexivity.
Qed.

(* However long ago a Send has returned with an error, the server may act on its whole unit now: after all of a unit that was sent later, with success. *)
Theorem C109_after_an_error_refuted : forall w32 out_room in_room xs s ys s' x, served w32 (xs, s) -> served w32 (ys, s') -> Forall goes_on ys -> xs <> [] -> ys <> [] ->
  length (request_bytes xs) <= out_room -> length (request_bytes ys) <= out_room -> length (replies_bytes xs) <= in_room -> length (replies_bytes ys) <= in_room ->
  exists acts w, Overlap.run w32 out_room in_room acts (new_world (calls_of [(xs, s); (ys, s')])) = Some w /\
    timeline w = [Began 0; Ended 0 [None] (Some (CRead x)); Began 1] ++ map (Handled 1) (messages ys) ++ [Ended 1 (map seen_as ys) None] ++ map (Handled 0) (messages xs).
Proof.
  intros w32 out_room in_room xs s ys s' x (Ok & _ & Ho) (Ok' & _ & Ho') Hg Hx Hy L1 L2 L3 L4. cbn [fst snd] in *.
  set (X1 := mkcall (request_bytes xs) s Running (mkf [] (request_bytes xs) [] [] [] [] [])). set (X2 := mkcall (request_bytes xs) s Over (mkf [] (request_bytes xs) [] [] [] [] [])).
  set (Y0 := mkcall (request_bytes ys) s' Waiting (start (request_bytes ys))). set (Y1 := mkcall (request_bytes ys) s' Running (mkf [] (request_bytes ys) [] [] [] [] [])).
  assert (Iput : forall zs, zs <> [] -> length (request_bytes zs) <= out_room -> FlowProofs.inv out_room in_room zs [] zs (mkf [] (request_bytes zs) [] [] [] [] [])).
  { intros zs Hz Hl. constructor; cbn [towrite outward part requests reply inward got app map length]; try reflexivity; try congruence; try lia; [rewrite app_nil_r; reflexivity|]. destruct zs; [congruence|]. rewrite FlowProofs.frame_length. lia. }
  (* the first Send *)
  pose proof (begins w32 out_room in_room 0 xs s (new_world (calls_of [(xs, s); (ys, s')])) eq_refl Hx L1) as R1.
  assert (R2 : Overlap.run w32 out_room in_room [Fail 0 x] (mkworld [X1; Y0] [Began 0]) = Some (mkworld [X2; Y0] [Began 0; Ended 0 [None] (Some (CRead x))])).
  { assert (Sx : sends w32 (request_bytes xs) (mkc Tcp (mkr [] [[]] x) [] [] []) = Some ([None], Some (CRead x))).
    { unfold sends. rewrite FlowProofs.request_bytes_frames.
      match goal with |- context [conn_send _ _ _ ?c0] => destruct (ReplyProofs.send_spec w32 None (map asked xs) c0 (ThmConn.requests_fit _ _ Ok)) as (c' & A & _); [split; reflexivity|] end. cbn zeta in A. rewrite A. unfold unread, ConnProofs.flat. cbn [rd ended inbound held app concat].
      destruct xs as [|z zs]; [congruence|]. cbn [map ReplyProofs.areads]. rewrite ConnProofs.aread_eq. reflexivity. }
    cbn [Overlap.run Overlap.step calls nth_error]. change (at_phase X1) with Running. change (gave_up w32 (unit X1) (flow X1) x) with (sends w32 (request_bytes xs) (mkc Tcp (mkr [] [[]] x) [] [] [])). rewrite Sx. reflexivity. }
  (* the second *)
  pose proof (begins w32 out_room in_room 1 ys s' (mkworld [X2; Y0] [Began 0; Ended 0 [None] (Some (CRead x))]) eq_refl Hy L2) as R3.
  destruct (drain w32 out_room in_room 1 ys s' Ok' Ho' L4 _ (mkworld [X2; Y1] [Began 0; Ended 0 [None] (Some (CRead x)); Began 1]) Y1 [] ys eq_refl eq_refl eq_refl ltac:(discriminate) (Iput ys Hy L2) eq_refl eq_refl (le_n _)) as (acts1 & Y2 & R4 & A1 & A2 & A3 & A4).
  assert (Hr : 1 <= length (replies_bytes ys)).
  { destruct ys as [|y ys0]; [congruence|]. destruct (replies_bytes (y :: ys0)) eqn:E; [|cbn [length]; lia]. exfalso. pose proof (FlowProofs.returned_all w32 _ Ok' Hg) as G. rewrite FlowProofs.returned_spec in G by exact Ok'. rewrite E in G. cbn [map ReplyProofs.areads] in G. rewrite ConnProofs.aread_eq in G. cbn in G. discriminate. }
  set (tl := [Began 0; Ended 0 [None] (Some (CRead x)); Began 1] ++ map (Handled 1) (messages ys)). set (Y3 := mkcall (request_bytes ys) s' Over (mkf [] [] [] (messages ys) [] [] (replies_bytes ys))).
  assert (R5 : Overlap.run w32 out_room in_room [Net 1 (Get (length (replies_bytes ys))); Finish 1] (mkworld [X2; Y2] tl) = Some (mkworld [X2; Y3] (tl ++ [Ended 1 (map seen_as ys) None]))).
  { destruct Y2 as [u2 a2 p2 f2]. cbn [unit answer at_phase flow Y1] in A1, A2, A3, A4. subst. cbn [Overlap.run Overlap.step calls nth_error at_phase flow unit answer Flow.step towrite got inward outward part requests reply].
    assert (N : returned w32 (request_bytes ys) [] = None). { rewrite FlowProofs.returned_spec by exact Ok'. destruct ys as [|y ys0]; [congruence|]. cbn [map ReplyProofs.areads]. rewrite ConnProofs.aread_eq. reflexivity. }
    rewrite N. destruct (_ && _)%bool eqn:B; [|exfalso; lia]. rewrite skipn_all, firstn_all. cbn [app set_call firstn skipn calls nth_error at_phase flow unit answer towrite got]. rewrite (FlowProofs.returned_all w32 ys Ok' Hg).
    cbn [calls timeline]. unfold read_now. cbn [requests]. rewrite skipn_all. cbn [map]. rewrite app_nil_r. reflexivity. }
  destruct (drain w32 out_room in_room 0 xs s Ok Ho L3 _ (mkworld [X2; Y3] (tl ++ [Ended 1 (map seen_as ys) None])) X2 [] xs eq_refl eq_refl eq_refl ltac:(discriminate) (Iput xs Hx L1) eq_refl eq_refl (le_n _)) as (acts2 & X3 & R6 & _).
  eexists ([Begin 0; Net 0 (Put (length (request_bytes xs)))] ++ [Fail 0 x] ++ [Begin 1; Net 1 (Put (length (request_bytes ys)))] ++ acts1 ++ [Net 1 (Get (length (replies_bytes ys))); Finish 1] ++ acts2), _.
  split.
  - rewrite run_app, R1. cbn [new_world calls_of map calls timeline set_call firstn skipn app fst snd]. change (mkcall (request_bytes xs) s Running (mkf [] (request_bytes xs) [] [] [] [] [])) with X1. change (mkcall (request_bytes ys) s' Waiting (start (request_bytes ys))) with Y0.
    change (Fail 0 x :: ?l) with ([Fail 0 x] ++ l). rewrite run_app, R2. change (Begin 1 :: Net 1 ?a :: ?l) with ([Begin 1; Net 1 a] ++ l). rewrite run_app, R3. cbn [calls timeline set_call firstn skipn app]. fold Y1.
    rewrite run_app, R4. cbn [calls timeline set_call firstn skipn app]. change (Net 1 ?a :: Finish 1 :: ?l) with ([Net 1 a; Finish 1] ++ l). rewrite run_app.
    change (Began 0 :: Ended 0 [None] (Some (CRead x)) :: Began 1 :: map (Handled 1) (messages ys)) with tl. rewrite R5. exact R6.
  - cbn [timeline]. unfold tl. rewrite <- !app_assoc. reflexivity.
Qed.

Print Assumptions C109_in_order_partial.
Print Assumptions C109_after_an_error_refuted.

(* The hypotheses are met: two units of one and two empty statements; in the first run the second Send is made when the first has returned without an error,
   in the second when it has given up. *)
Example overlap_meets : let us := [(ThmFlow.pings 1, ThmFlow.pong); (ThmFlow.pings 2, ThmFlow.pong)] in
  Forall (served false) us /\ Forall (fun u => Forall goes_on (fst u) /\ fst u <> [] /\ length (request_bytes (fst u)) <= 10 /\ length (replies_bytes (fst u)) <= 10) us /\
  (exists w a b c, Overlap.run false 10 10 [Begin 0; Net 0 (Put 5); Net 0 (Take 4); Net 0 (Take 1); Net 0 (Reply 5); Net 0 (Get 5); Finish 0; Begin 1; Net 1 (Put 6); Net 1 (Take 4); Net 1 (Take 1)]
      (new_world (calls_of us)) = Some w /\ timeline w = a ++ Ended 0 [None] None :: b ++ Began 1 :: c /\ handled 1 c = [[1; 0; 0; 0; 12]%N]) /\
  (exists w, Overlap.run false 10 10 [Begin 0; Net 0 (Put 5); Fail 0 IoEOF; Refuse 1 IoEOF; Net 0 (Take 4); Net 0 (Take 1)] (new_world (calls_of us)) = Some w /\
     timeline w = [Began 0; Ended 0 [None] (Some (CRead IoEOF)); Began 1; Ended 1 [] (Some (CDeadline IoEOF)); Handled 0 [1; 0; 0; 0; 12]%N]).
Proof.
  cbn zeta. split; [|split; [|split]].
  - assert (S : forall n, is_bytes (replies_bytes (ThmFlow.pings n)) -> served false (ThmFlow.pings n, ThmFlow.pong)) by (intros n H; split; [apply (ThmFlow.pings_meet false)|]; split; [exact H|apply (ThmFlow.pings_meet false)]).
    constructor; [apply S; repeat constructor|]. constructor; [apply S; repeat constructor|constructor].
  - assert (S : forall n, Forall goes_on (ThmFlow.pings n)) by (intros n; apply (ThmFlow.pings_meet false)).
    constructor; [split; [apply S|]; split; [discriminate|vm_compute; lia]|]. constructor; [split; [apply S|]; split; [discriminate|vm_compute; lia]|constructor].
  - eexists _, [Began 0; Handled 0 [1; 0; 0; 0; 12]%N], [], _. split; [vm_compute; reflexivity|]. split; reflexivity.
  - eexists. split; [vm_compute; reflexivity|reflexivity].
Qed.
