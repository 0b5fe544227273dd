(* The units of one session, one after the other: C74. *)
From Coq Require Import String List NArith ZArith Arith Bool Lia.
From Coq Require Import List.
From Verif Require Import Base GoSlice SpecWire SpecMsg SpecValue MsgModel Builder SpecProg SpecUnit Conn SpecReply SpecServer SpecSession SpecCommit SpecLedger.
From Verif Require Pool SpecPool System SpecSystem ShapeProofs ConnProofs ReplyProofs ThmConn ThmSystem MsgProofs.
From Verif Require Import ThmServer ThmTx ThmPrepared ThmCommit.
Import ListNotations.
Open Scope list_scope.

(* The bytes bs were delivered by a program of that form, which says u. *)
Definition delivered_as (E : Env) (bs : bytes) (u : unit_parts) : Prop := exists b cs level body ids out,
  empty b /\ Forall prepares cs /\ prog_ok word32 (unit_of_work (u_context u) cs level body) /\ delivers b (unit_of_work (u_context u) cs level body) bs /\ (nlen bs < 2 ^ 32)%N /\
  tx_opening level = Some (u_opening u) /\ Forall2 call_denotes cs (u_prepared u) /\ prog_msgs body (u_inner u) ids out /\ dstream bs = Some (u_messages u).

(* Every delivered unit of work says something. *)
Theorem C74_units_say_something : forall (E : Env) b context cs level body bs, empty b -> Forall prepares cs ->
  prog_ok word32 (unit_of_work context cs level body) -> delivers b (unit_of_work context cs level body) bs -> (nlen bs < 2 ^ 32)%N ->
  exists u, u_context u = context /\ delivered_as E bs u.
Proof.
  intros E b context cs level body bs He Hc Hok Hd Hl. destruct (unit_delivered E b context cs level body bs He Hc Hok Hd Hl) as (l & prepared & inner & ids & out & A1 & A2 & A3 & A4 & A5 & A6).
  exists (mkunit context prepared l inner). split; [reflexivity|]. exists b, cs, level, body, ids, out. cbn. repeat (split; [assumption|]). exact A4.
Qed.

(* What the proofs use of a unit. *)
Record shaped (u : unit_parts) : Prop := mkshaped {
  sh_prepared : Forall (fun m => exists id q, m = MPrepare id q) (u_prepared u);
  sh_opening : exists lv st, u_opening u = lv ++ [st] /\ Forall is_level lv /\ effect_of (statement st) = Begins;
  sh_strict : strict (u_inner u) }.
Lemma delivered_shaped : forall E bs u, delivered_as E bs u -> shaped u.
Proof.
  intros E bs u (b & cs & level & body & ids & out & _ & Hc & _ & _ & _ & Ho & Fc & Hb & _). constructor.
  - clear - Fc Hc. induction Fc as [|c m cs ms Hcm Fc IH]; [constructor|]. inversion_clear Hc as [|? ? A B]. constructor; [|exact (IH B)]. destruct Hcm; try destruct A. eauto.
  - destruct (opening_shape _ _ Ho) as (lv & st & A & B & C & _). eauto.
  - exact (prog_strict _ _ _ _ Hb).
Qed.

Lemma u_messages_strict : forall u, shaped u -> strict (u_messages u).
Proof.
  intros u [H1 _ H3]. unfold u_messages.
  replace (u_prepared u ++ map statement (u_opening u) ++ u_inner u ++ [statement (s2b "COMMIT"); MExpectClose])
    with ((u_prepared u ++ map statement (u_opening u) ++ u_inner u ++ [statement (s2b "COMMIT")]) ++ MExpectClose :: []) by (rewrite <- !app_assoc; reflexivity).
  apply (St_block (u_context u)); [|constructor]. apply strict_app; [|apply strict_app; [apply strict_statements|apply strict_app; [exact H3|constructor; [exact I|constructor]]]].
  clear - H1. induction H1 as [|m ms (id & q & ->) H IH]; constructor; [exact I|exact IH].
Qed.

Lemma serve_first : forall p tr1 st ms rest tr2, serve p st (ms ++ rest) (tr1 ++ tr2) -> map fst tr1 = ms -> serve p st ms tr1.
Proof.
  intros p tr1. induction tr1 as [|[m o] tr1 IH]; intros st ms rest tr2 H E; cbn in E; subst ms; [constructor|]. cbn [app map fst] in H.
  inversion H; subst; [eapply S_skip|eapply S_exec|eapply S_fail|eapply S_open|eapply S_open_fail|eapply S_open_skip|eapply S_close|eapply S_close_failed|eapply S_close_none]; eauto.
Qed.

(* A unit that is served at the top level, before others. *)
Lemma serve_unit : forall p u rest tr, shaped u -> serve p [] (u_messages u ++ rest) tr ->
  exists t tr', tr = t ++ tr' /\ serve p [] (u_messages u) t /\ serve p [] rest tr'.
Proof.
  intros p u rest tr Hu H. destruct (serve_balanced p _ (u_messages_strict u Hu) _ _ _ H) as (t & tr' & st' & -> & E & S & L).
  destruct st'; [|discriminate L]. exists t, tr'. split; [reflexivity|]. split; [eapply serve_first; eassumption|exact S].
Qed.

Lemma u_messages_eq : forall u, u_messages u = unit_messages (u_context u) (u_prepared u) (u_opening u) (u_inner u).
Proof. reflexivity. Qed.

(* One unit. *)
Lemma unit_contributes : forall p u t s, shaped u -> Forall plain (u_inner u) -> p = true \/ Forall ordinary (u_inner u) -> serve p [] (u_messages u) t ->
  (nth_error t (u_commit u) = Some (commit, Executed) /\ play t s = mksess None (durable s ++ pending s ++ changes (u_inner u))) \/
  (exists o, nth_error t (u_commit u) = Some (commit, o) /\ o <> Executed /\ exists c, first_changes u c /\ (play t s = mksess (Some c) (durable s ++ pending s) \/ c = [] /\ play t s = s)).
Proof.
  intros p u t s [H1 (lv & st & E & H2 & H3) H4] Hp Hpr H. rewrite u_messages_eq, E in H.
  pose proof (unit_played p _ _ lv st _ t s H1 H2 H3 Hp H4 Hpr H) as W. cbn zeta in W. rewrite <- E in W. change (1 + _ + _ + _)%nat with (u_commit u) in W.
  destruct W as [(W1 & _ & W2 & _)|(o & W1 & W2 & W3)]; [left; auto|right]. exists o. split; [exact W1|]. split; [exact W2|].
  destruct W3 as [[(q & unmade & Q1 & Q2) _]|W3]; [exists q; split; [exists unmade; exact Q1|left; exact Q2]|]. exists []. split; [exists (changes (u_inner u)); reflexivity|right; auto].
Qed.

Lemma Forall2_len : forall {A B} (R : A -> B -> Prop) a b, Forall2 R a b -> List.length a = List.length b.
Proof. intros A B R a b H. induction H; cbn; congruence. Qed.

(* ---- C74: the account of a session ---- *)

(* What the units of a session leave behind, in their order: each the first of its changes, and all of them if its COMMIT was executed. The changes of
   the first n units are durable, those of the others are not yet; units whose COMMIT was executed are among the first n. *)
Lemma ledger : forall p us tr s, Forall shaped us -> Forall (fun u => Forall plain (u_inner u)) us -> p = true \/ Forall (fun u => Forall ordinary (u_inner u)) us ->
  serve p [] (concat (map u_messages us)) tr ->
  exists trs parts n, tr = concat trs /\ Forall2 (fun u t => serve p [] (u_messages u) t) us trs /\ Forall2 first_changes us parts /\
    (n <= List.length us)%nat /\
    (n = 0%nat /\ durable (play tr s) = durable s /\ pending (play tr s) = pending s ++ concat parts \/
     durable (play tr s) = durable s ++ pending s ++ concat (firstn n parts) /\ pending (play tr s) = concat (skipn n parts)) /\
    forall i u t, nth_error us i = Some u -> nth_error trs i = Some t ->
      nth_error t (u_commit u) = Some (commit, Executed) -> (i < n)%nat /\ nth_error parts i = Some (changes (u_inner u)).
Proof.
  intros p us. induction us as [|u us IH] using rev_ind; intros tr s Hs Hp Hpr H.
  - cbn in H. inversion H; subst. exists [], [], 0%nat. cbn. rewrite !app_nil_r. split; [reflexivity|]. split; [constructor|]. split; [constructor|]. split; [lia|]. split; [left; auto|]. intros [|i]; discriminate.
  - apply Forall_app in Hs as [Hs Hu]. apply Forall_inv in Hu. apply Forall_app in Hp as [Hp Hpu]. apply Forall_inv in Hpu.
    assert (Hpr' : p = true \/ Forall (fun u => Forall ordinary (u_inner u)) us) by (destruct Hpr as [X|X]; [auto|right; apply Forall_app in X; tauto]).
    assert (Hpu' : p = true \/ Forall ordinary (u_inner u)) by (destruct Hpr as [X|X]; [auto|right; apply Forall_app in X as [_ X]; apply Forall_inv in X; exact X]).
    rewrite map_app, concat_app in H. cbn [map concat] in H. rewrite app_nil_r in H.
    assert (Sp : exists t1 t2, tr = t1 ++ t2 /\ serve p [] (concat (map u_messages us)) t1 /\ serve p [] (u_messages u) t2).
    { clear - Hs H. revert tr H. induction Hs as [|v us Hv Hs IH]; intros tr H; [exists [], tr; repeat split; [constructor|exact H]|]. cbn [map concat] in H. rewrite <- app_assoc in H.
      destruct (serve_unit p v _ _ Hv H) as (t & tr' & -> & S1 & S2). destruct (IH _ S2) as (t1 & t2 & -> & S3 & S4). exists (t ++ t1), t2. split; [apply app_assoc|]. split; [|exact S4].
      cbn [map concat]. rewrite !app_assoc in H. eapply serve_first; [exact H|]. rewrite map_app, (serve_msgs _ _ _ _ S1), (serve_msgs _ _ _ _ S3). reflexivity. }
    destruct Sp as (t1 & t2 & -> & S1 & S2). destruct (IH t1 s Hs Hp Hpr' S1) as (trs & parts & n & -> & F1 & F2 & Ln & D & K). clear IH H.
    pose proof (Forall2_len _ _ _ F1) as L1. pose proof (Forall2_len _ _ _ F2) as L2. rewrite play_app.
    assert (Fn : forall x c, firstn (List.length us + 1) (parts ++ [c]) = parts ++ [c] /\ skipn (List.length us + 1) (parts ++ [c] ++ x) = x).
    { intros x c. split; [apply firstn_all2; rewrite app_length; cbn; lia|]. rewrite app_assoc. replace (List.length us + 1)%nat with (List.length (parts ++ [c])) by (rewrite app_length; cbn; lia). rewrite skipn_app, skipn_all, Nat.sub_diag. reflexivity. }
    assert (Kn : forall i v t c, nth_error (us ++ [u]) i = Some v -> nth_error (trs ++ [t2]) i = Some t -> (nth_error us i = Some v /\ nth_error trs i = Some t /\ nth_error (parts ++ [c]) i = nth_error parts i) \/
      (i = List.length us /\ v = u /\ t = t2 /\ nth_error (parts ++ [c]) i = Some c)).
    { intros i v t c A B. destruct (Nat.lt_ge_cases i (List.length us)) as [Li|Li].
      - left. rewrite nth_error_app1 in A by exact Li. rewrite nth_error_app1 in B by lia. rewrite nth_error_app1 by lia. auto.
      - right. assert (i = List.length us). { apply nth_error_lt in A. rewrite app_length in A. cbn in A. lia. } subst i. rewrite nth_error_app2, Nat.sub_diag in A by lia. rewrite L1, nth_error_app2, Nat.sub_diag in B by lia.
        rewrite L2, nth_error_app2, Nat.sub_diag by lia. cbn in *. injection A as <-. injection B as <-. auto. }
    assert (Dp : durable (play (concat trs) s) ++ pending (play (concat trs) s) = durable s ++ pending s ++ concat parts).
    { destruct D as [(-> & -> & ->)|(-> & ->)]; [reflexivity|]. rewrite <- !app_assoc. do 2 f_equal. rewrite <- concat_app, firstn_skipn. reflexivity. }
    destruct (unit_contributes p u t2 (play (concat trs) s) Hu Hpu Hpu' S2) as [(W1 & W2)|(o & W1 & W2 & c & Fc & W3)].
    + exists (trs ++ [t2]), (parts ++ [changes (u_inner u)]), (List.length us + 1)%nat. rewrite concat_app. cbn [concat]. rewrite app_nil_r. split; [reflexivity|].
      split; [apply Forall2_app; [exact F1|repeat constructor; exact S2]|]. split; [apply Forall2_app; [exact F2|repeat constructor; exists []; rewrite app_nil_r; reflexivity]|].
      split; [rewrite app_length; cbn; lia|]. split.
      { right. rewrite W2. destruct (Fn [] (changes (u_inner u))) as [Fn1 Fn2]. cbn [app] in Fn2. rewrite Fn1, Fn2. cbn [durable pending in_progress concat]. split; [|reflexivity]. rewrite app_assoc, Dp, concat_app. cbn [concat]. rewrite app_nil_r, <- !app_assoc. reflexivity. }
      intros i v t A B C. destruct (Kn i v t (changes (u_inner u)) A B) as [(A1 & B1 & E)|(-> & -> & -> & E)]; [|split; [lia|exact E]]. destruct (K i v t A1 B1 C) as [K1 K2]. rewrite E. split; [lia|exact K2].
    + destruct W3 as [W3|[-> W3]].
      * exists (trs ++ [t2]), (parts ++ [c]), (List.length us). rewrite concat_app. cbn [concat]. rewrite app_nil_r. split; [reflexivity|].
        split; [apply Forall2_app; [exact F1|repeat constructor; exact S2]|]. split; [apply Forall2_app; [exact F2|repeat constructor; exact Fc]|].
        split; [rewrite app_length; cbn; lia|]. split.
        { right. rewrite W3. cbn [durable pending in_progress]. rewrite Dp. rewrite L2, firstn_app, skipn_app, firstn_all, skipn_all, Nat.sub_diag. cbn. rewrite !app_nil_r. auto. }
        intros i v t A B C. destruct (Kn i v t c A B) as [(A1 & B1 & E)|(-> & -> & -> & E)]; [|congruence]. destruct (K i v t A1 B1 C) as [K1 K2]. rewrite E. split; [lia|exact K2].
      * exists (trs ++ [t2]), (parts ++ [[]]), n. rewrite concat_app. cbn [concat]. rewrite app_nil_r. split; [reflexivity|].
        split; [apply Forall2_app; [exact F1|repeat constructor; exact S2]|]. split; [apply Forall2_app; [exact F2|repeat constructor; exact Fc]|].
        split; [rewrite app_length; cbn; lia|]. rewrite W3. split.
        { rewrite L2 in Ln. destruct D as [(-> & D1 & D2)|(D1 & D2)]; [left; split; [reflexivity|]; split; [exact D1|]; rewrite D2, concat_app; cbn; rewrite app_nil_r; reflexivity|right].
          rewrite firstn_app, skipn_app. replace (n - List.length parts)%nat with 0%nat by lia. rewrite !concat_app. cbn [firstn skipn concat]. rewrite !app_nil_r. auto. }
        intros i v t A B C. destruct (Kn i v t [] A B) as [(A1 & B1 & E)|(-> & -> & -> & E)]; [|congruence]. destruct (K i v t A1 B1 C) as [K1 K2]. rewrite E. split; [lia|exact K2].
Qed.

Lemma all_shaped : forall E bss us, Forall2 (delivered_as E) bss us -> Forall shaped us.
Proof. intros E bss us Hd. induction Hd as [|bs u bss us Hd Hds IH]; constructor; [exact (delivered_shaped _ _ _ Hd)|exact IH]. Qed.
Lemma session_account : forall p us tr s, Forall shaped us ->
  Forall (fun u => Forall plain (u_inner u)) us -> p = true \/ Forall (fun u => Forall ordinary (u_inner u)) us ->
  serve p [] (concat (map u_messages us)) tr -> in_progress s = None ->
  exists trs parts n, tr = concat trs /\ Forall2 (fun u t => serve p [] (u_messages u) t) us trs /\ Forall2 first_changes us parts /\
    durable (play tr s) = durable s ++ concat (firstn n parts) /\ pending (play tr s) = concat (skipn n parts) /\
    forall i u t, nth_error us i = Some u -> nth_error trs i = Some t ->
      nth_error t (u_commit u) = Some (commit, Executed) -> (i < n)%nat /\ nth_error parts i = Some (changes (u_inner u)).
Proof.
  intros p us tr s Hs Hp Hpr H Hn.
  destruct (ledger p us tr s Hs Hp Hpr H) as (trs & parts & n & A & B & C & _ & D & K). exists trs, parts, n.
  assert (P : pending s = []) by (unfold pending; rewrite Hn; reflexivity). rewrite P in D. cbn [app] in D. repeat (split; [assumption|]).
  destruct D as [(-> & -> & ->)|(-> & ->)]; cbn [firstn skipn concat]; rewrite ?app_nil_r; auto.
Qed.

(* The units of a session that begins without a transaction in progress. *)
Theorem C74_account_of_a_session : forall (E : Env) p bss us tr s, Forall2 (delivered_as E) bss us ->
  Forall (fun u => Forall plain (u_inner u)) us -> p = true \/ Forall (fun u => Forall ordinary (u_inner u)) us ->
  serve p [] (concat (map u_messages us)) tr -> in_progress s = None ->
  exists trs parts n, tr = concat trs /\ Forall2 (fun u t => serve p [] (u_messages u) t) us trs /\ Forall2 first_changes us parts /\
    durable (play tr s) = durable s ++ concat (firstn n parts) /\ pending (play tr s) = concat (skipn n parts) /\
    forall i u t, nth_error us i = Some u -> nth_error trs i = Some t ->
      nth_error t (u_commit u) = Some (commit, Executed) -> (i < n)%nat /\ nth_error parts i = Some (changes (u_inner u)).
Proof. intros E p bss us tr s Hd. apply session_account. exact (all_shaped _ _ _ Hd). Qed.

Lemma committed_account : forall p us trs s, Forall shaped us ->
  Forall (fun u => Forall plain (u_inner u)) us -> p = true \/ Forall (fun u => Forall ordinary (u_inner u)) us ->
  serve p [] (concat (map u_messages us)) (concat trs) -> in_progress s = None ->
  Forall2 (fun u t => map fst t = u_messages u /\ nth_error t (u_commit u) = Some (commit, Executed)) us trs ->
  durable (play (concat trs) s) = durable s ++ concat (map (fun u => changes (u_inner u)) us) /\ pending (play (concat trs) s) = [].
Proof.
  intros p us trs s Hs Hp Hpr H Hn Hc.
  assert (P : pending s = []) by (unfold pending; rewrite Hn; reflexivity). clear Hn.
  revert s P H. induction Hc as [|u t us trs [Hm Hc] Hcs IH]; intros s P H; [cbn; rewrite app_nil_r; auto|].
  inversion_clear Hs as [|? ? Hu Hs']. inversion_clear Hp as [|? ? Hpu Hp']. assert (Hpr1 : p = true \/ Forall ordinary (u_inner u)) by (destruct Hpr as [X|X]; [auto|right; inversion X; assumption]).
  assert (Hpr2 : p = true \/ Forall (fun u => Forall ordinary (u_inner u)) us) by (destruct Hpr as [X|X]; [auto|right; inversion X; assumption]).
  cbn [map concat] in H. destruct (serve_unit p u _ _ Hu H) as (t' & tr' & Et & S1 & S2).
  assert (t' = t /\ tr' = concat trs) as [-> ->].
  { assert (L : List.length t' = List.length t) by (rewrite (serve_length _ _ _ _ S1), <- Hm, map_length; reflexivity). clear - Et L. cbn [concat] in Et. revert t L Et. induction t' as [|a t' IH]; intros [|b t] L Et; try discriminate L; [auto|].
    cbn in Et. injection Et as -> Et. cbn in L. destruct (IH t ltac:(lia) Et) as [-> ->]. auto. }
  cbn [concat map]. rewrite play_app. destruct (unit_contributes p u t s Hu Hpu Hpr1 S1) as [(_ & W)|(o & W & X & _)]; [|congruence]. rewrite W, P. cbn [app].
  destruct (IH Hs' Hp' Hpr2 (mksess None (durable s ++ changes (u_inner u))) eq_refl S2) as [I1 I2]. rewrite I1, I2. cbn [durable]. rewrite <- app_assoc. auto.
Qed.

(* In particular, if every COMMIT was executed, all changes of all units are durable, in order, and nothing else. *)
Theorem C74_all_committed : forall (E : Env) p bss us trs s, Forall2 (delivered_as E) bss us ->
  Forall (fun u => Forall plain (u_inner u)) us -> p = true \/ Forall (fun u => Forall ordinary (u_inner u)) us ->
  serve p [] (concat (map u_messages us)) (concat trs) -> in_progress s = None ->
  Forall2 (fun u t => map fst t = u_messages u /\ nth_error t (u_commit u) = Some (commit, Executed)) us trs ->
  durable (play (concat trs) s) = durable s ++ concat (map (fun u => changes (u_inner u)) us) /\ pending (play (concat trs) s) = [].
Proof. intros E p bss us trs s Hd. apply committed_account. exact (all_shaped _ _ _ Hd). Qed.

Lemma pooled_account : forall (E : Env) size acts sys said k c c0 (unit_of : nat -> unit_parts) p (done : nat -> list (msg * outcome)) s,
  System.run word32 acts (System.new_system size) = Some sys -> SpecSystem.sends said sys -> Forall (SpecSystem.serves word32 said) acts ->
  nth_error (System.conns sys) k = Some c -> nth_error (System.started sys) k = Some c0 ->
  (forall i bs, SpecSystem.unit_is sys i bs -> shaped (unit_of i) /\ Forall plain (u_inner (unit_of i)) /\ (p = true \/ Forall ordinary (u_inner (unit_of i)))) ->
  let is := SpecSystem.users k (SpecPool.history (System.pool sys)) in
  serve p [] (concat (map (fun i => u_messages (unit_of i)) is)) (concat (map done is)) ->
  Forall (fun i => map fst (done i) = u_messages (unit_of i) /\ Forall2 truth (done i) (map seen_as (said i))) is -> in_progress s = None ->
  exists us last parts n, SpecSystem.attempts c = SpecSystem.attempts c0 ++ map (fun u => (u, None)) us ++ last /\ (List.length last <= 1)%nat /\
    Forall2 (SpecSystem.unit_is sys) is us /\
    Forall2 (fun i => first_changes (unit_of i)) is parts /\
    durable (play (concat (map done is)) s) = durable s ++ concat (firstn n parts) /\ pending (play (concat (map done is)) s) = concat (skipn n parts) /\
    forall j i rs, nth_error is j = Some i -> SpecSystem.got sys i rs None -> nth_error rs (u_commit (unit_of i)) = Some None ->
      (j < n)%nat /\ nth_error parts j = Some (changes (u_inner (unit_of i))).
Proof.
  intros E size acts sys said k c c0 unit_of p done s R S1 S2 Hk Hk0 Hu is Hs Hd Hn.
  destruct (ThmSystem.C62_units_whole_and_in_order word32 size acts sys said k c c0 R S1 S2 Hk Hk0) as (us & l & A & B & C). fold is in B. clearbody is.
  assert (D : Forall shaped (map unit_of is)) by (clear - B Hu; induction B as [|i u is us Hi B IH]; cbn; constructor; [apply (Hu i u Hi)|exact IH]).
  assert (Pl : Forall (fun u => Forall plain (u_inner u)) (map unit_of is)) by (clear - B Hu; induction B as [|i u is us Hi B IH]; cbn; constructor; [apply (Hu i u Hi)|exact IH]).
  assert (Od : p = true \/ Forall (fun u => Forall ordinary (u_inner u)) (map unit_of is)).
  { destruct p; [auto|right]. clear - B Hu. induction B as [|i u is us Hi B IH]; cbn; constructor; [|exact IH]. destruct (Hu i u Hi) as (_ & _ & [X|X]); [discriminate|exact X]. }
  rewrite <- (map_map unit_of u_messages) in Hs. destruct (session_account p (map unit_of is) _ s D Pl Od Hs Hn) as (trs & parts & n & T & F1 & F2 & K1 & K2 & K3).
  assert (trs = map done is).
  { clear - T F1 Hd. revert trs T F1. induction is as [|i is IH]; intros trs T F1; inversion F1 as [|? t ? trs' X Y]; subst; [reflexivity|]. inversion_clear Hd as [|? ? [Hm _] Hd']. cbn [map concat] in T.
    assert (t = done i /\ concat (map done is) = concat trs') as [-> T'].
    { assert (L : List.length t = List.length (done i)) by (rewrite (serve_length _ _ _ _ X), <- Hm, map_length; reflexivity). clear - T L. revert t L T. generalize (done i). intros d. induction d as [|a d IH]; intros [|b t] L T; try discriminate L; [auto|].
      cbn in T. injection T as -> T. cbn in L. destruct (IH t ltac:(lia) T) as [-> ->]. auto. }
    cbn [map]. f_equal. apply IH; assumption. }
  subst trs. exists us, l, parts, n. split; [exact A|]. split; [destruct C as [->|(i & b & o & -> & _)]; cbn; lia|]. split; [exact B|].
  split; [clear - F2; remember (map unit_of is) as v; revert is Heqv; induction F2 as [|u q v parts Hq F2 IH]; intros [|i is] Hv; try discriminate Hv; constructor; injection Hv as -> Hv; auto|].
  split; [exact K1|]. split; [exact K2|]. intros j i rs Hj Hg Hr.
  destruct (ThmSystem.C61_own_responses word32 size acts sys said i rs None R S1 S2 Hg) as [Hrs _]. specialize (Hrs eq_refl). subst rs.
  apply (K3 j (unit_of i) (done i)); [rewrite nth_error_map, Hj; reflexivity|rewrite nth_error_map, Hj; reflexivity|].
  rewrite Forall_forall in Hd. destruct (Hd i (nth_error_In _ _ Hj)) as [Hm Ht].
  assert (X : exists t, nth_error (done i) (u_commit (unit_of i)) = Some t /\ truth t None).
  { clear - Ht Hr. revert Hr. generalize (u_commit (unit_of i)). induction Ht as [|t r tr rs H Ht IH]; intros [|m] X; cbn in *; try discriminate; [injection X as ->; eauto|eauto]. }
  destruct X as ([m o] & Ht1 & Ht2). rewrite Ht1. pose proof (proj1 Ht2 eq_refl) as Ho. cbn in Ho. subst o. do 2 f_equal.
  assert (Hm1 : nth_error (u_messages (unit_of i)) (u_commit (unit_of i)) = Some m) by (rewrite <- Hm, nth_error_map, Ht1; reflexivity).
  assert (Hm2 : nth_error (u_messages (unit_of i)) (u_commit (unit_of i)) = Some commit).
  { unfold u_messages, u_commit. cbn [Nat.add nth_error]. rewrite !app_assoc. change [statement (s2b "COMMIT"); MExpectClose] with ([commit; MExpectClose]). rewrite nth_error_app2; rewrite !app_length, map_length; [|lia]. replace (_ - _)%nat with 0%nat by lia. reflexivity. }
  congruence.
Qed.

(* With a pool: connection k of any pool, after any interleaving of any number of Sends, each of a unit of that form, whose server told the truth. What the server
   of k did with unit i is done i. A Send that returned a nil error and a nil response to its COMMIT has all changes of its unit among the durable ones, in the order in which
   the units used the connection; of the other units it has the first ones, and these stay out of the data only if no later unit begins a transaction there. *)
Theorem C74_account_of_a_pooled_connection : forall (E : Env) size acts sys said k c c0 (unit_of : nat -> unit_parts) p (done : nat -> list (msg * outcome)) s,
  System.run word32 acts (System.new_system size) = Some sys -> SpecSystem.sends said sys -> Forall (SpecSystem.serves word32 said) acts ->
  nth_error (System.conns sys) k = Some c -> nth_error (System.started sys) k = Some c0 ->
  (forall i bs, SpecSystem.unit_is sys i bs -> delivered_as E bs (unit_of i) /\ Forall plain (u_inner (unit_of i)) /\ (p = true \/ Forall ordinary (u_inner (unit_of i)))) ->
  let is := SpecSystem.users k (SpecPool.history (System.pool sys)) in
  serve p [] (concat (map (fun i => u_messages (unit_of i)) is)) (concat (map done is)) ->
  Forall (fun i => map fst (done i) = u_messages (unit_of i) /\ Forall2 truth (done i) (map seen_as (said i))) is -> in_progress s = None ->
  exists us last parts n, SpecSystem.attempts c = SpecSystem.attempts c0 ++ map (fun u => (u, None)) us ++ last /\ (List.length last <= 1)%nat /\
    Forall2 (SpecSystem.unit_is sys) is us /\ dstream (concat us) = Some (concat (map (fun i => u_messages (unit_of i)) is)) /\
    Forall2 (fun i => first_changes (unit_of i)) is parts /\
    durable (play (concat (map done is)) s) = durable s ++ concat (firstn n parts) /\ pending (play (concat (map done is)) s) = concat (skipn n parts) /\
    forall j i rs, nth_error is j = Some i -> SpecSystem.got sys i rs None -> nth_error rs (u_commit (unit_of i)) = Some None ->
      (j < n)%nat /\ nth_error parts j = Some (changes (u_inner (unit_of i))).
Proof.
  intros E size acts sys said k c c0 unit_of p done s R S1 S2 Hk Hk0 Hu is Hs Hd Hn.
  assert (Hu' : forall i bs, SpecSystem.unit_is sys i bs -> shaped (unit_of i) /\ Forall plain (u_inner (unit_of i)) /\ (p = true \/ Forall ordinary (u_inner (unit_of i)))).
  { intros i bs Hi. destruct (Hu i bs Hi) as [X Y]. split; [exact (delivered_shaped _ _ _ X)|exact Y]. }
  destruct (pooled_account E size acts sys said k c c0 unit_of p done s R S1 S2 Hk Hk0 Hu' Hs Hd Hn) as (us & l & parts & n & A1 & A2 & B & A3).
  exists us, l, parts, n. split; [exact A1|]. split; [exact A2|]. split; [exact B|]. split; [|exact A3].
  assert (D : Forall2 (delivered_as E) us (map unit_of is)) by (clear - B Hu; fold is in B; clearbody is; induction B as [|i u is us Hi B IH]; cbn; constructor; [apply (Hu i u Hi)|exact IH]).
  { rewrite <- (map_map unit_of u_messages). apply MsgProofs.says_dstream. clear - D. induction D as [|bs u bss us Hd D IH]; [apply MsgProofs.says_nil|]. cbn [map concat]. apply MsgProofs.says_app; [|exact IH].
    destruct Hd as (b & cs & level & body & ids & out & He & _ & Hok & Hdel & Hl & _ & _ & _ & Hds). destruct (ShapeProofs.delivers_step E b _ bs He Hok Hdel Hl) as (b' & out' & ms & ids' & _ & _ & _ & _ & Hsay & _).
    rewrite (MsgProofs.says_dstream _ _ Hsay) in Hds. injection Hds as <-. exact Hsay. }
Qed.

(* ---- the hypotheses are met ---- *)

(* The two Sends of C63_failed_unit_becomes_durable_refuted, on a pool of one: the second row of the first unit is refused, the second unit commits. *)
Definition unit_a : unit_parts := mkunit 0 [] [s2b "START TRANSACTION"] [insert_of "(1)"; insert_of "(2)"].
Definition unit_b : unit_parts := mkunit 0 [] [s2b "START TRANSACTION"] [insert_of "(3)"].
Lemma unit_a_delivered : delivered_as ThmBuilder.plain (sent_by two_rows) unit_a.
Proof.
  exists (new_pipe 0), [], 0%N, (PCall 0 (insert_n "(1)") (PCall 0 (insert_n "(2)") (Ret None []))), [], []. split; [repeat split|]. split; [constructor|]. split; [cbn; repeat split; try constructor; intros; repeat constructor|].
  split; [exact (proj1 (sent_by_frames two_rows (or_introl eq_refl)))|]. split; [vm_compute; reflexivity|]. split; [reflexivity|]. split; [constructor|]. split; [|vm_compute; reflexivity].
  apply M_call with (m := insert_of "(1)"); [constructor; constructor|]. apply M_call with (m := insert_of "(2)"); [constructor; constructor|]. constructor.
Qed.
Lemma unit_b_delivered : delivered_as ThmBuilder.plain (sent_by one_row) unit_b.
Proof.
  exists (new_pipe 0), [], 0%N, (PCall 0 (insert_n "(3)") (Ret None [])), [], []. split; [repeat split|]. split; [constructor|]. split; [cbn; repeat split; try constructor; intros; repeat constructor|].
  split; [exact (proj1 (sent_by_frames one_row (or_intror (or_introl eq_refl))))|]. split; [vm_compute; reflexivity|]. split; [reflexivity|]. split; [constructor|]. split; [|vm_compute; reflexivity].
  apply M_call with (m := insert_of "(3)"); [constructor; constructor|]. constructor.
Qed.
Definition xa : list exchange := exchanges_of (sent_by two_rows) trace_a.
Definition xb : list exchange := exchanges_of (sent_by one_row) trace_b.
Definition both_said (i : nat) : list exchange := match i with 0%nat => xa | _ => xb end.
Definition both_unit (i : nat) : unit_parts := match i with 0%nat => unit_a | _ => unit_b end.
Definition both_done (i : nat) : list (msg * outcome) := match i with 0%nat => trace_a | _ => trace_b end.
Example account_meets : exists sys c, let acts := two_sends (sent_by two_rows) (sent_by one_row) [replies_bytes xa] [replies_bytes xb] in
  System.run false acts (System.new_system 1) = Some sys /\ SpecSystem.sends both_said sys /\ Forall (SpecSystem.serves false both_said) acts /\
  nth_error (System.conns sys) 0 = Some c /\ nth_error (System.started sys) 0 = Some quiet_conn /\
  (forall i bs, SpecSystem.unit_is sys i bs -> delivered_as ThmBuilder.plain bs (both_unit i) /\ Forall plain (u_inner (both_unit i)) /\ (true = true \/ Forall ordinary (u_inner (both_unit i)))) /\
  SpecSystem.users 0 (SpecPool.history (System.pool sys)) = [0; 1]%nat /\
  serve true [] (concat (map (fun i => u_messages (both_unit i)) [0; 1]%nat)) (concat (map both_done [0; 1]%nat)) /\
  Forall (fun i => map fst (both_done i) = u_messages (both_unit i) /\ Forall2 truth (both_done i) (map seen_as (both_said i))) [0; 1]%nat /\
  play (concat (map both_done [0; 1]%nat)) (mksess None []) = mksess None [insert_of "(1)"; insert_of "(3)"].
Proof.
  do 2 eexists. cbn zeta. split; [vm_compute; reflexivity|]. split.
  { intros i d u. cbn [System.units]. destruct i as [|[|i]]; cbn [nth_error]; [intros [= _ <-]; vm_compute; reflexivity|intros [= _ <-]; vm_compute; reflexivity|destruct i; discriminate]. }
  split.
  { destruct (sent_by_frames two_rows) as (_ & fa & Fa1 & Fa2); [cbn; auto|]. destruct (sent_by_frames one_row) as (_ & fb & Fb1 & Fb2); [cbn; auto|].
    unfold two_sends. repeat (apply Forall_cons; [cbn [SpecSystem.serves]; try exact I; try reflexivity|]); [| |apply Forall_nil].
    - split; [eapply exchanges_of_ok; eassumption|]. exists []. cbn [concat]. rewrite !app_nil_r. reflexivity.
    - split; [eapply exchanges_of_ok; eassumption|]. exists []. cbn [concat]. rewrite !app_nil_r. reflexivity. }
  split; [reflexivity|]. split; [reflexivity|]. split.
  { intros i bs (d & Hi). cbn [System.units] in Hi. destruct i as [|[|i]]; cbn [nth_error] in Hi; [| |destruct i; discriminate].
    - assert (bs = sent_by two_rows) as -> by (injection Hi as _ <-; vm_compute; reflexivity). split; [exact unit_a_delivered|]. split; [repeat constructor; left; vm_compute; reflexivity|auto].
    - assert (bs = sent_by one_row) as -> by (injection Hi as _ <-; vm_compute; reflexivity). split; [exact unit_b_delivered|]. split; [repeat constructor; left; vm_compute; reflexivity|auto]. }
  split; [vm_compute; reflexivity|]. split.
  { cbn [map concat both_unit both_done]. rewrite !app_nil_r. unfold trace_a, trace_b. cbn [app]. apply S_open; [reflexivity|]. apply S_exec; [exact I|reflexivity|]. apply S_exec; [exact I|reflexivity|]. apply S_fail; [exact I|reflexivity|]. apply S_skip; [exact I|reflexivity|]. apply S_close_failed; [reflexivity|].
    apply S_open; [reflexivity|]. repeat (apply S_exec; [exact I|reflexivity|]). apply S_close; [reflexivity|]. constructor. }
  split; [|vm_compute; reflexivity].
  repeat (apply Forall_cons || apply Forall_nil); (split; [reflexivity|]); [replace (map seen_as (both_said 0)) with (map (fun t => response_for (snd t)) trace_a) by (vm_compute; reflexivity)|replace (map seen_as (both_said 1)) with (map (fun t => response_for (snd t)) trace_b) by (vm_compute; reflexivity)];
    repeat (apply Forall2_cons || apply Forall2_nil); split; cbn; congruence.
Qed.

Print Assumptions C74_units_say_something.
Print Assumptions C74_account_of_a_session.
Print Assumptions C74_all_committed.
Print Assumptions C74_account_of_a_pooled_connection.
