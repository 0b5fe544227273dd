(* C113: a transaction runs at the isolation level it was asked for. *)
From Coq Require Import String List NArith ZArith Arith Bool Lia.
From Coq Require Import List.
From Verif Require Import Base GoSlice SpecWire SpecMsg SpecValue MsgModel Builder SpecProg SpecUnit Conn SpecReply SpecServer SpecSession SpecLevel.
From Verif Require Pool SpecPool System SpecSystem ShapeProofs ThmConn.
From Verif Require Import ThmServer ThmTx.
Import ListNotations.
Open Scope list_scope.

Lemma watch_app a b s : watch (a ++ b) s = watch b (watch a s).
Proof. apply fold_left_app. Qed.
Lemma watch_cons t tr s : watch (t :: tr) s = watch tr (watch1 s t).
Proof. reflexivity. Qed.
Lemma watch_idle tr : forall s, Forall (fun t => snd t <> Executed) tr -> watch tr s = s.
Proof. induction tr as [|t tr IH]; intros s H; [reflexivity|]. inversion_clear H as [|? ? A B]. rewrite watch_cons. unfold watch1. destruct (snd t); [congruence|apply IH; exact B..]. Qed.
Lemma watch_nothing tr : forall s, Forall (fun t => effect_of (fst t) = Nothing) tr -> watch tr s = s.
Proof. induction tr as [|t tr IH]; intros s H; [reflexivity|]. inversion_clear H as [|? ? A B]. rewrite watch_cons. unfold watch1. rewrite A. destruct (snd t); apply IH; exact B. Qed.

(* Plain messages in a transaction. *)
Lemma watch_plain tr : forall u n l b d, Forall (fun t => plain (fst t)) tr -> exists q, watch tr (mklevels u n (Some (l, b)) d) = mklevels u n (Some (l, b)) (d ++ q) /\
  Forall (fun r => snd r = InTransaction l b) q /\ (Forall executed tr -> map fst q = changes (map fst tr)).
Proof.
  induction tr as [|[m o] tr IH]; intros u n l b d H; [exists []; rewrite app_nil_r; repeat split; constructor|]. inversion_clear H as [|? ? A B]. rewrite watch_cons. unfold watch1. cbn [fst snd map].
  destruct o.
  - cbn [fst] in A. destruct A as [A|A]; rewrite A; cbn [current].
    + cbn [usual_level for_next made]. destruct (IH u n l b (d ++ [(m, InTransaction l b)]) B) as (q & Q1 & Q2 & Q3). exists ((m, InTransaction l b) :: q). rewrite Q1, <- app_assoc. split; [reflexivity|]. split; [constructor; [reflexivity|exact Q2]|].
      intros E. inversion_clear E as [|? ? _ E2]. unfold changes. cbn [filter]. rewrite A. cbn [map fst]. f_equal. exact (Q3 E2).
    + destruct (IH u n l b d B) as (q & Q1 & Q2 & Q3). exists q. split; [exact Q1|]. split; [exact Q2|]. intros E. inversion_clear E as [|? ? _ E2]. unfold changes. cbn [filter]. rewrite A. exact (Q3 E2).
  - destruct (IH u n l b d B) as (q & Q1 & Q2 & Q3). exists q. split; [exact Q1|]. split; [exact Q2|]. intros E. inversion_clear E as [|? ? Y _]. discriminate Y.
  - destruct (IH u n l b d B) as (q & Q1 & Q2 & Q3). exists q. split; [exact Q1|]. split; [exact Q2|]. intros E. inversion_clear E as [|? ? Y _]. discriminate Y.
Qed.

(* What a transaction of the level begins with, and what it means. *)
Definition begins_at (level : N) (s : levels) : isolation := match named level with Some l => l | None => next_level s end.
Definition takes_snapshot (level : N) (s : levels) : bool := (level =? 5)%N && repeatable (next_level s).
Definition setting (level : N) (s : levels) : levels := mklevels (usual_level s) (match named level with Some l => Some l | None => for_next s end) (current s) (made s).
Lemma opening_levels level l : tx_opening level = Some l -> exists lv st, l = lv ++ [st] /\ Forall is_level lv /\ effect_of (statement st) = Begins /\ (lv = [] <-> named level = None) /\
  (forall s, watch (map (fun x => (statement x, Executed)) lv) s = setting level s) /\
  forall s, watch1 (setting level s) (statement st, Executed) = mklevels (usual_level s) None (Some (begins_at level s, takes_snapshot level s)) (made s).
Proof.
  intros H. assert (D : (level = 0 \/ level = 1 \/ level = 2 \/ level = 3 \/ level = 4 \/ level = 5)%N).
  { destruct (N.le_gt_cases level 5); [lia|]. exfalso. destruct level as [|[[[|[]|]|[|[]|]|]|[[|[]|]|[|[]|]|]|]]; try discriminate; lia. }
  destruct D as [->|[->|[->|[->|[->| ->]]]]]; cbn [tx_opening] in H; injection H as <-;
    [exists [], (s2b "START TRANSACTION")|exists [s2b "SET TRANSACTION ISOLATION LEVEL READ UNCOMMITTED"], (s2b "START TRANSACTION")
    |exists [s2b "SET TRANSACTION ISOLATION LEVEL READ COMMITTED"], (s2b "START TRANSACTION")|exists [s2b "SET TRANSACTION ISOLATION LEVEL REPEATABLE READ"], (s2b "START TRANSACTION")
    |exists [s2b "SET TRANSACTION ISOLATION LEVEL SERIALIZABLE"], (s2b "START TRANSACTION")|exists [], (s2b "START TRANSACTION WITH CONSISTENT SNAPSHOT")];
    (split; [reflexivity|]); (split; [repeat constructor|]); (split; [vm_compute; reflexivity|]); (split; [split; (reflexivity || discriminate)|]); (split; intros [u n c d]; vm_compute; reflexivity).
Qed.

Lemma watch_levels lv : Forall is_level lv -> forall tr s, map fst tr = map statement lv ->
  made (watch tr s) = made s /\ current (watch tr s) = current s /\ usual_level (watch tr s) = usual_level s /\ (Forall executed tr -> watch tr s = watch (map (fun x => (statement x, Executed)) lv) s).
Proof.
  induction 1 as [|x lv Hx _ IH]; intros tr s M; destruct tr as [|[m o] tr]; try discriminate M; [auto|]. cbn [map fst] in M. injection M as -> M. cbn [map]. rewrite !watch_cons.
  destruct (IH tr (watch1 s (statement x, o)) M) as (A1 & A2 & A3 & A4). assert (K : made (watch1 s (statement x, o)) = made s /\ current (watch1 s (statement x, o)) = current s /\ usual_level (watch1 s (statement x, o)) = usual_level s).
  { unfold watch1. cbn [fst snd]. unfold is_level in Hx. rewrite Hx. destruct o; auto. }
  destruct K as (K1 & K2 & K3). rewrite A1, A2, A3, K1, K2, K3. repeat (split; [reflexivity|]). intros E. inversion_clear E as [|? ? E1 E2]. unfold executed in E1. cbn [snd] in E1. subst o. exact (A4 E2).
Qed.

(* The two ways a unit of work can go. *)
Lemma unit_watched p context prepared level opening inner tr s : tx_opening level = Some opening ->
  Forall (fun m => exists id q, m = MPrepare id q) prepared -> Forall plain inner -> strict inner ->
  serve p [] (unit_messages context prepared opening inner) tr ->
  let position := (1 + List.length prepared + List.length opening + List.length inner)%nat in
  (exists new, made (watch tr s) = made s ++ new /\ Forall (fun r => snd r = InTransaction (begins_at level s) (takes_snapshot level s)) new /\ for_next (watch tr s) = None /\ usual_level (watch tr s) = usual_level s /\
     ((p = true \/ Forall ordinary inner) \/ Forall executed tr -> nth_error tr position = Some (commit, Executed) -> map fst new = changes inner /\ current (watch tr s) = None)) \/
  (nth_error tr position <> Some (commit, Executed) /\ made (watch tr s) = made s /\ current (watch tr s) = current s /\ usual_level (watch tr s) = usual_level s /\ (named level = None -> for_next (watch tr s) = for_next s)).
Proof.
  intros Ho Hp Hi Hst H. cbn zeta. destruct (opening_levels level opening Ho) as (lv & st & -> & Hl & Hs & Hn & Hset & Hst1). unfold unit_messages in H. rewrite map_app in H. cbn [map] in H. rewrite <- (app_assoc _ [statement st]) in H. cbn [app] in H.
  assert (Op : opened context [no_error_1] [] = true) by (unfold opened; rewrite orb_comm; reflexivity).
  assert (G : exists o f tr', tr = (MExpectOpen context [no_error_1], o) :: tr' /\ serve p (mkblock true f :: []) (prepared ++ map statement lv ++ statement st :: inner ++ [commit; MExpectClose]) tr' /\ (o = Executed /\ f = false \/ o <> Executed /\ f = true)).
  { serving H; try destruct Od; try discriminate R; rewrite Op in H'; do 3 eexists; (split; [reflexivity|]); (split; [exact H'|]); [left|right]; split; try reflexivity; discriminate. }
  destruct G as (o0 & f0 & t0 & -> & S0 & C0).
  assert (Fp : Forall ordinary prepared) by (eapply Forall_impl; [|exact Hp]; intros m (id & q & ->); exact Logic.I).
  destruct (serve_ordinary p prepared Fp _ _ _ _ S0) as (t1 & t2 & f1 & -> & M1 & S1 & C1).
  assert (Fl : Forall ordinary (map statement lv)) by (clear; induction lv; constructor; [exact Logic.I|assumption]).
  destruct (serve_ordinary p (map statement lv) Fl _ _ _ _ S1) as (t3 & t4 & f2 & -> & M2 & S2 & C2).
  destruct (serve_one p f2 [] (statement st) _ _ Logic.I S2) as (o3 & f3 & t5 & -> & S3 & C3).
  assert (N1 : Forall (fun t => effect_of (fst t) = Nothing) t1).
  { apply (executed_fst t1 (fun m => effect_of m = Nothing)). rewrite M1. eapply Forall_impl; [|exact Hp]. intros m (id & q & ->). reflexivity. }
  assert (P0 : forall t, watch ((MExpectOpen context [no_error_1], o0) :: t1 ++ t3 ++ t) s = watch t (watch t3 s)).
  { intros t. rewrite watch_cons, !watch_app. replace (watch1 s (MExpectOpen context [no_error_1], o0)) with s by (destruct o0; reflexivity). rewrite (watch_nothing t1 s N1). reflexivity. }
  destruct (watch_levels lv Hl t3 s M2) as (W1 & W2 & W3 & W4).
  assert (L1 : List.length t1 = List.length prepared) by (rewrite <- M1; symmetry; apply map_length).
  assert (L2 : List.length t3 = List.length lv) by (rewrite <- (map_length statement lv), <- M2; symmetry; apply map_length).
  assert (Pos : forall ts x r, List.length ts = List.length inner -> nth_error ((MExpectOpen context [no_error_1], o0) :: t1 ++ t3 ++ (statement st, o3) :: ts ++ x :: r) (1 + List.length prepared + List.length (lv ++ [st]) + List.length inner) = Some x).
  { intros ts x r L. replace ((MExpectOpen context [no_error_1], o0) :: t1 ++ t3 ++ (statement st, o3) :: ts ++ x :: r) with (([(MExpectOpen context [no_error_1], o0)] ++ t1 ++ t3 ++ [(statement st, o3)] ++ ts) ++ x :: r)
      by (cbn [app]; rewrite <- !app_assoc; reflexivity).
    rewrite nth_error_app2; rewrite !app_length; cbn [List.length]; [|lia]. replace (_ - _)%nat with 0%nat by lia. reflexivity. }
  assert (Cm : effect_of commit = Commits) by (vm_compute; reflexivity).
  assert (M5 : map fst t5 = inner ++ [commit; MExpectClose]) by (eapply serve_msgs; exact S3).
  destruct (map_eq_app _ _ _ _ M5) as (t6 & t7 & -> & M6 & M7). destruct t7 as [|[m7 o7] [|[m8 o8] [|? ?]]]; try discriminate M7. cbn [map fst] in M7. injection M7 as -> ->.
  assert (L6 : List.length t6 = List.length inner) by (rewrite <- M6; symmetry; apply map_length).
  destruct C3 as [(-> & -> & ->)|(N3 & ->)].
  - (* begun *)
    left. destruct (C2 eq_refl) as [-> E2]. rewrite P0, (W4 E2), Hset, watch_cons, Hst1, watch_app.
    assert (Pi : Forall (fun t => plain (fst t)) t6) by (apply executed_fst; rewrite M6; exact Hi).
    destruct (watch_plain t6 (usual_level s) None (begins_at level s) (takes_snapshot level s) (made s) Pi) as (q & Q1 & Q2 & Q3). rewrite Q1. exists q.
    assert (Fin : watch [(commit, o7); (MExpectClose, o8)] (mklevels (usual_level s) None (Some (begins_at level s, takes_snapshot level s)) (made s ++ q)) =
      mklevels (usual_level s) None (match o7 with Executed => None | _ => Some (begins_at level s, takes_snapshot level s) end) (made s ++ q)).
    { rewrite !watch_cons. replace (watch1 _ (commit, o7)) with (mklevels (usual_level s) None (match o7 with Executed => None | _ => Some (begins_at level s, takes_snapshot level s) end) (made s ++ q))
        by (unfold watch1; cbn [fst snd]; rewrite Cm; destruct o7; reflexivity). unfold watch1. cbn [fst snd effect_of]. destruct o8; reflexivity. }
    rewrite Fin. cbn [made for_next usual_level current]. split; [reflexivity|]. split; [exact Q2|]. split; [reflexivity|]. split; [reflexivity|]. intros Hpr C. rewrite (Pos t6 (commit, o7) [(MExpectClose, o8)] L6) in C. injection C as ->. split; [|reflexivity].
    rewrite Q3; [rewrite M6; reflexivity|].
    destruct Hpr as [Hpr|Hpr]; [|inversion_clear Hpr as [|? ? _ Y]; apply Forall_app in Y as [_ Y]; apply Forall_app in Y as [_ Y]; inversion_clear Y as [|? ? _ Z]; apply Forall_app in Z as [Z _]; exact Z].
    assert (Gi : exists y6 y7 f4, t6 ++ [(commit, Executed); (MExpectClose, o8)] = y6 ++ y7 /\ map fst y6 = inner /\ serve p [mkblock true f4] [commit; MExpectClose] y7 /\ (f4 = false -> false = false /\ Forall executed y6)).
    { destruct Hpr as [->|Hpr]; [apply serve_strict; assumption|apply serve_ordinary; assumption]. }
    destruct Gi as (y6 & y7 & f4 & Ey & My & Sy & Cy). assert (Ly : List.length y6 = List.length t6) by (rewrite L6, <- My; symmetry; apply map_length).
    assert (Sp : t6 = y6 /\ [(commit, Executed); (MExpectClose, o8)] = y7).
    { pose proof (f_equal (firstn (List.length t6)) Ey) as Ea. pose proof (f_equal (skipn (List.length t6)) Ey) as Eb. rewrite firstn_app, Nat.sub_diag, firstn_O, app_nil_r, firstn_all in Ea. rewrite <- Ly in Ea at 1. rewrite firstn_app, Nat.sub_diag, firstn_O, app_nil_r, firstn_all in Ea.
      rewrite skipn_app, Nat.sub_diag, skipn_all in Eb. rewrite <- Ly, skipn_app, Nat.sub_diag, skipn_all in Eb. auto. }
    destruct Sp as [<- <-]. apply Cy. destruct (serve_one p f4 [] commit _ _ Logic.I Sy) as (o & f' & t' & Et & _ & C). injection Et as <- _. destruct C as [(_ & C & _)|[C _]]; [exact C|congruence].
  - (* not begun *)
    right. destruct (serve_failed p inner Hst _ _ _ _ S3) as (y6 & y7 & Ey & My & Fy & Sy). destruct (serve_one p true [] commit _ _ Logic.I Sy) as (o & f' & t' & Et & Sz & C). subst y7.
    destruct C as [(_ & X & _)|(N7 & _)]; [discriminate|]. assert (Ly : List.length y6 = List.length t6) by (rewrite L6, <- My; symmetry; apply map_length).
    assert (Sp : t6 = y6 /\ [(commit, o7); (MExpectClose, o8)] = (commit, o) :: t').
    { pose proof (f_equal (firstn (List.length t6)) Ey) as Ea. pose proof (f_equal (skipn (List.length t6)) Ey) as Eb. rewrite firstn_app, Nat.sub_diag, firstn_O, app_nil_r, firstn_all in Ea. rewrite <- Ly in Ea at 1. rewrite firstn_app, Nat.sub_diag, firstn_O, app_nil_r, firstn_all in Ea.
      rewrite skipn_app, Nat.sub_diag, skipn_all in Eb. rewrite <- Ly, skipn_app, Nat.sub_diag, skipn_all in Eb. auto. }
    destruct Sp as [<- E7]. injection E7 as -> _. rewrite (Pos t6 (commit, o) _ L6). split; [intros X; injection X as X; congruence|].
    assert (Id : watch ((statement st, o3) :: t6 ++ [(commit, o); (MExpectClose, o8)]) (watch t3 s) = watch t3 s).
    { rewrite watch_cons, watch_app. replace (watch1 (watch t3 s) (statement st, o3)) with (watch t3 s) by (destruct o3; [congruence|reflexivity..]). rewrite (watch_idle t6 _ Fy), !watch_cons.
      replace (watch1 (watch t3 s) (commit, o)) with (watch t3 s) by (destruct o; [congruence|reflexivity..]). unfold watch1. cbn [fst snd effect_of]. destruct o8; reflexivity. }
    rewrite P0, Id. split; [exact W1|]. split; [exact W2|]. split; [exact W3|]. intros X. apply Hn in X. subst lv. destruct t3; [reflexivity|discriminate L2].
Qed.

(* A level with a name is the one the transaction runs at, whatever earlier units of work left behind and whatever fails. *)
Theorem C113_named_level : forall (E : Env) b context cs level l body bs, empty b -> Forall prepares cs -> named level = Some l ->
  prog_ok word32 (unit_of_work context cs level body) -> delivers b (unit_of_work context cs level body) bs -> (nlen bs < 2 ^ 32)%N ->
  exists opening prepared inner ids out, tx_opening level = Some opening /\ Forall2 call_denotes cs prepared /\ prog_msgs body inner ids out /\
    dstream bs = Some (unit_messages context prepared opening inner) /\
    forall propagates tr s, Forall plain inner -> serve propagates [] (unit_messages context prepared opening inner) tr ->
      exists new, made (watch tr s) = made s ++ new /\ Forall (fun r => snd r = InTransaction l false) new /\
        (propagates = true \/ Forall ordinary inner ->
         nth_error tr (1 + List.length prepared + List.length opening + List.length inner) = Some (commit, Executed) -> map fst new = changes inner).
Proof.
  intros E b context cs level l body bs He Hc Hn Hok Hd Hl. destruct (unit_delivered E b context cs level body bs He Hc Hok Hd Hl) as (op & prepared & inner & ids & out & A1 & A2 & A3 & A4 & A5 & A6).
  exists op, prepared, inner, ids, out. repeat (split; [assumption|]). intros p tr s Hp Hs.
  destruct (unit_watched p context prepared level op inner tr s A1 A5 Hp A6 Hs) as [(new & B1 & B2 & _ & _ & B3)|(B1 & B2 & _)].
  - exists new. split; [exact B1|]. split; [|intros X Y; apply B3; [left|]; assumption]. eapply Forall_impl; [|exact B2]. intros r ->. unfold begins_at, takes_snapshot. rewrite Hn. f_equal.
    destruct (N.eqb_spec level 5) as [->|_]; [discriminate Hn|reflexivity].
  - exists []. rewrite app_nil_r. split; [exact B2|]. split; [constructor|]. intros _ X. contradiction.
Qed.

(* The others run at the level of the session, if no earlier unit of work has left a level for them: IsolationLevelDefault, and IsolationLevelSnapshot,
   which reads from a snapshot if that level is REPEATABLE READ. *)
Theorem C113_level_of_the_session_partial : forall (E : Env) b context cs level body bs, empty b -> Forall prepares cs -> (level = 0 \/ level = 5)%N ->
  prog_ok word32 (unit_of_work context cs level body) -> delivers b (unit_of_work context cs level body) bs -> (nlen bs < 2 ^ 32)%N ->
  exists opening prepared inner ids out, tx_opening level = Some opening /\ Forall2 call_denotes cs prepared /\ prog_msgs body inner ids out /\
    dstream bs = Some (unit_messages context prepared opening inner) /\
    forall propagates tr s, Forall plain inner -> serve propagates [] (unit_messages context prepared opening inner) tr -> for_next s = None ->
      exists new, made (watch tr s) = made s ++ new /\
        Forall (fun r => exists snapshot, snd r = InTransaction (usual_level s) snapshot /\ (snapshot = true <-> level = 5%N /\ usual_level s = RepeatableRead)) new /\
        for_next (watch tr s) = None /\ usual_level (watch tr s) = usual_level s /\
        (propagates = true \/ Forall ordinary inner ->
         nth_error tr (1 + List.length prepared + List.length opening + List.length inner) = Some (commit, Executed) -> map fst new = changes inner).
Proof.
  intros E b context cs level body bs He Hc Hn Hok Hd Hl. destruct (unit_delivered E b context cs level body bs He Hc Hok Hd Hl) as (op & prepared & inner & ids & out & A1 & A2 & A3 & A4 & A5 & A6).
  exists op, prepared, inner, ids, out. repeat (split; [assumption|]). intros p tr s Hp Hs Hf.
  destruct (unit_watched p context prepared level op inner tr s A1 A5 Hp A6 Hs) as [(new & B1 & B2 & B3 & B4 & B5)|(B1 & B2 & _ & B3 & B4)].
  - exists new. split; [exact B1|]. split; [|split; [exact B3|split; [exact B4|intros X Y; apply B5; [left|]; assumption]]]. eapply Forall_impl; [|exact B2]. intros r ->. exists (takes_snapshot level s). unfold begins_at, takes_snapshot, next_level. rewrite Hf.
    split; [destruct Hn as [-> | ->]; reflexivity|]. rewrite andb_true_iff, N.eqb_eq. destruct (usual_level s); cbn; intuition congruence.
  - exists []. rewrite app_nil_r. split; [exact B2|]. split; [constructor|]. split; [rewrite B4; [exact Hf|destruct Hn as [-> | ->]; reflexivity]|]. split; [exact B3|]. intros _ X. contradiction.
Qed.
(* ---- what a server may do ---- *)

(* It may execute everything, *)
Lemma serve_do p ms : strict ms -> forall st rest tr, rejecting st = false -> serve p st rest tr -> serve p st (ms ++ rest) (map (fun m => (m, Executed)) ms ++ tr).
Proof.
  induction 1 as [|m ms Ho _ IH|op body ms _ IHb _ IH]; intros st rest tr R H; [exact H| |].
  - cbn [map app]. apply S_exec; [exact Ho|exact R|]. apply IH; assumption.
  - cbn [map app]. rewrite <- app_assoc, map_app, <- app_assoc. cbn [map app]. apply S_open; [exact R|]. apply IHb; [reflexivity|]. apply S_close; [reflexivity|]. apply IH; assumption.
Qed.
(* and has to execute nothing in a block that has failed. *)
Lemma serve_dont p ms : strict ms -> forall a st rest tr, serve p (mkblock a true :: st) rest tr ->
  exists t, serve p (mkblock a true :: st) (ms ++ rest) (t ++ tr) /\ map fst t = ms /\ Forall (fun t => snd t <> Executed) t.
Proof.
  induction 1 as [|m ms Ho _ IH|op body ms _ IHb _ IH]; intros a st rest tr H; [exists []; repeat split; [exact H|constructor]| |].
  - destruct (IH a st rest tr H) as (t & T1 & T2 & T3). exists ((m, Skipped) :: t). split; [cbn [app]; apply S_skip; [exact Ho|reflexivity|exact T1]|]. split; [cbn; rewrite T2; reflexivity|]. constructor; [discriminate|exact T3].
  - destruct (IH a st rest tr H) as (t & T1 & T2 & T3). set (st1 := mkblock a true :: st) in *.
    assert (Cl : serve p (mkblock (opened op [no_error_1] st1) true :: st1) (MExpectClose :: ms ++ rest) ((MExpectClose, Failed) :: t ++ tr)).
    { apply S_close_failed; [reflexivity|]. destruct p; [|exact T1]. unfold st1 in *. cbn [fail_top no_error has_failed orb]. exact T1. }
    destruct (IHb _ _ _ _ Cl) as (t' & U1 & U2 & U3). exists ((MExpectOpen op [no_error_1], Skipped) :: t' ++ (MExpectClose, Failed) :: t). split; [|split].
    + cbn [app]. rewrite <- !app_assoc. cbn [app]. apply S_open_skip; [reflexivity|exact U1].
    + cbn [map fst]. rewrite map_app. cbn [map fst]. rewrite U2, T2. reflexivity.
    + constructor; [discriminate|]. apply Forall_app. split; [exact U3|]. constructor; [discriminate|exact T3].
Qed.
Lemma lawful_app s a b : lawful s a -> lawful (play a s) b -> lawful s (a ++ b).
Proof.
  intros Ha Hb x m y E Hm. destruct (Nat.lt_ge_cases (List.length x) (List.length a)) as [L|L].
  - apply (Ha x m (skipn (S (List.length x)) a)); [|exact Hm]. pose proof (f_equal (firstn (List.length a)) E) as F. rewrite firstn_app, Nat.sub_diag, firstn_O, app_nil_r, firstn_all in F.
    rewrite firstn_app, (firstn_all2 x) in F by lia. destruct (List.length a - List.length x)%nat as [|k] eqn:D; [lia|]. cbn [firstn] in F. rewrite F. f_equal. rewrite skipn_app, skipn_all2 by lia. replace (S (List.length x) - List.length x)%nat with 1%nat by lia. reflexivity.
  - pose proof (f_equal (skipn (List.length a)) E) as F. rewrite skipn_app, Nat.sub_diag, skipn_all, skipn_O in F. rewrite skipn_app in F. replace (List.length a - List.length x)%nat with 0%nat in F by lia. cbn [skipn app] in F.
    assert (X : x = a ++ skipn (List.length a) x).
    { rewrite <- (firstn_skipn (List.length a) x) at 1. f_equal. pose proof (f_equal (firstn (List.length a)) E) as G. rewrite firstn_app, Nat.sub_diag, firstn_O, app_nil_r, firstn_all in G. rewrite firstn_app in G. replace (List.length a - List.length x)%nat with 0%nat in G by lia. rewrite firstn_O, app_nil_r in G. symmetry. exact G. }
    rewrite X, play_app. exact (Hb _ m y F Hm).
Qed.
Lemma lawful_unset s tr : Forall (fun t => effect_of (fst t) <> SetsLevel) tr -> lawful s tr.
Proof. intros F x m y -> Hm. apply Forall_app in F as [_ F]. inversion_clear F as [|? ? A _]. cbn [fst] in A. contradiction. Qed.
Lemma lawful_outside tr : forall s, in_progress s = None -> Forall (fun t => effect_of (fst t) = Begins -> snd t <> Executed) tr -> lawful s tr.
Proof.
  intros s Hs F x m y -> _. apply Forall_app in F as [F _]. clear y m. revert s Hs. induction F as [|t x A _ IH]; intros s Hs; [exact Hs|]. rewrite play_cons. apply IH. unfold play1. destruct (snd t) eqn:O; [|exact Hs..].
  destruct (effect_of (fst t)); try exact Hs; try reflexivity; [exfalso; apply A; reflexivity|]. rewrite Hs. reflexivity.
Qed.
Lemma all_made (x : how) : forall new ms, Forall (fun r => snd r = x) new -> map fst new = ms -> new = map (fun m : msg => (m, x)) ms.
Proof. induction new as [|[m y] new IH]; intros ms F <-; [reflexivity|]. inversion_clear F as [|? ? A B]. cbn in A. subst y. cbn [map fst]. f_equal. apply IH; [exact B|reflexivity]. Qed.

(* A unit of work all of whose messages are executed. *)
Lemma unit_done p context prepared opening inner : Forall (fun m => exists id q, m = MPrepare id q) prepared -> strict inner ->
  let tr := map (fun m => (m, Executed)) (unit_messages context prepared opening inner) in
  serve p [] (unit_messages context prepared opening inner) tr /\ Forall executed tr /\ nth_error tr (1 + List.length prepared + List.length opening + List.length inner) = Some (commit, Executed).
Proof.
  intros Hp Hi. cbn zeta. split; [|split].
  - unfold unit_messages. cbn [map]. apply S_open; [reflexivity|]. assert (Op : opened context [no_error_1] [] = true) by (unfold opened; rewrite orb_comm; reflexivity). rewrite Op, !map_app.
    apply serve_do; [|reflexivity|]. { clear - Hp. induction Hp as [|m l (id & q & ->) _ IH]; constructor; [exact Logic.I|exact IH]. }
    apply serve_do; [apply strict_statements|reflexivity|]. apply serve_do; [exact Hi|reflexivity|]. cbn [map]. apply S_exec; [exact Logic.I|reflexivity|]. apply S_close; [reflexivity|]. constructor.
  - apply Forall_map. apply Forall_forall. reflexivity.
  - unfold unit_messages. replace (1 + _ + _ + _)%nat with (S (List.length (prepared ++ map statement opening ++ inner))) by (rewrite !app_length, map_length; lia). cbn [map nth_error]. rewrite !app_assoc, map_app.
    rewrite nth_error_app2; rewrite map_length; [|lia]. rewrite <- app_assoc, Nat.sub_diag. reflexivity.
Qed.
Lemma plain_unset inner : Forall plain inner -> Forall (fun m => effect_of m <> SetsLevel) inner.
Proof. apply Forall_impl. intros m [E|E]; congruence. Qed.

(* A unit of work whose START TRANSACTION fails leaves its level to the next transaction of the connection, if that names none: whatever the units are, and whatever the level of the session. *)
Theorem C113_level_left_behind_refuted : forall (E : Env) a contexta csa levela l bodya bsa b context cs body bs,
  empty a -> Forall prepares csa -> named levela = Some l -> prog_ok word32 (unit_of_work contexta csa levela bodya) -> delivers a (unit_of_work contexta csa levela bodya) bsa -> (nlen bsa < 2 ^ 32)%N ->
  empty b -> Forall prepares cs -> prog_ok word32 (unit_of_work context cs 0 body) -> delivers b (unit_of_work context cs 0 body) bs -> (nlen bs < 2 ^ 32)%N ->
  exists msa ms inner ids out, dstream bsa = Some msa /\ dstream bs = Some ms /\ prog_msgs body inner ids out /\
    (Forall plain inner -> forall propagates usual, exists tra tr,
       serve propagates [] msa tra /\ serve propagates [] ms tr /\ lawful (mksess None []) (tra ++ tr) /\ Forall executed tr /\
       made (watch (tra ++ tr) (mklevels usual None None [])) = map (fun m => (m, InTransaction l false)) (changes inner)).
Proof.
  intros E a contexta csa levela l bodya bsa b context cs body bs Ha Hca Hn Hoka Hda Hla Hb Hcb Hokb Hdb Hlb.
  destruct (unit_delivered E a contexta csa levela bodya bsa Ha Hca Hoka Hda Hla) as (opa & prepareda & innera & idsa & outa & A1 & A2 & A3 & A4 & A5 & A6).
  destruct (unit_delivered E b context cs 0 body bs Hb Hcb Hokb Hdb Hlb) as (op & prepared & inner & ids & out & B1 & B2 & B3 & B4 & B5 & B6).
  exists (unit_messages contexta prepareda opa innera), (unit_messages context prepared op inner), inner, ids, out. repeat (split; [assumption|]). intros Hp p usual.
  destruct (opening_levels levela opa A1) as (lv & st & -> & Hl & Hs & Hnl & Hset & _).
  assert (Op : opened contexta [no_error_1] [] = true) by (unfold opened; rewrite orb_comm; reflexivity).
  (* the rest of the failed block *)
  assert (Tl : serve p [mkblock true true] [commit; MExpectClose] [(commit, Skipped); (MExpectClose, Failed)]).
  { apply S_skip; [exact Logic.I|reflexivity|]. apply S_close_failed; [reflexivity|]. destruct p; constructor. }
  destruct (serve_dont p innera A6 true [] _ _ Tl) as (t & T1 & T2 & T3).
  set (front := MExpectOpen contexta [no_error_1] :: prepareda ++ map statement lv).
  set (tra := map (fun m => (m, Executed)) front ++ (statement st, Failed) :: t ++ [(commit, Skipped); (MExpectClose, Failed)]).
  destruct (unit_done p context prepared op inner B5 B6) as (D1 & D2 & D3). set (tr := map (fun m => (m, Executed)) (unit_messages context prepared op inner)) in *.
  assert (Sa : serve p [] (unit_messages contexta prepareda (lv ++ [st]) innera) tra).
  { unfold tra, front, unit_messages. rewrite !map_app. cbn [map app]. rewrite <- (app_assoc _ [statement st]), map_app, <- app_assoc. cbn [app]. apply S_open; [reflexivity|]. rewrite Op.
    apply serve_do; [|reflexivity|]. { clear - A5. induction A5 as [|m x (id & q & ->) _ IH]; constructor; [exact Logic.I|exact IH]. }
    apply serve_do; [apply strict_statements|reflexivity|]. apply S_fail; [exact Logic.I|reflexivity|]. exact T1. }
  assert (Idle : forall s, watch ((statement st, Failed) :: t ++ [(commit, Skipped); (MExpectClose, Failed)]) s = s).
  { intros s. apply watch_idle. constructor; [discriminate|]. apply Forall_app. split; [exact T3|]. repeat constructor; discriminate. }
  assert (Wa : watch tra (mklevels usual None None []) = mklevels usual (Some l) None []).
  { unfold tra. rewrite watch_app, Idle. unfold front. cbn [map]. rewrite watch_cons, map_app, watch_app. replace (watch1 _ _) with (mklevels usual None None []) by reflexivity. rewrite (watch_nothing (map _ prepareda)).
    - rewrite map_map. rewrite Hset. unfold setting. rewrite Hn. reflexivity.
    - apply Forall_map. eapply Forall_impl; [|exact A5]. intros m (id & q & ->). reflexivity. }
  exists tra, tr. split; [exact Sa|]. split; [exact D1|]. split; [|split; [exact D2|]].
  - apply lawful_app.
    + apply lawful_outside; [reflexivity|]. unfold tra. apply Forall_app. split.
      * unfold front. cbn [map]. constructor; [discriminate|]. rewrite map_app, Forall_app. split; apply Forall_map; [eapply Forall_impl; [|exact A5]; intros m (id & q & ->); discriminate|].
        apply Forall_map. eapply Forall_impl; [|exact Hl]. intros x X. unfold is_level in X. cbn [fst]. rewrite X. discriminate.
      * constructor; [discriminate|]. apply Forall_app. split; [eapply Forall_impl; [|exact T3]; intros x X _; exact X|]. repeat constructor; discriminate.
    + apply lawful_unset. apply (executed_fst tr (fun m => effect_of m <> SetsLevel)). unfold tr. rewrite map_map. cbn [fst]. rewrite map_id. unfold unit_messages. constructor; [discriminate|]. cbn [tx_opening] in B1. injection B1 as <-.
      apply Forall_app. split; [eapply Forall_impl; [|exact B5]; intros m (id & q & ->); discriminate|]. apply Forall_app. split; [repeat constructor; vm_compute; discriminate|]. apply Forall_app. split; [apply plain_unset; exact Hp|]. repeat constructor; vm_compute; discriminate.
  - rewrite watch_app, Wa. destruct (unit_watched p context prepared 0 op inner tr (mklevels usual (Some l) None []) B1 B5 Hp B6 D1) as [(new & N1 & N2 & _ & _ & N3)|(X & _)]; [|contradiction].
    rewrite N1. cbn [made app]. apply all_made; [exact N2|].
    apply (proj1 (N3 (or_intror D2) D3)).
Qed.

(* A transaction that was asked to read from a snapshot does not, at any other level than REPEATABLE READ, and no error says so. *)
Theorem C113_no_snapshot_refuted : forall (E : Env) b context cs body bs, empty b -> Forall prepares cs ->
  prog_ok word32 (unit_of_work context cs 5 body) -> delivers b (unit_of_work context cs 5 body) bs -> (nlen bs < 2 ^ 32)%N ->
  exists ms inner ids out, dstream bs = Some ms /\ prog_msgs body inner ids out /\
    (Forall plain inner -> forall propagates usual, usual <> RepeatableRead -> exists tr,
       serve propagates [] ms tr /\ lawful (mksess None []) tr /\ Forall executed tr /\
       made (watch tr (mklevels usual None None [])) = map (fun m => (m, InTransaction usual false)) (changes inner)).
Proof.
  intros E b context cs body bs Hb Hcb Hokb Hdb Hlb.
  destruct (unit_delivered E b context cs 5 body bs Hb Hcb Hokb Hdb Hlb) as (op & prepared & inner & ids & out & B1 & B2 & B3 & B4 & B5 & B6).
  exists (unit_messages context prepared op inner), inner, ids, out. repeat (split; [assumption|]). intros Hp p usual Hu.
  destruct (unit_done p context prepared op inner B5 B6) as (D1 & D2 & D3). set (tr := map (fun m => (m, Executed)) (unit_messages context prepared op inner)) in *.
  exists tr. split; [exact D1|]. split; [|split; [exact D2|]].
  - apply lawful_unset. apply (executed_fst tr (fun m => effect_of m <> SetsLevel)). unfold tr. rewrite map_map. cbn [fst]. rewrite map_id. unfold unit_messages. constructor; [discriminate|]. cbn [tx_opening] in B1. injection B1 as <-.
    apply Forall_app. split; [eapply Forall_impl; [|exact B5]; intros m (id & q & ->); discriminate|]. apply Forall_app. split; [repeat constructor; vm_compute; discriminate|]. apply Forall_app. split; [apply plain_unset; exact Hp|]. repeat constructor; vm_compute; discriminate.
  - destruct (unit_watched p context prepared 5 op inner tr (mklevels usual None None []) B1 B5 Hp B6 D1) as [(new & N1 & N2 & _ & _ & N3)|(X & _)]; [|contradiction].
    rewrite N1. cbn [made app]. apply all_made; [|apply (proj1 (N3 (or_intror D2) D3))]. eapply Forall_impl; [|exact N2]. intros r ->. cbn. destruct usual; [reflexivity..|congruence|reflexivity].
Qed.

(* ---- the whole story, with a pool ---- *)

Definition set_serializable : msg := statement (s2b "SET TRANSACTION ISOLATION LEVEL SERIALIZABLE").
Definition trace_set : list (msg * outcome) :=   (* START TRANSACTION fails, by a KILL QUERY say *)
  [(open_block, Executed); (set_serializable, Executed); (begin_tx, Failed); (insert_of "(3)", Skipped); (commit, Skipped); (MExpectClose, Failed)].

(* Two callers' Sends with nil errors on one connection of the pool. The second, which asked for the default, runs as the first one wanted to. *)
Theorem C113_another_callers_level_refuted : exists a b ca cb said s,
  @delivers ThmBuilder.plain (new_pipe 0) one_row_serializable a /\ dstream a = Some (map fst trace_set) /\ serve true [] (map fst trace_set) trace_set /\
  @delivers ThmBuilder.plain (new_pipe 0) one_row b /\ dstream b = Some (map fst trace_b) /\ serve true [] (map fst trace_b) trace_b /\ lawful (mksess None []) (trace_set ++ trace_b) /\
  System.run false (two_sends a b ca cb) (System.new_system 1) = Some s /\ SpecSystem.sends said s /\ Forall (SpecSystem.serves false said) (two_sends a b ca cb) /\
  SpecSystem.users 0 (SpecPool.history (System.pool s)) = [0; 1]%nat /\
  SpecSystem.got s 0 (map (fun t => response_for (snd t)) trace_set) None /\ SpecSystem.got s 1 (map (fun t => response_for (snd t)) trace_b) None /\
  made (watch (trace_set ++ trace_b) (mklevels ReadCommitted None None [])) = [(insert_of "(3)", InTransaction Serializable false)].
Proof.
  set (xa := exchanges_of (sent_by one_row_serializable) trace_set). set (xb := exchanges_of (sent_by one_row) trace_b).
  exists (sent_by one_row_serializable), (sent_by one_row), [replies_bytes xa], [replies_bytes xb], (fun i => match i with 0 => xa | _ => xb end)%nat. eexists.
  destruct (sent_by_frames one_row_serializable) as (Da & fa & Fa1 & Fa2); [cbn; auto|]. destruct (sent_by_frames one_row) as (Db & fb & Fb1 & Fb2); [cbn; auto|].
  split; [exact Da|]. split; [vm_compute; reflexivity|]. split.
  { apply S_open; [reflexivity|]. apply S_exec; [exact Logic.I|reflexivity|]. apply S_fail; [exact Logic.I|reflexivity|]. do 2 (apply S_skip; [exact Logic.I|reflexivity|]). apply S_close_failed; [reflexivity|]. constructor. }
  split; [exact Db|]. split; [vm_compute; reflexivity|]. split.
  { apply S_open; [reflexivity|]. repeat (apply S_exec; [exact Logic.I|reflexivity|]). apply S_close; [reflexivity|]. constructor. }
  split.
  { apply lawful_app; [apply lawful_outside; [reflexivity|]|apply lawful_unset]; repeat constructor; vm_compute; discriminate. }
  split; [vm_compute; reflexivity|]. split.
  { intros i d u. cbn [System.units]. destruct i as [|[|i]]; cbn [nth_error]; [intros [= _ <-]; vm_compute; reflexivity|intros [= _ <-]; vm_compute; reflexivity|destruct i; discriminate]. }
  split.
  { unfold two_sends. repeat (apply Forall_cons; [cbn [SpecSystem.serves]; try exact Logic.I; try reflexivity|]); [| |apply Forall_nil].
    - split; [eapply exchanges_of_ok; eassumption|]. exists []. cbn [concat]. rewrite !app_nil_r. reflexivity.
    - split; [eapply exchanges_of_ok; eassumption|]. exists []. cbn [concat]. rewrite !app_nil_r. reflexivity. }
  split; [vm_compute; reflexivity|]. split; [right; left; vm_compute; reflexivity|]. split; [left; vm_compute; reflexivity|]. vm_compute; reflexivity.
Qed.

(* The hypotheses are met: by one_row and one_row_serializable, which come out at the level of the session and at theirs. *)
Example level_meets : exists bs bs', @delivers ThmBuilder.plain (new_pipe 0) one_row bs /\ prog_ok false one_row /\ (nlen bs < 2 ^ 32)%N /\
  @delivers ThmBuilder.plain (new_pipe 0) one_row_serializable bs' /\ prog_ok false one_row_serializable /\ (nlen bs' < 2 ^ 32)%N /\ Forall SpecSession.plain [insert_of "(3)"] /\
  made (watch trace_b (mklevels ReadCommitted None None [])) = [(insert_of "(3)", InTransaction ReadCommitted false)] /\
  made (watch (map (fun m => (m, Executed)) (map fst trace_set)) (mklevels ReadCommitted None None [])) = [(insert_of "(3)", InTransaction Serializable false)].
Proof.
  exists (sent_by one_row), (sent_by one_row_serializable). destruct (sent_by_frames one_row) as (Db & _); [cbn; auto|]. destruct (sent_by_frames one_row_serializable) as (Da & _); [cbn; auto|].
  split; [exact Db|]. split; [cbn; repeat split; try constructor; intros; repeat constructor|]. split; [vm_compute; reflexivity|]. split; [exact Da|]. split; [cbn; repeat split; try constructor; intros; repeat constructor|]. split; [vm_compute; reflexivity|].
  split; [repeat constructor|]. split; vm_compute; reflexivity.
Qed.
Print Assumptions C113_named_level.
Print Assumptions C113_level_of_the_session_partial.
Print Assumptions C113_level_left_behind_refuted.
Print Assumptions C113_no_snapshot_refuted.
Print Assumptions C113_another_callers_level_refuted.
