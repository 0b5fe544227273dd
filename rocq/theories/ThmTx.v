(* Units of work as transactions: C63, C64. *)
From Coq Require Import String List NArith ZArith Arith Bool Lia.
From Coq Require Import List.
From Verif Require Import Base GoSlice SpecWire SpecMsg SpecValue MsgModel Builder SpecProg SpecUnit Conn SpecReply SpecServer SpecSession.
From Verif Require Pool SpecPool System SpecSystem ShapeProofs ThmConn.
From Verif Require Import ThmServer.
Import ListNotations.
Open Scope list_scope.

Lemma play_app : forall a b s, play (a ++ b) s = play b (play a s).
Proof. intros. unfold play. apply fold_left_app. Qed.
Lemma play_nil : forall s, play [] s = s.
Proof. reflexivity. Qed.
Lemma play_cons : forall t tr s, play (t :: tr) s = play tr (play1 s t).
Proof. reflexivity. Qed.

(* Messages that are not executed do nothing. *)
Lemma play_idle : forall tr s, Forall (fun t => snd t <> Executed) tr -> play tr s = s.
Proof. intros tr. induction tr as [|t tr IH]; intros s H; [reflexivity|]. inversion_clear H as [|? ? A B]. rewrite play_cons. unfold play1. destruct (snd t); [congruence|apply IH; exact B..]. Qed.
(* Messages without effect on data or transactions do nothing. *)
Lemma play_nothing : forall tr s, Forall (fun t => effect_of (fst t) = Nothing \/ effect_of (fst t) = SetsLevel) tr -> play tr s = s.
Proof.
  intros tr. induction tr as [|t tr IH]; intros s H; [reflexivity|]. inversion_clear H as [|? ? A B]. rewrite play_cons. unfold play1. destruct (snd t); [|apply IH; exact B..].
  destruct A as [-> | ->]; apply IH; exact B.
Qed.

(* Plain messages in a transaction stay in it. *)
Lemma play_plain : forall tr p d, Forall (fun t => plain (fst t)) tr -> exists q, play tr (mksess (Some p) d) = mksess (Some (p ++ q)) d /\
  (Forall executed tr -> q = changes (map fst tr)).
Proof.
  intros tr. induction tr as [|[m o] tr IH]; intros p d H; [exists []; rewrite app_nil_r; split; [reflexivity|reflexivity]|]. inversion_clear H as [|? ? A B]. rewrite play_cons. unfold play1. cbn [fst snd in_progress durable map].
  destruct o.
  - destruct A as [A|A]; cbn [fst] in A; rewrite A.
    + destruct (IH (p ++ [m]) d B) as (q & Q1 & Q2). exists (m :: q). rewrite Q1, <- app_assoc. split; [reflexivity|]. intros E. inversion_clear E. unfold changes. cbn [filter]. rewrite A. f_equal. apply Q2. assumption.
    + destruct (IH p d B) as (q & Q1 & Q2). exists q. split; [exact Q1|]. intros E. inversion_clear E. unfold changes. cbn [filter]. rewrite A. apply Q2. assumption.
  - destruct (IH p d B) as (q & Q1 & Q2). exists q. split; [exact Q1|]. intros E. inversion_clear E as [|? ? X Y]. discriminate X.
  - destruct (IH p d B) as (q & Q1 & Q2). exists q. split; [exact Q1|]. intros E. inversion_clear E as [|? ? X Y]. discriminate X.
Qed.

(* ---- what the server does in a "no error" block ---- *)

Ltac serving H := inversion H as [|? ? ? tr' Od R H'|? ? ? tr' Od R H'|? ? ? tr' Od R H'|? ? ? ? tr' R H'|? ? ? ? tr' R H'|? ? ? ? tr' R H'|? ? ? tr' R H'|? ? ? tr' R H'|]; subst.

(* One message: it is executed, or the rest of the block will not be. *)
Lemma serve_one : forall p f st m rest tr, ordinary m -> serve p (mkblock true f :: st) (m :: rest) tr ->
  exists o f' tr', tr = (m, o) :: tr' /\ serve p (mkblock true f' :: st) rest tr' /\ (o = Executed /\ f = false /\ f' = false \/ o <> Executed /\ f' = true).
Proof.
  intros p f st m rest tr Ho H. serving H; try destruct Ho.
  - exists Skipped, f, tr'. split; [reflexivity|]. split; [exact H'|]. right. split; [discriminate|exact R].
  - exists Executed, f, tr'. split; [reflexivity|]. split; [exact H'|]. left. cbn in R. auto.
  - exists Failed, true, tr'. split; [reflexivity|]. cbn [fail_top no_error has_failed] in H'. rewrite orb_true_r in H'. split; [exact H'|]. right. split; [discriminate|reflexivity].
Qed.

(* In a block that has failed nothing is executed. *)
Lemma serve_failed : forall p ms, strict ms -> forall a st rest tr, serve p (mkblock a true :: st) (ms ++ rest) tr ->
  exists tr1 tr2, tr = tr1 ++ tr2 /\ map fst tr1 = ms /\ Forall (fun t => snd t <> Executed) tr1 /\ serve p (mkblock a true :: st) rest tr2.
Proof.
  intros p ms Hm. induction Hm as [|m ms Ho Hm IH|op body ms Hb IHb Hm IH]; intros a st rest tr H.
  - exists [], tr. auto.
  - cbn [app] in H. serving H; try destruct Ho; try discriminate R.
    destruct (IH _ _ _ _ H') as (t1 & t2 & -> & <- & F & S). exists ((m, Skipped) :: t1), t2. split; [reflexivity|]. split; [reflexivity|]. split; [|exact S]. constructor; [discriminate|exact F].
  - rewrite <- app_comm_cons, <- app_assoc in H. cbn [app] in H. serving H; try destruct Od; try discriminate R.
    destruct (IHb _ _ _ _ H') as (t1 & t2 & -> & <- & F & S). clear H H' R. rename S into H. serving H; try destruct Od; try discriminate R.
    assert (H2 : serve p (mkblock a true :: st) (ms ++ rest) tr').
    { destruct p; [|exact H']. cbn [fail_top no_error has_failed] in H'. cbn [orb] in H'. exact H'. }
    destruct (IH _ _ _ _ H2) as (t3 & t4 & -> & <- & F2 & S2).
    exists ((MExpectOpen op [no_error_1], Skipped) :: t1 ++ (MExpectClose, Failed) :: t3), t4. split; [cbn [app]; rewrite <- app_assoc; reflexivity|]. split; [cbn [map fst]; rewrite map_app; reflexivity|]. split; [|exact S2].
    constructor; [discriminate|]. apply Forall_app. split; [exact F|]. constructor; [discriminate|exact F2].
Qed.

(* In a "no error" block the executed messages come first, then those that are not. *)
Lemma serve_prefix : forall p ms, strict ms -> p = true \/ Forall ordinary ms -> forall f st rest tr, serve p (mkblock true f :: st) (ms ++ rest) tr ->
  exists x y tr2 f', tr = (x ++ y) ++ tr2 /\ map fst (x ++ y) = ms /\ Forall executed x /\ Forall (fun t => snd t <> Executed) y /\ (y <> [] -> f' = true) /\ (f = true -> x = [] /\ f' = true) /\
    serve p (mkblock true f' :: st) rest tr2.
Proof.
  intros p ms Hm. induction Hm as [|m ms Ho Hm IH|op body ms Hb IHb Hm IH]; intros Hp f st rest tr H.
  - exists [], [], tr, f. repeat split; auto.
  - assert (Hp' : p = true \/ Forall ordinary ms) by (destruct Hp as [Hp|Hp]; [auto|right; inversion Hp; assumption]).
    cbn [app] in H. destruct (serve_one p f st m _ _ Ho H) as (o & f1 & tr' & -> & S & [(-> & -> & ->)|(No & ->)]).
    + destruct (IH Hp' _ _ _ _ S) as (x & y & tr2 & f' & -> & M & X & Y & Fy & Ff & S2). exists ((m, Executed) :: x), y, tr2, f'. cbn [app map fst]. rewrite M. repeat split; auto; [constructor; [reflexivity|exact X]|discriminate..].
    + destruct (IH Hp' _ _ _ _ S) as (x & y & tr2 & f' & -> & M & X & Y & Fy & Ff & S2). destruct (Ff eq_refl) as [-> ->]. exists [], ((m, o) :: y), tr2, true. cbn [app map fst] in *. rewrite M. repeat split; auto.
  - destruct Hp as [->|Hp]; [|exfalso; inversion Hp; assumption]. rewrite <- app_comm_cons, <- app_assoc in H. cbn [app] in H.
    assert (Op : forall st, opened op [no_error_1] st = true) by (intros; unfold opened; rewrite orb_comm; reflexivity).
    assert (Hc : exists o g tr', tr = (MExpectOpen op [no_error_1], o) :: tr' /\ serve true (mkblock true g :: mkblock true f :: st) (body ++ MExpectClose :: ms ++ rest) tr' /\ (o = Executed /\ f = false /\ g = false \/ o <> Executed /\ g = true)).
    { serving H; try destruct Od; rewrite Op in H'; do 3 eexists; (split; [reflexivity|]); (split; [exact H'|]); cbn in R; subst; [left; auto|right; split; [discriminate|reflexivity]..]. }
    destruct Hc as (o & g & tr' & -> & S & C). destruct (IHb (or_introl eq_refl) _ _ _ _ S) as (x & y & tr2 & g' & -> & M & X & Y & Fy & Fg & S2). clear H S.
    assert (Hc : exists o2 f2 tr3, tr2 = (MExpectClose, o2) :: tr3 /\ serve true (mkblock true f2 :: st) (ms ++ rest) tr3 /\ (o2 = Executed /\ g' = false /\ f2 = f \/ o2 <> Executed /\ g' = true /\ f2 = true)).
    { serving S2; try destruct Od; do 3 eexists; (split; [reflexivity|]); cbn in R; subst; cbn [fail_top no_error has_failed] in H'; rewrite ?orb_true_r in H'; (split; [exact H'|]); [left; auto|right; split; [discriminate|auto]]. }
    destruct Hc as (o2 & f2 & tr3 & -> & S & C2). destruct (IH (or_introl eq_refl) _ _ _ _ S) as (x2 & y2 & tr4 & f' & -> & M2 & X2 & Y2 & Fy2 & Ff2 & S4).
    destruct C2 as [(-> & -> & ->)|(No & -> & ->)].
    + assert (y = []) by (destruct y; [reflexivity|assert (true = false) by (symmetry; apply Fy; discriminate); discriminate]). subst y. rewrite app_nil_r in *.
      destruct C as [(-> & -> & ->)|(No & ->)]; [|destruct (Fg eq_refl); discriminate].
      exists ((MExpectOpen op [no_error_1], Executed) :: x ++ (MExpectClose, Executed) :: x2), y2, tr4, f'. split; [cbn [app]; rewrite <- !app_assoc; cbn [app]; rewrite <- ?app_assoc; reflexivity|].
      split; [cbn [app map fst]; rewrite !map_app in *; cbn [map fst]; rewrite M, <- M2, <- app_assoc; reflexivity|].
      split; [constructor; [reflexivity|]; apply Forall_app; split; [exact X|constructor; [reflexivity|exact X2]]|]. repeat split; auto; discriminate.
    + destruct (Ff2 eq_refl) as [-> ->]. cbn [app] in M2.
      destruct C as [(-> & -> & ->)|(No1 & ->)].
      * exists ((MExpectOpen op [no_error_1], Executed) :: x), (y ++ (MExpectClose, o2) :: y2), tr4, true. split; [cbn [app]; rewrite <- !app_assoc; cbn [app]; rewrite <- ?app_assoc; reflexivity|].
        split; [cbn [app map fst]; rewrite app_assoc, map_app; cbn [map fst]; rewrite M, <- M2; reflexivity|].
        split; [constructor; [reflexivity|exact X]|]. split; [apply Forall_app; split; [exact Y|constructor; [exact No|exact Y2]]|]. repeat split; auto; discriminate.
      * destruct (Fg eq_refl) as [-> _]. cbn [app] in M.
        exists [], ((MExpectOpen op [no_error_1], o) :: y ++ (MExpectClose, o2) :: y2), tr4, true. split; [cbn [app]; rewrite <- !app_assoc; cbn [app]; rewrite <- ?app_assoc; reflexivity|].
        split; [cbn [app map fst]; rewrite map_app; cbn [map fst]; rewrite M, <- M2; reflexivity|].
        split; [constructor|]. split; [constructor; [exact No1|apply Forall_app; split; [exact Y|constructor; [exact No|exact Y2]]]|]. repeat split; auto.
Qed.

Definition is_level (s : bytes) : Prop := effect_of (statement s) = SetsLevel.
Lemma opening_shape : forall level l, tx_opening level = Some l -> exists lv st, l = lv ++ [st] /\ Forall is_level lv /\ effect_of (statement st) = Begins /\
  (lv <> [] <-> In level [1; 2; 3; 4]%N).
Proof.
  intros level l H. assert (D : (level = 0 \/ level = 1 \/ level = 2 \/ level = 3 \/ level = 4 \/ level = 5)%N).
  { destruct (N.le_gt_cases level 5); [lia|]. exfalso. destruct level as [|[[[|[]|]|[|[]|]|]|[[|[]|]|[|[]|]|]|]]; try discriminate; lia. }
  destruct D as [->|[->|[->|[->|[->| ->]]]]]; cbn [tx_opening] in H; injection H as <-;
    [exists [], (s2b "START TRANSACTION")|exists [s2b "SET TRANSACTION ISOLATION LEVEL READ UNCOMMITTED"], (s2b "START TRANSACTION")
    |exists [s2b "SET TRANSACTION ISOLATION LEVEL READ COMMITTED"], (s2b "START TRANSACTION")|exists [s2b "SET TRANSACTION ISOLATION LEVEL REPEATABLE READ"], (s2b "START TRANSACTION")
    |exists [s2b "SET TRANSACTION ISOLATION LEVEL SERIALIZABLE"], (s2b "START TRANSACTION")|exists [], (s2b "START TRANSACTION WITH CONSISTENT SNAPSHOT")];
    (split; [reflexivity|]); (split; [repeat constructor|]); (split; [vm_compute; reflexivity|]); cbn; intuition (try discriminate; try lia; try congruence).
Qed.

(* The unit of work of the README: prepare, begin, do, commit. *)
Definition prepares (c : call) : Prop := match c with CPrepare _ _ => True | _ => False end.
Definition unit_of_work (context : N) (cs : list call) (level : N) (body : prog) : prog :=
  readme_unit context cs level body (fun _ => Ret None []) (fun _ => Ret None []).
(* Its messages. *)
Definition unit_messages (context : N) (prepared : list msg) (opening : list bytes) (inner : list msg) : list msg :=
  MExpectOpen context [no_error_1] :: prepared ++ map statement opening ++ inner ++ [commit; MExpectClose].

Lemma executed_fst : forall tr P, Forall P (map (@fst msg outcome) tr) -> Forall (fun t => P (fst t)) tr.
Proof. intros tr P H. apply Forall_map. exact H. Qed.

Lemma effects_fst : forall tr (P : msg -> Prop), Forall P (map (@fst msg outcome) tr) -> (forall m, P m -> effect_of m = Nothing \/ effect_of m = SetsLevel) ->
  Forall (fun t => effect_of (fst t) = Nothing \/ effect_of (fst t) = SetsLevel) tr.
Proof. intros tr P H K. apply executed_fst in H. eapply Forall_impl; [|exact H]. intros t. apply K. Qed.

(* The three ways a unit of work can go. *)
Lemma unit_played : forall p context prepared lv st inner tr s,
  Forall (fun m => exists id q, m = MPrepare id q) prepared -> Forall is_level lv -> effect_of (statement st) = Begins -> Forall plain inner -> strict inner -> p = true \/ Forall ordinary inner ->
  serve p [] (unit_messages context prepared (lv ++ [st]) inner) tr ->
  let position := (1 + List.length prepared + List.length (lv ++ [st]) + List.length inner)%nat in
  (nth_error tr position = Some (commit, Executed) /\ Forall executed tr /\ play tr s = mksess None (durable s ++ pending s ++ changes inner) /\ (lv <> [] -> lawful s tr -> in_progress s = None)) \/
  (exists o, nth_error tr position = Some (commit, o) /\ o <> Executed /\
    ((exists q unmade, changes inner = q ++ unmade /\ play tr s = mksess (Some q) (durable s ++ pending s)) /\ (lv <> [] -> lawful s tr -> in_progress s = None) \/ play tr s = s)).
Proof.
  intros p context prepared lv st inner tr s Hp Hl Hs Hi Hst Hpr H. cbn zeta. unfold unit_messages in H. rewrite map_app in H. cbn [map] in H. rewrite <- (app_assoc _ [statement st]) in H. cbn [app] in H.
  assert (Op : opened context [no_error_1] [] = true) by (unfold opened; rewrite orb_comm; reflexivity).
  assert (G : exists o f tr', tr = (MExpectOpen context [no_error_1], o) :: tr' /\ serve p (mkblock true f :: []) (prepared ++ map statement lv ++ statement st :: inner ++ [commit; MExpectClose]) tr' /\ (o = Executed /\ f = false \/ o <> Executed /\ f = true)).
  { serving H; try destruct Od; try discriminate R; rewrite Op in H'; do 3 eexists; (split; [reflexivity|]); (split; [exact H'|]); [left|right]; split; try reflexivity; discriminate. }
  destruct G as (o0 & f0 & t0 & -> & S0 & C0).
  assert (Fp : Forall ordinary prepared) by (eapply Forall_impl; [|exact Hp]; intros m (id & q & ->); exact I).
  destruct (serve_ordinary p prepared Fp _ _ _ _ S0) as (t1 & t2 & f1 & -> & M1 & S1 & C1).
  assert (Fl : Forall ordinary (map statement lv)) by (clear; induction lv; constructor; [exact I|assumption]).
  destruct (serve_ordinary p (map statement lv) Fl _ _ _ _ S1) as (t3 & t4 & f2 & -> & M2 & S2 & C2).
  destruct (serve_one p f2 [] (statement st) _ _ I S2) as (o3 & f3 & t5 & -> & S3 & C3).
  assert (N1 : Forall (fun t => effect_of (fst t) = Nothing \/ effect_of (fst t) = SetsLevel) t1).
  { apply (effects_fst t1 (fun m => exists id q, m = MPrepare id q)); [rewrite M1; exact Hp|]. intros m (id & q & ->). left. reflexivity. }
  assert (N2 : Forall (fun t => effect_of (fst t) = Nothing \/ effect_of (fst t) = SetsLevel) t3).
  { apply (effects_fst t3 (fun m => effect_of m = SetsLevel)); [rewrite M2; clear - Hl; induction Hl; constructor; assumption|]. auto. }
  assert (P0 : forall o t, play ((MExpectOpen context [no_error_1], o) :: t1 ++ t3 ++ t) s = play t s).
  { intros o t. rewrite play_cons, !play_app. replace (play1 s (MExpectOpen context [no_error_1], o)) with s by (destruct o; reflexivity). rewrite (play_nothing t1 s N1), (play_nothing t3 s N2). reflexivity. }
  assert (L1 : List.length t1 = List.length prepared) by (rewrite <- M1; symmetry; apply map_length).
  assert (L2 : List.length t3 = List.length lv) by (rewrite <- (map_length statement lv), <- M2; symmetry; apply map_length).
  assert (Pos : forall o ts x r, List.length ts = List.length inner -> nth_error ((MExpectOpen context [no_error_1], o) :: t1 ++ t3 ++ (statement st, o3) :: ts ++ x :: r) (1 + List.length prepared + List.length (lv ++ [st]) + List.length inner) = Some x).
  { intros o ts x r L. change (MExpectOpen context [no_error_1], o) with (nth 0 [(MExpectOpen context [no_error_1], o)] (MExpectClose, o)).
    replace (nth 0 [(MExpectOpen context [no_error_1], o)] (MExpectClose, o) :: t1 ++ t3 ++ (statement st, o3) :: ts ++ x :: r) with (([(MExpectOpen context [no_error_1], o)] ++ t1 ++ t3 ++ [(statement st, o3)] ++ ts) ++ x :: r)
      by (cbn [nth]; rewrite <- !app_assoc; reflexivity).
    rewrite nth_error_app2; rewrite !app_length; cbn [List.length]; [|lia]. replace (_ - _)%nat with 0%nat by lia. reflexivity. }
  destruct C3 as [(-> & -> & ->)|(N3 & ->)].
  - (* begun *)
    assert (C1' := C2 eq_refl). destruct C1' as [-> E2]. destruct (C1 eq_refl) as [-> E1]. destruct C0 as [[-> _]|[_ X]]; [|discriminate].
    assert (Gi : exists t6 t7 f4, t5 = t6 ++ t7 /\ map fst t6 = inner /\ serve p [mkblock true f4] [commit; MExpectClose] t7 /\ (f4 = false -> false = false /\ Forall executed t6)).
    { destruct Hpr as [->|Hpr]; [apply serve_strict; assumption|apply serve_ordinary; assumption]. }
    destruct Gi as (t6 & t7 & f4 & -> & M6 & S6 & C6). destruct (serve_one p f4 [] commit _ _ I S6) as (o7 & f7 & t8 & -> & S7 & C7).
    assert (L6 : List.length t6 = List.length inner) by (rewrite <- M6; symmetry; apply map_length).
    assert (X : exists ox, t8 = [(MExpectClose, ox)] /\ (f7 = false -> ox = Executed)).
    { clear - S7. serving S7; try destruct Od; (assert (tr' = []) by (match goal with K : serve _ _ [] _ |- _ => inversion K; reflexivity end); subst); eexists; (split; [reflexivity|]); cbn in R; [reflexivity|congruence]. }
    destruct X as (ox & -> & Cx).
    assert (Pi : Forall (fun t => plain (fst t)) t6) by (apply executed_fst; rewrite M6; exact Hi).
    destruct (play_plain t6 [] (durable s ++ pending s) Pi) as (q & Q1 & Q2). cbn [app] in Q1.
    assert (Qp : exists unmade, changes inner = q ++ unmade).
    { destruct (serve_prefix p inner Hst Hpr _ _ _ _ S3) as (x & y & t9 & f9 & E9 & M9 & X9 & Y9 & _).
      assert (t6 = x ++ y).
      { assert (L9 : List.length t6 = List.length (x ++ y)) by (rewrite L6, <- M9, map_length; reflexivity). apply (f_equal (firstn (List.length t6))) in E9.
        rewrite firstn_app, Nat.sub_diag, firstn_O, app_nil_r, firstn_all in E9. rewrite L9 in E9. rewrite firstn_app, Nat.sub_diag, firstn_O, app_nil_r, firstn_all in E9. exact E9. }
      subst t6. apply Forall_app in Pi as [Px _]. destruct (play_plain x [] (durable s ++ pending s) Px) as (qx & Qx & Qc). cbn [app] in Qx. rewrite play_app, Qx, (play_idle y _ Y9) in Q1. injection Q1 as <-.
      rewrite (Qc X9). exists (changes (map fst y)). rewrite <- M6, map_app. unfold changes. apply filter_app. }
    assert (Pl : forall o tt, play ((MExpectOpen context [no_error_1], o) :: t1 ++ t3 ++ (statement st, Executed) :: t6 ++ tt) s = play tt (mksess (Some q) (durable s ++ pending s))).
    { intros o tt. rewrite P0, play_cons, play_app. unfold play1 at 1. cbn [fst snd]. rewrite Hs, Q1. reflexivity. }
    assert (Lw : forall tt, lv <> [] -> lawful s ((MExpectOpen context [no_error_1], Executed) :: t1 ++ t3 ++ tt) -> in_progress s = None).
    { intros tt Hne La. destruct t3 as [|[m o] t3]; [destruct lv; [congruence|discriminate L2]|]. pose proof (Forall_inv E2) as X. unfold executed in X. cbn in X. subst o. cbn [map fst] in M2.
      specialize (La ((MExpectOpen context [no_error_1], Executed) :: t1) m (t3 ++ tt) eq_refl).
      assert (effect_of m = SetsLevel) as Em by (destruct lv as [|x lv]; [discriminate M2|]; cbn in M2; injection M2 as -> _; inversion Hl; assumption).
      specialize (La Em). rewrite play_cons in La. rewrite (play_nothing t1 _ N1) in La. exact La. }
    destruct C7 as [(-> & -> & ->)|(N7 & ->)].
    + left. destruct (C6 eq_refl) as [_ E6]. rewrite (Cx eq_refl). split; [apply Pos; exact L6|]. split.
      * constructor; [reflexivity|]. rewrite !Forall_app. split; [exact E1|]. split; [exact E2|]. constructor; [reflexivity|]. apply Forall_app. split; [exact E6|]. repeat constructor.
      * split; [|intros Hne La; eapply Lw; [exact Hne|exact La]]. rewrite Pl, (Q2 E6), M6. cbn. unfold pending at 1. cbn. rewrite app_assoc. reflexivity.
    + right. exists o7. split; [apply Pos; exact L6|]. split; [exact N7|]. left. split; [|intros Hne La; eapply Lw; [exact Hne|exact La]]. destruct Qp as [unmade Qp]. exists q, unmade. split; [exact Qp|]. rewrite Pl. cbn [play fold_left play1 fst snd]. destruct o7; [congruence| |]; destruct ox; reflexivity.
  - (* not begun *)
    destruct (serve_failed p inner Hst _ _ _ _ S3) as (t6 & t7 & -> & M6 & F6 & S6). destruct (serve_one p true [] commit _ _ I S6) as (o7 & f7 & t8 & -> & S7 & C7).
    destruct C7 as [(_ & X & _)|(N7 & _)]; [discriminate|].
    assert (L6 : List.length t6 = List.length inner) by (rewrite <- M6; symmetry; apply map_length).
    right. exists o7. split; [apply Pos; exact L6|]. split; [exact N7|]. right. rewrite P0, play_cons, play_app.
    replace (play1 s (statement st, o3)) with s by (destruct o3; [congruence|reflexivity..]). rewrite (play_idle t6 s F6). rewrite play_cons. replace (play1 s (commit, o7)) with s by (destruct o7; [congruence|reflexivity..]).
    apply play_nothing. assert (M8 : map fst t8 = [MExpectClose]) by (eapply serve_msgs; exact S7). apply (effects_fst t8 (fun m => m = MExpectClose)); [rewrite M8; repeat constructor|]. intros m ->. left. reflexivity.
Qed.

(* What a delivered unit of work says. *)
Lemma unit_delivered : forall (E : Env) b context cs level body bs, empty b -> Forall prepares cs ->
  prog_ok word32 (unit_of_work context cs level body) -> delivers b (unit_of_work context cs level body) bs -> (nlen bs < 2 ^ 32)%N ->
  exists opening prepared inner ids out, tx_opening level = Some opening /\ Forall2 call_denotes cs prepared /\ prog_msgs body inner ids out /\
    dstream bs = Some (unit_messages context prepared opening inner) /\
    Forall (fun m => exists id q, m = MPrepare id q) prepared /\ strict inner.
Proof.
  intros E b context cs level body bs He Hc Hok Hd Hl. unfold unit_of_work, readme_unit in *.
  destruct (ThmBuilder.C08_sent_is_what_was_written E b _ bs He Hok Hd Hl) as (ms & ids & out & Hm & Hp).
  inversion Hp as [| | |? ? ? open ms1 ids1 out1 ms2 ids2 ? Ho H1 H2]; subst. cbn [opening closing] in Ho. injection Ho as <-.
  destruct (calls_then_msgs _ _ _ _ _ H1) as (prepared & mt & -> & Fc & Ht).
  inversion Ht as [| | |? ? ? open' inner idsi outi msn idsn ? Ho' Hb Hn]; subst. cbn [opening closing] in *. destruct (tx_opening level) as [l|] eqn:Hlv; [|discriminate]. injection Ho' as <-.
  inversion Hn; subst. inversion H2; subst.
  exists l, prepared, inner, idsi, outi. split; [reflexivity|]. split; [exact Fc|]. split; [exact Hb|]. split.
  - rewrite Hm. f_equal. unfold unit_messages, commit, statement, no_error_1. cbn [app]. f_equal. rewrite <- !app_assoc. cbn [app]. reflexivity.
  - split; [|exact (prog_strict _ _ _ _ Hb)]. clear - Fc Hc. induction Fc as [|c m cs ms Hcm Fc IH]; [constructor|]. inversion_clear Hc as [|? ? A B]. constructor; [|exact (IH B)]. destruct Hcm; try destruct A. eauto.
Qed.

(* ---- C63: all or nothing ---- *)

(* As the last unit of a session without a transaction in progress: everything, or nothing. *)
Theorem C63_all_or_nothing_partial : forall (E : Env) b context cs level body bs, empty b -> Forall prepares cs ->
  prog_ok word32 (unit_of_work context cs level body) -> delivers b (unit_of_work context cs level body) bs -> (nlen bs < 2 ^ 32)%N ->
  exists opening prepared inner ids out, tx_opening level = Some opening /\ Forall2 call_denotes cs prepared /\ prog_msgs body inner ids out /\
    dstream bs = Some (unit_messages context prepared opening inner) /\
    forall propagates tr s, Forall plain inner -> propagates = true \/ Forall ordinary inner ->
      serve propagates [] (unit_messages context prepared opening inner) tr -> in_progress s = None ->
      let position := (1 + List.length prepared + List.length opening + List.length inner)%nat in
      (nth_error tr position = Some (commit, Executed) -> play tr s = mksess None (durable s ++ changes inner)) /\
      (nth_error tr position <> Some (commit, Executed) -> durable (play tr s) = durable s).
Proof.
  intros E b context cs level body bs He Hc Hok Hd Hl. destruct (unit_delivered E b context cs level body bs He Hc Hok Hd Hl) as (l & prepared & inner & ids & out & A1 & A2 & A3 & A4 & A5 & A6).
  exists l, prepared, inner, ids, out. repeat (split; [assumption|]). intros p tr s Hp Hpr Hs Hn. cbn zeta. destruct (opening_shape level l A1) as (lv & st & -> & B1 & B2 & _).
  assert (P : pending s = []) by (unfold pending; rewrite Hn; reflexivity).
  destruct (unit_played p context prepared lv st inner tr s A5 B1 B2 Hp A6 Hpr Hs) as [(C1 & _ & C2 & _)|(o & C1 & C2 & C3)].
  - split; [|congruence]. intros _. rewrite C2, P. reflexivity.
  - split; [intros X; congruence|]. intros _. destruct C3 as [((q & unmade & _ & ->) & _)| ->]; [|reflexivity]. cbn. rewrite P, app_nil_r. reflexivity.
Qed.

(* But a session goes on: the connection is back in the pool. A unit whose COMMIT the server skipped leaves its
   transaction in progress, and the next unit that begins one makes those changes durable, all of them that were executed. *)
Theorem C63_next_unit_commits_the_rest : forall (E : Env) b context cs level body bs, empty b -> Forall prepares cs ->
  prog_ok word32 (unit_of_work context cs level body) -> delivers b (unit_of_work context cs level body) bs -> (nlen bs < 2 ^ 32)%N ->
  exists opening prepared inner ids out, tx_opening level = Some opening /\ Forall2 call_denotes cs prepared /\ prog_msgs body inner ids out /\
    dstream bs = Some (unit_messages context prepared opening inner) /\
    forall propagates tr s rest, Forall plain inner -> propagates = true \/ Forall ordinary inner ->
      serve propagates [] (unit_messages context prepared opening inner) tr -> in_progress s = Some rest ->
      Forall executed tr -> play tr s = mksess None (durable s ++ rest ++ changes inner).
Proof.
  intros E b context cs level body bs He Hc Hok Hd Hl. destruct (unit_delivered E b context cs level body bs He Hc Hok Hd Hl) as (l & prepared & inner & ids & out & A1 & A2 & A3 & A4 & A5 & A6).
  exists l, prepared, inner, ids, out. repeat (split; [assumption|]). intros p tr s rest Hp Hpr Hs Hn Hex. destruct (opening_shape level l A1) as (lv & st & -> & B1 & B2 & _).
  assert (P : pending s = rest) by (unfold pending; rewrite Hn; reflexivity).
  destruct (unit_played p context prepared lv st inner tr s A5 B1 B2 Hp A6 Hpr Hs) as [(C1 & _ & C2 & _)|(o & C1 & C2 & C3)].
  - rewrite C2, P. reflexivity.
  - apply nth_error_In in C1. rewrite Forall_forall in Hex. specialize (Hex _ C1). unfold executed in Hex. cbn in Hex. congruence.
Qed.

(* ---- C64: one unit does not spoil the next ---- *)

(* It may: after a unit whose COMMIT was skipped every unit that asks for an isolation level fails on that connection,
   whatever it does, and leaves things as they are. *)
Theorem C64_connection_is_spoilt_refuted : forall (E : Env) b context cs level body bs, empty b -> Forall prepares cs ->
  prog_ok word32 (unit_of_work context cs level body) -> delivers b (unit_of_work context cs level body) bs -> (nlen bs < 2 ^ 32)%N -> In level [1; 2; 3; 4]%N ->
  exists opening prepared inner ids out, tx_opening level = Some opening /\ Forall2 call_denotes cs prepared /\ prog_msgs body inner ids out /\
    dstream bs = Some (unit_messages context prepared opening inner) /\
    forall propagates tr s rest, Forall plain inner -> propagates = true \/ Forall ordinary inner ->
      serve propagates [] (unit_messages context prepared opening inner) tr -> lawful s tr -> in_progress s = Some rest ->
      nth_error tr (1 + List.length prepared + List.length opening + List.length inner) <> Some (commit, Executed) /\ play tr s = s.
Proof.
  intros E b context cs level body bs He Hc Hok Hd Hl Hlev. destruct (unit_delivered E b context cs level body bs He Hc Hok Hd Hl) as (l & prepared & inner & ids & out & A1 & A2 & A3 & A4 & A5 & A6).
  exists l, prepared, inner, ids, out. repeat (split; [assumption|]). intros p tr s rest Hp Hpr Hs La Hn. destruct (opening_shape level l A1) as (lv & st & -> & B1 & B2 & B3). apply B3 in Hlev.
  destruct (unit_played p context prepared lv st inner tr s A5 B1 B2 Hp A6 Hpr Hs) as [(_ & _ & _ & C)|(o & C1 & C2 & [[_ C]|C])].
  - specialize (C Hlev La). congruence.
  - specialize (C Hlev La). congruence.
  - split; [congruence|exact C].
Qed.

(* A unit that runs to its end leaves no transaction in progress, so the next one starts afresh. *)
Theorem C64_success_leaves_nothing_partial : forall (E : Env) b context cs level body bs, empty b -> Forall prepares cs ->
  prog_ok word32 (unit_of_work context cs level body) -> delivers b (unit_of_work context cs level body) bs -> (nlen bs < 2 ^ 32)%N ->
  exists opening prepared inner ids out, tx_opening level = Some opening /\ Forall2 call_denotes cs prepared /\ prog_msgs body inner ids out /\
    dstream bs = Some (unit_messages context prepared opening inner) /\
    forall propagates tr s, Forall plain inner -> propagates = true \/ Forall ordinary inner ->
      serve propagates [] (unit_messages context prepared opening inner) tr -> Forall (fun t => snd t <> Failed) tr -> in_progress s = None ->
      Forall executed tr /\ play tr s = mksess None (durable s ++ changes inner).
Proof.
  intros E b context cs level body bs He Hc Hok Hd Hl. destruct (unit_delivered E b context cs level body bs He Hc Hok Hd Hl) as (l & prepared & inner & ids & out & A1 & A2 & A3 & A4 & A5 & A6).
  exists l, prepared, inner, ids, out. repeat (split; [assumption|]). intros p tr s Hp Hpr Hs Hf Hn. destruct (opening_shape level l A1) as (lv & st & -> & B1 & B2 & _).
  pose proof (C47_all_executed_if_nothing_fails p _ _ Hs Hf) as X. split; [exact X|].
  assert (P : pending s = []) by (unfold pending; rewrite Hn; reflexivity).
  destruct (unit_played p context prepared lv st inner tr s A5 B1 B2 Hp A6 Hpr Hs) as [(_ & _ & C & _)|(o & C1 & C2 & _)]; [rewrite C, P; reflexivity|].
  apply nth_error_In in C1. rewrite Forall_forall in X. specialize (X _ C1). unfold executed in X. cbn in X. congruence.
Qed.

(* ---- the whole story, with a pool ---- *)

Definition insert_n (n : string) : call := CStmtExecute (s2b "INSERT INTO t VALUES " ++ s2b n) [].
Definition two_rows : prog := unit_of_work 0 [] 0 (PCall 0 (insert_n "(1)") (PCall 0 (insert_n "(2)") (Ret None []))).
Definition one_row : prog := unit_of_work 0 [] 0 (PCall 0 (insert_n "(3)") (Ret None [])).
Definition one_row_serializable : prog := unit_of_work 0 [] 4 (PCall 0 (insert_n "(3)") (Ret None [])).

(* What building and sending it gives. *)
Definition sent_by (pr : prog) : bytes :=
  match @Builder.run ThmBuilder.plain pr [new_pipe 0] with
  | Ok ([b], _) => match send b with Ok (inl bs) => bs | _ => [] end
  | _ => []
  end.
Definition insert_of (n : string) : msg := statement (s2b "INSERT INTO t VALUES " ++ s2b n).
(* The server does this with it: *)
Definition begin_tx : msg := statement (s2b "START TRANSACTION").
Definition open_block : msg := MExpectOpen 0 [no_error_1].
Definition trace_a : list (msg * outcome) :=   (* the second row exists already *)
  [(open_block, Executed); (begin_tx, Executed); (insert_of "(1)", Executed); (insert_of "(2)", Failed); (commit, Skipped); (MExpectClose, Failed)].
Definition trace_b : list (msg * outcome) :=
  [(open_block, Executed); (begin_tx, Executed); (insert_of "(3)", Executed); (commit, Executed); (MExpectClose, Executed)].
(* and answers accordingly: *)
Definition expect_failed : server_error := mkse 0 5159 (s2b "HY000") (s2b "Expectation failed: no_error").
Definition reply_for (o : outcome) : reply :=
  match o with Executed => mkreply [] (0, []) | Failed => mkreply [] (1, error_bytes ThmConn.dup) | Skipped => mkreply [] (1, error_bytes expect_failed) end%N.
Definition response_for (o : outcome) : response := match o with Executed => None | Failed => Some ThmConn.dup | Skipped => Some expect_failed end.
Definition exchanges_of (bs : bytes) (tr : list (msg * outcome)) : list exchange :=
  match dframes bs with
  | Some fs => map (fun x => mkx (fst x) (reply_for (snd x)) (response_for (snd x))) (combine fs (map snd tr))
  | None => []
  end.
Lemma exchanges_of_ok : forall bs fs tr, dframes bs = Some fs -> Forall (fun f => 1 + nlen (snd f) < 2 ^ 32)%N fs -> Forall (exchange_ok false) (exchanges_of bs tr).
Proof.
  intros bs fs tr Hf Hl. unfold exchanges_of. rewrite Hf. apply Forall_map. apply Forall_forall. intros [f o] Hin. apply in_combine_l in Hin. rewrite Forall_forall in Hl. split; [exact (Hl f Hin)|].
  destruct o; (split; [constructor|]); (split; [|repeat constructor; vm_compute; reflexivity]).
  - cbn. tauto.
  - split; [reflexivity|]. apply ThmConn.error_bytes_message; try (vm_compute; reflexivity); vm_compute; repeat constructor.
  - split; [reflexivity|]. apply ThmConn.error_bytes_message; try (vm_compute; reflexivity); vm_compute; repeat constructor.
Qed.

Definition quiet_conn : conn := mkc Tcp (mkr [] [] IoEOF) [] [] [].
(* Two Sends, one after the other, on a pool of one. *)
Definition two_sends (a b : bytes) (ca cb : list bytes) : list System.action :=
  [System.CallSend None a; System.Step (Pool.Default 0); System.Connected 0 quiet_conn; System.Exchange 0 ca; System.Step (Pool.Return 0);
   System.CallSend None b; System.Step (Pool.Receive 1); System.Exchange 1 cb; System.Step (Pool.Return 1)].

Lemma sent_by_frames : forall pr, In pr [two_rows; one_row; one_row_serializable] -> @delivers ThmBuilder.plain (new_pipe 0) pr (sent_by pr) /\
  exists fs, dframes (sent_by pr) = Some fs /\ Forall (fun f => 1 + nlen (snd f) < 2 ^ 32)%N fs.
Proof.
  intros pr [<-|[<-|[<-|[]]]]; (split; [do 2 eexists; split; vm_compute; reflexivity|]); eexists; (split; [vm_compute; reflexivity|]); repeat constructor; vm_compute; reflexivity.
Qed.

(* C63: the failed unit's first row is made durable by the second unit, which is another caller's. Both Sends returned
   a nil error; the first caller saw that the COMMIT was skipped. *)
Theorem C63_failed_unit_becomes_durable_refuted : exists a b ca cb said s,
  @delivers ThmBuilder.plain (new_pipe 0) two_rows a /\ dstream a = Some (map fst trace_a) /\ serve true [] (map fst trace_a) trace_a /\ ~ In (commit, Executed) trace_a /\
  @delivers ThmBuilder.plain (new_pipe 0) one_row b /\ dstream b = Some (map fst trace_b) /\ serve true [] (map fst trace_b) trace_b /\ lawful (mksess None []) (trace_a ++ trace_b) /\
  System.run false (two_sends a b ca cb) (System.new_system 1) = Some s /\ SpecSystem.sends said s /\ Forall (SpecSystem.serves false said) (two_sends a b ca cb) /\
  SpecSystem.users 0 (SpecPool.history (System.pool s)) = [0; 1]%nat /\
  SpecSystem.got s 0 (map (fun t => response_for (snd t)) trace_a) None /\ SpecSystem.got s 1 (map (fun t => response_for (snd t)) trace_b) None /\
  durable (play trace_a (mksess None [])) = [] /\ durable (play (trace_a ++ trace_b) (mksess None [])) = [insert_of "(1)"; insert_of "(3)"].
Proof.
  set (xa := exchanges_of (sent_by two_rows) trace_a). set (xb := exchanges_of (sent_by one_row) trace_b).
  exists (sent_by two_rows), (sent_by one_row), [replies_bytes xa], [replies_bytes xb], (fun i => match i with 0 => xa | _ => xb end)%nat. eexists.
  destruct (sent_by_frames two_rows) as (Da & fa & Fa1 & Fa2); [cbn; auto|]. destruct (sent_by_frames one_row) as (Db & fb & Fb1 & Fb2); [cbn; auto|].
  split; [exact Da|]. split; [vm_compute; reflexivity|]. split.
  { apply S_open; [reflexivity|]. apply S_exec; [exact I|reflexivity|]. apply S_exec; [exact I|reflexivity|]. apply S_fail; [exact I|reflexivity|]. apply S_skip; [exact I|reflexivity|]. apply S_close_failed; [reflexivity|]. constructor. }
  split; [intros H; vm_compute in H; intuition discriminate|]. split; [exact Db|]. split; [vm_compute; reflexivity|]. split.
  { apply S_open; [reflexivity|]. repeat (apply S_exec; [exact I|reflexivity|]). apply S_close; [reflexivity|]. constructor. }
  split.
  { intros t1 m t2 He Hm. exfalso. assert (Hin : In (m, Executed) (trace_a ++ trace_b)) by (rewrite He; apply in_or_app; right; left; reflexivity).
    revert Hm. cbn [trace_a trace_b app] in Hin. repeat (destruct Hin as [Hin|Hin]; [first [discriminate Hin|injection Hin as <-; vm_compute; discriminate]|]). destruct Hin. }
  split; [vm_compute; reflexivity|]. split.
  { intros i d u. cbn [System.units]. destruct i as [|[|i]]; cbn [nth_error]; [intros [= _ <-]; vm_compute; reflexivity|intros [= _ <-]; vm_compute; reflexivity|destruct i; discriminate]. }
  split.
  { unfold two_sends. repeat (apply Forall_cons; [cbn [SpecSystem.serves]; try exact I; try reflexivity|]); [| |apply Forall_nil].
    - split; [eapply exchanges_of_ok; eassumption|]. exists []. cbn [concat]. rewrite !app_nil_r. reflexivity.
    - split; [eapply exchanges_of_ok; eassumption|]. exists []. cbn [concat]. rewrite !app_nil_r. reflexivity. }
  split; [vm_compute; reflexivity|]. split; [right; left; vm_compute; reflexivity|]. split; [left; vm_compute; reflexivity|]. split; vm_compute; reflexivity.
Qed.

(* A transaction inside a transaction: the inner one makes the outer one's changes durable, although the outer COMMIT is skipped. *)
Definition tx_in_tx : prog := unit_of_work 0 [] 0
  (PCall 0 (insert_n "(1)") (PBlock 0 (KTx 0) (PCall 0 (insert_n "(2)") (Ret None [])) (fun _ => PCall 0 (insert_n "(3)") (Ret None [])))).
Definition trace_nested : list (msg * outcome) :=
  [(open_block, Executed); (begin_tx, Executed); (insert_of "(1)", Executed); (begin_tx, Executed); (insert_of "(2)", Executed); (commit, Executed);
   (insert_of "(3)", Failed); (commit, Skipped); (MExpectClose, Failed)].
Theorem C63_nested_transaction_refuted : exists bs,
  @delivers ThmBuilder.plain (new_pipe 0) tx_in_tx bs /\ prog_ok false tx_in_tx /\ dstream bs = Some (map fst trace_nested) /\ serve true [] (map fst trace_nested) trace_nested /\
  nth_error trace_nested 7 = Some (commit, Skipped) /\ durable (play trace_nested (mksess None [])) = [insert_of "(1)"; insert_of "(2)"].
Proof.
  eexists. split; [do 2 eexists; split; vm_compute; reflexivity|]. split; [cbn; repeat split; try constructor; intros; repeat constructor|]. split; [vm_compute; reflexivity|]. split; [|split; vm_compute; reflexivity].
  apply S_open; [reflexivity|]. do 5 (apply S_exec; [exact I|reflexivity|]). apply S_fail; [exact I|reflexivity|]. apply S_skip; [exact I|reflexivity|]. apply S_close_failed; [reflexivity|]. constructor.
Qed.

(* The hypotheses of the theorems are met: by two_rows and its trace, *)
Example two_rows_meets : exists bs inner, @delivers ThmBuilder.plain (new_pipe 0) two_rows bs /\ prog_ok false two_rows /\ (nlen bs < 2 ^ 32)%N /\ map fst trace_a = unit_messages 0 [] [s2b "START TRANSACTION"] inner /\
  Forall SpecSession.plain inner /\ Forall ordinary inner /\ serve true [] (map fst trace_a) trace_a /\ play trace_a (mksess None []) = mksess (Some [insert_of "(1)"]) [].
Proof.
  eexists (sent_by two_rows), [insert_of "(1)"; insert_of "(2)"]. split; [apply sent_by_frames; cbn; auto|]. split; [cbn; repeat split; try constructor; intros; repeat constructor|]. split; [vm_compute; reflexivity|]. split; [reflexivity|].
  split; [repeat constructor; left; vm_compute; reflexivity|]. split; [repeat constructor|]. split; [|vm_compute; reflexivity].
  apply S_open; [reflexivity|]. apply S_exec; [exact I|reflexivity|]. apply S_exec; [exact I|reflexivity|]. apply S_fail; [exact I|reflexivity|]. apply S_skip; [exact I|reflexivity|]. apply S_close_failed; [reflexivity|]. constructor.
Qed.
(* and by a unit that asks for an isolation level after it: it cannot succeed. *)
Definition set_serializable : msg := statement (s2b "SET TRANSACTION ISOLATION LEVEL SERIALIZABLE").
Definition trace_spoilt : list (msg * outcome) :=
  [(open_block, Executed); (set_serializable, Failed); (begin_tx, Skipped); (insert_of "(3)", Skipped); (commit, Skipped); (MExpectClose, Failed)].
Example spoilt_meets : dstream (sent_by one_row_serializable) = Some (map fst trace_spoilt) /\ prog_ok false one_row_serializable /\ serve true [] (map fst trace_spoilt) trace_spoilt /\
  lawful (play trace_a (mksess None [])) trace_spoilt /\ in_progress (play trace_a (mksess None [])) = Some [insert_of "(1)"].
Proof.
  split; [vm_compute; reflexivity|]. split; [cbn; repeat split; try constructor; intros; repeat constructor|]. split.
  { apply S_open; [reflexivity|]. apply S_fail; [exact I|reflexivity|]. do 3 (apply S_skip; [exact I|reflexivity|]). apply S_close_failed; [reflexivity|]. constructor. }
  split; [|vm_compute; reflexivity]. intros t1 m t2 He Hm. exfalso. assert (Hin : In (m, Executed) trace_spoilt) by (rewrite He; apply in_or_app; right; left; reflexivity).
  revert Hm. cbn [trace_spoilt] in Hin. repeat (destruct Hin as [Hin|Hin]; [first [discriminate Hin|injection Hin as <-; vm_compute; discriminate]|]). destruct Hin.
Qed.
(* On a session without a transaction in progress the same unit succeeds. *)
Example serializable_succeeds : let tr := map (fun m => (m, Executed)) (map fst trace_spoilt) in
  serve true [] (map fst trace_spoilt) tr /\ play tr (mksess None []) = mksess None [insert_of "(3)"].
Proof. split; [|vm_compute; reflexivity]. apply S_open; [reflexivity|]. do 4 (apply S_exec; [exact I|reflexivity|]). apply S_close; [reflexivity|]. constructor. Qed.

Print Assumptions C63_all_or_nothing_partial.
Print Assumptions C63_next_unit_commits_the_rest.
Print Assumptions C63_failed_unit_becomes_durable_refuted.
Print Assumptions C63_nested_transaction_refuted.
Print Assumptions C64_connection_is_spoilt_refuted.
Print Assumptions C64_success_leaves_nothing_partial.
