(* What the server does with a unit of work: C47. *)
From Coq Require Import String List NArith Bool Lia.
From Coq Require Import List.
From Verif Require Import Base GoSlice SpecWire SpecMsg Text Values SpecValue MsgModel Builder SpecProg SpecUnit ShapeProofs ThmBuilder SpecServer.
Import ListNotations.
Open Scope N_scope.
Open Scope list_scope.

(* Blocks as ExpectFailOnError opens them. *)
Inductive strict : list msg -> Prop :=
| St_nil : strict []
| St_other m ms : ordinary m -> strict ms -> strict (m :: ms)
| St_block op body ms : strict body -> strict ms -> strict (MExpectOpen op [no_error_1] :: body ++ MExpectClose :: ms).

Lemma strict_app : forall a b, strict a -> strict b -> strict (a ++ b).
Proof. intros a b Ha Hb. induction Ha as [|m ms H Ha IH|op body ms Hbo IHb Ha IH]; cbn [app]; [exact Hb|constructor; assumption|]. rewrite <- app_assoc. cbn [app]. constructor; assumption. Qed.
Lemma strict_statements : forall l, strict (map statement l).
Proof. induction l as [|s l IH]; cbn [map]; constructor; [exact I|exact IH]. Qed.
Lemma prog_strict : forall pr ms ids out, prog_msgs pr ms ids out -> strict ms.
Proof.
  intros pr ms ids out H. induction H as [|c next m ms ids out Hc H IH|name cols row next id es ms ids out Hr H IH|k body next open ms1 ids1 out1 ms2 ids2 out Ho H1 IH1 H2 IH2].
  - constructor.
  - constructor; [destruct Hc; exact I|exact IH].
  - constructor; [exact I|]. constructor; [exact I|exact IH].
  - destruct k as [level|ctx]; cbn [opening closing] in *.
    + destruct (tx_opening level) as [l|]; [|discriminate]. injection Ho as <-. apply strict_app; [apply strict_statements|]. apply strict_app; [exact IH1|]. constructor; [exact I|exact IH2].
    + injection Ho as <-. cbn [app]. apply St_block; [exact IH1|exact IH2].
Qed.

(* Inside a "no error" block: if it has not failed after strict messages, they all were executed. *)
Lemma serve_strict : forall ms, strict ms -> forall f st rest tr, serve true (mkblock true f :: st) (ms ++ rest) tr ->
  exists tr1 tr2 f', tr = tr1 ++ tr2 /\ map fst tr1 = ms /\ serve true (mkblock true f' :: st) rest tr2 /\ (f' = false -> f = false /\ Forall executed tr1).
Proof.
  intros ms Hm. induction Hm as [|m ms Ho Hm IH|op body ms Hb IHb Hm IH]; intros f st rest tr H.
  - exists [], tr, f. auto.
  - cbn [app] in H. inversion H as [|? ? ? tr' Od R H'|? ? ? tr' Od R H'|? ? ? tr' Od R H'|? ? ? ? tr' R H'|? ? ? ? tr' R H'|? ? ? ? tr' R H'|? ? ? tr' R H'|? ? ? tr' R H'|]; subst; try destruct Ho.
    + destruct (IH _ _ _ _ H') as (t1 & t2 & f' & -> & <- & S & F). exists ((m, Skipped) :: t1), t2, f'. split; [reflexivity|]. split; [reflexivity|]. split; [exact S|]. intros Z. destruct (F Z) as [Zf _]. cbn in R. congruence.
    + destruct (IH _ _ _ _ H') as (t1 & t2 & f' & -> & <- & S & F). exists ((m, Executed) :: t1), t2, f'. split; [reflexivity|]. split; [reflexivity|]. split; [exact S|]. intros Z. destruct (F Z) as [Zf Fa]. split; [exact Zf|]. constructor; [reflexivity|exact Fa].
    + cbn [fail_top no_error has_failed] in H'. rewrite orb_true_r in H'. destruct (IH _ _ _ _ H') as (t1 & t2 & f' & -> & <- & S & F). exists ((m, Failed) :: t1), t2, f'. split; [reflexivity|]. split; [reflexivity|]. split; [exact S|]. intros Z. destruct (F Z) as [Zf _]. discriminate Zf.
  - assert (Op : forall s, opened op [no_error_1] s = true) by (intros s; unfold opened; rewrite orb_comm; reflexivity).
    rewrite <- app_comm_cons, <- app_assoc in H. cbn [app] in H.
    assert (G : exists o f0 tr', tr = (MExpectOpen op [no_error_1], o) :: tr' /\ serve true (mkblock true f0 :: mkblock true f :: st) (body ++ MExpectClose :: ms ++ rest) tr' /\ (f0 = false -> f = false /\ o = Executed)).
    { inversion H as [|? ? ? tr' Od R H'|? ? ? tr' Od R H'|? ? ? tr' Od R H'|? ? ? ? tr' R H'|? ? ? ? tr' R H'|? ? ? ? tr' R H'|? ? ? tr' R H'|? ? ? tr' R H'|]; subst; try destruct Od; rewrite Op in H'; do 3 eexists; (split; [reflexivity|]); (split; [exact H'|]); cbn in R; auto; discriminate. }
    destruct G as (o & f0 & tr' & -> & H' & F0). destruct (IHb _ _ _ _ H') as (t1 & t2 & f1 & -> & <- & S1 & F1).
    assert (G : exists o' f2 t3, t2 = (MExpectClose, o') :: t3 /\ serve true (mkblock true f2 :: st) (ms ++ rest) t3 /\ (f2 = false -> f = false /\ f1 = false /\ o' = Executed)).
    { inversion S1 as [|? ? ? tr2 Od R K|? ? ? tr2 Od R K|? ? ? tr2 Od R K|? ? ? ? tr2 R K|? ? ? ? tr2 R K|? ? ? ? tr2 R K|? ? ? tr2 R K|? ? ? tr2 R K|]; subst; try destruct Od; cbn in R; do 3 eexists; (split; [reflexivity|]).
      - split; [exact K|auto].
      - cbn [fail_top no_error has_failed] in K. rewrite orb_true_r in K. split; [exact K|discriminate]. }
    destruct G as (o' & f2 & t3 & -> & S2 & F2). destruct (IH _ _ _ _ S2) as (t4 & t5 & f3 & -> & <- & S3 & F3).
    exists ((MExpectOpen op [no_error_1], o) :: t1 ++ (MExpectClose, o') :: t4), t5, f3. split; [cbn [app]; rewrite <- app_assoc; reflexivity|]. split; [cbn [map fst]; rewrite map_app; reflexivity|]. split; [exact S3|].
    intros Z. destruct (F3 Z) as [Z2 A4]. destruct (F2 Z2) as (Zf & Z1 & ->). destruct (F1 Z1) as [Z0 A1]. destruct (F0 Z0) as [_ ->]. split; [exact Zf|]. constructor; [reflexivity|]. apply Forall_app. split; [exact A1|]. constructor; [reflexivity|exact A4].
Qed.

Lemma serve_ordinary : forall p ms, Forall ordinary ms -> forall f st rest tr, serve p (mkblock true f :: st) (ms ++ rest) tr ->
  exists tr1 tr2 f', tr = tr1 ++ tr2 /\ map fst tr1 = ms /\ serve p (mkblock true f' :: st) rest tr2 /\ (f' = false -> f = false /\ Forall executed tr1).
Proof.
  intros p ms Hm. induction Hm as [|m ms Ho Hm IH]; intros f st rest tr H.
  - exists [], tr, f. auto.
  - cbn [app] in H. inversion H as [|? ? ? tr' Od R H'|? ? ? tr' Od R H'|? ? ? tr' Od R H'|? ? ? ? tr' R H'|? ? ? ? tr' R H'|? ? ? ? tr' R H'|? ? ? tr' R H'|? ? ? tr' R H'|]; subst; try destruct Ho.
    + destruct (IH _ _ _ _ H') as (t1 & t2 & f' & -> & <- & S & F). exists ((m, Skipped) :: t1), t2, f'. split; [reflexivity|]. split; [reflexivity|]. split; [exact S|]. intros Z. destruct (F Z) as [Zf _]. cbn in R. congruence.
    + destruct (IH _ _ _ _ H') as (t1 & t2 & f' & -> & <- & S & F). exists ((m, Executed) :: t1), t2, f'. split; [reflexivity|]. split; [reflexivity|]. split; [exact S|]. intros Z. destruct (F Z) as [Zf Fa]. split; [exact Zf|]. constructor; [reflexivity|exact Fa].
    + cbn [fail_top no_error has_failed] in H'. rewrite orb_true_r in H'. destruct (IH _ _ _ _ H') as (t1 & t2 & f' & -> & <- & S & F). exists ((m, Failed) :: t1), t2, f'. split; [reflexivity|]. split; [reflexivity|]. split; [exact S|]. intros Z. destruct (F Z) as [Zf _]. discriminate Zf.
Qed.

Lemma serve_msgs : forall b st ms tr, serve b st ms tr -> map fst tr = ms.
Proof. intros b st ms tr H. induction H; cbn [map fst]; congruence. Qed.

(* The calls cs, then pr. *)
Fixpoint calls_then (cs : list call) (pr : prog) : prog := match cs with [] => pr | c :: cs => PCall 0 c (calls_then cs pr) end.
Lemma calls_then_msgs : forall cs pr ms ids out, prog_msgs (calls_then cs pr) ms ids out -> exists ms1 ms2, ms = ms1 ++ ms2 /\ Forall2 call_denotes cs ms1 /\ prog_msgs pr ms2 ids out.
Proof.
  induction cs as [|c cs IH]; intros pr ms ids out H; cbn [calls_then] in H; [exists [], ms; auto|]. inversion H as [|? ? m ms' ? ? Hc Hn| |]; subst. destruct (IH _ _ _ _ Hn) as (a & b & -> & F & P). exists (m :: a), b. split; [reflexivity|]. split; [constructor; assumption|exact P].
Qed.

(* The unit of work of the README: an expectation block; in it some calls (say, preparing statements), then a
   transaction, then anything. The messages before the transaction's COMMIT are these, and if the server
   executes the COMMIT, it has executed all of them. If the callback opens further expectation blocks this
   depends on the server: the error of closing a failed block must count as an error around it. *)
Definition commit : msg := statement (s2b "COMMIT").
Definition readme_unit (context : N) (cs : list call) (level : N) (body : prog) (next1 next2 : list (option exprfun) -> prog) : prog :=
  PBlock 0 (KExpectFailOnError context) (calls_then cs (PBlock 0 (KTx level) body next1)) next2.

Theorem C47_commit_only_after_success : forall (E : Env) b context cs level body next1 next2 bs, empty b ->
  prog_ok word32 (readme_unit context cs level body next1 next2) -> delivers b (readme_unit context cs level body next1 next2) bs -> nlen bs < 2 ^ 32 ->
  exists opening prepared inner ids out after,
    tx_opening level = Some opening /\ Forall2 call_denotes cs prepared /\ prog_msgs body inner ids out /\
    let before := MExpectOpen context [CNoError (s2b "1")] :: prepared ++ map statement opening ++ inner in
    dstream bs = Some (before ++ commit :: after) /\
    forall propagates tr, propagates = true \/ Forall ordinary inner -> serve propagates [] (before ++ commit :: after) tr ->
      nth_error tr (List.length before) = Some (commit, Executed) -> Forall executed (firstn (List.length before) tr).
Proof.
  intros E b context cs level body next1 next2 bs He Hok Hd Hl. unfold readme_unit in *.
  destruct (C08_sent_is_what_was_written E b _ bs He Hok Hd Hl) as (ms & ids & out & Hm & Hp).
  inversion Hp as [| | |? ? ? open ms1 ids1 out1 ms2 ids2 ? Ho H1 H2]; subst. cbn [opening closing] in Ho. injection Ho as <-.
  destruct (calls_then_msgs _ _ _ _ _ H1) as (prepared & mt & -> & Fc & Ht).
  inversion Ht as [| | |? ? ? open' inner idsi outi msn idsn ? Ho' Hb Hn]; subst. cbn [opening closing] in *. destruct (tx_opening level) as [l|] eqn:Hlv; [|discriminate]. injection Ho' as <-.
  exists l, prepared, inner, idsi, outi, (msn ++ [MExpectClose] ++ ms2). split; [reflexivity|]. split; [exact Fc|]. split; [exact Hb|]. cbn zeta. split.
  - rewrite Hm. f_equal. unfold commit, statement, no_error_1. cbn [app]. f_equal. rewrite <- !app_assoc. reflexivity.
  - intros propagates tr Cond S N. set (body1 := prepared ++ map statement l ++ inner) in *.
    assert (Gen : forall f st rest tr, serve propagates (mkblock true f :: st) (body1 ++ rest) tr ->
      exists tr1 tr2 f', tr = tr1 ++ tr2 /\ map fst tr1 = body1 /\ serve propagates (mkblock true f' :: st) rest tr2 /\ (f' = false -> f = false /\ Forall executed tr1)).
    { destruct Cond as [->|Fi]; [apply serve_strict|apply serve_ordinary; unfold body1; rewrite !Forall_app; split; [|split; [|exact Fi]]].
      - apply strict_app; [|apply strict_app; [apply strict_statements|exact (prog_strict _ _ _ _ Hb)]]. clear - Fc. induction Fc as [|c m cs ms Hc Fc IH]; constructor; [destruct Hc; exact I|exact IH].
      - clear - Fc. induction Fc as [|c m cs ms Hc Fc IH]; constructor; [destruct Hc; exact I|exact IH].
      - clear. induction l; constructor; [exact I|assumption]. }
    cbn [app] in S. inversion S as [|? ? ? tr' Od R H'|? ? ? tr' Od R H'|? ? ? tr' Od R H'|? ? ? ? tr' R H'|? ? ? ? tr' R H'|? ? ? ? tr' R H'|? ? ? tr' R H'|? ? ? tr' R H'|]; subst; try destruct Od; try discriminate R;
      replace (opened context [CNoError (s2b "1")] []) with true in H' by (unfold opened; rewrite orb_comm; reflexivity);
      destruct (Gen _ _ _ _ H') as (t1 & t2 & f' & -> & M & S2 & F); assert (L1 : List.length t1 = List.length body1) by (rewrite <- M; symmetry; apply map_length);
      cbn [List.length nth_error firstn] in N |- *; rewrite <- L1 in N |- *; rewrite nth_error_app2, PeanoNat.Nat.sub_diag in N by lia; rewrite firstn_app, PeanoNat.Nat.sub_diag, firstn_all, firstn_O, app_nil_r;
      destruct t2 as [|[m o] t2]; try discriminate N; cbn in N; injection N as -> ->.
    + assert (f' = false) as Zf by (inversion S2; subst; try (cbn in *; congruence); try (match goal with H : rejecting _ = false |- _ => exact H end)). destruct (F Zf) as [_ A]. constructor; [reflexivity|exact A].
    + assert (f' = false) as Zf by (inversion S2; subst; try (cbn in *; congruence); try (match goal with H : rejecting _ = false |- _ => exact H end)). destruct (F Zf) as [K _]. discriminate K.
Qed.

(* If nothing fails of itself, everything is executed. *)
Theorem C47_all_executed_if_nothing_fails : forall propagates ms tr, serve propagates [] ms tr -> Forall (fun t => snd t <> Failed) tr -> Forall executed tr.
Proof.
  assert (G : forall p st ms tr, serve p st ms tr -> Forall (fun b => has_failed b = false) st -> Forall (fun t => snd t <> Failed) tr -> Forall executed tr).
  { intros p st ms tr H. induction H; intros Hb F; [constructor|..]; inversion_clear F as [|? ? F1 F2]; try (cbn in F1; congruence); try (constructor; [reflexivity|auto]).
    - destruct st as [|b st]; [discriminate|]. inversion_clear Hb. cbn in *. congruence.
    - destruct st as [|b st]; [discriminate|]. inversion_clear Hb. cbn in *. congruence.
    - inversion_clear Hb. auto. }
  intros p ms tr H F. eapply G; eauto. Qed.

(* A unit as in the README, and what the server may do with it: the second message fails, so all after it,
   the COMMIT included, are skipped, and closing the block reports the failure. *)
Definition delete_all : call := CStmtExecute (s2b "DELETE FROM accounts") [].
Definition sample (inner : prog) : prog := readme_unit 0 [CPrepare 1 (s2b "SELECT 1")] 0 inner (fun _ => Ret None []) (fun _ => Ret None []).
Example sample_sent : exists bs ms, @delivers plain (new_pipe 0) (sample (PCall 0 delete_all (Ret None []))) bs /\ prog_ok false (sample (PCall 0 delete_all (Ret None []))) /\ nlen bs < 2 ^ 32 /\
  dstream bs = Some ms /\ ms = [MExpectOpen 0 [CNoError (s2b "1")]; MPrepare 1 (s2b "SELECT 1"); statement (s2b "START TRANSACTION"); statement (s2b "DELETE FROM accounts"); commit; MExpectClose] /\
  serve true [] ms [(MExpectOpen 0 [CNoError (s2b "1")], Executed); (MPrepare 1 (s2b "SELECT 1"), Failed); (statement (s2b "START TRANSACTION"), Skipped);
    (statement (s2b "DELETE FROM accounts"), Skipped); (commit, Skipped); (MExpectClose, Failed)] /\
  serve true [] ms (map (fun m => (m, Executed)) ms).
Proof.
  do 2 eexists. split; [do 2 eexists; split; vm_compute; reflexivity|]. split; [cbn; repeat split; try constructor; intros; repeat constructor|]. split; [vm_compute; reflexivity|]. split; [vm_compute; reflexivity|]. split; [vm_compute; reflexivity|]. split.
  - apply S_open; [reflexivity|]. apply S_fail; [exact I|reflexivity|]. apply S_skip; [exact I|reflexivity|]. apply S_skip; [exact I|reflexivity|]. apply S_skip; [exact I|reflexivity|]. apply S_close_failed; [reflexivity|]. constructor.
  - apply S_open; [reflexivity|]. repeat (apply S_exec; [exact I|reflexivity|]). apply S_close; [reflexivity|]. constructor.
Qed.
(* Why blocks inside the transaction need a server that propagates: one that does not commits although the DELETE failed. *)
Definition nested : prog := PBlock 0 (KExpectFailOnError 0) (PCall 0 delete_all (Ret None [])) (fun _ => Ret None []).
Example nested_needs_propagation : exists bs ms tr, @delivers plain (new_pipe 0) (sample nested) bs /\ dstream bs = Some ms /\ serve false [] ms tr /\
  In (statement (s2b "DELETE FROM accounts"), Failed) tr /\ In (commit, Executed) tr.
Proof.
  do 3 eexists. split; [do 2 eexists; split; vm_compute; reflexivity|]. split; [vm_compute; reflexivity|]. split.
  - apply S_open; [reflexivity|]. apply S_exec; [exact I|reflexivity|]. apply S_exec; [exact I|reflexivity|]. apply S_open; [reflexivity|]. apply S_fail; [exact I|reflexivity|]. apply S_close_failed; [reflexivity|]. apply S_exec; [exact I|reflexivity|]. apply S_close; [reflexivity|]. constructor.
  - split; cbn; auto 20.
Qed.

Print Assumptions C47_commit_only_after_success.
Print Assumptions C47_all_executed_if_nothing_fails.
