(* Prepared statements and the sessions they outlive: C71, C72. *)
From Coq Require Import String List NArith Arith Bool Lia.
From Coq Require Import List.
From Verif Require Import Base GoSlice SpecWire SpecMsg Text Values SpecValue MsgModel Builder SpecProg SpecUnit SpecServer SpecPrepared ThmServer ThmTx.
From Verif Require ThmBuilder.
Import ListNotations.
Open Scope N_scope.
Open Scope list_scope.
Local Notation length := List.length.

Lemma tables_cons : forall forgets x tr t t', changes_tables forgets (x :: tr) t t' -> exists t1, changes_table forgets x t t1 /\ changes_tables forgets tr t1 t'.
Proof. intros f x tr t t' H. inversion H; subst. eauto. Qed.
Lemma tables_app : forall forgets a b t t', changes_tables forgets (a ++ b) t t' -> exists t1, changes_tables forgets a t t1 /\ changes_tables forgets b t1 t'.
Proof.
  intros f a. induction a as [|x a IH]; intros b t t' H; [exists t; split; [constructor|exact H]|]. cbn in H. destruct (tables_cons _ _ _ _ _ H) as (t1 & H3 & H5). destruct (IH _ _ _ H5) as (t2 & Ha & Hb).
  exists t2. split; [econstructor; eassumption|exact Hb].
Qed.

(* What nobody prepares or deallocates stays. *)
Lemma table_keeps : forall forgets id tr t t', changes_tables forgets tr t t' -> (forall s, ~ In (MPrepare id s) (map fst tr)) -> ~ In (MDeallocate id) (map fst tr) -> t' id = t id.
Proof.
  intros f id tr t t' H. induction H as [t|x tr t t1 t' H1 H IH]; intros Hp Hd; [reflexivity|].
  rewrite IH; [|intros s Hs; apply (Hp s); right; exact Hs|intros Hs; apply Hd; right; exact Hs].
  inversion H1; subst; try reflexivity; cbn in Hp, Hd; unfold put.
  - destruct (N.eqb_spec id id0) as [->|_]; [exfalso; apply (Hp s); left; reflexivity|reflexivity].
  - destruct f; [|reflexivity]. destruct (N.eqb_spec id id0) as [->|_]; [exfalso; apply (Hp s); left; reflexivity|reflexivity].
  - destruct (N.eqb_spec id id0) as [->|_]; [exfalso; apply Hd; left; reflexivity|reflexivity].
Qed.

Lemma trace_split : forall A B (tr : list (A * B)) a m b, map fst tr = a ++ m :: b -> exists t1 o t2, tr = t1 ++ (m, o) :: t2 /\ map fst t1 = a /\ map fst t2 = b.
Proof.
  intros A B tr a. revert tr. induction a as [|x a IH]; intros [|[y o] tr] m b H; cbn in H; try discriminate.
  - injection H as -> Hb. exists [], o, tr. auto.
  - injection H as -> H. destruct (IH _ _ _ H) as (t1 & o' & t2 & -> & H1 & H2). exists ((x, o) :: t1), o', t2. cbn. rewrite H1. auto.
Qed.

(* After messages that end with preparing id, if that was executed: *)
Lemma prepared_then : forall forgets tr t t' id text, last_prepared (map fst tr) id text -> changes_tables forgets tr t t' ->
  (forall x, In x tr -> fst x = MPrepare id text -> executed x) -> t' id = Some text.
Proof.
  intros f tr t t' id text (a & b & Hm & Hp & Hd) Ht Hx. destruct (trace_split _ _ _ _ _ _ Hm) as (t1 & o & t2 & -> & _ & <-).
  assert (o = Executed) as -> by (apply (Hx (MPrepare id text, o)); [apply in_elt|reflexivity]).
  destruct (tables_app _ _ _ _ _ Ht) as (u & _ & H). destruct (tables_cons _ _ _ _ _ H) as (t3 & H3 & H5). rewrite (table_keeps _ id _ _ _ H5 Hp Hd). inversion H3; subst; [|discriminate].
  unfold put. rewrite N.eqb_refl. reflexivity.
Qed.

(* ---- C71 ---- *)

(* The unit of work of the README, on a connection with any prepared statements of earlier units: if its COMMIT was executed,
   every Execute before it ran the text this unit prepared last under that number. *)
Theorem C71_committed_units_ran_their_own_statements : forall (E : Env) b context cs level body next1 next2 bs, empty b ->
  prog_ok word32 (readme_unit context cs level body next1 next2) -> delivers b (readme_unit context cs level body next1 next2) bs -> nlen bs < 2 ^ 32 ->
  exists opening prepared inner ids out after,
    tx_opening level = Some opening /\ Forall2 call_denotes cs prepared /\ prog_msgs body inner ids out /\
    let before := MExpectOpen context [CNoError (s2b "1")] :: prepared ++ map statement opening ++ inner in
    dstream bs = Some (before ++ commit :: after) /\
    forall propagates tr, propagates = true \/ Forall ordinary inner -> serve propagates [] (before ++ commit :: after) tr ->
      nth_error tr (length before) = Some (commit, Executed) ->
      forall forgets earlier a id args c text now, before = a ++ MExecute id args :: c -> last_prepared a id text ->
        changes_tables forgets (firstn (length a) tr) earlier now -> now id = Some text.
Proof.
  intros E b context cs level body next1 next2 bs He Hok Hd Hl.
  destruct (C47_commit_only_after_success E b context cs level body next1 next2 bs He Hok Hd Hl) as (op & prep & inner & ids & out & after & Ho & Hc & Hm & Hs & Hx).
  exists op, prep, inner, ids, out, after. repeat split; [assumption..|]. intros p tr Hp Hsv Hn f earlier a id args c text now Hb Hlast Ht.
  specialize (Hx p tr Hp Hsv Hn). pose proof (serve_msgs _ _ _ _ Hsv) as Hmap.
  assert (Ha : map fst (firstn (length a) tr) = a).
  { rewrite <- firstn_map, Hmap, Hb, <- app_assoc, firstn_app, firstn_all, Nat.sub_diag, firstn_O, app_nil_r. reflexivity. }
  apply (prepared_then f (firstn (length a) tr) earlier now id text); [rewrite Ha; exact Hlast|exact Ht|].
  intros x Hin _. rewrite Forall_forall in Hx. apply Hx. rewrite Hb, app_length.
  rewrite <- (firstn_skipn (length a) (firstn _ tr)), firstn_firstn, Nat.min_l by lia. apply in_or_app. left. exact Hin.
Qed.

(* In any unit: an Execute the server executed ran the text this unit prepared last under that number, if the Prepare was executed. If
   failed Prepares remove the old statement, it is enough that the Prepare was not skipped. *)
Theorem C71_executes_what_was_prepared_partial : forall (E : Env) b pr bs, empty b -> prog_ok word32 pr -> delivers b pr bs -> nlen bs < 2 ^ 32 ->
  exists ms ids out, dstream bs = Some ms /\ prog_msgs pr ms ids out /\
    forall propagates forgets earlier now later id args text o tra trb tr2,
      serve propagates [] ms (tra ++ (MPrepare id text, o) :: trb ++ (MExecute id args, Executed) :: tr2) ->
      (forall s, ~ In (MPrepare id s) (map fst trb)) -> ~ In (MDeallocate id) (map fst trb) ->
      changes_tables forgets (tra ++ (MPrepare id text, o) :: trb) earlier now -> changes_table forgets (MExecute id args, Executed) now later ->
      o = Executed \/ o = Failed /\ forgets = true -> now id = Some text.
Proof.
  intros E b pr bs He Hok Hd Hl. destruct (ThmBuilder.C08_sent_is_what_was_written E b pr bs He Hok Hd Hl) as (ms & ids & out & Hs & Hm).
  exists ms, ids, out. split; [exact Hs|]. split; [exact Hm|]. intros p f earlier now later id args text o tra trb tr2 _ Hp Hdd Ht Hex Ho.
  destruct (tables_app _ _ _ _ _ Ht) as (u & _ & H). destruct (tables_cons _ _ _ _ _ H) as (t3 & H3 & H5). pose proof (table_keeps _ id _ _ _ H5 Hp Hdd) as Hk.
  assert (Hnow : exists s, now id = Some s) by (inversion Hex; subst; [eauto|discriminate]). destruct Hnow as [s0 H4]. destruct Ho as [->|[-> ->]]; inversion H3; subst; try discriminate.
  - rewrite Hk. unfold put. rewrite N.eqb_refl. reflexivity.
  - rewrite Hk in H4. unfold put in H4. rewrite N.eqb_refl in H4. discriminate.
Qed.

(* A Prepare in an expectation block and the Execute after the block. *)
Definition drop_old : bytes := s2b "DELETE FROM old".
Definition drop_new : bytes := s2b "DELETE FROM new".
Definition split_unit : prog :=
  PBlock 0 (KExpectFailOnError 0) (PCall 0 (CStmtExecute (s2b "INSERT INTO log VALUES (1)") []) (PCall 0 (CPrepare 1 drop_new) (Ret None [])))
    (fun _ => PCall 0 (CExecute 1 []) (Ret None [])).
Definition first_unit : prog := PCall 0 (CPrepare 1 drop_old) (PCall 0 (CExecute 1 []) (Ret None [])).
Definition split_trace : list (msg * outcome) :=
  [(MExpectOpen 0 [CNoError (s2b "1")], Executed); (statement (s2b "INSERT INTO log VALUES (1)"), Failed); (MPrepare 1 drop_new, Skipped); (MExpectClose, Failed); (MExecute 1 [], Executed)].
Definition no_statements : table := fun _ => None.

(* C71 does not hold for all units: if the Prepare is skipped, an Execute outside of the block runs what an earlier unit on that
   connection prepared under the same number. *)
Theorem C71_skipped_prepare_refuted : forall propagates forgets, exists bs1 bs2 between now,
  @delivers ThmBuilder.plain (new_pipe 0) first_unit bs1 /\ dstream bs1 = Some [MPrepare 1 drop_old; MExecute 1 []] /\
  @delivers ThmBuilder.plain (new_pipe 0) split_unit bs2 /\ prog_ok false split_unit /\ dstream bs2 = Some (map fst split_trace) /\
  serve propagates [] [MPrepare 1 drop_old; MExecute 1 []] [(MPrepare 1 drop_old, Executed); (MExecute 1 [], Executed)] /\
  changes_tables forgets [(MPrepare 1 drop_old, Executed); (MExecute 1 [], Executed)] no_statements between /\
  serve propagates [] (map fst split_trace) split_trace /\ changes_tables forgets split_trace between now /\
  last_prepared (map fst (firstn 4 split_trace)) 1 drop_new /\ nth_error split_trace 4 = Some (MExecute 1 [], Executed) /\ now 1 = Some drop_old.
Proof.
  intros p f. exists (sent_by first_unit), (sent_by split_unit). eexists. eexists. split; [do 2 eexists; split; vm_compute; reflexivity|]. split; [vm_compute; reflexivity|].
  split; [do 2 eexists; split; vm_compute; reflexivity|]. split; [unfold split_unit, drop_new; ThmBuilder.ok|]. split; [vm_compute; reflexivity|].
  split; [repeat (constructor; [exact I || reflexivity|reflexivity|]); constructor|].
  split; [econstructor; [apply T_prepare|]; econstructor; [eapply T_execute; reflexivity|constructor]|].
  split.
  { cbn [map fst split_trace]. apply S_open; [reflexivity|]. apply S_fail; [exact I|reflexivity|]. apply S_skip; [exact I|reflexivity|]. apply S_close_failed; [reflexivity|].
    destruct p; (apply S_exec; [exact I|reflexivity|constructor]). }
  split.
  { unfold split_trace. econstructor; [apply T_other; reflexivity|]. econstructor; [apply T_other; reflexivity|]. econstructor; [apply T_skipped|].
    econstructor; [apply T_other; reflexivity|]. econstructor; [eapply T_execute; reflexivity|]. constructor. }
  split; [|split; reflexivity]. exists [MExpectOpen 0 [CNoError (s2b "1")]; statement (s2b "INSERT INTO log VALUES (1)")], [MExpectClose].
  split; [reflexivity|]. split; [intros s [H|[]]; discriminate|intros [H|[]]; discriminate].
Qed.

(* ---- C72 ---- *)

Lemma fail_top_length : forall st, length (fail_top st) = length st.
Proof. intros [|b st]; reflexivity. Qed.

(* What ExpectFailOnError opens it closes: afterwards the server has as many blocks open as before. *)
Lemma serve_balanced : forall p ms, strict ms -> forall st rest tr, serve p st (ms ++ rest) tr ->
  exists tr1 tr2 st', tr = tr1 ++ tr2 /\ map fst tr1 = ms /\ serve p st' rest tr2 /\ length st' = length st.
Proof.
  intros p ms H. induction H as [|m ms Hm Hms IH|op body ms Hb IHb Hms IH]; intros st rest tr Hs.
  - exists [], tr, st. auto.
  - cbn [app] in Hs.
    assert (Hc : exists o st1 tr', tr = (m, o) :: tr' /\ serve p st1 (ms ++ rest) tr' /\ length st1 = length st).
    { inversion Hs; subst; try (exfalso; exact Hm); do 3 eexists; (split; [reflexivity|]); (split; [eassumption|]); rewrite ?fail_top_length; reflexivity. }
    destruct Hc as (o & st1 & tr' & -> & H1 & L1). destruct (IH _ _ _ H1) as (tr1 & tr2 & st' & -> & <- & H2 & L2). exists ((m, o) :: tr1), tr2, st'. cbn. repeat split; auto. congruence.
  - cbn [app] in Hs. rewrite <- app_assoc in Hs. cbn [app] in Hs.
    assert (Hc : exists o b tr', tr = (MExpectOpen op [no_error_1], o) :: tr' /\ serve p (b :: st) (body ++ MExpectClose :: ms ++ rest) tr').
    { inversion Hs; subst; try (exfalso; assumption); do 3 eexists; (split; [reflexivity|eassumption]). }
    destruct Hc as (o & blk & tr' & -> & H1). destruct (IHb _ _ _ H1) as (tr1 & tr2 & st' & -> & E1 & H2 & L2). cbn in L2.
    assert (Hc : exists o st1 tr'', tr2 = (MExpectClose, o) :: tr'' /\ serve p st1 (ms ++ rest) tr'' /\ length st1 = length st).
    { inversion H2; subst; try (exfalso; assumption); cbn in L2; try discriminate; do 3 eexists; (split; [reflexivity|]); (split; [eassumption|]); try destruct p; rewrite ?fail_top_length; lia. }
    destruct Hc as (o2 & st1 & tr'' & -> & H3 & L3). destruct (IH _ _ _ H3) as (tr3 & tr4 & st'' & -> & E3 & H4 & L4).
    exists ((MExpectOpen op [no_error_1], o) :: tr1 ++ (MExpectClose, o2) :: tr3), tr4, st''. cbn [app map fst]. rewrite map_app. cbn [map fst]. rewrite E1, E3, <- app_assoc. repeat split; auto. congruence.
Qed.

Lemma deallocated : forall p forgets ids tr t t', serve p [] (map MDeallocate ids) tr -> changes_tables forgets tr t t' -> forall id, In id ids -> t' id = None.
Proof.
  intros p f ids. induction ids as [|i ids IH]; intros tr t t' Hs Ht id Hin; [contradiction|]. cbn in Hs.
  assert (Hc : exists o tr', tr = (MDeallocate i, o) :: tr' /\ serve p [] (map MDeallocate ids) tr' /\ o <> Skipped).
  { inversion Hs; subst; try discriminate; do 2 eexists; (split; [reflexivity|]); (split; [assumption|discriminate]). }
  destruct Hc as (o & tr' & -> & H1 & Ho). destruct (tables_cons _ _ _ _ _ Ht) as (t3 & H3 & H5). destruct (in_dec N.eq_dec id ids) as [Hd|Hd]; [exact (IH _ _ _ H1 H5 id Hd)|].
  destruct Hin as [->|Hin]; [|contradiction]. pose proof (serve_msgs _ _ _ _ H1) as Hm.
  rewrite (table_keeps _ id _ _ _ H5); [|rewrite Hm; intros s Hx; apply in_map_iff in Hx; destruct Hx as (? & Hx & _); discriminate|
    rewrite Hm; intros Hx; apply in_map_iff in Hx; destruct Hx as (x & Hx & Hxi); injection Hx as ->; contradiction].
  inversion H3; subst; try discriminate; try contradiction; try assumption. unfold put. rewrite N.eqb_refl. reflexivity.
Qed.

(* A unit that deallocates statements after its expectation block, outside of it, leaves none of them behind, whatever
   fails or is skipped, and whatever was prepared before. *)
Theorem C72_deallocated_after_the_block : forall (E : Env) b context body ids bs, empty b ->
  let pr := PBlock 0 (KExpectFailOnError context) body (fun _ => calls_then (map CDeallocate ids) (Ret None [])) in
  prog_ok word32 pr -> delivers b pr bs -> nlen bs < 2 ^ 32 ->
  exists ms, dstream bs = Some ms /\ forall propagates forgets tr earlier now, serve propagates [] ms tr -> changes_tables forgets tr earlier now ->
    forall id, In id ids -> now id = None.
Proof.
  intros E b context body ids bs He pr Hok Hd Hl. destruct (ThmBuilder.C08_sent_is_what_was_written E b pr bs He Hok Hd Hl) as (ms & vs & out & Hs & Hm).
  exists ms. split; [exact Hs|]. intros p f tr earlier now Hsv Ht id Hin. unfold pr in Hm. inversion Hm; subst.
  match goal with H : prog_msgs (calls_then _ _) _ _ _ |- _ => destruct (calls_then_msgs _ _ _ _ _ H) as (m1 & m2 & -> & Hcs & Hret) end.
  inversion Hret; subst. rewrite app_nil_r in *.
  assert (m1 = map MDeallocate ids) as ->.
  { clear - Hcs. remember (map CDeallocate ids) as l eqn:Hl. revert ids Hl. induction Hcs as [|c m l ms Hc Hcs IH]; intros [|i ids] Hl; try discriminate; [reflexivity|].
    cbn in Hl. injection Hl as -> Hl. inversion Hc; subst. cbn. f_equal. apply IH. reflexivity. }
  match goal with H : opening (KExpectFailOnError _) = Some _ |- _ => cbn in H; injection H as <- end.
  match goal with H : prog_msgs body _ _ _ |- _ => pose proof (prog_strict _ _ _ _ H) as Hst end.
  match goal with H : prog_msgs body ?b _ _ |- _ => set (inner := b) in * end.
  assert (Hstrict : strict (MExpectOpen context [no_error_1] :: inner ++ [MExpectClose])) by (apply (St_block context inner []); [exact Hst|constructor]).
  cbn [closing] in Hsv.
  assert (Hshape : exists l, serve p [] ((MExpectOpen context [no_error_1] :: inner ++ [MExpectClose]) ++ map MDeallocate ids) l /\ l = tr).
  { exists tr. split; [|reflexivity]. cbn [app] in Hsv |- *. rewrite <- app_assoc. exact Hsv. }
  destruct Hshape as (l & Hshape & ->). destruct (serve_balanced p _ Hstrict _ _ _ Hshape) as (tr1 & tr2 & st' & -> & _ & H2 & L). destruct st' as [|? ?]; [|discriminate].
  destruct (tables_app _ _ _ _ _ Ht) as (u & _ & Hu). exact (deallocated _ _ _ _ _ _ H2 Hu id Hin).
Qed.

(* If the Deallocate is inside of the block, a failure leaves the statement on the connection. *)
Definition tidy_unit : prog :=
  PBlock 0 (KExpectFailOnError 0) (PCall 0 (CPrepare 1 drop_new) (PCall 0 (CExecute 1 []) (PCall 0 (CDeallocate 1) (Ret None [])))) (fun _ => Ret None []).
Definition tidy_trace : list (msg * outcome) :=
  [(MExpectOpen 0 [CNoError (s2b "1")], Executed); (MPrepare 1 drop_new, Executed); (MExecute 1 [], Failed); (MDeallocate 1, Skipped); (MExpectClose, Failed)].
Theorem C72_deallocate_in_the_block_refuted : forall propagates forgets, exists bs now,
  @delivers ThmBuilder.plain (new_pipe 0) tidy_unit bs /\ prog_ok false tidy_unit /\ dstream bs = Some (map fst tidy_trace) /\
  serve propagates [] (map fst tidy_trace) tidy_trace /\ changes_tables forgets tidy_trace no_statements now /\ now 1 = Some drop_new.
Proof.
  intros p f. exists (sent_by tidy_unit), (put 1 (Some drop_new) no_statements). split; [do 2 eexists; split; vm_compute; reflexivity|]. split; [unfold tidy_unit, drop_new; ThmBuilder.ok|]. split; [vm_compute; reflexivity|].
  split.
  { cbn [map fst tidy_trace]. apply S_open; [reflexivity|]. apply S_exec; [exact I|reflexivity|]. apply S_fail; [exact I|reflexivity|]. apply S_skip; [exact I|reflexivity|]. apply S_close_failed; [reflexivity|].
    destruct p; constructor. }
  split; [|reflexivity]. unfold tidy_trace. econstructor; [apply T_other; reflexivity|]. econstructor; [apply T_prepare|]. econstructor; [apply T_execute_failed|].
  econstructor; [apply T_skipped|]. econstructor; [apply T_other; reflexivity|]. constructor.
Qed.

(* ---- examples ---- *)

(* Two statements with the same number after one another; the connection has a third one from before. *)
Definition twice : prog := PCall 0 (CExecute 1 []) (PCall 0 (CPrepare 1 drop_old) (PCall 0 (CExecute 1 []) (Ret None []))).
Definition twice_unit : prog := readme_unit 0 [CPrepare 1 drop_new] 0 twice (fun _ => Ret None []) (fun _ => Ret None []).
Definition twice_before : list msg :=
  [MExpectOpen 0 [CNoError (s2b "1")]; MPrepare 1 drop_new; statement (s2b "START TRANSACTION"); MExecute 1 []; MPrepare 1 drop_old; MExecute 1 []].
Definition before_it : table := put 1 (Some (s2b "SELECT 1")) no_statements.
Example prepared_meets : exists bs, @delivers ThmBuilder.plain (new_pipe 0) twice_unit bs /\ prog_ok false twice_unit /\ nlen bs < 2 ^ 32 /\
  dstream bs = Some (twice_before ++ commit :: [MExpectClose]) /\ Forall ordinary (skipn 3 twice_before) /\
  let tr := map (fun m => (m, Executed)) (twice_before ++ commit :: [MExpectClose]) in
  serve false [] (twice_before ++ commit :: [MExpectClose]) tr /\ nth_error tr (length twice_before) = Some (commit, Executed) /\
  last_prepared (firstn 3 twice_before) 1 drop_new /\ last_prepared (firstn 5 twice_before) 1 drop_old /\
  changes_tables true (firstn 3 tr) before_it (put 1 (Some drop_new) before_it) /\
  changes_tables true (firstn 5 tr) before_it (put 1 (Some drop_old) (put 1 (Some drop_new) before_it)).
Proof.
  exists (sent_by twice_unit). split; [do 2 eexists; split; vm_compute; reflexivity|].
  split; [unfold twice_unit, readme_unit, twice, calls_then, drop_new, drop_old; ThmBuilder.ok|]. split; [vm_compute; reflexivity|]. split; [vm_compute; reflexivity|].
  split; [repeat constructor|]. cbn [twice_before map app].
  split; [apply S_open; [reflexivity|]; do 6 (apply S_exec; [exact I|reflexivity|]); apply S_close; [reflexivity|constructor]|].
  split; [reflexivity|].
  split; [exists [MExpectOpen 0 [CNoError (s2b "1")]], [statement (s2b "START TRANSACTION")]; split; [reflexivity|]; split; [intros s [H|[]]; discriminate|intros [H|[]]; discriminate]|].
  split; [exists [MExpectOpen 0 [CNoError (s2b "1")]; MPrepare 1 drop_new; statement (s2b "START TRANSACTION"); MExecute 1 []], []; split; [reflexivity|]; split; [intros s []|intros []]|].
  cbn [firstn]. split.
  - econstructor; [apply T_other; reflexivity|]. econstructor; [apply T_prepare|]. econstructor; [apply T_other; reflexivity|]. constructor.
  - econstructor; [apply T_other; reflexivity|]. econstructor; [apply T_prepare|]. econstructor; [apply T_other; reflexivity|].
    econstructor; [eapply T_execute; reflexivity|]. econstructor; [apply T_prepare|]. constructor.
Qed.

(* Deallocating after the block, when the Execute fails. *)
Definition tidy_after : prog :=
  PBlock 0 (KExpectFailOnError 0) (PCall 0 (CPrepare 1 drop_new) (PCall 0 (CExecute 1 []) (Ret None []))) (fun _ => calls_then (map CDeallocate [1]) (Ret None [])).
Definition tidy_after_trace : list (msg * outcome) :=
  [(MExpectOpen 0 [CNoError (s2b "1")], Executed); (MPrepare 1 drop_new, Executed); (MExecute 1 [], Failed); (MExpectClose, Failed); (MDeallocate 1, Executed)].
Example tidy_meets : exists bs, @delivers ThmBuilder.plain (new_pipe 0) tidy_after bs /\ prog_ok false tidy_after /\ nlen bs < 2 ^ 32 /\ dstream bs = Some (map fst tidy_after_trace) /\
  serve true [] (map fst tidy_after_trace) tidy_after_trace /\ changes_tables false tidy_after_trace before_it (put 1 None (put 1 (Some drop_new) before_it)).
Proof.
  exists (sent_by tidy_after). split; [do 2 eexists; split; vm_compute; reflexivity|].
  split; [unfold tidy_after, calls_then, drop_new; ThmBuilder.ok|]. split; [vm_compute; reflexivity|]. split; [vm_compute; reflexivity|].
  cbn [map fst tidy_after_trace]. split.
  - apply S_open; [reflexivity|]. apply S_exec; [exact I|reflexivity|]. apply S_fail; [exact I|reflexivity|]. apply S_close_failed; [reflexivity|]. apply S_exec; [exact I|reflexivity|]. constructor.
  - unfold tidy_after_trace. econstructor; [apply T_other; reflexivity|]. econstructor; [apply T_prepare|]. econstructor; [apply T_execute_failed|].
    econstructor; [apply T_other; reflexivity|]. econstructor; [eapply T_deallocate; reflexivity|]. constructor.
Qed.

Print Assumptions C71_committed_units_ran_their_own_statements.
Print Assumptions C71_executes_what_was_prepared_partial.
Print Assumptions C71_skipped_prepare_refuted.
Print Assumptions C72_deallocated_after_the_block.
Print Assumptions C72_deallocate_in_the_block_refuted.
