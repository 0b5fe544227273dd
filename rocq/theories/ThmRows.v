(* The ids of inserted rows: C65. *)
From Coq Require Import String List NArith ZArith Arith Bool Lia.
From Coq Require Import List.
From Verif Require Import Base GoSlice SpecWire SpecMsg Values SpecValue MsgModel Builder SpecProg SpecUnit SpecServer SpecSession SpecRows.
From Verif Require ThmBuilder.
From Verif Require Import ThmServer ThmTx.
Import ListNotations.
Open Scope list_scope.

Lemma set_last_id_ends : forall id, exists l, set_last_id id = MStmtExecute (l ++ [41%N]) [].
Proof. intros id. unfold set_last_id, statement. exists (s2b "SET " ++ id ++ s2b " = LAST_INSERT_ID("). rewrite <- !app_assoc. reflexivity. Qed.
Lemma set_last_id_inj : forall a b, set_last_id a = set_last_id b -> a = b.
Proof.
  intros a b H. unfold set_last_id, statement in H. injection H as H.
  assert (K : forall x, x ++ [32; 61; 32; 76; 65; 83; 84; 95; 73; 78; 83; 69; 82; 84; 95; 73; 68; 40; 41]%N = x ++ s2b " = LAST_INSERT_ID()") by reflexivity.
  change (a ++ s2b " = LAST_INSERT_ID()" = b ++ s2b " = LAST_INSERT_ID()") in H. apply app_inv_tail in H. exact H.
Qed.
Lemma not_set : forall s id, last s 0%N <> 41%N -> statement s <> set_last_id id.
Proof. intros s id Hs H. destruct (set_last_id_ends id) as (l & E). rewrite E in H. unfold statement in H. injection H as ->. rewrite last_last in Hs. congruence. Qed.
Lemma opening_not_set : forall k open m id, opening k = Some open -> In m (open ++ [closing k]) -> m <> set_last_id id.
Proof.
  intros k open m id Ho Hin. destruct k as [level|ctx]; cbn [opening closing] in *.
  - destruct (tx_opening level) as [l|] eqn:El; [|discriminate]. cbn in Ho. injection Ho as <-. apply in_app_or in Hin. destruct Hin as [Hin|[<-|[]]]; [|apply not_set; vm_compute; discriminate].
    apply in_map_iff in Hin. destruct Hin as (s & <- & Hin). apply not_set.
    destruct (opening_shape level l El) as (lv & st & -> & Hl & Hst & _). clear El.
    assert (E : effect_of (statement s) = SetsLevel \/ effect_of (statement s) = Begins) by (apply in_app_or in Hin; destruct Hin as [Hin|[<-|[]]]; [left; rewrite Forall_forall in Hl; apply Hl; exact Hin|right; exact Hst]).
    clear - E. cbn [effect_of statement] in E. unfold statement, effect_of, is_one_of in E.
    repeat match type of E with context [in_dec ?d s ?l] => destruct (in_dec d s l) as [I|_]; [cbn [In] in I; repeat (destruct I as [<-|I]; [vm_compute; discriminate|]); destruct I|] end.
    destruct E; discriminate.
  - injection Ho as <-. destruct Hin as [<-|[<-|[]]]; discriminate.
Qed.

(* Every InsertRow: its row, then the assignment, which occurs nowhere else. *)
Lemma row_messages : forall pr ms ids out, prog_msgs pr ms ids out -> NoDup ids -> forall id, In id ids -> no_clash pr id ->
  exists ms1 name cols es ms2, ms = ms1 ++ MInsert name (Some table_model) cols [es] :: set_last_id id :: ms2 /\ ~ In (set_last_id id) ms1 /\ ~ In (set_last_id id) ms2.
Proof.
  assert (N : forall pr ms ids out, prog_msgs pr ms ids out -> forall id, ~ In id ids -> no_clash pr id -> ~ In (set_last_id id) ms).
  { intros pr ms ids out H. induction H as [|c next m ms ids out Hc H IH|name cols row next id0 es ms ids out Hr H IH|k body next open ms1 ids1 out1 ms2 ids2 out Ho H1 IH1 H2 IH2]; intros id Hid Hn Hin.
    - destruct Hin.
    - destruct Hin as [Hin|Hin]; [exact (Hn c m (K_here _ _ _) Hc Hin)|]. apply (IH id Hid); [|exact Hin]. intros c' m' Hm. apply Hn. apply K_next. exact Hm.
    - destruct Hin as [Hin|[Hin|Hin]]; [discriminate Hin|apply set_last_id_inj in Hin; apply Hid; left; exact Hin|]. apply (IH id); [intros X; apply Hid; right; exact X| |exact Hin].
      intros c' m' Hm. apply Hn. eapply K_row. exact Hm.
    - rewrite in_app_iff in Hid. apply in_app_or in Hin. destruct Hin as [Hin|Hin]; [eapply (opening_not_set k open); [exact Ho|apply in_or_app; left; exact Hin|reflexivity]|].
      apply in_app_or in Hin. destruct Hin as [Hin|Hin]; [apply (IH1 id); [tauto| |exact Hin]; intros c' m' Hm; apply Hn; apply K_body; exact Hm|].
      apply in_app_or in Hin. destruct Hin as [Hin|Hin]; [eapply (opening_not_set k open); [exact Ho|apply in_or_app; right; exact Hin|reflexivity]|].
      apply (IH2 id); [tauto| |exact Hin]; intros c' m' Hm; apply Hn; eapply K_after; exact Hm. }
  intros pr ms ids out H. induction H as [|c next m ms ids out Hc H IH|name cols row next id0 es ms ids out Hr H IH|k body next open ms1 ids1 out1 ms2 ids2 out Ho H1 IH1 H2 IH2]; intros Hd id Hin Hn.
  - destruct Hin.
  - destruct (IH Hd id Hin) as (a & nm & cl & es & b & -> & A & B); [intros c' m' Hm; apply Hn; apply K_next; exact Hm|].
    exists (m :: a), nm, cl, es, b. split; [reflexivity|]. split; [|exact B]. intros [X|X]; [exact (Hn c m (K_here _ _ _) Hc X)|exact (A X)].
  - inversion Hd as [|? ? Hd1 Hd2]; subst. assert (Hn' : no_clash (next (Some (EVariable id0))) id) by (intros c' m' Hm; apply Hn; eapply K_row; exact Hm). destruct Hin as [<-|Hin].
    + exists [], name, cols, es, ms. split; [reflexivity|]. split; [intros []|]. apply (N _ _ _ _ H id0 Hd1 Hn').
    + destruct (IH Hd2 id Hin Hn') as (a & nm & cl & es' & b & -> & A & B). exists (MInsert name (Some table_model) cols [es] :: set_last_id id0 :: a), nm, cl, es', b. split; [reflexivity|]. split; [|exact B].
      intros [X|[X|X]]; [discriminate X|apply set_last_id_inj in X; subst; contradiction|exact (A X)].
  - assert (Hb : no_clash body id) by (intros c' m' Hm; apply Hn; apply K_body; exact Hm). assert (Ha : no_clash (next out1) id) by (intros c' m' Hm; apply Hn; eapply K_after; exact Hm).
    assert (Op : forall m, In m (open ++ [closing k]) -> m <> set_last_id id) by (intros m Hm; eapply opening_not_set; eassumption).
    assert (D1 : NoDup ids1 /\ NoDup ids2 /\ forall x, In x ids1 -> ~ In x ids2).
    { clear - Hd. induction ids1 as [|x ids1 IH]; cbn in Hd; [split; [constructor|]; split; [exact Hd|intros ? []]|]. inversion Hd as [|? ? P Q]; subst. destruct (IH Q) as (I1 & I2 & I3). rewrite in_app_iff in P.
      split; [constructor; [tauto|exact I1]|]. split; [exact I2|]. intros y [<-|Hy]; [tauto|apply I3; exact Hy]. }
    destruct D1 as (D1 & D2 & D3). apply in_app_or in Hin. destruct Hin as [Hin|Hin].
    + destruct (IH1 D1 id Hin Hb) as (a & nm & cl & es & b & -> & A & B). exists (open ++ a), nm, cl, es, (b ++ [closing k] ++ ms2). split; [rewrite <- !app_assoc; reflexivity|]. rewrite !in_app_iff. split.
      * intros [X|X]; [apply (Op _ (in_or_app _ _ _ (or_introl X)) eq_refl)|exact (A X)].
      * intros [X|[X|X]]; [exact (B X)|apply (Op _ (in_or_app _ _ _ (or_intror X)) eq_refl)|exact (N _ _ _ _ H2 id (D3 id Hin) Ha X)].
    + destruct (IH2 D2 id Hin Ha) as (a & nm & cl & es & b & -> & A & B). exists (open ++ ms1 ++ [closing k] ++ a), nm, cl, es, b. split; [rewrite <- !app_assoc; reflexivity|]. split; [|exact B].
      rewrite !in_app_iff. intros [X|[X|[X|X]]]; [apply (Op _ (in_or_app _ _ _ (or_introl X)) eq_refl)|exact (N _ _ _ _ H1 id (fun Y => D3 id Y Hin) Hb X)|apply (Op _ (in_or_app _ _ _ (or_intror X)) eq_refl)|exact (A X)].
Qed.

(* A variable keeps its value as long as nothing sets or touches it. *)
Lemma keeps : forall touches tr s s' id, remembers_all touches tr s s' -> ~ In (set_last_id id) (map fst tr) -> (forall m, In m (map fst tr) -> ~ touches m id) -> variable s' id = variable s id.
Proof.
  intros touches tr s s' id H. induction H as [|t tr s s1 s' H1 H IH]; intros Hn Ht; [reflexivity|]. rewrite IH by (cbn in *; auto). cbn [map In] in *.
  destruct H1 as [id0 s|m s s1 Hm Hv|m s n|m s]; cbn [fst] in *.
  - unfold assign, bytes_eqb. cbn. destruct (list_eq_dec N.eq_dec id0 id) as [->|]; [destruct Hn; left; reflexivity|reflexivity].
  - apply Hv. apply Ht. left. reflexivity.
  - reflexivity.
  - reflexivity.
Qed.

Lemma assign_same : forall id n s, variable (assign id n s) id = Some n.
Proof. intros. unfold assign, bytes_eqb. cbn. destruct (list_eq_dec N.eq_dec id id); [reflexivity|congruence]. Qed.
Lemma set_gives : forall touches m s s' id, remembers touches m s s' -> m = (set_last_id id, Executed) -> s' = assign id (last_id s) s.
Proof.
  intros touches m s s' id H E. destruct H as [id0 s|m s s1 Hm Hv|m s n|m s]; try discriminate E.
  - assert (E' : set_last_id id0 = set_last_id id) by congruence. apply set_last_id_inj in E'. subst. reflexivity.
  - exfalso. apply (Hm id). congruence.
Qed.

Lemma remembers_app : forall touches a b s s', remembers_all touches (a ++ b) s s' <-> exists s1, remembers_all touches a s s1 /\ remembers_all touches b s1 s'.
Proof.
  intros touches a b. induction a as [|t a IH]; intros s s'; cbn [app]; split.
  - intros H. exists s. split; [constructor|exact H].
  - intros (s1 & H1 & H2). inversion H1; subst. exact H2.
  - intros H. inversion H as [|? ? ? s1 ? H1 H2]; subst. apply IH in H2. destruct H2 as (s2 & A & B). exists s2. split; [econstructor; eassumption|exact B].
  - intros (s1 & H1 & H2). inversion H1 as [|? ? ? s2 ? A B]; subst. econstructor; [exact A|]. apply IH. exists s1. auto.
Qed.

(* ---- C65 ---- *)

(* For every InsertRow anywhere in a unit: its row, then the assignment. If the server executes both, the variable
   the rest of the program got for that row holds the row's id from there on, as long as no statement of the user's
   sets that variable, however many other rows follow. *)
Theorem C65_variable_holds_the_row_id : forall (E : Env) b pr bs, empty b -> prog_ok word32 pr -> delivers b pr bs -> (nlen bs < 2 ^ 32)%N ->
  exists ms ids out, dstream bs = Some ms /\ prog_msgs pr ms ids out /\
    forall id, In id ids -> no_clash pr id ->
      exists before name cols es after, ms = before ++ MInsert name (Some table_model) cols [es] :: set_last_id id :: after /\
        forall touches s0 s1 s2 tr s3 rest,
          remembers touches (MInsert name (Some table_model) cols [es], Executed) s0 s1 -> remembers touches (set_last_id id, Executed) s1 s2 ->
          after = map fst tr ++ rest -> remembers_all touches tr s2 s3 -> (forall m, In m (map fst tr) -> ~ touches m id) ->
          variable s3 id = Some (last_id s1).
Proof.
  intros E b pr bs He Hok Hd Hl. destruct (ThmBuilder.C17_row_variables_distinct E b pr bs He Hok Hd Hl) as (ms & ids & out & Hm & Hp & Hn).
  exists ms, ids, out. split; [exact Hm|]. split; [exact Hp|]. intros id Hin Hc. destruct (row_messages _ _ _ _ Hp Hn id Hin Hc) as (ms1 & name & cols & es & ms2 & -> & _ & N2).
  exists ms1, name, cols, es, ms2. split; [reflexivity|]. intros touches s0 s1 s2 tr s3 rest _ H2 -> H3 Ht.
  rewrite (keeps _ _ _ _ id H3); [rewrite (set_gives _ _ _ _ id H2 eq_refl); apply assign_same| |exact Ht]. intros X. apply N2. apply in_or_app. left. exact X.
Qed.

Lemma serve_prefix_split : forall (tr : list (msg * outcome)) a m1 m2 c, map fst tr = a ++ m1 :: m2 :: c -> exists t1 o1 o2 t2, tr = t1 ++ (m1, o1) :: (m2, o2) :: t2 /\ map fst t1 = a /\ map fst t2 = c.
Proof.
  intros tr a. revert tr. induction a as [|x a IH]; intros tr m1 m2 c H.
  - destruct tr as [|[m o] [|[m' o'] tr]]; try discriminate. cbn in H. injection H as -> -> <-. exists [], o, o', tr. auto.
  - destruct tr as [|t tr]; [discriminate|]. cbn in H. injection H as <- H. destruct (IH _ _ _ _ H) as (t1 & o1 & o2 & t2 & -> & <- & E). exists (t :: t1), o1, o2, t2. auto.
Qed.

(* If the COMMIT of a unit of work is executed, all of it is. *)
Lemma all_executed : forall p context prepared l inner tr, Forall ordinary prepared -> strict inner -> p = true \/ Forall ordinary inner -> serve p [] (unit_messages context prepared l inner) tr ->
  nth_error tr (1 + List.length prepared + List.length l + List.length inner) = Some (commit, Executed) -> Forall executed tr.
Proof.
  intros p context prepared l inner tr Fp Hst Hpr H Hn. unfold unit_messages in H.
  assert (Op : opened context [no_error_1] [] = true) by (unfold opened; rewrite orb_comm; reflexivity).
  assert (G : exists o f tr', tr = (MExpectOpen context [no_error_1], o) :: tr' /\ serve p (mkblock true f :: []) (prepared ++ map statement l ++ inner ++ [commit; MExpectClose]) tr' /\ (o = Executed /\ f = false \/ o <> Executed /\ f = true)).
  { serving H; try destruct Od; try discriminate R; rewrite Op in H'; do 3 eexists; (split; [reflexivity|]); (split; [exact H'|]); [left|right]; split; try reflexivity; discriminate. }
  destruct G as (o0 & f0 & t0 & -> & S0 & C0).
  destruct (serve_ordinary p prepared Fp _ _ _ _ S0) as (t1 & t2 & f1 & -> & M1 & S1 & C1).
  assert (Fl : Forall ordinary (map statement l)) by (clear; induction l; constructor; [exact I|assumption]).
  destruct (serve_ordinary p (map statement l) Fl _ _ _ _ S1) as (t3 & t4 & f2 & -> & M2 & S2 & C2).
  assert (Gi : exists t6 t7 f4, t4 = t6 ++ t7 /\ map fst t6 = inner /\ serve p [mkblock true f4] [commit; MExpectClose] t7 /\ (f4 = false -> f2 = false /\ Forall executed t6)).
  { destruct Hpr as [->|Hpr]; [apply serve_strict; assumption|apply serve_ordinary; assumption]. }
  destruct Gi as (t6 & t7 & f4 & -> & M6 & S6 & C6). destruct (serve_one p f4 [] commit _ _ I S6) as (o7 & f7 & t8 & -> & S7 & C7).
  assert (X : exists ox, t8 = [(MExpectClose, ox)] /\ (f7 = false -> ox = Executed)).
  { clear - S7. serving S7; try destruct Od; (assert (tr' = []) by (match goal with K : serve _ _ [] _ |- _ => inversion K; reflexivity end); subst); eexists; (split; [reflexivity|]); cbn in R; [reflexivity|congruence]. }
  destruct X as (ox & -> & Cx).
  assert (Eo : o7 = Executed).
  { cbn [Nat.add nth_error] in Hn. rewrite !app_assoc in Hn. rewrite nth_error_app2 in Hn by (rewrite !app_length, <- M1, <- M6, <- (map_length statement l), <- M2, !map_length; lia).
    rewrite !app_length, <- M1, <- M6, <- (map_length statement l), <- M2, !map_length in Hn. replace (_ - _)%nat with 0%nat in Hn by lia. cbn in Hn. congruence. }
  destruct C7 as [(_ & -> & ->)|(N7 & _)]; [|congruence]. destruct (C6 eq_refl) as [-> E6]. destruct (C2 eq_refl) as [-> E2]. destruct (C1 eq_refl) as [-> E1]. destruct C0 as [[-> _]|[_ X]]; [|discriminate].
  rewrite (Cx eq_refl). subst o7. constructor; [reflexivity|]. rewrite !Forall_app. split; [exact E1|]. split; [exact E2|]. split; [exact E6|]. repeat constructor.
Qed.

(* In the unit of work of the README: if the COMMIT was executed, then at the end every row's variable holds that row's id. *)
Theorem C65_committed_rows_have_their_ids : forall (E : Env) b context cs level body bs, empty b -> Forall prepares cs ->
  prog_ok word32 (unit_of_work context cs level body) -> delivers b (unit_of_work context cs level body) bs -> (nlen bs < 2 ^ 32)%N ->
  exists opening prepared inner ids out, tx_opening level = Some opening /\ Forall2 call_denotes cs prepared /\ prog_msgs body inner ids out /\
    dstream bs = Some (unit_messages context prepared opening inner) /\
    forall propagates tr, propagates = true \/ Forall ordinary inner -> serve propagates [] (unit_messages context prepared opening inner) tr ->
      nth_error tr (1 + List.length prepared + List.length opening + List.length inner) = Some (commit, Executed) ->
      forall touches s s' id, remembers_all touches tr s s' -> In id ids -> no_clash (unit_of_work context cs level body) id -> (forall m, In m (map fst tr) -> ~ touches m id) ->
        exists t1 name cols es t2 s0 s1, tr = t1 ++ (MInsert name (Some table_model) cols [es], Executed) :: (set_last_id id, Executed) :: t2 /\
          remembers_all touches t1 s s0 /\ remembers touches (MInsert name (Some table_model) cols [es], Executed) s0 s1 /\ variable s' id = Some (last_id s1).
Proof.
  intros E b context cs level body bs He Hcs Hok Hd Hl.
  destruct (ThmBuilder.C17_row_variables_distinct E b _ bs He Hok Hd Hl) as (ms & ids & out & Hm & Hp & Hn).
  pose proof Hp as Hp0. unfold unit_of_work, readme_unit in Hp. inversion Hp as [| | |k body' next open ms1 ids1 out1 ms2 ids2 ? Ho H1 H2]; subst. cbn [opening] in Ho. injection Ho as <-.
  inversion H2; subst. destruct (calls_then_msgs _ _ _ _ _ H1) as (pm & tm & -> & Hpm & Ht).
  inversion Ht as [| | |k' body'' next' open' ms1' ids1' out1' ms2' ids2' ? Ho' H1' H2']; subst. cbn [opening] in Ho'. destruct (tx_opening level) as [op|] eqn:Eop; [|discriminate]. cbn in Ho'. injection Ho' as <-.
  inversion H2'; subst. rewrite !app_nil_r in *. exists op, pm, ms1', ids1', out1'. split; [reflexivity|]. split; [exact Hpm|]. split; [exact H1'|].
  assert (Em : dstream bs = Some (unit_messages context pm op ms1')) by (rewrite Hm; unfold unit_messages; cbn [app closing]; rewrite <- !app_assoc; reflexivity).
  split; [exact Em|]. intros p tr Hpr Hs Hnth touches s s' id Hr Hin Hc Ht'.
  assert (Fp : Forall ordinary pm).
  { clear - Hcs Hpm. revert Hcs. induction Hpm as [|c m cs pm Hc H IH]; intros F; constructor; [|apply IH; inversion F; assumption]. destruct c; try (exfalso; exact (Forall_inv F)). inversion Hc; subst. exact I. }
  assert (X := all_executed p context pm op ms1' tr Fp (prog_strict _ _ _ _ H1') Hpr Hs Hnth).
  assert (So : forall (x y : list msg), Some x = Some y -> x = y) by (intros ? ? Y; congruence). rewrite Hm in Em. apply So in Em. destruct (row_messages _ _ _ _ Hp0 Hn id Hin Hc) as (a & name & cols & es & c & Es & N1 & N2).
  pose proof (serve_msgs _ _ _ _ Hs) as Ms. rewrite <- Em, Es in Ms. destruct (serve_prefix_split tr a _ _ c Ms) as (t1 & o1 & o2 & t2 & -> & <- & <-).
  rewrite !Forall_app in X. destruct X as [_ X]. inversion X as [|? ? X1 X']; subst. inversion X' as [|? ? X2 X3]; subst. unfold executed in X1, X2. cbn in X1, X2. subst o1 o2.
  apply remembers_app in Hr. destruct Hr as (s0 & R0 & R1). inversion R1 as [|? ? ? s1 ? R2 R3]; subst. inversion R3 as [|? ? ? s2 ? R4 R5]; subst.
  exists t1, name, cols, es, t2, s0, s1. split; [reflexivity|]. split; [exact R0|]. split; [exact R2|].
  rewrite (keeps _ _ _ _ id R5 N2); [rewrite (set_gives _ _ _ _ id R4 eq_refl); apply assign_same|]. intros m Hin'. apply Ht'. rewrite map_app. apply in_or_app. right. right. right. exact Hin'.
Qed.

(* ---- without an expectation block ---- *)

(* Two parents, and a child of the second one. *)
Definition parent (n : string) (next : option exprfun -> prog) : prog := PInsertRow 0 (s2b "parents") [s2b "name"] [VString (s2b n)] next.
Definition family : prog :=
  parent "a" (fun _ => parent "b" (fun b => PCall 0 (CInsert (s2b "children") [s2b "parent"] [[VFunc b]]) (Ret None []))).
Definition id_a : bytes := s2b "@id$41".
Definition id_b : bytes := s2b "@id$118".
Definition insert_parent (n : string) : msg := MInsert (s2b "parents") (Some table_model) [s2b "name"] [[XLiteral (SString (s2b n) None)]].
Definition insert_child : msg := MInsert (s2b "children") (Some table_model) [s2b "parent"] [[XVariable id_b]].
Definition family_trace : list (msg * outcome) :=
  [(insert_parent "a", Executed); (set_last_id id_a, Executed); (insert_parent "b", Failed); (set_last_id id_b, Executed); (insert_child, Executed)].
Definition nothing_set : memory := mkmem 0 (fun _ => None).
Definition touches_none (m : msg) (v : bytes) : Prop := False.

(* C65 does not hold without an expectation block: if the second parent is refused, the child that was to refer to it
   is inserted with the id of the first one. *)
Theorem C65_wrong_parent_refuted : exists bs s,
  @delivers ThmBuilder.plain (new_pipe 0) family bs /\ prog_ok false family /\ (nlen bs < 2 ^ 32)%N /\ dstream bs = Some (map fst family_trace) /\ serve true [] (map fst family_trace) family_trace /\
  remembers_all touches_none (firstn 4 family_trace) nothing_set s /\ variable s id_a = Some 7%N /\ variable s id_b = Some 7%N /\
  nth_error family_trace 2 = Some (insert_parent "b", Failed) /\ nth_error family_trace 4 = Some (insert_child, Executed).
Proof.
  exists (sent_by family). set (s1 := mkmem 7 (fun _ => None)). exists (assign id_b 7 (mkmem 7 (variable (assign id_a 7 s1)))).
  split; [do 2 eexists; split; vm_compute; reflexivity|]. split; [unfold family, parent; ThmBuilder.ok; apply ThmBuilder.bound_row; assumption|]. split; [vm_compute; reflexivity|]. split; [vm_compute; reflexivity|].
  split; [apply S_exec; [exact I|reflexivity|]; apply S_exec; [exact I|reflexivity|]; apply S_fail; [exact I|reflexivity|]; apply S_exec; [exact I|reflexivity|]; apply S_exec; [exact I|reflexivity|]; constructor|].
  split; [|repeat split; vm_compute; reflexivity].
  eapply RA_cons; [apply (R_executed _ (insert_parent "a") nothing_set s1); [intros id; discriminate|reflexivity]|]. eapply RA_cons; [apply R_set|]. eapply RA_cons; [apply (R_failed _ _ _ 7%N)|].
  eapply RA_cons; [apply (R_set _ id_b)|]. apply RA_nil.
Qed.

(* In an expectation block the same rows get their ids, if the COMMIT is executed: *)
Definition family_unit : prog := unit_of_work 0 [] 0 family.
Definition id_c : bytes := s2b "@id$79".
Definition id_d : bytes := s2b "@id$156".
Example family_meets : exists bs inner, @delivers ThmBuilder.plain (new_pipe 0) family_unit bs /\ prog_ok false family_unit /\ (nlen bs < 2 ^ 32)%N /\
  dstream bs = Some (unit_messages 0 [] [s2b "START TRANSACTION"] inner) /\ Forall ordinary inner /\
  serve false [] (unit_messages 0 [] [s2b "START TRANSACTION"] inner) (map (fun m => (m, Executed)) (unit_messages 0 [] [s2b "START TRANSACTION"] inner)) /\
  (exists s', remembers_all touches_none (map (fun m => (m, Executed)) (unit_messages 0 [] [s2b "START TRANSACTION"] inner)) nothing_set s' /\ variable s' id_c = Some 7%N /\ variable s' id_d = Some 8%N) /\
  no_clash family_unit id_c.
Proof.
  exists (sent_by family_unit), [insert_parent "a"; set_last_id id_c; insert_parent "b"; set_last_id id_d; MInsert (s2b "children") (Some table_model) [s2b "parent"] [[XVariable id_d]]].
  split; [do 2 eexists; split; vm_compute; reflexivity|]. split; [unfold family_unit, unit_of_work, readme_unit, calls_then, family, parent; ThmBuilder.ok; apply ThmBuilder.bound_row; assumption|]. split; [vm_compute; reflexivity|]. split; [vm_compute; reflexivity|].
  split; [repeat constructor|]. split; [|split].
  - apply S_open; [reflexivity|]. repeat (apply S_exec; [exact I|reflexivity|]). apply S_close; [reflexivity|]. constructor.
  - set (v1 := variable (assign id_c 7 nothing_set)). exists (assign id_d 8 (mkmem 8 v1)). split; [|split; vm_compute; reflexivity].
    eapply RA_cons; [apply (R_executed _ _ _ nothing_set); [intros id; discriminate|reflexivity]|]. eapply RA_cons; [apply (R_executed _ _ _ nothing_set); [intros id; apply not_set; vm_compute; discriminate|reflexivity]|].
    eapply RA_cons; [apply (R_executed _ _ _ (mkmem 7 (fun _ => None))); [intros id; discriminate|reflexivity]|]. eapply RA_cons; [apply R_set|].
    eapply RA_cons; [apply (R_executed _ _ _ (mkmem 8 v1)); [intros id; discriminate|reflexivity]|]. eapply RA_cons; [apply R_set|].
    eapply RA_cons; [apply R_executed with (s' := assign id_d 8 (mkmem 8 v1)); [intros id; discriminate|reflexivity]|].
    eapply RA_cons; [apply R_executed with (s' := assign id_d 8 (mkmem 8 v1)); [intros id; apply not_set; vm_compute; discriminate|reflexivity]|].
    eapply RA_cons; [apply R_executed with (s' := assign id_d 8 (mkmem 8 v1)); [intros id; discriminate|reflexivity]|]. apply RA_nil.
  - intros c m H Hc X. assert (exists n cols rows, c = CInsert n cols rows) as (n & cols & rows & ->).
    { unfold family_unit, unit_of_work, readme_unit, calls_then, family, parent in H. repeat (inversion H; clear H; subst; match goal with K : may_make _ _ |- _ => rename K into H; cbn beta in H | _ => idtac end); eauto. }
    subst m. inversion Hc.
Qed.

Print Assumptions C65_variable_holds_the_row_id.
Print Assumptions C65_committed_rows_have_their_ids.
Print Assumptions C65_wrong_parent_refuted.
