(* C85: panics that are recovered from, inside of callbacks or outside. *)
From Coq Require Import String List NArith ZArith Arith Bool Lia ZifyN ZifyNat ZifyBool.
From Coq Require Import List.
From Verif Require Import Base GoSlice SpecWire SpecMsg WireProofs Values MsgModel Builder
  SpecValue SpecProg SpecUnit MsgProofs BuilderProofs UnitProofs ShapeProofs History Recover SpecRecover RecoverProofs.
From Verif Require ThmBuilder ThmHistory.
Import ListNotations.
Open Scope N_scope.
Open Scope list_scope.

Lemma tdelivers_step : forall (E : Env) b pr bs, empty b -> tprog_ok word32 pr -> tidy Free pr -> tdelivers b pr bs -> nlen bs < 2 ^ 32 ->
  exists ms ids out, says bs ms /\ tprog_msgs pr ms ids (Returned out) /\ NoDup ids.
Proof.
  intros E b pr bs (He & Hb & Hd) Hok Ht (b' & out & Hr & Hs) Hl.
  pose proof (try_result pr Free b [] Hok Ht (Forall_nil _) Hd) as H. rewrite Hr in H. destruct H as (_ & b2 & Hb2 & S1 & S2 & S3).
  assert (b2 = b') by congruence. subst b2. unfold send in Hs. rewrite S1 in Hs. destruct (berr b') eqn:He'; [discriminate|].
  assert (Hbs : data (buf b') = bs) by congruence. destruct (S3 Hb eq_refl) as [_ G].
  destruct G as (x & Hx & ms & ids & G1 & G2 & G3); [rewrite Hbs; exact Hl|]. rewrite He, app_nil_l, Hbs in Hx. subst x.
  exists ms, ids, out. split; [exact G1|]. split; [exact G2|]. exact (ids_nodup _ _ _ G3).
Qed.

(* C85: where the panics that a program recovers from are its own and those of StmtExecute, Prepare, Execute, Deallocate and
   Delete calls, in callbacks or not, what is sent is what the other calls stand for, in order. The variables of
   InsertRow calls are distinct, and blocks are closed in the order they were opened. *)
Theorem C85_recovered_calls_leave_nothing_partial : forall (E : Env) b pr bs, empty b -> tprog_ok word32 pr -> tidy Free pr ->
  tdelivers b pr bs -> nlen bs < 2 ^ 32 ->
  exists ms ids out, dstream bs = Some ms /\ tprog_msgs pr ms ids (Returned out) /\ NoDup ids /\ balanced ms.
Proof.
  intros E b pr bs He Hok Ht Hd Hl. destruct (tdelivers_step E b pr bs He Hok Ht Hd Hl) as (ms & ids & out & Hs & Hp & Hn).
  exists ms, ids, out. split; [exact (says_dstream _ _ Hs)|]. split; [exact Hp|]. split; [exact Hn|]. exact (tprog_balanced _ _ _ _ Hp).
Qed.

(* C85: where nothing else can panic, the program is run to its end, and Send hands over bytes or the first error. *)
Theorem C85_recovered_units_are_built_partial : forall (E : Env) b pr, disabled b = false -> tprog_ok word32 pr -> tidy Calm pr ->
  exists b' out, run_try pr [b] = Done [b'] out /\ send b' <> Panic.
Proof.
  intros E b pr Hd Hok Ht. pose proof (try_result pr Calm b [] Hok Ht (Forall_nil _) Hd) as H.
  destruct (run_try pr [b]) as [st out|st]; [|contradiction]. destruct H as (_ & b' & -> & S1 & _). exists b', out. split; [reflexivity|].
  unfold send. rewrite S1. destruct (berr b'); discriminate.
Qed.

(* A program that panics whatever it is run on. *)
Definition doomed `{Env} (pr : tprog) : Prop := forall st, exists st', run_try pr st = Stopped st'.

(* C85: violated for a block in a block. If the inner callback panics and the outer callback recovers from it, the
   inner block stays open: what is sent opens both blocks and closes one. *)
Theorem C85_block_left_open_refuted : forall (E : Env) b k1 k2 open1 open2 stale body cberr, empty b -> blk_ok k1 -> blk_ok k2 ->
  opening k1 = Some open1 -> opening k2 = Some open2 -> doomed body ->
  exists bs, tdelivers b (TBlock 0 k1 (TTry stale (TBlock 0 k2 body (fun _ => TRet None [])) (fun _ => TRet cberr [])) (fun _ => TRet None [])) bs /\
    (nlen bs < 2 ^ 32 -> dstream bs = Some (open1 ++ open2 ++ [closing k1])).
Proof.
  intros E b k1 k2 open1 open2 stale body cberr (Hb & He & Hd) Hk1 Hk2 Ho1 Ho2 Hdoom. unfold tdelivers. cbn [run_try nth_error set_nth].
  destruct (block_begin_total k1 b Hk1 Hd He) as (b1 & en1 & H1 & Hd1 & He1 & _ & Hen1). specialize (Hen1 ltac:(congruence)). subst en1. rewrite H1.
  specialize (He1 eq_refl). apply block_begin_step in H1; [|assumption..]. destruct H1 as (_ & o & Ho & S1). assert (o = open1) by congruence. subst o.
  cbn [nth_error set_nth]. set (c1 := mkb (buf b1) (berr b1) false).
  destruct (block_begin_total k2 c1 Hk2 eq_refl He1) as (b2 & en2 & H2 & Hd2 & He2 & _ & Hen2). specialize (Hen2 ltac:(congruence)). subst en2. rewrite H2.
  specialize (He2 eq_refl). apply block_begin_step in H2; [|assumption|reflexivity]. destruct H2 as (_ & o & Ho' & S2). assert (o = open2) by congruence. subst o.
  set (outer := [mkb (buf b2) (berr b2) true; mkb (buf b1) (berr b1) true]).
  change (set_nth (c1 :: [mkb (buf b1) (berr b1) true]) 0 (mkb (buf b2) (berr b2) true)) with outer.
  destruct (try_stack body (mkb (buf b2) (berr b2) false) outer) as (x & Hx); [repeat constructor|].
  destruct (Hdoom (mkb (buf b2) (berr b2) false :: outer)) as (st' & Hst). rewrite Hst in *. cbn [stack_of] in Hx. subst st'. cbn [tl]. unfold outer. cbn [smudged].
  cbn [buf berr disabled]. set (c2 := mkb (smudge stale (buf b2)) (berr b2) false).
  destruct (block_end_total k1 c2 eq_refl) as (b3 & H3 & Hd3 & He3). rewrite H3. cbn [berr c2] in He3.
  apply block_end_step in H3; [|reflexivity]. destruct H3 as (_ & _ & S3).
  exists (data (buf b3)). split.
  - exists b3, []. split; [reflexivity|]. unfold send. rewrite Hd3, He3, He2. reflexivity.
  - intros Hl. apply says_dstream. destruct S1 as (_ & _ & S1), S2 as (_ & _ & S2). specialize (S1 He He1). specialize (S2 He1 He2).
    assert (Hc2 : berr c2 = None) by exact He2. rewrite <- He3 in He2. specialize (S3 Hc2 He2).
    destruct S1 as [L1 G1], S2 as [L2 G2], S3 as [L3 G3]. unfold c1, c2 in *. unfold len, smudge in *. cbn [buf data] in *.
    destruct (G3 Hl) as (z & Ez & Pz). destruct G2 as (y & Ey & Py); [unfold nlen in *; lia|]. destruct G1 as (w & Ew & Pw); [unfold nlen in *; lia|].
    rewrite Ez, Ey, Ew, Hb, app_nil_l, <- app_assoc. apply says_app; [exact Pw|]. apply says_app; [exact Py|exact Pz].
Qed.

(* C85: and until the outer callback returns, every further call on its builder panics. *)
Theorem C85_builder_is_dead_refuted : forall (E : Env) b k body outer stale next, berr b = None -> disabled b = false -> blk_ok k -> opening k <> None ->
  doomed body -> Forall (fun b => disabled b = true) outer ->
  exists b', disabled b' = true /\ run_try (TTry stale (TBlock 0 k body (fun _ => TRet None [])) next) (b :: outer) = run_try (next None) (b' :: outer) /\
    (forall c more, run_try (TCall 0 c more) (b' :: outer) = Stopped (b' :: outer)) /\
    (forall name cols row more, run_try (TInsertRow 0 name cols row more) (b' :: outer) = Stopped (b' :: outer)) /\
    (forall k' inner more, run_try (TBlock 0 k' inner more) (b' :: outer) = Stopped (b' :: outer)).
Proof.
  intros E b k body outer stale next He Hd Hk Ho Hdoom Hout. cbn [run_try nth_error].
  destruct (block_begin_total k b Hk Hd He) as (b1 & en & -> & _ & _ & _ & Hen). rewrite (Hen Ho). cbn [set_nth].
  destruct (try_stack body (mkb (buf b1) (berr b1) false) (mkb (buf b1) (berr b1) true :: outer)) as (x & Hx); [constructor; [reflexivity|exact Hout]|].
  destruct (Hdoom (mkb (buf b1) (berr b1) false :: mkb (buf b1) (berr b1) true :: outer)) as (st' & Hst). rewrite Hst in *. cbn [stack_of] in Hx. subst st'. cbn [tl smudged].
  eexists. split; [|split; [reflexivity|]]; [reflexivity|].
  split; [|split].
  - intros c more. rewrite exec_disabled by reflexivity. rewrite stop_call_disabled by reflexivity. reflexivity.
  - intros name cols row more. rewrite insert_row_disabled by reflexivity. rewrite stop_row_disabled by reflexivity. reflexivity.
  - intros k' inner more. rewrite block_disabled by reflexivity. reflexivity.
Qed.

Definition nil_func : gvalue := VFunc None.

(* C85: violated for Insert (and Update): what it had written when it panicked is sent. *)
Theorem C85_half_a_message_refuted : exists bs,
  @tdelivers ThmBuilder.plain (new_pipe 64)
    (TBlock 0 (KTx 0) (TTry (fun _ => 0) (TCall 0 (CInsert (s2b "t") [s2b "a"] [[VInt 1]; [nil_func]]) (TRet None [])) (fun _ => TRet None [])) (fun _ => TRet None [])) bs /\
  dstream bs = None.
Proof. eexists. split; [do 2 eexists; split; vm_compute; reflexivity|]. vm_compute. reflexivity. Qed.

(* Programs without recovery are as before. *)
Theorem C85_as_without_recovery : forall (E : Env) pr b bs, tdelivers b (embed pr) bs <-> delivers b pr bs.
Proof.
  intros E pr b bs. unfold tdelivers, delivers. split; intros (b' & out & Hr & Hs); exists b', out; (split; [|exact Hs]).
  - rewrite run_embed in Hr. rewrite (ThmHistory.run_to_run E). rewrite Hr. reflexivity.
  - rewrite run_embed. rewrite (ThmHistory.run_to_run E) in Hr. destruct (run_to pr [b]); cbn in Hr; congruence.
Qed.

(* ---- the hypotheses can be met ---- *)

(* A transaction whose callback tries a call that panics, panics itself, uses the outer builder, and goes on. *)
Definition tries : tprog :=
  TBlock 0 (KTx 0)
    (TCall 0 (CStmtExecute (s2b "SELECT 1") [])
      (TTry (fun i => N.of_nat i) (TCall 0 (CDeallocate 7) (TCall 0 (CStmtExecute (s2b "SELECT ?") [VNilPtr true true]) (TRet None [])))
        (fun o => match o with
          | Some _ => TRet None []
          | None => TTry (fun _ => 1) TPanic (fun _ => TTry (fun _ => 2) (TCall 1 (CDeallocate 8) (TRet None []))
              (fun _ => TInsertRow 0 (s2b "t") [s2b "a"] [VInt 5] (fun o => TRet None [o])))
          end)))
    (fun _ => TRet None []).

Ltac fine :=
  repeat first [progress ThmBuilder.ok | progress cbn [tprog_ok tidy tries] | progress intros | discriminate
    | match goal with
      | |- quiet_call _ => split
      | |- call_quiet _ => unfold call_quiet; cbn
      | |- call_fits _ => unfold call_fits; vm_compute
      | |- row_fits _ _ _ => unfold row_fits; vm_compute
      | |- panic_free _ => cbn
      | |- plain _ \/ _ => left; exact I
      | |- tprog_ok _ (match ?o with _ => _ end) => destruct o
      | |- tidy _ (match ?o with _ => _ end) => destruct o
      | |- _ < _ => lia
      end].
Example tries_meets : tprog_ok (@word32 ThmBuilder.plain) tries /\ tidy Calm tries /\ tidy Free tries /\ exists bs,
  @tdelivers ThmBuilder.plain (new_pipe 9) tries bs /\ (nlen bs < 2 ^ 32)%N /\
  dstream bs = Some [statement (s2b "START TRANSACTION"); statement (s2b "SELECT 1"); MDeallocate 7;
    MInsert (s2b "t") (Some table_model) [s2b "a"] [[XLiteral (SSint 5)]]; statement (s2b "SET @id$75 = LAST_INSERT_ID()"); statement (s2b "COMMIT")].
Proof.
  split; [|split; [|split]].
  - change (@word32 ThmBuilder.plain) with false. fine.
  - fine.
  - fine.
  - eexists. split; [do 2 eexists; split; vm_compute; reflexivity|]. split; [vm_compute; reflexivity|]. vm_compute. reflexivity.
Qed.

(* A callback that writes something and then panics is doomed; the block around it stays open. *)
Example open_meets : @doomed ThmBuilder.plain (TCall 0 (CDeallocate 7) TPanic) /\ exists bs,
  @tdelivers ThmBuilder.plain (new_pipe 9)
    (TBlock 0 (KExpectFailOnError 0) (TTry (fun _ => 3) (TBlock 0 (KExpectFailOnError 1) (TCall 0 (CDeallocate 7) TPanic) (fun _ => TRet None []))
      (fun _ => TRet None [])) (fun _ => TRet None [])) bs /\
  dstream bs = Some [MExpectOpen 0 [CNoError (s2b "1")]; MExpectOpen 1 [CNoError (s2b "1")]; MExpectClose] /\
  opening (KTx 0) <> None /\ blk_ok (KTx 0).
Proof.
  split.
  - intros st. cbn [run_try]. destruct (nth_error st 0) as [b|]; [|eexists; reflexivity]. destruct (exec_call _ _ b); eexists; reflexivity.
  - eexists. split; [do 2 eexists; split; vm_compute; reflexivity|]. split; [vm_compute; reflexivity|]. split; [discriminate|exact I].
Qed.

Print Assumptions C85_recovered_calls_leave_nothing_partial.
Print Assumptions C85_recovered_units_are_built_partial.
Print Assumptions C85_block_left_open_refuted.
Print Assumptions C85_builder_is_dead_refuted.
Print Assumptions C85_half_a_message_refuted.
Print Assumptions C85_as_without_recovery.
