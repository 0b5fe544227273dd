(* The outcome of a program does not depend on the buffer it is built in. *)
From Coq Require Import String List NArith ZArith Arith Bool Lia ZifyN ZifyNat ZifyBool.
From Coq Require Import List.
From Verif Require Import Base GoSlice SpecWire SpecMsg Text Values AnyModel ExprModel MsgModel Builder
  SpecValue SpecProg SpecUnit SpecError SpecPanic ValueProofs MsgProofs BuilderProofs UnitProofs ShapeProofs ErrorProofs PanicProofs.
Import ListNotations.
Open Scope N_scope.
Open Scope list_scope.

Section Lock.
Variables (E1 E2 : Env) (HW : @word32 E1 = @word32 E2).

Lemma call_lock : forall d c b1 b2, Forall (fun d => d = true) d -> call_ok (@word32 E1) c -> call_decided c -> call_fits c -> locked b1 b2 -> berr b1 = None ->
  (@exec_call E1 d c b1 = Panic /\ @exec_call E2 d c b2 = Panic) \/
  exists c1 c2, @exec_call E1 d c b1 = Ok c1 /\ @exec_call E2 d c b2 = Ok c2 /\ locked c1 c2.
Proof using HW.
  intros d c b1 b2 Hd Hok Hde Hf (L1 & L2 & L3 & L4) He. assert (Hok2 : call_ok (@word32 E2) c) by (rewrite <- HW; exact Hok). assert (He2 : berr b2 = None) by congruence.
  destruct (@call_step E1 d c b1 Hd Hok Hde Hf L1 He) as [(Ha & N1 & _)|[[Hp X1]|(e & c1 & Hc & N1 & X1 & Y1 & Z1)]].
  - right. assert (Eq : forall (E : Env) b, disabled b = false -> berr b = None -> exec_call d c b = do (q, e) <- run_call d c E (buf b); Ok (mkb q e (disabled b))).
    { intros E b H1 H2. unfold exec_call, guarded. rewrite H1, H2. destruct c; reflexivity. }
    rewrite (Eq E1 b1 L1 He), (Eq E2 b2 L2 He2).
    destruct (outcome_locked E1 E2 HW _ _ _ _ _ (buf b1) (buf b2) (call_outcome (@word32 E1) d c Hok) Hf) as (q1 & q2 & eo & -> & -> & Hq); [left; exact Ha|exact (L4 He)|].
    cbn [bind]. do 2 eexists. split; [reflexivity|]. split; [reflexivity|]. unfold locked. cbn [disabled berr buf]. auto.
  - left. split; [exact X1|]. destruct (@call_step E2 d c b2 Hd Hok2 Hde Hf L2 He2) as [(_ & N2 & _)|[[_ X2]|(e & c2 & _ & N2 & _)]]; [contradiction|exact X2|contradiction].
  - right. destruct (@call_step E2 d c b2 Hd Hok2 Hde Hf L2 He2) as [(Ha & _)|[[Hp _]|(e2 & c2 & Hc2 & N2 & X2 & Y2 & Z2)]]; [|contradiction|].
    + destruct (@call_total E1 d c b1 Hok Hf (or_intror Ha) L1 He) as (x & Hx & _ & Hx'). specialize (Hx' Ha). congruence.
    + exists c1, c2. split; [exact X1|]. split; [exact X2|]. unfold locked. rewrite Y1, Y2, Z1, Z2.
      assert (e2 = e) as ->.
      { pose proof (@call_gives E1 d c e2 (buf b1) Hc2 Hok Hf) as G. unfold exec_call, guarded in X1. rewrite L1, He in X1.
        change (match c with CStmtExecute stmt args => @stmt_execute E1 (buf b1) _ _ | _ => _ end) with (run_call d c E1 (buf b1)) in X1.
        destruct (run_call d c E1 (buf b1)) as [[q eo]|]; [|discriminate]. cbn [bind] in X1. injection X1 as <-. cbn [berr] in Z1. pose proof (G q eo eq_refl). congruence. }
      split; [reflexivity|]. split; [reflexivity|]. split; [reflexivity|discriminate].
Qed.

Lemma row_lock : forall name cols row b1 b2, go_string name -> Forall go_string cols -> values_ok (@word32 E1) row -> Forall decided row -> row_fits name cols row -> locked b1 b2 -> berr b1 = None ->
  (@b_insert_row E1 name cols row b1 = Panic /\ @b_insert_row E2 name cols row b2 = Panic) \/
  exists c1 c2 o, @b_insert_row E1 name cols row b1 = Ok (c1, o) /\ @b_insert_row E2 name cols row b2 = Ok (c2, o) /\ locked c1 c2.
Proof using HW.
  intros name cols row b1 b2 Hn Hc Hr Hde Hf Hl He. pose proof Hl as (L1 & L2 & L3 & L4). assert (Hr2 : values_ok (@word32 E2) row) by (rewrite <- HW; exact Hr). assert (He2 : berr b2 = None) by congruence.
  destruct (@row_step E1 name cols row b1 Hn Hc Hr Hde Hf L1 He) as [(Ha & N1 & _)|[[Hp X1]|(e & c1 & o1 & H1 & N1 & X1 & Y1 & Z1 & O1)]].
  - right. apply (insert_row_alike E1 E2 HW); auto.
  - left. split; [exact X1|]. destruct (@row_step E2 name cols row b2 Hn Hc Hr2 Hde Hf L2 He2) as [(_ & N2 & _)|[[_ X2]|(e & c2 & o2 & _ & N2 & _)]]; [contradiction|exact X2|contradiction].
  - right. destruct (@row_step E2 name cols row b2 Hn Hc Hr2 Hde Hf L2 He2) as [(Ha & _)|[[Hp _]|(e2 & c2 & o2 & H2 & N2 & X2 & Y2 & Z2 & O2)]]; [|contradiction|].
    + destruct (@insert_row_total E1 name cols row b1 Hn Hc Hr Hf (or_intror Ha) L1 He) as (x & o & Hx & _ & Hx' & _). specialize (Hx' Ha). congruence.
    + subst o1 o2. exists c1, c2, None. split; [exact X1|]. split; [exact X2|]. unfold locked. rewrite Y1, Y2, Z1, Z2.
      assert (e2 = e) as ->.
      { unfold b_insert_row in X1. rewrite L1, He in X1. cbn zeta in X1. destruct (msg_insert (buf b1) name cols) as [p|]; [|discriminate]. cbn [bind] in X1.
        pose proof (@row_gives E1 row e2 p H2 Hr ltac:(unfold row_fits, row_size, row_weight in Hf; lia)) as G.
        destruct (@append_insert_row E1 p row) as [[q eo]|] eqn:Hq; [|discriminate]. rewrite (G q eo eq_refl) in X1. cbn [bind] in X1. injection X1 as <-. cbn [berr] in Z1. congruence. }
      split; [reflexivity|]. split; [reflexivity|]. split; [reflexivity|discriminate].
Qed.

(* With an error both builders skip what is called on them, and panic at the same uses of enclosing ones. *)
Lemma error_lock : forall pr b1 b2 o1 o2, disabled b1 = false -> disabled b2 = false -> berr b1 <> None -> berr b2 <> None -> all_disabled o1 -> all_disabled o2 -> length o1 = length o2 ->
  (@run E1 pr (b1 :: o1) = Panic /\ @run E2 pr (b2 :: o2) = Panic) \/
  exists out, @run E1 pr (b1 :: o1) = Ok (b1 :: o1, out) /\ @run E2 pr (b2 :: o2) = Ok (b2 :: o2, out).
Proof using.
  induction pr as [cberr out0|lvl c next IH|lvl name cols row next IH|lvl k body _ next IHn]; intros b1 b2 o1 o2 D1 D2 N1 N2 A1 A2 Hl; cbn [run].
  - right. eauto.
  - destruct lvl as [|lvl].
    + cbn [nth_error]. unfold exec_call, guarded. rewrite D1, D2. destruct (berr b1) eqn:Hb1; [|congruence]. destruct (berr b2) eqn:Hb2; [|congruence]. cbn [bind set_nth]. apply IH; try assumption; congruence.
    + left. split; [destruct (nth_error (b1 :: o1) (S lvl)) eqn:Hx; [rewrite exec_disabled by exact (only_inner _ _ _ _ A1 Hx)|]; reflexivity|destruct (nth_error (b2 :: o2) (S lvl)) eqn:Hx; [rewrite exec_disabled by exact (only_inner _ _ _ _ A2 Hx)|]; reflexivity].
  - destruct lvl as [|lvl].
    + cbn [nth_error]. unfold b_insert_row. rewrite D1, D2. destruct (berr b1) eqn:Hb1; [|exfalso; apply N1; reflexivity]. destruct (berr b2) eqn:Hb2; [|exfalso; apply N2; reflexivity]. cbn [bind set_nth]. apply IH; try assumption; congruence.
    + left. split; [destruct (nth_error (b1 :: o1) (S lvl)) eqn:Hx; [rewrite insert_row_disabled by exact (only_inner _ _ _ _ A1 Hx)|]; reflexivity|destruct (nth_error (b2 :: o2) (S lvl)) eqn:Hx; [rewrite insert_row_disabled by exact (only_inner _ _ _ _ A2 Hx)|]; reflexivity].
  - destruct lvl as [|lvl].
    + cbn [nth_error]. unfold block_begin. rewrite D1, D2. destruct (berr b1) eqn:Hb1; [|congruence]. destruct (berr b2) eqn:Hb2; [|congruence]. cbn [bind set_nth]. apply IHn; try assumption; congruence.
    + left. split; [destruct (nth_error (b1 :: o1) (S lvl)) eqn:Hx; [rewrite block_disabled by exact (only_inner _ _ _ _ A1 Hx)|]; reflexivity|destruct (nth_error (b2 :: o2) (S lvl)) eqn:Hx; [rewrite block_disabled by exact (only_inner _ _ _ _ A2 Hx)|]; reflexivity].
Qed.

Lemma run_lock : forall pr b1 b2 o1 o2, prog_ok (@word32 E1) pr -> prog_decided pr -> locked b1 b2 -> berr b1 = None -> all_disabled o1 -> all_disabled o2 -> length o1 = length o2 ->
  (@run E1 pr (b1 :: o1) = Panic /\ @run E2 pr (b2 :: o2) = Panic) \/
  exists c1 c2 out, @run E1 pr (b1 :: o1) = Ok (c1 :: o1, out) /\ @run E2 pr (b2 :: o2) = Ok (c2 :: o2, out) /\ locked c1 c2 /\ (berr c1 = None -> Forall row_variable out).
Proof using HW.
  assert (Err : forall pr b1 b2 o1 o2, locked b1 b2 -> berr b1 <> None -> all_disabled o1 -> all_disabled o2 -> length o1 = length o2 ->
    (@run E1 pr (b1 :: o1) = Panic /\ @run E2 pr (b2 :: o2) = Panic) \/
    exists c1 c2 out, @run E1 pr (b1 :: o1) = Ok (c1 :: o1, out) /\ @run E2 pr (b2 :: o2) = Ok (c2 :: o2, out) /\ locked c1 c2 /\ (berr c1 = None -> Forall row_variable out)).
  { intros pr b1 b2 o1 o2 Hl He A1 A2 Hlen. pose proof Hl as (L1 & L2 & L3 & _).
    destruct (error_lock pr b1 b2 o1 o2 L1 L2 He ltac:(congruence) A1 A2 Hlen) as [H|(out & H1 & H2)]; [left; exact H|]. right. exists b1, b2, out. split; [exact H1|]. split; [exact H2|]. split; [exact Hl|]. contradiction. }
  induction pr as [cberr out0|lvl c next IH|lvl name cols row next IH|lvl k body IHb next IHn]; intros b1 b2 o1 o2 Hok Hs Hl He A1 A2 Hlen;
    unfold prog_decided in *; cbn [run prog_ok prog_all] in *.
  - right. exists b1, b2, out0. auto.
  - destruct Hok as [Hc Hok], Hs as [[Q1 Q2] Hs]. destruct lvl as [|lvl].
    2: { left. split; [destruct (nth_error (b1 :: o1) (S lvl)) eqn:Hx; [rewrite exec_disabled by exact (only_inner _ _ _ _ A1 Hx)|]; reflexivity|destruct (nth_error (b2 :: o2) (S lvl)) eqn:Hx; [rewrite exec_disabled by exact (only_inner _ _ _ _ A2 Hx)|]; reflexivity]. }
    cbn [nth_error set_nth map]. rewrite <- (disabled_flags o1 o2 A1 A2 Hlen).
    destruct (call_lock (true :: map disabled o1) c b1 b2) as [[-> ->]|(x1 & x2 & -> & -> & Hx)]; try assumption; [|left; split; reflexivity|].
    { constructor; [reflexivity|]. apply Forall_map. exact A1. }
    cbn [bind]. destruct (berr x1) as [e|] eqn:Hx1; [apply Err; [assumption|congruence|assumption..]|]. apply IH; assumption.
  - destruct Hok as (Hn & Hc & Hr & Hok), Hs as [[Q1 Q2] Hs]. destruct lvl as [|lvl].
    2: { left. split; [destruct (nth_error (b1 :: o1) (S lvl)) eqn:Hx; [rewrite insert_row_disabled by exact (only_inner _ _ _ _ A1 Hx)|]; reflexivity|destruct (nth_error (b2 :: o2) (S lvl)) eqn:Hx; [rewrite insert_row_disabled by exact (only_inner _ _ _ _ A2 Hx)|]; reflexivity]. }
    cbn [nth_error set_nth].
    destruct (row_lock name cols row b1 b2 Hn Hc Hr Q1 Q2 Hl He) as [[-> ->]|(x1 & x2 & o & Hx1 & Hx2 & Hx)]; [left; split; reflexivity|]. rewrite Hx1, Hx2. cbn [bind].
    destruct (berr x1) as [e|] eqn:Hbx; [apply Err; [assumption|congruence|assumption..]|].
    pose proof (@row_names E1 name cols row b1 x1 o (proj1 Hl) He Hx1 Hbx) as Hv.
    apply IH; [apply Hok|apply Hs; exact Hv|assumption..]. destruct Hv as (id & -> & Hid & Hlen'). exists id. auto.
  - destruct Hok as (Hk & Hokb & Hokn), Hs as (_ & Hsb & Hsn). destruct lvl as [|lvl].
    2: { left. split; [destruct (nth_error (b1 :: o1) (S lvl)) eqn:Hx; [rewrite block_disabled by exact (only_inner _ _ _ _ A1 Hx)|]; reflexivity|destruct (nth_error (b2 :: o2) (S lvl)) eqn:Hx; [rewrite block_disabled by exact (only_inner _ _ _ _ A2 Hx)|]; reflexivity]. }
    cbn [nth_error set_nth].
    destruct (block_begin_locked E1 E2 HW k b1 b2 Hk Hl He) as (x1 & x2 & en & Hx1 & Hx2 & Hx). rewrite Hx1, Hx2. cbn [bind].
    destruct (@block_begin_total E1 k b1 Hk (proj1 Hl) He) as (y & en' & Hy & _ & Y1 & Y2 & _). rewrite Hx1 in Hy. injection Hy as <- <-.
    destruct en; [|apply Err; [assumption|apply Y2; reflexivity|assumption..]]. specialize (Y1 eq_refl).
    destruct (IHb (mkb (buf x1) (berr x1) false) (mkb (buf x2) (berr x2) false) (mkb (buf x1) (berr x1) true :: o1) (mkb (buf x2) (berr x2) true :: o2) Hokb Hsb)
      as [[-> ->]|(z1 & z2 & out & -> & -> & Hz & Hout)].
    { destruct Hx as (_ & _ & X3 & X4). unfold locked. cbn [disabled berr buf]. auto. }
    { exact Y1. }
    { constructor; [reflexivity|exact A1]. }
    { constructor; [reflexivity|exact A2]. }
    { cbn [length]. congruence. }
    { left. split; reflexivity. }
    cbn [bind]. destruct (block_end_locked E1 E2 HW k (mkb (buf z1) (berr z1) false) (mkb (buf z2) (berr z2) false)) as (w1 & w2 & Hw1 & Hw2 & Hw).
    { destruct Hz as (_ & _ & X3 & X4). unfold locked. cbn [disabled berr buf]. auto. }
    rewrite Hw1, Hw2. cbn [bind set_nth].
    destruct (berr w1) as [e|] eqn:Hbw; [apply Err; [assumption|congruence|assumption..]|].
    destruct (@block_end_total E1 k (mkb (buf z1) (berr z1) false) eq_refl) as (v & Hv & _ & Hv2). rewrite Hw1 in Hv. injection Hv as <-. cbn [berr] in Hv2.
    pose proof (Hout ltac:(congruence)) as Hov. apply IHn; [apply Hokn; apply variables_results; exact Hov|apply Hsn; exact Hov|assumption..].
Qed.
End Lock.
