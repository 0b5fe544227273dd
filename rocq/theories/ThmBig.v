(* C46 (and C07, C08, C17): units of work of any size. *)
From Coq Require Import String List NArith ZArith Arith Bool Lia ZifyN ZifyNat ZifyBool.
From Coq Require Import List.
From Verif Require Import Base GoSlice SpecWire SpecMsg WireProofs Values MsgModel Builder
  SpecValue SpecProg SpecUnit SpecBig MsgProofs BuilderProofs UnitProofs ShapeProofs BigProofs.
From Verif Require ThmBuilder.
Import ListNotations.
Open Scope N_scope.
Open Scope list_scope.

Lemma delivers_any_size : forall (E : Env) b pr bs, empty b -> prog_ok word32 pr -> calls_below (2 ^ 31) pr -> delivers b pr bs -> nlen bs < 2 ^ 63 ->
  exists ms ids out, says bs ms /\ prog_msgs pr ms ids out /\ ids_between 0 (length bs) ids.
Proof.
  intros E b pr bs (He & Hb & Hd) Hok Hw (b' & out & Hr & Hs) Hl.
  destruct (run_step pr b [] _ out Hok (Forall_nil _) Hd Hr) as (_ & b2 & Hb2 & S1 & _). assert (b2 = b') by congruence. subst b2.
  unfold send in Hs. rewrite S1 in Hs. destruct (berr b') eqn:He'; [discriminate|].
  assert (Hbs : data (buf b') = bs) by congruence.
  destruct (run_adds pr b [] b' out Hok Hw (Forall_nil _) Hd Hr Hb He') as (_ & _ & G).
  destruct G as (x & Hx & ms & ids & G1 & G2 & G3); [rewrite Hbs; exact Hl|]. rewrite He, app_nil_l, Hbs in Hx. subst x.
  unfold len in G3. rewrite He, Hbs in G3. eauto 6.
Qed.

(* C46: it is the frames that have to be below 4 GiB, not the unit of work. If every call is below 2 GiB, then what is sent, of
   any size, is a sequence of whole frames of below 4 GiB each, that are the messages the program stands for, in
   order; blocks are balanced and the variables of InsertRow calls distinct. (2^63 is Go's limit for a slice.) *)
Theorem C46_units_of_any_size : forall (E : Env) b pr bs, empty b -> prog_ok word32 pr -> calls_below (2 ^ 31) pr -> delivers b pr bs -> nlen bs < 2 ^ 63 ->
  exists fs ms ids out, bs = concat (map frame fs) /\ Forall (fun f => 1 + nlen (snd f) < 2 ^ 32) fs /\
    dstream bs = Some ms /\ length fs = length ms /\ prog_msgs pr ms ids out /\ NoDup ids /\ balanced ms.
Proof.
  intros E b pr bs He Hok Hw Hd Hl. destruct (delivers_any_size E b pr bs He Hok Hw Hd Hl) as (ms & ids & out & Hs & Hp & Hi).
  pose proof (says_dstream _ _ Hs) as Hm. destruct Hs as (fs & Hf & HF). destruct (framed_frame bs fs Hf) as [F1 F2].
  exists fs, ms, ids, out. split; [exact F1|]. split; [eapply Forall_impl; [|exact F2]; cbn; intros; lia|]. split; [exact Hm|].
  split; [clear - HF; induction HF; cbn [length]; congruence|].
  split; [exact Hp|]. split; [exact (ids_nodup _ _ _ Hi)|exact (prog_balanced _ _ _ _ Hp)].
Qed.

(* C08: and every program of calls the API accepts is sent, whatever its size. *)
Theorem C08_accepted_units_of_any_size : forall (E : Env) b pr, empty b -> prog_ok word32 pr -> inner_only pr -> prog_accepted pr -> calls_below (2 ^ 31) pr ->
  exists bs, delivers b pr bs /\ (nlen bs < 2 ^ 63 -> exists ms ids out, dstream bs = Some ms /\ prog_msgs pr ms ids out /\ NoDup ids).
Proof.
  intros E b pr He Hok Hi Ha Hw. destruct (ThmBuilder.C08_accepted_programs_are_sent E b pr He Hok Hi Ha) as (bs & Hd).
  exists bs. split; [exact Hd|]. intros Hl. destruct (C46_units_of_any_size E b pr bs He Hok Hw Hd Hl) as (fs & ms & ids & out & _ & _ & H1 & _ & H2 & H3 & _).
  eauto 6.
Qed.

(* ---- the hypotheses can be met, by a unit of more than 5 GiB ---- *)

Fixpoint again (n : nat) (s : bytes) : prog := match n with O => Ret None [] | S n => PCall 0 (CStmtExecute s []) (again n s) end.

Lemma again_size : forall (E : Env) n s b b' out, disabled b = false -> run (again n s) [b] = Ok ([b'], out) -> berr b = None -> berr b' = None ->
  (len (buf b) + n * length s <= len (buf b'))%nat.
Proof.
  intros E. induction n as [|n IH]; intros s b b' out Hd H He He'; cbn [again run] in H.
  - injection H as <- _. lia.
  - cbn [nth_error] in H. unfold exec_call, guarded in H. rewrite Hd, He in H. destruct (stmt_execute (buf b) s []) as [[q e]|] eqn:Hq; cbn [bind set_nth] in H; [|discriminate].
    destruct e as [e|].
    + exfalso. assert (Hi : inner_only (again n s)) by (clear; induction n; cbn [again inner_only]; auto).
      destruct (run_error (again n s) (mkb q (Some e) false) [] Hi eq_refl ltac:(discriminate)) as (o & Ho). rewrite Ho in H. injection H as <- _. discriminate.
    + specialize (IH s (mkb q None false) b' out eq_refl H eq_refl He'). cbn [buf] in IH. apply ThmBuilder.stmt_size in Hq. lia.
Qed.

Lemma again_meets : forall (E : Env) b s, empty b -> go_string s -> nlen s = 2 ^ 30 ->
  exists bs, prog_ok word32 (again 5 s) /\ calls_below (2 ^ 31) (again 5 s) /\ delivers b (again 5 s) bs /\ 5 * 2 ^ 30 <= nlen bs.
Proof.
  intros E b s Hb Hg Hl.
  assert (Hok : prog_ok word32 (again 5 s)) by (cbn [again prog_ok call_ok]; repeat (split; [split; [exact Hg|constructor]|]); constructor).
  assert (Hw : calls_below (2 ^ 31) (again 5 s)).
  { unfold calls_below. cbn [again prog_all call_weight total_weight]. unfold name_weight. rewrite Hl. repeat (split; [reflexivity|]). constructor. }
  destruct (ThmBuilder.C08_accepted_programs_are_sent E b (again 5 s) Hb Hok) as (bs & Hd).
  - cbn [again inner_only]. auto 8.
  - unfold prog_accepted. cbn [again prog_all call_accepted call_weight total_weight]. unfold call_fits. cbn [call_weight total_weight]. unfold name_weight. rewrite Hl.
    repeat (split; [split; [constructor|reflexivity]|]). constructor.
  - exists bs. split; [exact Hok|]. split; [exact Hw|]. split; [exact Hd|]. destruct Hd as (b' & out & Hr & Hs). destruct Hb as (He & Hbe & Hdb).
    destruct (run_step (again 5 s) b [] _ out Hok (Forall_nil _) Hdb Hr) as (_ & b2 & Hb2 & S1 & _). assert (b2 = b') by congruence. subst b2.
    unfold send in Hs. rewrite S1 in Hs. destruct (berr b') eqn:He'; [discriminate|]. assert (Hbs : data (buf b') = bs) by congruence.
    pose proof (again_size E 5 s b b' out Hdb Hr Hbe He') as Hsz. unfold len in Hsz. rewrite Hbs in Hsz. clear - Hsz Hl. unfold nlen in *. lia.
Qed.

Example big_meets : forall (E : Env) b, empty b -> exists pr bs, prog_ok word32 pr /\ calls_below (2 ^ 31) pr /\ delivers b pr bs /\ 5 * 2 ^ 30 <= nlen bs.
Proof.
  intros E b Hb. set (n := N.to_nat (2 ^ 30)). assert (Hn : N.of_nat n = 2 ^ 30) by (unfold n; apply N2Nat.id). clearbody n.
  assert (Hl : nlen (repeat 97 n) = 2 ^ 30) by (unfold nlen; rewrite repeat_length; exact Hn).
  assert (Hg : go_string (repeat 97 n)) by (split; [apply Forall_forall; intros x Hx; apply repeat_spec in Hx; subst; reflexivity|lia]).
  destruct (again_meets E b (repeat 97 n) Hb Hg Hl) as (bs & H). exists (again 5 (repeat 97 n)), bs. exact H.
Qed.

Print Assumptions C46_units_of_any_size.
Print Assumptions C08_accepted_units_of_any_size.
