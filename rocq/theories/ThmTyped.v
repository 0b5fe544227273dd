(* Programs of builder calls with any arguments of the supported types, also those that are encoded wrongly
   (long variable names, the least duration): C07, C08, C09, C11, C54 and C115 without the exclusion of
   these values, and C120: what is wrong stays within its message. *)
From Coq Require Import String List NArith ZArith Arith Bool Lia ZifyN ZifyNat ZifyBool.
From Coq Require Import List.
From Verif Require Import Base GoSlice SliceProofs Varint SpecWire SpecMsg WireProofs Text TextProofs Values AnyModel ExprModel MsgModel Builder
  SpecValue SpecProg SpecUnit SpecSize ValueProofs MsgProofs BuilderProofs UnitProofs ShapeProofs SizeProofs
  SpecTyped TypedProofs TypedRunProofs TypedSizeProofs TypedFrameProofs ThmValues ThmBuilder ThmDefects.
Import ListNotations.
Open Scope N_scope.
Open Scope list_scope.

(* ---- what of prog_ok is asked for here ---- *)

Lemma values_typed : forall w vs, values_ok w vs -> typed_values w vs.
Proof. intros w vs H. eapply Forall_impl; [|exact H]. intros v [Hv _]. exact Hv. Qed.
Lemma opt_typed : forall w cr, opt (fun_ok w) cr -> opt (well_formed_fun w) cr.
Proof. intros w [f|] H; [exact (proj1 H)|exact H]. Qed.
Lemma call_typed : forall w c, call_ok w c -> typed_call w c.
Proof.
  intros w c. destruct c; cbn [call_ok typed_call]; unfold sets_ok, typed_sets; intuition auto using values_typed, opt_typed.
  all: eapply Forall_impl; [|eassumption]; intros vs; apply values_typed.
Qed.
(* These programs include the others. *)
Lemma prog_typed : forall w pr, prog_ok w pr -> typed_prog w pr.
Proof.
  intros w. induction pr as [cberr out|lvl c next IH|lvl name cols row next IH|lvl k body IHb next IHn]; cbn [prog_ok typed_prog].
  - auto.
  - intros [H1 H2]. split; [apply call_typed; assumption|auto].
  - intros (H1 & H2 & H3 & H4). repeat (split; [assumption || apply values_typed; assumption|]). auto.
  - intros (H1 & H2 & H3). repeat (split; [auto|]). auto.
Qed.

Lemma delivers_run : forall (E : Env) b pr bs, empty b -> typed_prog word32 pr -> delivers b pr bs ->
  exists b' out, run pr [b] = Ok ([b'], out) /\ berr b' = None /\ data (buf b') = bs.
Proof.
  intros E b pr bs (He & Hb & Hd) Hok (b' & out & Hr & Hs).
  destruct (typed_step pr b [] _ out Hok (Forall_nil _) Hd Hr) as (_ & b2 & Hb2 & S1 & _). injection Hb2 as <-.
  unfold send in Hs. rewrite S1 in Hs. destruct (berr b') eqn:He'; [discriminate|]. exists b', out. split; [exact Hr|]. split; [exact He'|congruence].
Qed.

(* ---- C07 ---- *)

(* C07: whatever the arguments, what is sent is a sequence of whole frames, each of the type of a message that can be built. *)
Theorem C07_whole_frames_whatever_the_values : forall (E : Env) b pr bs, empty b -> typed_prog word32 pr -> delivers b pr bs -> nlen bs < 2 ^ 32 ->
  exists fs, bs = concat (map frame fs) /\ Forall (fun f => In (fst f) built_types /\ 1 + nlen (snd f) < 2 ^ 32) fs.
Proof.
  intros E b pr bs He Hok Hdel Hl. destruct (delivers_run E b pr bs He Hok Hdel) as (b' & out & Hr & He' & Hbs). destruct He as (He & Hb & Hd).
  destruct (typed_step pr b [] _ out Hok (Forall_nil _) Hd Hr) as (_ & b2 & Hb2 & S1 & S2 & S3). injection Hb2 as <-.
  destruct (S3 Hb He') as [_ G]. destruct G as (x & Hx & fs & Hf & Ht); [rewrite Hbs; exact Hl|].
  rewrite He, app_nil_l, Hbs in Hx. subst x. destruct (framed_frame bs fs Hf) as [H1 H2]. exists fs. split; [exact H1|].
  apply Forall_and; assumption.
Qed.

(* ---- C08 ---- *)

(* C08: whatever the arguments, programs that are acceptable are sent. *)
Theorem C08_accepted_are_sent_whatever_the_values : forall (E : Env) b pr, empty b -> typed_prog word32 pr -> inner_only pr -> prog_accepted pr ->
  exists bs, delivers b pr bs.
Proof.
  intros E b pr (_ & He & Hd) Hok Hi Ha. destruct (typed_accepted_total pr b [] Hi Hok Ha Hd He) as (b' & out & Hr & He').
  exists (data (buf b')), b', out. split; [exact Hr|]. unfold send.
  destruct (typed_step pr b [] _ out Hok (Forall_nil _) Hd Hr) as (_ & b2 & Hb2 & S1 & _). injection Hb2 as <-. rewrite S1, He'. reflexivity.
Qed.

(* ---- C09, C11 ---- *)

(* C09: whatever the arguments, the bytes do not depend on the capacity and content of the buffer, nor on how Go grows it. *)
Theorem C09_independent_whatever_the_values : forall (E1 E2 : Env) b1 b2 pr bs, @word32 E1 = @word32 E2 -> empty b1 -> empty b2 ->
  typed_prog (@word32 E1) pr -> @delivers E1 b1 pr bs -> nlen bs < 2 ^ 32 -> @delivers E2 b2 pr bs.
Proof.
  intros E1 E2 b1 b2 pr bs HW H1 H2 Hok Hdel Hl. destruct (delivers_run E1 b1 pr bs H1 Hok Hdel) as (b' & out & Hr & He & Hb).
  assert (Hsd : same_data b1 b2). { destruct H1 as (? & ? & ?), H2 as (? & ? & ?). unfold same_data. intuition congruence. }
  destruct (typed_same E1 E2 HW pr b1 b2 [] [] b' out Hok (Forall_nil _) (Forall_nil _) eq_refl Hsd Hr He ltac:(rewrite Hb; exact Hl)) as (b2' & Hr2 & Hs2).
  exists b2', out. split; [exact Hr2|]. unfold send. destruct Hs2 as (S1 & S2 & S3 & S4 & S5). rewrite S5, S3, <- S1, Hb. reflexivity.
Qed.

(* C11: and after Reset (of a builder with any content, in any error state) the builder works as a new one. *)
Theorem C11_reset_is_fresh_whatever_the_values : forall (E : Env) b n pr bs, disabled b = false -> typed_prog word32 pr -> nlen bs < 2 ^ 32 ->
  exists b', reset b = Ok b' /\ (delivers b' pr bs <-> delivers (new_pipe n) pr bs).
Proof.
  intros E b n pr bs Hd Hok Hl. unfold reset. rewrite Hd. unfold reslice. cbn [Nat.leb firstn bind]. eexists. split; [reflexivity|].
  split; intros H; (eapply C09_independent_whatever_the_values; [reflexivity| | |exact Hok|exact H|exact Hl]); repeat split.
Qed.

(* ---- C54 ---- *)

(* C54: whatever the arguments, programs that use the right builders, with values and user code that do not themselves panic, do not panic. *)
Theorem C54_quiet_whatever_the_values : forall (E : Env) b pr, empty b -> typed_prog word32 pr -> inner_only pr -> prog_quiet pr -> ~ panics b pr.
Proof.
  intros E b pr (_ & _ & Hd) Hok Hi Hq. destruct (typed_quiet_total pr b [] Hi Hok Hq Hd) as (b' & out & Hr). unfold panics. rewrite Hr. discriminate.
Qed.

(* ---- C115 ---- *)

(* C115: whatever the arguments, what a program sends is no larger than its arguments make it, as a whole and message by message. *)
Theorem C115_size_whatever_the_values : forall (E : Env) b pr bs m n, empty b -> typed_prog word32 pr -> 1024 <= m <= 2 ^ 31 -> fits_in m n pr ->
  delivers b pr bs -> nlen bs <= n /\ exists fs, bs = concat (map frame fs) /\ Forall (fun f => nlen (frame f) <= m) fs.
Proof.
  intros E b pr bs m n He Hok [Hm1 Hm2] Hf Hdel. destruct (delivers_run E b pr bs He Hok Hdel) as (b' & out & Hr & He' & Hbs). destruct He as (He & Hb & Hd).
  destruct (typed_run_grows m Hm1 Hm2 pr n b [] b' out Hok Hf (Forall_nil _) Hd Hr Hb He') as (_ & x & Hx & H).
  rewrite He, app_nil_l, Hbs in Hx. subst x. exact H.
Qed.

(* ---- C120 ---- *)

(* C120: what is sent is one frame for every message the program asks for, in order. The frames of the calls without a value that
   is encoded wrongly are the messages these calls stand for; so are the statements of InsertRow and those around blocks. *)
Theorem C120_only_its_own_message : forall (E : Env) b pr bs, empty b -> typed_prog word32 pr -> delivers b pr bs -> nlen bs < 2 ^ 32 ->
  exists fs ids out, bs = concat (map frame fs) /\ dframes bs = Some fs /\ prog_frames word32 pr fs ids out /\ NoDup ids.
Proof.
  intros E b pr bs He Hok Hdel Hl. destruct (delivers_run E b pr bs He Hok Hdel) as (b' & out & Hr & He' & Hbs). destruct He as (He & Hb & Hd).
  destruct (frame_step pr b [] _ out Hok (Forall_nil _) Hd Hr) as (_ & b2 & Hb2 & S1 & S2 & S3). injection Hb2 as <-.
  destruct (S3 Hb He') as [_ G]. destruct G as (x & Hx & fs & ids & Hf & Hp & Hi); [rewrite Hbs; exact Hl|].
  rewrite He, app_nil_l, Hbs in Hx. subst x. exists fs, ids, out. split; [apply framed_frame; exact Hf|]. split; [apply framed_dframes; exact Hf|].
  split; [exact Hp|exact (ids_nodup _ _ _ Hi)].
Qed.

(* C120, for a single wrong call after any others: those are sent as they are without it. *)
Fixpoint followed_by (cs : list call) (pr : prog) : prog :=
  match cs with [] => pr | c :: cs => PCall 0 c (followed_by cs pr) end.
Theorem C120_calls_around_a_wrong_one : forall (E : Env) b before c after bs, empty b -> Forall (call_ok word32) before -> typed_call word32 c ->
  Forall (call_ok word32) after -> delivers b (followed_by (before ++ c :: after) (Ret None [])) bs -> nlen bs < 2 ^ 32 ->
  exists fs1 f fs2 ms1 ms2, bs = concat (map frame (fs1 ++ f :: fs2)) /\ fst f = call_type c /\
    Forall2 reads fs1 ms1 /\ Forall2 call_denotes before ms1 /\ Forall2 reads fs2 ms2 /\ Forall2 call_denotes after ms2.
Proof.
  intros E b before c after bs He Hb Hc Ha Hdel Hl.
  assert (Htyped : typed_prog word32 (followed_by (before ++ c :: after) (Ret None []))).
  { assert (Hall : Forall (typed_call word32) (before ++ c :: after)).
    { apply Forall_app. split; [eapply Forall_impl; [|exact Hb]; intros; apply call_typed; assumption|]. constructor; [exact Hc|].
      eapply Forall_impl; [|exact Ha]. intros; apply call_typed; assumption. }
    clear - Hall. induction Hall as [|x cs Hx _ IH]; cbn [followed_by typed_prog]; [constructor|split; assumption]. }
  destruct (C120_only_its_own_message E b _ bs He Htyped Hdel Hl) as (fs & ids & out & Hbs & _ & Hp & _). rewrite Hbs. clear Hdel Hl Htyped Hbs He.
  assert (Hafter : forall cs fs ids out, Forall (call_ok word32) cs -> prog_frames word32 (followed_by cs (Ret None [])) fs ids out ->
    exists ms, Forall2 reads fs ms /\ Forall2 call_denotes cs ms).
  { clear. induction cs as [|x cs IH]; intros fs ids out H Hp; cbn [followed_by] in Hp; inversion Hp; subst; [exists []; split; constructor|].
    inversion_clear H as [|? ? Hx Hcs]. match goal with Hf : call_frame _ _ _ |- _ => destruct (proj2 Hf Hx) as (m & M1 & M2) end.
    edestruct IH as (ms & I1 & I2); [eassumption..|]. exists (m :: ms). split; constructor; assumption. }
  revert fs ids out Hp. induction Hb as [|x cs Hx Hcs IH]; intros fs ids out Hp; cbn [app followed_by] in Hp; inversion Hp; subst.
  - edestruct Hafter as (ms & I1 & I2); [exact Ha|eassumption|].
    eexists [], _, _, [], ms. cbn [app]. split; [reflexivity|]. split; [match goal with Hf : call_frame _ c _ |- _ => exact (proj1 Hf) end|].
    repeat split; try constructor; assumption.
  - match goal with Hf : call_frame _ x _ |- _ => destruct (proj2 Hf Hx) as (m & M1 & M2) end.
    edestruct IH as (fs1 & f1 & fs2 & ms1 & ms2 & E1 & E2 & E3 & E4 & E5); [eassumption|].
    eexists (_ :: fs1), f1, fs2, (m :: ms1), ms2. cbn [app map concat]. rewrite E1. split; [reflexivity|]. split; [exact E2|].
    split; [constructor; assumption|]. split; [constructor; assumption|exact E5].
Qed.

(* ---- the hypotheses can be met ---- *)

(* A transaction with the least duration in an InsertRow and a long variable name in a Delete, before an Update that uses the
   variable of the InsertRow. *)
Definition wrong_ones : prog :=
  PBlock 0 (KTx 4)
    (PInsertRow 0 (s2b "t") [s2b "ago"] [least] (fun v =>
      PCall 0 (CDelete (s2b "u") (Some (EVariable long_name)))
      (PCall 0 (CUpdate (s2b "w") (Some (EOperator (s2b "==") [VFunc (Some (EColumn (s2b "item"))); VFunc v])) [(s2b "n", num 5)]) (Ret None []))))
    (fun out => PCall 0 (CStmtExecute (s2b "SELECT ?") [num 1]) (Ret None [])).
Lemma long_name_string : go_string long_name.
Proof. split; [vm_compute; repeat constructor|vm_compute; reflexivity]. Qed.
Example wrong_ones_meet : typed_prog (@word32 plain) wrong_ones /\ ~ prog_ok (@word32 plain) wrong_ones /\ inner_only wrong_ones /\ prog_accepted wrong_ones /\
  prog_quiet wrong_ones /\ fits_in 8192 32768 wrong_ones.
Proof.
  split; [|split; [|split; [|split; [|split]]]].
  - unfold wrong_ones. change (@word32 plain) with false. pose proof long_name_string. pose proof (least_well_formed false).
    cbn [typed_prog typed_call]. unfold typed_sets, typed_values. ok; try assumption. match goal with H : row_result ?o |- _ => destruct o as [f|]; [destruct H as (id & -> & H1 & H2)|]; cbn; auto end.
  - unfold wrong_ones. cbn [prog_ok]. intros (_ & (_ & _ & H & _) & _). inversion_clear H as [|? ? [_ H1] _]. cbn in H1. lia.
  - unfold wrong_ones. ok.
  - unfold wrong_ones, prog_accepted. ok; try discriminate; try (right; exact I); sizes; try exact I; try (vm_compute; reflexivity).
  - unfold wrong_ones, prog_quiet. ok; cbn [call_quiet panic_free panic_free_fun opt all]; sizes; try exact I; try (vm_compute; reflexivity); repeat constructor.
  - unfold wrong_ones. cbn [fits_in]. exists 26000, 4000. split; [lia|]. split.
    + split; [vm_compute; discriminate|]. exists 15000. split; [vm_compute; discriminate|]. intros o (id & -> & Hid & Hl).
      split; [vm_compute; discriminate|]. exists 9000. split; [vm_compute; discriminate|]. split; [sizes|]. exists 0. split; [sizes|]. constructor.
    + intros out _. split; [vm_compute; discriminate|]. exists 0. split; [vm_compute; discriminate|]. constructor.
Qed.
Example wrong_ones_sent : exists bs fs, @delivers plain (new_pipe 0) wrong_ones bs /\ dstream bs = None /\ dframes bs = Some fs /\
  map (fun f => dmsg (fst f) (snd f)) fs = [
    Some (statement (s2b "SET TRANSACTION ISOLATION LEVEL SERIALIZABLE")); Some (statement (s2b "START TRANSACTION"));
    Some (MInsert (s2b "t") (Some 2) [s2b "ago"] [[XLiteral (SOctets (duration_text false (- 2 ^ 63)) None)]]);
    Some (statement (s2b "SET @id$135 = LAST_INSERT_ID()"));
    None;
    Some (MUpdate (s2b "w") (Some 2) (Some (XOperator (s2b "==") [XColumn (s2b "item"); XVariable (s2b "@id$135")])) [(s2b "n", XLiteral (SSint 5))]);
    Some (statement (s2b "COMMIT"));
    Some (MStmtExecute (s2b "SELECT ?") [SSint 1])].
Proof. eexists _, _. split; [eexists _, _; split; vm_compute; reflexivity|]. split; [vm_compute; reflexivity|]. split; [vm_compute; reflexivity|]. vm_compute. reflexivity. Qed.

Print Assumptions C07_whole_frames_whatever_the_values.
Print Assumptions C08_accepted_are_sent_whatever_the_values.
Print Assumptions C09_independent_whatever_the_values.
Print Assumptions C11_reset_is_fresh_whatever_the_values.
Print Assumptions C54_quiet_whatever_the_values.
Print Assumptions C115_size_whatever_the_values.
Print Assumptions C120_only_its_own_message.
Print Assumptions C120_calls_around_a_wrong_one.
