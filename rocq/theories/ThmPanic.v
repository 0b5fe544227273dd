(* Which programs panic, fail and are sent, exactly: C54, C10, C60, and that neither depends on the buffer: C09, C11. *)
From Coq Require Import String List NArith ZArith Arith Bool Lia ZifyN ZifyNat ZifyBool.
From Coq Require Import List.
From Verif Require Import Base GoSlice SpecWire SpecMsg Text Values AnyModel ExprModel MsgModel Builder
  SpecValue SpecProg SpecUnit SpecError SpecPanic ValueProofs MsgProofs BuilderProofs UnitProofs ShapeProofs ErrorProofs PanicProofs PanicLock ThmBuilder.
Import ListNotations.
Open Scope N_scope.
Open Scope list_scope.

(* ---- one call ---- *)

Lemma one_call_run : forall (E : Env) b c, run (one_call c) [b] = do b' <- exec_call [true] c b; Ok ([b'], []).
Proof. reflexivity. Qed.
Lemma one_row_run : forall (E : Env) b name cols row, run (one_row name cols row) [b] = do (b', _) <- b_insert_row name cols row b; Ok ([b'], []).
Proof. reflexivity. Qed.

Lemma one_outcome : forall (E : Env) b pr (A P : Prop) (F : err -> Prop), (A -> ~ P) -> (forall e, A -> ~ F e) -> (forall e1 e2, F e1 -> F e2 -> ~ P -> e1 = e2) ->
  (A /\ exists b' out, run pr [b] = Ok ([b'], out) /\ disabled b' = false /\ berr b' = None) \/
  (P /\ run pr [b] = Panic) \/
  (exists e b' out, F e /\ ~ P /\ run pr [b] = Ok ([b'], out) /\ disabled b' = false /\ berr b' = Some e) ->
  ((exists bs, delivers b pr bs) <-> A) /\ (forall e, fails b pr e <-> F e /\ ~ P) /\ (panics b pr <-> P).
Proof.
  intros E b pr A P F AP AF FF H. unfold delivers, fails, panics, send.
  destruct H as [(Ha & x & out & Hr & Hd & He)|[[Hp Hr]|(e & x & out & Hf & Hp & Hr & Hd & He)]]; rewrite Hr.
  - split; [split; [auto|]|split].
    + intros _. exists (data (buf x)), x, out. rewrite Hd, He. auto.
    + intros e. split.
      * intros (y & o & Hy & Hs). injection Hy as <- <-. rewrite Hd, He in Hs. discriminate.
      * intros [Hf _]. destruct (AF e Ha Hf).
    + split; [discriminate|]. intros Hp. destruct (AP Ha Hp).
  - split; [split|split].
    + intros (bs & y & o & Hy & _). discriminate.
    + intros Ha. destruct (AP Ha Hp).
    + intros e. split; [intros (y & o & Hy & _); discriminate|]. intros [_ Hn]. contradiction.
    + tauto.
  - split; [split|split].
    + intros (bs & y & o & Hy & Hs). injection Hy as <- <-. rewrite Hd, He in Hs. discriminate.
    + intros Ha. destruct (AF e Ha Hf).
    + intros e'. split.
      * intros (y & o & Hy & Hs). injection Hy as <- <-. rewrite Hd, He in Hs. injection Hs as <-. auto.
      * intros [Hf' _]. rewrite (FF e' e Hf' Hf Hp). exists x, out. rewrite Hd, He. auto.
    + split; [discriminate|contradiction].
Qed.

(* C54: whatever its values and user code, a call is sent exactly if all of it is accepted, panics
   exactly if it is one of those listed, and otherwise reports the error of its first faulty part. *)
Theorem C54_call_outcome_exactly : forall (E : Env) b c, empty b -> call_ok word32 c -> call_fits c -> call_decided c ->
  ((exists bs, delivers b (one_call c) bs) <-> call_accepted c) /\
  (forall e, fails b (one_call c) e <-> call_error c e /\ ~ call_panics c) /\
  (panics b (one_call c) <-> call_panics c).
Proof.
  intros E b c (_ & He & Hd) Hok Hf Hde.
  pose proof (call_step [true] c b ltac:(repeat constructor) Hok Hde Hf Hd He) as H.
  assert (G : forall e b', call_error c e -> exec_call [true] c b = Ok b' -> berr b' = Some e).
  { intros e b' Hc Hx. pose proof (call_gives [true] c e (buf b) Hc Hok Hf) as G. unfold exec_call, guarded in Hx. rewrite Hd, He in Hx.
    change (match c with CStmtExecute stmt args => _ | _ => _ end) with (run_call [true] c E (buf b)) in Hx.
    destruct (run_call [true] c E (buf b)) as [[q eo]|]; [|discriminate]. cbn [bind] in Hx. injection Hx as <-. exact (G q eo eq_refl). }
  apply one_outcome.
  - intros Ha Hp. destruct (call_total [true] c b Hok Hf (or_intror Ha) Hd He) as (x & Hx & _).
    destruct H as [(_ & Hn & _)|[[_ H]|(e & x' & _ & Hn & _)]]; [contradiction|congruence|contradiction].
  - intros e Ha Hc. destruct (call_total [true] c b Hok Hf (or_intror Ha) Hd He) as (x & Hx & _ & Hx'). specialize (G e x Hc Hx). rewrite (Hx' Ha) in G. discriminate.
  - intros e1 e2 H1 H2 Hn. destruct H as [(_ & _ & x & Hx & _)|[[H _]|(e & x & _ & _ & Hx & _)]]; [|contradiction|]; pose proof (G e1 x H1 Hx); pose proof (G e2 x H2 Hx); congruence.
  - rewrite one_call_run. destruct H as [(Ha & _ & x & -> & X1 & X2)|[[Hp ->]|(e & x & H1 & H2 & -> & X1 & X2)]]; cbn [bind].
    + left. split; [exact Ha|]. eauto.
    + right. left. auto.
    + right. right. exists e, x, []. auto.
Qed.

(* The same for InsertRow. *)
Theorem C54_row_outcome_exactly : forall (E : Env) b name cols row, empty b -> go_string name -> Forall go_string cols -> values_ok word32 row ->
  row_fits name cols row -> Forall decided row ->
  ((exists bs, delivers b (one_row name cols row) bs) <-> Forall expr_accepted row) /\
  (forall e, fails b (one_row name cols row) e <-> row_error row e /\ ~ row_panics row) /\
  (panics b (one_row name cols row) <-> row_panics row).
Proof.
  intros E b name cols row (_ & He & Hd) Hn Hc Hr Hf Hde.
  pose proof (row_step name cols row b Hn Hc Hr Hde Hf Hd He) as H.
  assert (G : forall e b' o, row_error row e -> b_insert_row name cols row b = Ok (b', o) -> berr b' = Some e).
  { intros e b' o Hre Hx. unfold b_insert_row in Hx. rewrite Hd, He in Hx. cbn zeta in Hx. destruct (msg_insert (buf b) name cols) as [p|]; [|discriminate]. cbn [bind] in Hx.
    pose proof (row_gives row e p Hre Hr ltac:(unfold row_fits, row_size, row_weight in Hf; lia)) as G.
    destruct (append_insert_row p row) as [[q eo]|] eqn:Hq; [|discriminate]. rewrite (G q eo eq_refl) in Hx. cbn [bind] in Hx. injection Hx as <- _. reflexivity. }
  apply one_outcome.
  - intros Ha Hp. destruct (insert_row_total name cols row b Hn Hc Hr Hf (or_intror Ha) Hd He) as (x & o & Hx & _).
    destruct H as [(_ & Hnp & _)|[[_ H]|(e & x' & o' & _ & Hnp & _)]]; [contradiction|congruence|contradiction].
  - intros e Ha Hre. destruct (insert_row_total name cols row b Hn Hc Hr Hf (or_intror Ha) Hd He) as (x & o & Hx & _ & Hx' & _). specialize (G e x o Hre Hx). rewrite (Hx' Ha) in G. discriminate.
  - intros e1 e2 H1 H2 Hnp. destruct H as [(_ & _ & x & o & Hx & _)|[[H _]|(e & x & o & _ & _ & Hx & _)]]; [|contradiction|]; pose proof (G e1 x o H1 Hx); pose proof (G e2 x o H2 Hx); congruence.
  - rewrite one_row_run. destruct H as [(Ha & _ & x & o & -> & X1 & X2)|[[Hp ->]|(e & x & o & H1 & H2 & -> & X1 & X2 & _)]]; cbn [bind].
    + left. split; [exact Ha|]. eauto.
    + right. left. auto.
    + right. right. exists e, x, []. auto.
Qed.

(* ---- programs ---- *)

(* C54: a program panics exactly if it comes to a step that does: a use of an enclosing builder, or,
   as long as there is no error, one of the calls and rows that panic. *)
Theorem C54_panics_exactly : forall (E : Env) b pr, empty b -> prog_ok word32 pr -> prog_decided pr ->
  (panics b pr <-> exists t inner enclosing, during pr [b] t (inner :: enclosing) /\ step_panics (berr inner) t).
Proof.
  intros E b pr (_ & _ & Hd) Hok Hde. split.
  - intros H. apply run_dies; [exact Hd|constructor|intros _; auto|exact H].
  - intros (t & inner & enc & D & S). destruct (during_sound pr [b] t _ D b [] eq_refl Hd (Forall_nil _) (fun _ => conj Hok Hde)) as (x & o & Hx & D1 & D2 & D3).
    injection Hx as <- <-. exact (during_panic _ _ _ _ D (step_dies t inner enc S D1 D2 D3)).
Qed.

Lemma runs : forall (E : Env) b pr, empty b -> ~ panics b pr -> exists b' out, run pr [b] = Ok ([b'], out) /\ disabled b' = false.
Proof.
  intros E b pr (_ & _ & Hd) H. unfold panics in H. destruct (run pr [b]) as [[st out]|] eqn:Hr; [|contradiction].
  destruct (run_shape E pr b [] st out (Forall_nil _) Hd Hr) as (x & -> & Hx & _). eauto.
Qed.

(* C10: Send returns e exactly if the program does not panic and comes, without an error before, to a
   step that reports e. *)
Theorem C10_first_error_exactly : forall (E : Env) b pr e, empty b -> prog_ok word32 pr -> prog_decided pr ->
  (fails b pr e <-> ~ panics b pr /\ exists t inner enclosing, during pr [b] t (inner :: enclosing) /\ berr inner = None /\ step_reports e t).
Proof.
  intros E b pr e Hb Hok Hde. pose proof Hb as (_ & He & Hd). split.
  - intros (x & out & Hr & Hs). split; [unfold panics; rewrite Hr; discriminate|].
    apply (run_fails e pr b [] x [] out); [exact Hd|constructor|exact He|intros _; auto|exact Hr|]. unfold send in Hs. destruct (disabled x); [discriminate|]. destruct (berr x); [congruence|discriminate].
  - intros [Hp (t & inner & enc & D & Hi & S)]. destruct (runs E b pr Hb Hp) as (x & out & Hr & Hx). exists x, out. split; [exact Hr|].
    destruct (during_sound pr [b] t _ D b [] eq_refl Hd (Forall_nil _) (fun _ => conj Hok Hde)) as (y & o & Hy & D1 & D2 & D3). injection Hy as <- <-.
    assert (Hxe : berr x = Some e).
    { apply (during_fails e pr [b] t _ D b [] x [] out eq_refl Hd (Forall_nil _) (fun _ => conj Hok Hde)); [|exact Hr].
      intros i en c st2 o2 Hi' Hr2. injection Hi' as <- <-. exact (step_fails e t inner enc c st2 o2 S D1 D2 Hi D3 Hr2). }
    unfold send. rewrite Hx, Hxe. reflexivity.
Qed.

(* And it is sent exactly if it comes to neither. *)
Theorem C54_sent_exactly : forall (E : Env) b pr, empty b -> prog_ok word32 pr -> prog_decided pr ->
  ((exists bs, delivers b pr bs) <-> forall t inner enclosing, during pr [b] t (inner :: enclosing) ->
    ~ step_panics (berr inner) t /\ (berr inner = None -> forall e, ~ step_reports e t)).
Proof.
  intros E b pr Hb Hok Hde. split.
  - intros (bs & x & out & Hr & Hs) t inner enc D. split.
    + intros S. assert (Hp : panics b pr) by (apply C54_panics_exactly; eauto 6). unfold panics in Hp. congruence.
    + intros Hi e S. assert (Hf : fails b pr e) by (apply C10_first_error_exactly; try assumption; split; [unfold panics; congruence|eauto 6]).
      destruct Hf as (y & o & Hr' & Hs'). rewrite Hr in Hr'. injection Hr' as <- <-. congruence.
  - intros H. assert (Hp : ~ panics b pr).
    { intros Hp. apply C54_panics_exactly in Hp; try assumption. destruct Hp as (t & inner & enc & D & S). destruct (H t inner enc D) as [H1 _]. contradiction. }
    destruct (runs E b pr Hb Hp) as (x & out & Hr & Hx). destruct (berr x) as [e|] eqn:Hxe.
    + assert (Hf : fails b pr e) by (exists x, out; split; [exact Hr|]; unfold send; rewrite Hx, Hxe; reflexivity).
      apply C10_first_error_exactly in Hf; try assumption. destruct Hf as [_ (t & inner & enc & D & Hi & S)]. destruct (H t inner enc D) as [_ H1]. destruct (H1 Hi e S).
    + exists (data (buf x)), x, out. split; [exact Hr|]. unfold send. rewrite Hx, Hxe. reflexivity.
Qed.

(* ---- the buffer does not matter ---- *)

(* C09: whatever the memory of the buffer and however it grows, the outcome is the same: the same bytes,
   the same error, or a panic. *)
Theorem C09_any_outcome_independent_of_buffer : forall (E1 E2 : Env) b1 b2 pr, @word32 E1 = @word32 E2 -> empty b1 -> empty b2 ->
  prog_ok (@word32 E1) pr -> prog_decided pr ->
  (exists bs, @delivers E1 b1 pr bs /\ @delivers E2 b2 pr bs) \/ (exists e, @fails E1 b1 pr e /\ @fails E2 b2 pr e) \/ (@panics E1 b1 pr /\ @panics E2 b2 pr).
Proof.
  intros E1 E2 b1 b2 pr HW (D1 & N1 & A1) (D2 & N2 & A2) Hok Hde.
  assert (Hl : locked b1 b2) by (unfold locked; intuition congruence).
  destruct (run_lock E1 E2 HW pr b1 b2 [] [] Hok Hde Hl N1 (Forall_nil _) (Forall_nil _) eq_refl) as [H|(c1 & c2 & out & R1 & R2 & (L1 & L2 & L3 & L4) & _)]; [right; right; exact H|].
  destruct (berr c1) as [e|] eqn:He.
  - right. left. exists e. split; [exists c1, out|exists c2, out]; (split; [assumption|]); unfold send; rewrite ?L1, ?L2, <- ?L3, ?He; reflexivity.
  - left. exists (data (buf c1)). split; [exists c1, out|exists c2, out]; (split; [assumption|]); unfold send; rewrite ?L1, ?L2, <- ?L3, ?He; [reflexivity|]. rewrite L4 by reflexivity. reflexivity.
Qed.

(* C11: after Reset, of a builder with any content and in any error state, every outcome is that of a new one. *)
Theorem C11_reset_gives_every_outcome : forall (E : Env) b n pr, disabled b = false -> prog_ok word32 pr -> prog_decided pr ->
  exists b', reset b = Ok b' /\ (forall bs, delivers b' pr bs <-> delivers (new_pipe n) pr bs) /\
    (forall e, fails b' pr e <-> fails (new_pipe n) pr e) /\ (panics b' pr <-> panics (new_pipe n) pr).
Proof.
  intros E b n pr Hd Hok Hde. unfold reset. rewrite Hd. unfold reslice. cbn [Nat.leb firstn bind]. eexists. split; [reflexivity|].
  match goal with |- context [delivers ?x pr] => set (b' := x) end.
  assert (U : forall b p q, run pr [b] = Ok p -> run pr [b] = Ok q -> p = q) by (intros; congruence).
  destruct (C09_any_outcome_independent_of_buffer E E b' (new_pipe n) pr eq_refl ltac:(repeat split) ltac:(repeat split) Hok Hde)
    as [(bs & (x1 & y1 & R1 & S1) & x2 & y2 & R2 & S2)|[(e & (x1 & y1 & R1 & S1) & x2 & y2 & R2 & S2)|[R1 R2]]]; unfold delivers, fails, panics in *; rewrite R1, R2.
  all: split; [|split]; try intros z; split; try discriminate; try (intros (p & o & X & Y); try discriminate X; injection X as <- <-; try congruence).
  all: try (eexists _, _; split; [reflexivity|congruence]).
  all: reflexivity.
Qed.

(* ---- the hypotheses are met ---- *)

(* User code that fails and gives back nil. *)
Definition forgetful : ufun := fun _ _ => Ok (nil_slice, Some (EUser 3)).
Lemma forgetful_loses : loses forgetful (EUser 3).
Proof. intros p tag. reflexivity. Qed.

(* The second row of an Insert holds a nil function as the second parameter of a call; the criterion
   of a Delete is an operator with forgetful user code; the same in an Insert is an error. *)
Definition nil_function : call :=
  CInsert (s2b "t") [s2b "a"; s2b "b"] [[VNil; VInt 1]; [VBool true; VFunc (Some (ECall (s2b "f") [VInt 2; VFunc None]))]].
Definition lost_criterion : call := CDelete (s2b "t") (Some (EOperator (s2b "==") [VInt 1; VUser None (Some forgetful)])).
Definition lost_column : call := CInsert (s2b "t") [s2b "a"] [[VUser None (Some forgetful)]].

Lemma forgetful_decides : decides_expr forgetful.
Proof. right. right. left. exists (EUser 3). exact forgetful_loses. Qed.
Lemma forgetful_raises : raises forgetful (EUser 3).
Proof. intros p tag. exists nil_slice. reflexivity. Qed.

Example nil_function_met : call_ok false nil_function /\ call_fits nil_function /\ call_decided nil_function /\ call_panics nil_function.
Proof.
  split; [unfold nil_function; ok|]. split; [unfold call_fits; vm_compute; reflexivity|]. split; [unfold nil_function; cbn; repeat constructor|].
  apply (CP_insert (s2b "t") [s2b "a"; s2b "b"] [[VNil; VInt 1]]); [constructor; [|constructor]; split; [reflexivity|]; repeat constructor|reflexivity|].
  apply (RP [VBool true]); [repeat constructor|]. constructor. apply (FP_call (s2b "f") [VInt 2]); [repeat constructor|constructor].
Qed.
Example lost_criterion_met : call_ok false lost_criterion /\ call_fits lost_criterion /\ call_decided lost_criterion /\ call_panics lost_criterion /\
  call_error lost_criterion (EParam 1 (EUser 3)).
Proof.
  split; [unfold lost_criterion; ok; try (right; unfold forgetful; congruence)|]. split; [unfold call_fits; vm_compute; reflexivity|].
  split; [unfold lost_criterion; cbn; repeat split; exact forgetful_decides|]. split.
  - apply CP_delete. right. apply (FL_operator (s2b "==") [VInt 1]); [repeat constructor|]. exact (XL_user None forgetful (EUser 3) forgetful_loses).
  - apply CE_delete. apply (XF_operator (s2b "==") [VInt 1]); [repeat constructor|]. constructor. exact forgetful_raises.
Qed.
Example lost_column_met : call_ok false lost_column /\ call_fits lost_column /\ call_decided lost_column /\ call_error lost_column (EColumnErr 0 (EUser 3)).
Proof.
  split; [unfold lost_column; ok; try (right; unfold forgetful; congruence)|]. split; [unfold call_fits; vm_compute; reflexivity|].
  split; [constructor; [constructor; [exact (conj I forgetful_decides)|constructor]|constructor]|].
  apply (CE_insert (s2b "t") [s2b "a"] [] [VUser None (Some forgetful)] []); [constructor|reflexivity|]. apply (RE []); [constructor|]. constructor. exact forgetful_raises.
Qed.

(* After an InsertRow whose result is used, in a transaction in an expectation block: the nil function
   panics. With a failing Insert before it, it does not, until the pipe itself is used. *)
Definition panicking_unit (before : prog -> prog) (after : prog) : prog :=
  PBlock 0 (KExpectFailOnError 1)
    (PInsertRow 0 (s2b "orders") [s2b "c"] [VInt 7] (fun order =>
      PBlock 0 (KTx 4) (before (PCall 0 nil_function (Ret None [order]))) (fun _ => after)))
    (fun _ => Ret None []).
Definition dies_early : prog := panicking_unit (fun pr => pr) (Ret None []).
Definition dies_late : prog := panicking_unit (PCall 0 lost_column) (PCall 1 (CDeallocate 1) (Ret None [])).
Definition reports_only : prog := panicking_unit (PCall 0 lost_column) (Ret None []).

Lemma unit_met : forall before after, (forall pr, prog_ok false pr -> prog_ok false (before pr)) -> (forall pr, prog_decided pr -> prog_decided (before pr)) ->
  prog_ok false after -> prog_decided after -> prog_ok false (panicking_unit before after) /\ prog_decided (panicking_unit before after).
Proof.
  intros before after B1 B2 A1 A2. destruct nil_function_met as (N1 & N2 & N3 & _). split.
  - unfold panicking_unit. ok.
    apply B1. cbn [prog_ok]. split; [exact N1|]. repeat constructor. assumption.
  - split; [exact I|]. split; [|intros; constructor]. split; [split; [repeat constructor|sizes]|]. intros o Ho.
    split; [exact I|]. split; [|intros; exact A2]. apply B2. split; [auto|]. constructor; [exact Ho|constructor].
Qed.
Example dies_early_met : prog_ok false dies_early /\ prog_decided dies_early /\ @panics plain (new_pipe 0) dies_early.
Proof.
  destruct (unit_met (fun pr => pr) (Ret None [])) as [H1 H2]; [intros; assumption|intros; assumption|constructor|constructor|]. split; [exact H1|]. split; [exact H2|]. vm_compute. reflexivity.
Qed.
Example dies_late_met : prog_ok false dies_late /\ prog_decided dies_late /\ @panics plain (new_pipe 0) dies_late.
Proof.
  destruct lost_column_met as (L1 & L2 & L3 & _).
  destruct (unit_met (PCall 0 lost_column) (PCall 1 (CDeallocate 1) (Ret None []))) as [H1 H2]; [intros; split; assumption|intros; split; auto|..].
  - cbn. split; [lia|constructor].
  - split; [split; [exact I|unfold call_fits; cbn; lia]|constructor].
  - split; [exact H1|]. split; [exact H2|]. vm_compute. reflexivity.
Qed.
Example reports_only_met : prog_ok false reports_only /\ prog_decided reports_only /\ @fails plain (new_pipe 0) reports_only (EColumnErr 0 (EUser 3)).
Proof.
  destruct lost_column_met as (L1 & L2 & L3 & _).
  destruct (unit_met (PCall 0 lost_column) (Ret None [])) as [H1 H2]; [intros; split; assumption|intros; split; auto|constructor..|].
  split; [exact H1|]. split; [exact H2|]. unfold fails. vm_compute. do 2 eexists. split; reflexivity.
Qed.

Print Assumptions C54_call_outcome_exactly.
Print Assumptions C54_row_outcome_exactly.
Print Assumptions C54_panics_exactly.
Print Assumptions C10_first_error_exactly.
Print Assumptions C54_sent_exactly.
Print Assumptions C09_any_outcome_independent_of_buffer.
Print Assumptions C11_reset_gives_every_outcome.
