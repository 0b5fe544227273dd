(* Properties of units of work: C07-C21, C46, C51 (calls), C53, C54. *)
From Coq Require Import String List NArith ZArith Arith Bool Lia ZifyN ZifyNat ZifyBool Permutation.
From Coq Require Import List.
From Verif Require Import Base GoSlice SliceProofs Varint VarintProofs SpecWire SpecMsg WireProofs Text TextProofs Values AnyModel ExprModel MsgModel Builder
  SpecValue SpecProg SpecUnit Pure AnyProofs HeadProofs ValueProofs MsgProofs BuilderProofs UnitProofs ShapeProofs OrderProofs ThmValues.
Import ListNotations.
Open Scope N_scope.
Open Scope list_scope.

Ltac Zify.zify_post_hook ::= Z.div_mod_to_equations.

(* ---- C07 ---- *)

(* C07: what is sent is a sequence of whole frames. *)
Theorem C07_sent_bytes_are_whole_frames : forall (E : Env) b pr bs, empty b -> prog_ok word32 pr -> delivers b pr bs -> nlen bs < 2 ^ 32 ->
  exists fs, bs = concat (map frame fs) /\ Forall (fun f => fst f < 256 /\ 1 + nlen (snd f) < 2 ^ 32 /\ exists m, dmsg (fst f) (snd f) = Some m) fs.
Proof.
  intros E b pr bs He Hok Hd Hl. destruct (delivers_step E b pr bs He Hok Hd Hl) as (b' & out & ms & ids & _ & _ & _ & _ & Hs & _).
  destruct Hs as (fs & Hf & Hm). destruct (framed_frame bs fs Hf) as [H1 H2]. exists fs. split; [exact H1|].
  assert (Hb : is_bytes bs) by apply Hf. rewrite H1 in Hb. clear Hf H1 Hl Hd.
  revert Hb. induction Hm as [|f m fs ms Hfm Hm IH]; intros Hb; [constructor|]. inversion_clear H2 as [|? ? A B].
  cbn [map concat] in Hb. unfold is_bytes in Hb. rewrite Forall_app in Hb. destruct Hb as [Hb1 Hb2].
  constructor; [|exact (IH B Hb2)]. split; [|split; [exact A|exists m; exact Hfm]].
  unfold frame in Hb1. rewrite !Forall_app in Hb1. destruct Hb1 as (_ & Hb1 & _). inversion Hb1; assumption.
Qed.

(* ---- C08 ---- *)

(* C08: what is sent says exactly the calls that were made, in order. *)
Theorem C08_sent_is_what_was_written : forall (E : Env) b pr bs, empty b -> prog_ok word32 pr -> delivers b pr bs -> nlen bs < 2 ^ 32 ->
  exists ms ids out, dstream bs = Some ms /\ prog_msgs pr ms ids out.
Proof.
  intros E b pr bs He Hok Hd Hl. destruct (delivers_step E b pr bs He Hok Hd Hl) as (b' & out & ms & ids & _ & _ & _ & _ & Hs & Hp & _).
  exists ms, ids, out. split; [exact (says_dstream _ _ Hs)|exact Hp].
Qed.

(* C08: and acceptable programs are sent. *)
Theorem C08_accepted_programs_are_sent : forall (E : Env) b pr, empty b -> prog_ok word32 pr -> inner_only pr -> prog_accepted pr ->
  exists bs, delivers b pr bs.
Proof.
  intros E b pr (_ & He & Hd) Hok Hi Ha. destruct (accepted_total pr b [] Hi Hok Ha Hd He) as (b' & out & Hr & He').
  exists (data (buf b')), b', out. split; [exact Hr|]. unfold send.
  destruct (run_step pr b [] _ out Hok (Forall_nil _) Hd Hr) as (_ & b2 & Hb2 & S1 & _). injection Hb2 as <-. rewrite S1, He'. reflexivity.
Qed.

(* ---- C09, C11 ---- *)

(* C09: the bytes do not depend on the capacity and content of the buffer, nor on how Go grows it. *)
Theorem C09_output_independent_of_buffer : forall (E1 E2 : Env) b1 b2 pr bs, @word32 E1 = @word32 E2 -> empty b1 -> empty b2 ->
  prog_ok (@word32 E1) pr -> @delivers E1 b1 pr bs -> nlen bs < 2 ^ 32 -> @delivers E2 b2 pr bs.
Proof.
  intros E1 E2 b1 b2 pr bs HW H1 H2 Hok Hd Hl.
  destruct (delivers_step E1 b1 pr bs H1 Hok Hd Hl) as (b' & out & ms & ids & Hr & He & Hb & Hdis & _).
  assert (Hsd : same_data b1 b2). { destruct H1 as (? & ? & ?), H2 as (? & ? & ?). unfold same_data. intuition congruence. }
  destruct (run_same E1 E2 HW pr b1 b2 [] [] b' out Hok (Forall_nil _) (Forall_nil _) eq_refl Hsd Hr He ltac:(rewrite Hb; exact Hl)) as (b2' & Hr2 & Hs2).
  exists b2', out. split; [exact Hr2|]. unfold send. destruct Hs2 as (S1 & S2 & S3 & S4 & S5). rewrite S5, S3, <- S1, Hb. reflexivity.
Qed.

(* C11: after Reset (of a builder with any content, in any error state) the builder works as a new one. *)
Theorem C11_reset_is_fresh : forall (E : Env) b n pr bs, disabled b = false -> prog_ok word32 pr -> nlen bs < 2 ^ 32 ->
  exists b', reset b = Ok b' /\ (delivers b' pr bs <-> delivers (new_pipe n) pr bs).
Proof.
  intros E b n pr bs Hd Hok Hl. unfold reset. rewrite Hd. unfold reslice. cbn [Nat.leb firstn bind]. eexists. split; [reflexivity|].
  split; intros H; (eapply C09_output_independent_of_buffer; [reflexivity| | |exact Hok|exact H|exact Hl]); repeat split.
Qed.

(* ---- C10 ---- *)

(* C10: once a builder has an error, no program changes its buffer or its error, and Send returns that error. *)
Theorem C10_errors_are_sticky : forall (E : Env) b e pr b' out, disabled b = false -> berr b = Some e ->
  run pr [b] = Ok ([b'], out) -> b' = b /\ send b' = Ok (inr e).
Proof.
  intros E b e pr b' out Hd He H. destruct (run_shape E pr b [] _ out (Forall_nil _) Hd H) as (b2 & Hb & _ & Hs). injection Hb as <-.
  assert (b' = b) as -> by (apply Hs; congruence). split; [reflexivity|]. unfold send. rewrite Hd, He. reflexivity.
Qed.


(* C10, C51: a program that makes a call that stands for no message hands nothing to the Sender. *)
Theorem C10_nothing_sent_after_error : forall (E : Env) b pr c, disabled b = false -> makes c pr ->
  call_ok word32 c -> call_weight c < 2 ^ 31 -> (forall m, ~ call_denotes c m) ->
  panics b pr \/ exists e, fails b pr e.
Proof. intros E b pr c Hd Hm Hok Hw Hn. exact (must_fail_sent E pr b (makes_fails E c pr Hok Hw Hn Hm) Hd). Qed.

Lemma single_call : forall (E : Env) c b, disabled b = false -> berr b = None -> call_ok word32 c -> call_weight c < 2 ^ 31 -> call_quiet c ->
  (forall m, ~ call_denotes c m) -> exists e, fails b (one_call c) e.
Proof.
  intros E c b Hd He Hok Hw Hq Hn. pose proof (call_outcome word32 (set_nth (map disabled [b]) 0 true) c Hok) as Ho. unfold fails, one_call. cbn [run nth_error].
  unfold exec_call, guarded. rewrite Hd, He.
  change (match c with CStmtExecute stmt args => _ | _ => _ end) with (run_call (set_nth (map disabled [b]) 0 true) c E (buf b)).
  destruct Ho as [(m & bs & H1 & _)|[[[_ B2] _]|[_ [Hb _]]]]; [destruct (Hn m H1)| |lia].
  destruct (B2 Hq E eq_refl (buf b)) as (q & e & -> & _). cbn [bind set_nth]. exists e, (mkb q (Some e) false), []. split; reflexivity.
Qed.

(* C10: by itself, such a call records an error, which Send returns, if nothing in it panics. *)
Theorem C10_error_reported : forall (E : Env) b c, empty b -> call_ok word32 c -> call_weight c < 2 ^ 31 -> call_quiet c ->
  (forall m, ~ call_denotes c m) -> exists e, fails b (one_call c) e.
Proof. intros E b c (_ & He & Hd) Hok Hw Hq Hn. exact (single_call E c b Hd He Hok Hw Hq Hn). Qed.

(* ---- C12 ---- *)

(* C12: using an enclosing builder inside a callback is never silently accepted: unless the builder already has an
   error, it panics. *)
Theorem C12_outer_builder_unusable : forall (E : Env) pr b, empty b -> uses_outer pr -> panics b pr \/ exists e, fails b pr e.
Proof. intros E pr b (_ & _ & Hd) Hu. exact (must_fail_sent E pr b (uses_outer_fails E pr Hu) Hd). Qed.

(* C12: each single method call on an enclosing builder panics, whatever the state of the builders. *)
Theorem C12_outer_calls_panic : forall (E : Env) b outer lvl, all_disabled outer ->
  (forall c next, run (PCall (S lvl) c next) (b :: outer) = Panic) /\
  (forall name cols row next, run (PInsertRow (S lvl) name cols row next) (b :: outer) = Panic) /\
  (forall k body next, run (PBlock (S lvl) k body next) (b :: outer) = Panic).
Proof.
  intros E b outer lvl Ho.
  assert (X : forall x, nth_error (b :: outer) (S lvl) = Some x -> disabled x = true) by (intros x Hx; exact (only_inner b outer lvl x Ho Hx)).
  split; [|split]; intros; cbn [run]; destruct (nth_error (b :: outer) (S lvl)) as [x|]; try reflexivity; specialize (X x eq_refl).
  - rewrite exec_disabled by exact X. reflexivity.
  - rewrite insert_row_disabled by exact X. reflexivity.
  - rewrite block_disabled by exact X. reflexivity.
Qed.

(* C12: and after every program, so also after every callback, the builder is usable again. *)
Theorem C12_builder_usable_after_callbacks : forall (E : Env) pr b outer st out, all_disabled outer -> disabled b = false ->
  run pr (b :: outer) = Ok (st, out) -> exists b', st = b' :: outer /\ disabled b' = false.
Proof. intros E pr b outer st out Ho Hd H. destruct (run_shape E pr b outer st out Ho Hd H) as (b' & ? & ? & _). eauto. Qed.

(* ---- C13 ---- *)

(* C13: a transaction is the statements of its level, what the callback did, and COMMIT. *)
Theorem C13_transactions_are_bracketed : forall (E : Env) b level body bs, empty b -> prog_ok word32 body ->
  delivers b (one_block (KTx level) body) bs -> nlen bs < 2 ^ 32 ->
  exists opening inner ids out, tx_opening level = Some opening /\ prog_msgs body inner ids out /\
    dstream bs = Some (map statement opening ++ inner ++ [statement (s2b "COMMIT")]).
Proof.
  intros E b level body bs He Hok Hd Hl.
  assert (Hok' : prog_ok word32 (one_block (KTx level) body)) by (cbn [one_block prog_ok]; repeat split; [exact Hok|]; intros; constructor).
  destruct (C08_sent_is_what_was_written E b _ bs He Hok' Hd Hl) as (ms & ids & out & Hm & Hp).
  unfold one_block in Hp. inversion Hp as [| | |? ? ? open ms1 ids1 out1 ms2 ids2 ? Ho H1 H2]; subst.
  inversion H2; subst. cbn [opening closing] in *. destruct (tx_opening level) as [l|] eqn:Hlv; [|discriminate]. injection Ho as <-.
  exists l, ms1, ids1, out1. rewrite ?app_nil_r in Hm. auto.
Qed.

(* C13: what the constants of the API stand for, by their names. *)
Definition levels_by_name : list (N * list string) := [
  (IsolationLevelDefault, ["START TRANSACTION"]);
  (IsolationLevelReadUncommitted, ["SET TRANSACTION ISOLATION LEVEL READ UNCOMMITTED"; "START TRANSACTION"]);
  (IsolationLevelReadCommitted, ["SET TRANSACTION ISOLATION LEVEL READ COMMITTED"; "START TRANSACTION"]);
  (IsolationLevelRepeatableRead, ["SET TRANSACTION ISOLATION LEVEL REPEATABLE READ"; "START TRANSACTION"]);
  (IsolationLevelSerializable, ["SET TRANSACTION ISOLATION LEVEL SERIALIZABLE"; "START TRANSACTION"]);
  (IsolationLevelSnapshot, ["START TRANSACTION WITH CONSISTENT SNAPSHOT"])]%string.
Theorem C13_levels_by_name : forall (E : Env) b level statements body bs, empty b -> prog_ok word32 body -> In (level, statements) levels_by_name ->
  delivers b (one_block (KTx level) body) bs -> nlen bs < 2 ^ 32 ->
  exists inner ids out, prog_msgs body inner ids out /\
    dstream bs = Some (map (fun s => statement (s2b s)) statements ++ inner ++ [statement (s2b "COMMIT")]).
Proof.
  intros E b level statements body bs He Hok Hin Hd Hl.
  destruct (C13_transactions_are_bracketed E b level body bs He Hok Hd Hl) as (open & inner & ids & out & Ho & Hp & Hm).
  exists inner, ids, out. split; [exact Hp|]. rewrite Hm. f_equal. f_equal. clear - Ho Hin.
  assert (H : tx_opening level = Some (map s2b statements)).
  { unfold levels_by_name in Hin. repeat (destruct Hin as [Hin|Hin]; [injection Hin as <- <-; reflexivity|]). destruct Hin. }
  rewrite H in Ho. injection Ho as <-. apply map_map.
Qed.

(* C13: wherever Tx is used, an isolation level that does not exist makes Send fail. *)
Theorem C13_unknown_levels_rejected : forall (E : Env) b level body next, empty b -> tx_opening level = None ->
  (forall out, inner_only (next out)) -> fails b (PBlock 0 (KTx level) body next) EIsolation.
Proof.
  intros E b level body next (He & Hb & Hd) Hl Hi. unfold fails. cbn [run nth_error]. unfold block_begin. rewrite Hd, Hb.
  assert (Ht : tx_begin level b = Ok (mkb (buf b) (Some EIsolation) (disabled b), false)).
  { clear - Hl. destruct level as [|[[[?|?|]|[?|?|]|]|[[?|?|]|[?|?|]|]|]]; cbn in Hl; try discriminate; reflexivity. }
  rewrite Ht, Hd. cbn [bind set_nth]. destruct (run_error (next []) (mkb (buf b) (Some EIsolation) false) [] (Hi []) eq_refl ltac:(discriminate)) as (out & Hr).
  rewrite Hr. eexists _, out. split; reflexivity.
Qed.

(* ---- C14 ---- *)

(* Two programs that differ only in the errors their callbacks return. *)
Inductive errors_apart : prog -> prog -> Prop :=
| EA_ret e1 e2 out : errors_apart (Ret e1 out) (Ret e2 out)
| EA_call lvl c n1 n2 : errors_apart n1 n2 -> errors_apart (PCall lvl c n1) (PCall lvl c n2)
| EA_row lvl name cols row n1 n2 : (forall o, errors_apart (n1 o) (n2 o)) -> errors_apart (PInsertRow lvl name cols row n1) (PInsertRow lvl name cols row n2)
| EA_block lvl k b1 b2 n1 n2 : errors_apart b1 b2 -> (forall out, errors_apart (n1 out) (n2 out)) -> errors_apart (PBlock lvl k b1 n1) (PBlock lvl k b2 n2).

(* C14: the error a callback returns has no effect at all. *)
Theorem C14_callback_errors_are_ignored : forall (E : Env) p1 p2, errors_apart p1 p2 -> forall st, run p1 st = run p2 st.
Proof.
  intros E p1 p2 H. induction H as [e1 e2 out|lvl c n1 n2 H IH|lvl name cols row n1 n2 H IH|lvl k b1 b2 n1 n2 Hb IHb H IH]; intros st; cbn [run].
  - reflexivity.
  - destruct (nth_error st lvl) as [b|]; [|reflexivity]. destruct (exec_call _ c b); [|reflexivity]. apply IH.
  - destruct (nth_error st lvl) as [b|]; [|reflexivity]. destruct (b_insert_row name cols row b) as [[? ?]|]; [|reflexivity]. apply IH.
  - destruct (nth_error st lvl) as [b|]; [|reflexivity]. destruct (block_begin k b) as [[x en]|]; [|reflexivity]. cbn [bind].
    destruct en; [|apply IH]. rewrite IHb. destruct (run b2 _) as [[[|ch st2] out]|]; [reflexivity| |reflexivity]. cbn [bind].
    destruct (block_end k _); [|reflexivity]. cbn [bind]. apply IH.
Qed.

Definition plain : Env := {| fresh := fun _ _ => []; word32 := false |}.
Definition failing_tx : prog := one_block (KTx 0) (PCall 0 (CStmtExecute (s2b "DELETE FROM accounts") []) (Ret (Some (EUser 1)) [])).

(* C14 as stated is false: the callback fails, and the transaction is committed nevertheless. *)
Theorem C14_refuted : exists bs, @delivers plain (new_pipe 0) failing_tx bs /\
  dstream bs = Some [statement (s2b "START TRANSACTION"); statement (s2b "DELETE FROM accounts"); statement (s2b "COMMIT")].
Proof.
  eexists. split.
  - eexists _, _. split; vm_compute; reflexivity.
  - vm_compute. reflexivity.
Qed.

(* C14, the part that holds: an error of the builder inside the callback (a refused call) prevents everything. *)
Theorem C14_refused_calls_prevent_commit_partial : forall (E : Env) b level body next c, empty b ->
  makes c body -> call_ok word32 c -> call_weight c < 2 ^ 31 -> (forall m, ~ call_denotes c m) ->
  panics b (PBlock 0 (KTx level) body next) \/ exists e, fails b (PBlock 0 (KTx level) body next) e.
Proof. intros E b level body next c (_ & _ & Hd) Hm Hok Hw Hn. eapply C10_nothing_sent_after_error; eauto. apply Mk_inside. exact Hm. Qed.

(* ---- C15 ---- *)

(* C15: every expectation block that is opened is closed, in the order of nesting, and no other is closed. *)
Theorem C15_expectation_blocks_balanced : forall (E : Env) b pr bs, empty b -> prog_ok word32 pr -> delivers b pr bs -> nlen bs < 2 ^ 32 ->
  exists ms, dstream bs = Some ms /\ balanced ms.
Proof.
  intros E b pr bs He Hok Hd Hl. destruct (C08_sent_is_what_was_written E b pr bs He Hok Hd Hl) as (ms & ids & out & Hm & Hp).
  exists ms. split; [exact Hm|exact (prog_balanced _ _ _ _ Hp)].
Qed.

(* C15: ExpectFailOnError puts what its callback did into one block with the condition "no error". *)
Theorem C15_expect_fail_on_error : forall (E : Env) b context body bs, empty b -> context < 2 -> prog_ok word32 body ->
  delivers b (one_block (KExpectFailOnError context) body) bs -> nlen bs < 2 ^ 32 ->
  exists inner ids out, prog_msgs body inner ids out /\
    dstream bs = Some (MExpectOpen context [CNoError (s2b "1")] :: inner ++ [MExpectClose]).
Proof.
  intros E b context body bs He Hc Hok Hd Hl.
  assert (Hok' : prog_ok word32 (one_block (KExpectFailOnError context) body)) by (cbn [one_block prog_ok]; repeat split; [exact Hc|exact Hok|]; intros; constructor).
  destruct (C08_sent_is_what_was_written E b _ bs He Hok' Hd Hl) as (ms & ids & out & Hm & Hp).
  unfold one_block in Hp. inversion Hp as [| | |? ? ? open ms1 ids1 out1 ms2 ids2 ? Ho H1 H2]; subst.
  inversion H2; subst. cbn [opening closing] in *. injection Ho as <-. exists ms1, ids1, out1. auto.
Qed.

(* ---- C16 ---- *)

(* C16: Insert sends rows exactly as long as the column list... *)
Theorem C16_inserted_rows_match_columns : forall (E : Env) b name cols rows bs, empty b -> call_ok word32 (CInsert name cols rows) ->
  delivers b (one_call (CInsert name cols rows)) bs -> nlen bs < 2 ^ 32 ->
  exists ess, dstream bs = Some [MInsert name (Some table_model) cols ess] /\ Forall2 (Forall2 expr_denotes) rows ess /\
    Forall (fun es => length es = length cols) ess.
Proof.
  intros E b name cols rows bs He Hok Hd Hl.
  destruct (C08_sent_is_what_was_written E b (one_call (CInsert name cols rows)) bs He ltac:(cbn [one_call prog_ok]; auto) Hd Hl) as (ms & ids & out & Hm & Hp).
  inversion Hp as [|? ? m ms' ? ? Hc Hn| |]; subst. inversion Hn; subst. inversion Hc as [| | | |? ? ? ess Hlen Hr| | | |]; subst. exists ess.
  split; [exact Hm|]. split; [exact Hr|]. clear - Hlen Hr. induction Hr as [|row es rows ess H Hr IH]; [constructor|].
  inversion_clear Hlen as [|? ? Hrow Hrest]. constructor; [|auto]. rewrite <- Hrow. clear - H. induction H; cbn [length]; congruence.
Qed.

(* ...and a row of another length is refused wherever it occurs. *)
Theorem C16_ragged_rows_rejected : forall (E : Env) b pr name cols rows, empty b -> makes (CInsert name cols rows) pr ->
  call_ok word32 (CInsert name cols rows) -> call_weight (CInsert name cols rows) < 2 ^ 31 ->
  Exists (fun row => length row <> length cols) rows -> panics b pr \/ exists e, fails b pr e.
Proof.
  intros E b pr name cols rows (_ & _ & Hd) Hm Hok Hw Hx. eapply C10_nothing_sent_after_error; eauto.
  intros m Hc. inversion Hc as [| | | |? ? ? ess Hlen Hr| | | |]; subst. rewrite Forall_forall in Hlen. apply Exists_exists in Hx.
  destruct Hx as (row & Hin & Hne). exact (Hne (Hlen row Hin)).
Qed.

(* InsertRow and InsertF do not check: C16 is false of them. *)
Theorem C16_refuted : exists bs1 bs2,
  @delivers plain (new_pipe 0) (one_row (s2b "t") [s2b "a"; s2b "b"] [VBool true]) bs1 /\
  @delivers plain (new_pipe 0) (one_call (CInsertF (s2b "t") [s2b "a"; s2b "b"] [IRow [VBool true]] None)) bs2 /\
  (exists rest, dstream bs1 = Some (MInsert (s2b "t") (Some table_model) [s2b "a"; s2b "b"] [[XLiteral (SBool true)]] :: rest)) /\
  dstream bs2 = Some [MInsert (s2b "t") (Some table_model) [s2b "a"; s2b "b"] [[XLiteral (SBool true)]]].
Proof.
  eexists _, _. split; [|split; [|split]].
  - eexists _, _. split; vm_compute; reflexivity.
  - eexists _, _. split; vm_compute; reflexivity.
  - eexists. vm_compute. reflexivity.
  - vm_compute. reflexivity.
Qed.

(* They send every row of acceptable values, however many columns there are. *)
Theorem C16_other_calls_do_not_check : forall (E : Env) b name cols row, empty b -> go_string name -> Forall go_string cols -> values_ok word32 row ->
  Forall expr_accepted row -> row_fits name cols row -> call_fits (CInsertF name cols [IRow row] None) ->
  (exists bs, delivers b (one_row name cols row) bs /\
     (nlen bs < 2 ^ 32 -> exists es rest, dstream bs = Some (MInsert name (Some table_model) cols [es] :: rest) /\ Forall2 expr_denotes row es)) /\
  (exists bs, delivers b (one_call (CInsertF name cols [IRow row] None)) bs /\
     (nlen bs < 2 ^ 32 -> exists es, dstream bs = Some [MInsert name (Some table_model) cols [es]] /\ Forall2 expr_denotes row es)).
Proof.
  intros E b name cols row Hb Hn Hc Hv Ha Hf Hf2. split.
  - assert (Hok : prog_ok word32 (one_row name cols row)) by (cbn; auto).
    destruct (C08_accepted_programs_are_sent E b (one_row name cols row) Hb Hok) as [bs Hd]; [cbn; auto|cbn; auto|].
    exists bs. split; [exact Hd|]. intros Hl. destruct (C08_sent_is_what_was_written E b _ bs Hb Hok Hd Hl) as (ms & ids & out & Hm & Hp).
    inversion Hp; subst. eauto.
  - assert (Hok : prog_ok word32 (one_call (CInsertF name cols [IRow row] None))) by (cbn; auto).
    destruct (C08_accepted_programs_are_sent E b _ Hb Hok) as [bs Hd]; [cbn; auto|cbn; auto|].
    exists bs. split; [exact Hd|]. intros Hl. destruct (C08_sent_is_what_was_written E b _ bs Hb Hok Hd Hl) as (ms & ids & out & Hm & Hp).
    inversion Hp as [|? ? m ms' ? ? Hcd Hnx| |]; subst. inversion Hnx; subst. inversion Hcd as [| | | | |? ? ? ? ess Hr| | |]; subst.
    cbn [rows_of] in Hr. inversion Hr as [|? es ? ? H1 H2]; subst. inversion H2; subst. eauto.
Qed.
Example C16_any_row : values_ok true [VBool true] /\ Forall expr_accepted [VBool true] /\ row_fits (s2b "t") [s2b "a"; s2b "b"] [VBool true].
Proof. split; [|split]; [repeat constructor|repeat constructor|reflexivity]. Qed.

(* ---- C17 ---- *)

(* C17: every InsertRow stores the id in a variable of its own, and hands that variable out. *)
Theorem C17_row_variables_distinct : forall (E : Env) b pr bs, empty b -> prog_ok word32 pr -> delivers b pr bs -> nlen bs < 2 ^ 32 ->
  exists ms ids out, dstream bs = Some ms /\ prog_msgs pr ms ids out /\ NoDup ids.
Proof.
  intros E b pr bs He Hok Hd Hl. destruct (delivers_step E b pr bs He Hok Hd Hl) as (b' & out & ms & ids & _ & _ & _ & _ & Hs & Hp & Hi).
  exists ms, ids, out. split; [exact (says_dstream _ _ Hs)|]. split; [exact Hp|exact (ids_nodup _ _ _ Hi)].
Qed.

(* C17, for one InsertRow: the row, then the assignment of the id to the variable the rest of the program gets. *)
Theorem C17_insert_row : forall (E : Env) b name cols row next bs, empty b -> prog_ok word32 (PInsertRow 0 name cols row next) ->
  delivers b (PInsertRow 0 name cols row next) bs -> nlen bs < 2 ^ 32 ->
  exists id es ms ids out, Forall2 expr_denotes row es /\ prog_msgs (next (Some (EVariable id))) ms ids out /\ ~ In id ids /\
    dstream bs = Some (MInsert name (Some table_model) cols [es] :: statement (s2b "SET " ++ id ++ s2b " = LAST_INSERT_ID()") :: ms).
Proof.
  intros E b name cols row next bs He Hok Hd Hl. destruct (C17_row_variables_distinct E b _ bs He Hok Hd Hl) as (ms & ids & out & Hm & Hp & Hn).
  inversion Hp as [| |? ? ? ? id es ms' ids' ? Hr H|]; subst. inversion Hn; subst. exists id, es, ms', ids', out. auto.
Qed.

(* ---- C19, C20 ---- *)

(* One call, one message. *)
Theorem C08_one_call_one_message : forall (E : Env) b c bs, empty b -> call_ok word32 c -> delivers b (one_call c) bs -> nlen bs < 2 ^ 32 ->
  exists m, dstream bs = Some [m] /\ call_denotes c m.
Proof.
  intros E b c bs He Hok Hd Hl. destruct (C08_sent_is_what_was_written E b (one_call c) bs He ltac:(cbn [one_call prog_ok]; auto) Hd Hl) as (ms & ids & out & Hm & Hp).
  inversion Hp as [|? ? m ms' ? ? Hc Hn| |]; subst. inversion Hn; subst. eauto.
Qed.

(* C19: the message restricts the rows exactly when a criterion was given, and to that criterion. *)
Theorem C19_delete_criteria : forall (E : Env) b name criteria bs, empty b -> call_ok word32 (CDelete name criteria) ->
  delivers b (one_call (CDelete name criteria)) bs -> nlen bs < 2 ^ 32 ->
  exists dm c, dstream bs = Some [MDelete name dm c] /\
    match criteria, c with None, None => True | Some f, Some e => fun_denotes f e | _, _ => False end.
Proof.
  intros E b name cr bs He Hok Hd Hl. destruct (C08_one_call_one_message E b _ bs He Hok Hd Hl) as (m & Hm & Hc).
  inversion Hc as [| | | | | | | |? ? c Hcr]; subst. exists None, c. split; [exact Hm|]. inversion Hcr; subst; auto.
Qed.
Theorem C19_update_criteria : forall (E : Env) b name criteria set bs, empty b -> call_ok word32 (CUpdate name criteria set) ->
  delivers b (one_call (CUpdate name criteria set)) bs -> nlen bs < 2 ^ 32 ->
  exists dm c sets, dstream bs = Some [MUpdate name dm c sets] /\
    match criteria, c with None, None => True | Some f, Some e => fun_denotes f e | _, _ => False end.
Proof.
  intros E b name cr set bs He Hok Hd Hl. destruct (C08_one_call_one_message E b _ bs He Hok Hd Hl) as (m & Hm & Hc).
  inversion Hc as [| | | | | |? ? ? c sets Hcr Hs| |]; subst. eexists _, c, sets. split; [exact Hm|]. inversion Hcr; subst; auto.
Qed.
Theorem C19_update_f_criteria : forall (E : Env) b name criteria ops cberr bs, empty b -> call_ok word32 (CUpdateF name criteria ops cberr) ->
  delivers b (one_call (CUpdateF name criteria ops cberr)) bs -> nlen bs < 2 ^ 32 ->
  exists dm c sets, dstream bs = Some [MUpdate name dm c sets] /\
    match criteria, c with None, None => True | Some f, Some e => fun_denotes f e | _, _ => False end.
Proof.
  intros E b name cr ops cberr bs He Hok Hd Hl. destruct (C08_one_call_one_message E b _ bs He Hok Hd Hl) as (m & Hm & Hc).
  inversion Hc as [| | | | | | |? ? ? ? c sets Hcr Hs|]; subst. eexists _, c, sets. split; [exact Hm|]. inversion Hcr; subst; auto.
Qed.

(* C20: prepared statements keep their ids, texts and arguments. *)
Theorem C20_prepared_statements : forall (E : Env) b id stmt args bs, empty b -> id < 2 ^ 32 -> go_string stmt -> values_ok word32 args ->
  delivers b (PCall 0 (CPrepare id stmt) (PCall 0 (CExecute id args) (PCall 0 (CDeallocate id) (Ret None [])))) bs -> nlen bs < 2 ^ 32 ->
  exists ss, Forall2 any_denotes args ss /\ dstream bs = Some [MPrepare id stmt; MExecute id ss; MDeallocate id].
Proof.
  intros E b id stmt args bs He Hi Hs Ha Hd Hl.
  match type of Hd with delivers b ?pr bs => assert (Hok : prog_ok word32 pr) by (cbn [prog_ok call_ok]; pose proof (@Forall_nil _ row_result); tauto) end.
  destruct (C08_sent_is_what_was_written E b _ bs He Hok Hd Hl) as (ms & ids & out & Hm & Hp).
  inversion Hp as [|? ? m1 ms1 ? ? H1 Hp1| |]; subst. inversion Hp1 as [|? ? m2 ms2 ? ? H2 Hp2| |]; subst. inversion Hp2 as [|? ? m3 ms3 ? ? H3 Hp3| |]; subst.
  inversion Hp3; subst. inversion H1; subst. inversion H2; subst. inversion H3; subst. eauto.
Qed.

(* ---- C18 ---- *)

(* C18: whatever the order in which Update meets the entries of the map, it succeeds alike, and sends as many bytes,
   the same criterion and the same assignments (in that order). *)
Theorem C18_map_order_irrelevant : forall (E : Env) b b' name criteria set set' bs, empty b -> empty b' ->
  call_ok word32 (CUpdate name criteria set) -> Permutation set set' ->
  delivers b (one_call (CUpdate name criteria set)) bs -> nlen bs < 2 ^ 32 ->
  exists bs' c sets sets', delivers b' (one_call (CUpdate name criteria set')) bs' /\ nlen bs' = nlen bs /\
    dstream bs = Some [MUpdate name (Some table_model) c sets] /\ dstream bs' = Some [MUpdate name (Some table_model) c sets'] /\
    Forall2 set_denotes set sets /\ Forall2 set_denotes set' sets' /\ Permutation sets sets'.
Proof.
  intros E b b' name cr set set' bs (He & Hb & Hd) (He' & Hb' & Hd') (Hn & Hc & Hs) HP (x & out & Hr & Hsend) Hl.
  cbn [one_call run nth_error] in Hr. unfold exec_call, guarded in Hr. rewrite Hd, Hb in Hr.
  destruct (do_update name cr set (buf b)) as [[q e]|] eqn:Hq; cbn [bind set_nth] in Hr; [|discriminate].
  assert (x = mkb q e false) as -> by congruence. unfold send in Hsend. cbn [disabled berr buf] in Hsend.
  destruct e as [e|]; [discriminate|]. assert (data q = bs) as Hbs by congruence.
  destruct (update_any_order E name cr set (buf b) q Hn Hc Hs Hq ltac:(rewrite Hbs; exact Hl)) as (c & ss0 & bs0 & _ & D1 & S1 & Hq0 & Any).
  rewrite He, app_nil_l, Hbs in Hq0. subst bs0. destruct (Any set' HP) as (bs' & ss & S2 & D2 & P & Hlen & G).
  destruct (G E eq_refl (buf b')) as [sp Hq']. rewrite He', app_nil_l in Hq'.
  exists bs', c, ss0, ss. split; [|split; [exact Hlen|split; [exact (says_dstream _ _ S1)|split; [exact (says_dstream _ _ S2)|auto]]]].
  unfold delivers. cbn [one_call run nth_error]. unfold exec_call, guarded. rewrite Hd', Hb', Hq'. cbn [bind set_nth].
  exists (mkb (mk bs' sp) None false), []. split; reflexivity.
Qed.

(* ---- C46 ---- *)

Lemma stmt_size : forall (E : Env) p stmt q, stmt_execute p stmt [] = Ok (q, None) -> (len p + 6 + length stmt <= len q)%nat.
Proof.
  intros E p stmt q H. unfold stmt_execute in H. cbv zeta in H. set (x := nlen stmt) in *.
  match type of H with bind (mask_truncate ?a _) _ = _ => set (p1 := a) in * end.
  match type of H with bind (mask_truncate _ ?i) _ = _ => set (n := i) in * end.
  assert (Hn : (len p + 6 <= n)%nat) by (subst n p1; rewrite len_append; cbn [length]; lia).
  destruct (mask_truncate p1 n) as [p2|] eqn:Hp2; cbn [bind] in H; [|discriminate].
  unfold append_args in H. cbn [each bind] in H. unfold okm in H. destruct (patch_length _ _) as [p3|] eqn:Hp3; cbn [bind] in H; [|discriminate].
  assert (p3 = q) by congruence. subst p3. apply patch_len in Hp3. rewrite len_append in Hp3.
  assert (Hl : len p2 = n).
  { clear - Hp2. unfold mask_truncate in Hp2. destruct (upd _ _ _) as [p'|]; cbn [bind] in Hp2; [|discriminate]. unfold reslice in Hp2.
    destruct (Nat.leb_spec n (cap p')) as [Hc|]; [|discriminate]. injection Hp2 as <-. unfold len, cap in *. cbn [data]. rewrite firstn_length, app_length. lia. }
  lia.
Qed.

(* C46: a statement of 4 GiB or more is sent, but not as one frame. *)
Theorem C46_large_frames_are_broken : forall (E : Env) b stmt, empty b -> go_string stmt -> 2 ^ 32 <= nlen stmt < 2 ^ 60 ->
  exists bs, delivers b (one_call (CStmtExecute stmt [])) bs /\ forall m, dstream bs <> Some [m].
Proof.
  intros E b stmt He Hs Hl.
  destruct (C08_accepted_programs_are_sent E b (one_call (CStmtExecute stmt [])) He) as (bs & Hbs).
  - cbn [one_call prog_ok call_ok]. repeat split; try apply Hs; constructor.
  - cbn [one_call inner_only]. auto.
  - unfold prog_accepted. cbn [one_call prog_all call_accepted]. unfold call_fits. cbn [call_weight total_weight]. unfold name_weight.
    repeat split; try constructor; lia.
  - exists bs. split; [exact Hbs|]. intros m Hm.
    destruct He as (He & Hb & Hd). destruct Hbs as (x & out & Hr & Hsend). cbn [one_call run nth_error] in Hr. unfold exec_call, guarded in Hr.
    rewrite Hd, Hb in Hr. destruct (stmt_execute (buf b) stmt []) as [[q e]|] eqn:Hq; cbn [bind set_nth] in Hr; [|discriminate].
    assert (x = mkb q e false) as -> by congruence. unfold send in Hsend. cbn [disabled berr buf] in Hsend.
    destruct e as [e|]; [discriminate|]. assert (data q = bs) as Hbs by congruence. apply stmt_size in Hq.
    unfold dstream in Hm. destruct (dframes bs) as [fs|] eqn:Hf; [|discriminate]. cbn [obind] in Hm.
    assert (HF : framed bs fs).
    { unfold dframes in Hf. destruct (forallb (fun b => b <? 256) bs) eqn:Hby; [|discriminate]. split; [|exact Hf].
      apply Forall_forall. intros y Hy. rewrite forallb_forall in Hby. apply N.ltb_lt. apply Hby. exact Hy. }
    destruct (framed_frame bs fs HF) as [F1 F2].
    destruct fs as [|f [|f2 fs]]; cbn [omap] in Hm; [discriminate| |].
    + inversion_clear F2 as [|? ? F3 _]. cbn [map concat] in F1. rewrite app_nil_r in F1.
      assert (Hlen : nlen bs = 4 + (1 + nlen (snd f))) by (rewrite F1; unfold frame, nlen; cbv zeta; rewrite !app_length; cbn [length]; lia).
      rewrite <- Hbs in Hlen. unfold len in Hq. rewrite He in Hq. cbn [length] in Hq. unfold nlen in *. lia.
    + destruct (dmsg _ _); [|discriminate]. cbn [obind] in Hm. destruct (dmsg _ _); [|discriminate]. cbn [obind] in Hm. destruct (omap _ _); discriminate.
Qed.

(* C46 as stated is false: such a statement exists. *)
Theorem C46_refuted : forall (E : Env) b, empty b -> exists stmt bs, go_string stmt /\ nlen stmt = 2 ^ 32 /\
  delivers b (one_call (CStmtExecute stmt [])) bs /\ forall m, dstream bs <> Some [m].
Proof.
  intros E b He. set (n := N.to_nat (2 ^ 32)). assert (Hn : N.of_nat n = 2 ^ 32) by (unfold n; apply N2Nat.id). clearbody n.
  assert (Hl : nlen (repeat 97 n) = 2 ^ 32) by (unfold nlen; rewrite repeat_length; exact Hn).
  assert (Hg : go_string (repeat 97 n)) by (split; [apply Forall_forall; intros x Hx; apply repeat_spec in Hx; subst; reflexivity|lia]).
  destruct (C46_large_frames_are_broken E b (repeat 97 n) He Hg ltac:(lia)) as (bs & H1 & H2). exists (repeat 97 n), bs. auto.
Qed.

(* C46, the part that holds: below 4 GiB every frame is right. *)
Theorem C46_frames_below_4GiB_partial : forall (E : Env) b pr bs, empty b -> prog_ok word32 pr -> delivers b pr bs -> nlen bs < 2 ^ 32 ->
  exists fs, dframes bs = Some fs /\ bs = concat (map frame fs).
Proof.
  intros E b pr bs He Hok Hd Hl. destruct (delivers_step E b pr bs He Hok Hd Hl) as (b' & out & ms & ids & _ & _ & _ & _ & Hs & _).
  destruct Hs as (fs & Hf & _). exists fs. split; [exact (framed_dframes _ _ Hf)|]. apply (framed_frame bs fs Hf).
Qed.

(* ---- C51 ---- *)

(* A value of an unsupported type is among the arguments, or somewhere in a row, a set or a criterion. *)
Definition unsupported_call (c : call) : Prop :=
  match c with
  | CStmtExecute _ args | CExecute _ args => Exists unsupported_arg args
  | CPrepare _ _ | CDeallocate _ => False
  | CInsert _ _ rows => Exists (Exists unsupported_expr) rows
  | CInsertF _ _ ops _ => Exists (Exists unsupported_expr) (rows_of ops)
  | CUpdate _ cr set => (exists f, cr = Some f /\ unsupported_expr (VFunc (Some f))) \/ Exists (fun kv => unsupported_expr (snd kv)) set
  | CUpdateF _ cr ops _ => (exists f, cr = Some f /\ unsupported_expr (VFunc (Some f))) \/ Exists (fun kv => unsupported_expr (snd kv)) (sets_of ops)
  | CDelete _ cr => exists f, cr = Some f /\ unsupported_expr (VFunc (Some f))
  end.

Lemma arg_stands_for_nothing : forall v s, unsupported_arg v -> ~ any_denotes v s.
Proof.
  intros v s Hu. revert s. induction Hu as [f|e|i v Hu IH]; intros s Hs; inversion Hs as [? ? Hl|? ? ? H| |]; subst; try (inversion Hl; fail). exact (IH s H).
Qed.
Lemma expr_stands_for_nothing : forall v s, unsupported_expr v -> ~ expr_denotes v s.
Proof.
  assert (F : forall (ps : list gvalue) es v, Forall2 expr_denotes ps es -> In v ps -> exists e, expr_denotes v e).
  { intros ps es u Hf. induction Hf as [|x y xs ys Hx Hf IH]; intros Hin; [destruct Hin|]. destruct Hin as [->|Hin]; eauto. }
  intros v s Hu. revert s. induction Hu as [a|m1 m2|i v Hu IH|name ps v Hin Hu IH|name ps v Hin Hu IH]; intros s Hs;
    inversion Hs as [? ? Hl|? ? ? H| |? ? Hf]; subst; try (inversion Hl; fail).
  - exact (IH s H).
  - inversion Hf as [| | |? ? ? H2|? ? ? H2|]; subst. destruct (F _ _ v H2 Hin) as [e He]. exact (IH e He).
  - inversion Hf as [| | |? ? ? H2|? ? ? H2|]; subst. destruct (F _ _ v H2 Hin) as [e He]. exact (IH e He).
Qed.
Lemma exists_denotes : forall {A B} (U : A -> Prop) (D : A -> B -> Prop) xs ys, (forall x y, U x -> ~ D x y) -> Exists U xs -> ~ Forall2 D xs ys.
Proof.
  intros A B U D xs ys H Hx Hf. induction Hf as [|x y xs ys Hd Hf IH]; inversion Hx; subst; [eapply H; eassumption|]. apply IH. assumption.
Qed.
Lemma unsupported_stands_for_nothing : forall c m, unsupported_call c -> ~ call_denotes c m.
Proof.
  intros c m Hu Hc. pose proof arg_stands_for_nothing as Ua. pose proof expr_stands_for_nothing as Ue.
  assert (Uc : forall f c, unsupported_expr (VFunc (Some f)) -> ~ criteria_denotes (Some f) c).
  { intros f c0 Hf Hcr. inversion Hcr; subst. eapply Ue; [exact Hf|]. apply E_func. eassumption. }
  assert (Us : forall kv se, unsupported_expr (snd kv) -> ~ set_denotes kv se) by (intros kv se H [_ H2]; exact (Ue _ _ H H2)).
  assert (Ur : forall row es, Exists unsupported_expr row -> ~ Forall2 expr_denotes row es) by (intros row es; apply exists_denotes; exact Ue).
  destruct Hc; cbn [unsupported_call] in Hu; try contradiction.
  - eapply (exists_denotes _ _ _ _ Ua); eassumption.
  - eapply (exists_denotes _ _ _ _ Ua); eassumption.
  - eapply (exists_denotes _ _ _ _ Ur); eassumption.
  - eapply (exists_denotes _ _ _ _ Ur); eassumption.
  - destruct Hu as [(f & -> & Hf)|Hu]; [eapply Uc; eassumption|]. eapply (exists_denotes _ _ _ _ Us); eassumption.
  - destruct Hu as [(f & -> & Hf)|Hu]; [eapply Uc; eassumption|]. eapply (exists_denotes _ _ _ _ Us); eassumption.
  - destruct Hu as (f & -> & Hf). eapply Uc; eassumption.
Qed.

(* C51: a unit with such a call is never sent... *)
Theorem C51_unsupported_values_never_sent : forall (E : Env) b pr c, empty b -> makes c pr -> call_ok word32 c -> call_weight c < 2 ^ 31 ->
  unsupported_call c -> panics b pr \/ exists e, fails b pr e.
Proof.
  intros E b pr c (_ & _ & Hd) Hm Hok Hw Hu. eapply C10_nothing_sent_after_error; eauto. intros m. apply unsupported_stands_for_nothing. exact Hu.
Qed.
(* ...and the call reports an error, unless code it runs panics. *)
Theorem C51_unsupported_values_reported : forall (E : Env) b c, empty b -> call_ok word32 c -> call_weight c < 2 ^ 31 -> call_quiet c ->
  unsupported_call c -> exists e, fails b (one_call c) e.
Proof. intros E b c He Hok Hw Hq Hu. apply C10_error_reported; auto. intros m. apply unsupported_stands_for_nothing. exact Hu. Qed.

(* ---- C53 ---- *)

(* mysqlx_crud.proto: data_model defaults to DOCUMENT = 1. *)
Definition addresses_table (data_model : option N) : Prop := match data_model with Some m => m = 2 | None => False end.

Theorem C53_insert_update_address_tables : forall (E : Env) b c bs, empty b -> call_ok word32 c ->
  match c with CInsert _ _ _ | CInsertF _ _ _ _ | CUpdate _ _ _ | CUpdateF _ _ _ _ => True | _ => False end ->
  delivers b (one_call c) bs -> nlen bs < 2 ^ 32 ->
  exists m dm, dstream bs = Some [m] /\ addresses_table dm /\
    match m with MInsert _ d _ _ | MUpdate _ d _ _ => d = dm | _ => False end.
Proof.
  intros E b c bs He Hok Hc Hd Hl. destruct (C08_one_call_one_message E b c bs He Hok Hd Hl) as (m & Hm & Hcd).
  exists m, (Some 2). split; [exact Hm|]. split; [reflexivity|]. destruct Hcd; try contradiction; reflexivity.
Qed.

(* Delete never says so: the server takes it as addressing a document collection. *)
Theorem C53_refuted : forall (E : Env) b name criteria bs, empty b -> call_ok word32 (CDelete name criteria) ->
  delivers b (one_call (CDelete name criteria)) bs -> nlen bs < 2 ^ 32 ->
  exists dm c, dstream bs = Some [MDelete name dm c] /\ ~ addresses_table dm.
Proof.
  intros E b name cr bs He Hok Hd Hl. destruct (C08_one_call_one_message E b _ bs He Hok Hd Hl) as (m & Hm & Hc).
  inversion Hc as [| | | | | | | |? ? c Hcr]; subst. exists None, c. split; [exact Hm|]. intros [].
Qed.

(* C53: in every unit of work, including the inserts of InsertRow: all inserts and updates address a table, and no delete does. *)
Theorem C53_in_every_unit : forall (E : Env) b pr bs, empty b -> prog_ok word32 pr -> delivers b pr bs -> nlen bs < 2 ^ 32 ->
  exists ms, dstream bs = Some ms /\ forall m, In m ms ->
    match m with MInsert _ dm _ _ | MUpdate _ dm _ _ => addresses_table dm | MDelete _ dm _ => ~ addresses_table dm | _ => True end.
Proof.
  intros E b pr bs He Hok Hd Hl. destruct (C08_sent_is_what_was_written E b pr bs He Hok Hd Hl) as (ms & ids & out & Hm & Hp).
  exists ms. split; [exact Hm|]. apply Forall_forall. clear - Hp. induction Hp as [|c next m ms ids out Hc _ IH|name cols row next id es ms ids out _ _ IH|k body next open ms1 ids1 out1 ms2 ids2 out Ho _ IH1 _ IH2].
  - constructor.
  - constructor; [|exact IH]. destruct Hc; try exact I; try reflexivity. intros [].
  - constructor; [reflexivity|]. constructor; [exact I|exact IH].
  - rewrite !Forall_app. split; [|split; [exact IH1|split; [|exact IH2]]].
    + destruct k as [level|context]; cbn [opening] in Ho.
      * destruct (tx_opening level); [|discriminate]. injection Ho as <-. apply Forall_forall. intros m Hm. apply in_map_iff in Hm. destruct Hm as (x & <- & _). exact I.
      * injection Ho as <-. repeat constructor.
    + destruct k; repeat constructor.
Qed.

(* ---- C54 ---- *)

(* C54: programs that use the right builders, with values and user code that do not themselves panic, do not panic. *)
Theorem C54_quiet_programs_do_not_panic_partial : forall (E : Env) b pr, empty b -> prog_ok word32 pr -> inner_only pr -> prog_quiet pr -> ~ panics b pr.
Proof.
  intros E b pr (_ & _ & Hd) Hok Hi Hq. destruct (quiet_total pr b [] Hi Hok Hq Hd) as (b' & out & Hr). unfold panics. rewrite Hr. discriminate.
Qed.

(* C54 as stated is false: a criterion function that returns (nil, err) makes Delete panic instead of reporting err. *)
Theorem C54_refuted : forall (E : Env) n, exists f, (forall p tag, exists q e, f p tag = Ok (q, Some e)) /\
  panics (new_pipe n) (one_call (CDelete (s2b "t") (Some (EUserFn f)))).
Proof.
  intros E n. exists (fun _ _ => Ok (mk [] [], Some (EUser 1))). split; [eauto|]. unfold panics. cbn [one_call run nth_error]. unfold exec_call, guarded.
  cbn [new_pipe disabled berr buf]. rewrite delete_eq. unfold okm.
  destruct (delete_head_ok (s2b "t") ltac:(vm_compute; reflexivity) (make 0 n)) as (h & sp & Hh & ->). cbn [bind run_fun].
  unfold patch_length, put, len. cbn [data length make]. destruct (Nat.leb_spec (0 + 4) 0); [lia|]. reflexivity.
Qed.

(* ---- the hypotheses are met ---- *)

Definition num (n : Z) : gvalue := VInt n.
(* expect { tx { v := insert order; insert 2 lines with v; update with criterion; delete }; prepare; execute } *)
Definition sample : prog :=
  PBlock 0 (KExpectFailOnError 1)
    (PBlock 0 (KTx 4)
      (PInsertRow 0 (s2b "orders") [s2b "customer"; s2b "total"] [VString (s2b "Ann"); num 7] (fun order =>
        PCall 0 (CInsert (s2b "lines") [s2b "order_id"; s2b "item"]
                  [[VFunc order; VString (s2b "apple")]; [VFunc order; VNil]])
        (PCall 0 (CUpdate (s2b "stock") (Some (EOperator (s2b "==") [VFunc (Some (EColumn (s2b "item"))); VString (s2b "apple")]))
                  [(s2b "n", num 5); (s2b "seen", VBool true)])
        (PCall 0 (CDelete (s2b "carts") None) (Ret None [order])))))
      (fun out => PCall 0 (CPrepare 9 (s2b "SELECT ?")) (Ret None out)))
    (fun out => PCall 0 (CExecute 9 [num (-1); VBytes (Some [0; 255])]) (Ret None [])).

Ltac ok :=
  repeat first
    [ progress cbn [prog_ok call_ok values_ok sets_ok inner_only prog_all call_accepted expr_accepted fun_accepted arg_accepted all opt
                    well_formed well_formed_fun no_known_defect no_known_defect_fun map fst snd is_literal arg_behind_pointer num]
    | match goal with
      | |- forall _, _ => intro
      | |- _ /\ _ => split
      | |- Forall _ [] => constructor
      | |- Forall _ (_ :: _) => constructor
      | |- True => exact I
      | |- go_string (s2b _) => split; [vm_compute; repeat constructor|vm_compute; reflexivity]
      | |- fun_ok _ _ => split
      | |- values_ok _ _ => unfold values_ok
      | |- sets_ok _ _ => split
      | |- in_int _ _ => unfold in_int; cbn; lia
      | H : row_variable ?o |- _ => destruct H as (? & -> & ? & ?)
      | |- _ => assumption || reflexivity
      end ].

Lemma bound_row : forall o, row_result o -> well_formed false (VFunc o) /\ no_known_defect false (VFunc o).
Proof. intros [f|] H; [destruct H as (id & -> & H1 & H2)|]; cbn; auto. Qed.

Ltac sizes :=
  unfold call_fits, row_fits, row_size, call_weight, name_weight, row_weight, criteria_weight, set_weight;
  cbn [total_weight weight fun_weight fst snd num];
  repeat match goal with |- context [nlen (s2b ?s)] => let v := eval vm_compute in (nlen (s2b s)) in change (nlen (s2b s)) with v end;
  try lia.

Example sample_ok : prog_ok (@word32 plain) sample /\ inner_only sample /\ prog_accepted sample.
Proof.
  split; [|split].
  - unfold sample. change (@word32 plain) with false. ok; try (apply bound_row; assumption). split; [repeat constructor|reflexivity].
  - unfold sample. ok.
  - unfold sample, prog_accepted. ok; try discriminate; try (right; exact I); sizes. all: try (eexists; split; [reflexivity|split; assumption]).
Qed.

(* What it sends, in full. *)
Example sample_sent : exists bs, @delivers plain (new_pipe 0) sample bs /\ nlen bs = 464 /\
  dstream bs = Some [
    MExpectOpen 1 [CNoError (s2b "1")];
    statement (s2b "SET TRANSACTION ISOLATION LEVEL SERIALIZABLE"); statement (s2b "START TRANSACTION");
    MInsert (s2b "orders") (Some 2) [s2b "customer"; s2b "total"] [[XLiteral (SString (s2b "Ann") None); XLiteral (SSint 7)]];
    statement (s2b "SET @id$154 = LAST_INSERT_ID()");
    MInsert (s2b "lines") (Some 2) [s2b "order_id"; s2b "item"]
      [[XVariable (s2b "@id$154"); XLiteral (SString (s2b "apple") None)]; [XVariable (s2b "@id$154"); XLiteral SNull]];
    MUpdate (s2b "stock") (Some 2) (Some (XOperator (s2b "==") [XColumn (s2b "item"); XLiteral (SString (s2b "apple") None)]))
      [(s2b "n", XLiteral (SSint 5)); (s2b "seen", XLiteral (SBool true))];
    MDelete (s2b "carts") None None;
    statement (s2b "COMMIT");
    MPrepare 9 (s2b "SELECT ?");
    MExpectClose;
    MExecute 9 [SSint (-1); SOctets [0; 255] None]].
Proof.
  eexists. split; [|split].
  - eexists _, _. split; vm_compute; reflexivity.
  - vm_compute. reflexivity.
  - vm_compute. reflexivity.
Qed.

(* Using the outer builder two callbacks further in. *)
Example uses_outer_example : uses_outer (PCall 0 (CDeallocate 1) (PBlock 0 (KTx 0) (PBlock 0 (KExpectFailOnError 0) (PCall 2 (CDeallocate 2) (Ret None [])) (fun _ => Ret None [])) (fun _ => Ret None []))).
Proof. apply U_after_call, U_inside, U_inside, U_call. Qed.
Example uses_outer_panics : @panics plain (new_pipe 9) (PCall 0 (CDeallocate 1) (PBlock 0 (KTx 0) (PBlock 0 (KExpectFailOnError 0) (PCall 2 (CDeallocate 2) (Ret None [])) (fun _ => Ret None [])) (fun _ => Ret None []))).
Proof. vm_compute. reflexivity. Qed.

(* A ragged insert inside a transaction, after other calls. *)
Definition ragged : call := CInsert (s2b "t") [s2b "a"; s2b "b"] [[VNil; VNil]; [VNil]].
Example refused_example : makes ragged (PCall 0 (CDeallocate 1) (PBlock 0 (KTx 0) (PCall 0 ragged (Ret None [])) (fun _ => Ret None []))) /\
  call_ok false ragged /\ call_weight ragged < 2 ^ 31 /\ call_quiet ragged /\ (forall m, ~ call_denotes ragged m) /\
  @fails plain (new_pipe 0) (PCall 0 (CDeallocate 1) (PBlock 0 (KTx 0) (PCall 0 ragged (Ret None [])) (fun _ => Ret None []))) (ERowLen 1 2 1).
Proof.
  split; [apply Mk_after_call, Mk_inside, Mk_here|]. split; [unfold ragged; ok|]. split; [unfold ragged; sizes|]. split; [cbn; repeat constructor|]. split.
  - intros m H. inversion H as [| | | |? ? ? ? Hl ?| | | |]; subst. inversion Hl as [|? ? _ Hl2]; subst. inversion Hl2; subst. discriminate.
  - eexists _, _. split; vm_compute; reflexivity.
Qed.
Example unsupported_example : unsupported_call (CUpdate (s2b "t") None [(s2b "a", VNil); (s2b "b", VFunc (Some (ECall (s2b "f") [VUser None None])))]).
Proof. right. right. left. cbn [snd]. eapply UE_call; [left; reflexivity|]. apply UE_other. Qed.

(* A builder with an error, and a full one, to be reset. *)
Example reset_example : exists b e b', run (PCall 0 (CDeallocate 1) (PCall 0 ragged (Ret None []))) [new_pipe 3] (E := plain) = Ok ([b], []) /\
  berr b = Some e /\ nlen (data (buf b)) > 0 /\ @reset b = Ok b'.
Proof. eexists _, _, _. split; [vm_compute; reflexivity|]. split; [reflexivity|]. split; [vm_compute; reflexivity|]. vm_compute. reflexivity. Qed.

Print Assumptions C07_sent_bytes_are_whole_frames.
Print Assumptions C08_sent_is_what_was_written.
Print Assumptions C08_accepted_programs_are_sent.
Print Assumptions C08_one_call_one_message.
Print Assumptions C09_output_independent_of_buffer.
Print Assumptions C10_errors_are_sticky.
Print Assumptions C10_nothing_sent_after_error.
Print Assumptions C10_error_reported.
Print Assumptions C11_reset_is_fresh.
Print Assumptions C12_outer_builder_unusable.
Print Assumptions C12_outer_calls_panic.
Print Assumptions C12_builder_usable_after_callbacks.
Print Assumptions C13_transactions_are_bracketed.
Print Assumptions C13_levels_by_name.
Print Assumptions C13_unknown_levels_rejected.
Print Assumptions C14_callback_errors_are_ignored.
Print Assumptions C14_refuted.
Print Assumptions C14_refused_calls_prevent_commit_partial.
Print Assumptions C15_expectation_blocks_balanced.
Print Assumptions C15_expect_fail_on_error.
Print Assumptions C16_inserted_rows_match_columns.
Print Assumptions C16_ragged_rows_rejected.
Print Assumptions C16_refuted.
Print Assumptions C16_other_calls_do_not_check.
Print Assumptions C17_row_variables_distinct.
Print Assumptions C17_insert_row.
Print Assumptions C18_map_order_irrelevant.
Print Assumptions C19_delete_criteria.
Print Assumptions C19_update_criteria.
Print Assumptions C19_update_f_criteria.
Print Assumptions C20_prepared_statements.
Print Assumptions C46_large_frames_are_broken.
Print Assumptions C46_refuted.
Print Assumptions C46_frames_below_4GiB_partial.
Print Assumptions C51_unsupported_values_never_sent.
Print Assumptions C51_unsupported_values_reported.
Print Assumptions C53_insert_update_address_tables.
Print Assumptions C53_in_every_unit.
Print Assumptions C53_refuted.
Print Assumptions C54_quiet_programs_do_not_panic_partial.
Print Assumptions C54_refuted.
