(* C82, C83: when building a unit of work needs no new memory. *)
From Coq Require Import String List NArith ZArith Arith Bool Lia ZifyN ZifyNat ZifyBool.
From Coq Require Import List.
From Verif Require Import Base GoSlice SliceProofs Values MsgModel Builder Text SpecValue SpecProg SpecUnit SpecReuse BuilderProofs UnitProofs ShapeProofs ReuseProofs CapProofs ThmBuilder.
Import ListNotations.
Local Open Scope nat_scope.
Open Scope list_scope.

Lemma empty_usable : forall b, empty b -> usable b /\ len (buf b) = 0.
Proof. intros b (A & B & C). split; [split; assumption|]. unfold len. rewrite A. reflexivity. Qed.

Lemma builds_again : forall (E : Env) pr b b' c, prog_in_place pr -> empty b -> empty c -> builds pr b b' ->
  cap (buf b') <= cap (buf c) \/ len (buf b') + 10 <= cap (buf c) ->
  exists c' out, run pr [c] = Ok ([c'], out) /\ usable c' /\ len (buf c') = len (buf b') /\ cap (buf c') = cap (buf c).
Proof.
  intros E pr b b' c Hip Hb Hc (out & Hr & He) Hroom. destruct (empty_usable b Hb) as [Ub Lb]. destruct (empty_usable c Hc) as [Uc Lc].
  destruct (run_after pr b c [] [] b' out Hip (Forall_nil _) (Forall_nil _) eq_refl Ub Uc ltac:(congruence) Hr He) as (_ & _ & K).
  destruct (K Hroom) as (c' & R & U & L & C). eauto 8.
Qed.

Lemma builds_usable : forall (E : Env) pr b b', empty b -> builds pr b b' -> usable b'.
Proof.
  intros E pr b b' (_ & _ & D) (out & Hr & He). destruct (run_shape _ pr b [] _ out (Forall_nil _) D Hr) as (b2 & Hb & D2 & _). injection Hb as <-. split; assumption.
Qed.

Lemma reset_keeps : forall b, disabled b = false -> exists c, reset b = Ok c /\ empty c /\ cap (buf c) = cap (buf b).
Proof.
  intros b D. unfold reset. rewrite D. unfold reslice. destruct (0 <=? cap (buf b)) eqn:Hx; [|apply Nat.leb_gt in Hx; lia]. cbn [bind].
  eexists. split; [reflexivity|]. split; [repeat split|]. unfold cap. cbn [buf data spare firstn skipn length]. rewrite app_length. lia.
Qed.

(* C82: a unit of work that was built once, in a pipe of whatever size, is built in a reset pipe
   without new memory if that has the capacity the first one ended with, or 10 bytes more than
   the unit is long. *)
Theorem C82_built_without_new_memory : forall (E : Env) pr b b' c, prog_in_place pr -> empty b -> builds pr b b' -> empty c ->
  cap (buf b') <= cap (buf c) \/ len (buf b') + 10 <= cap (buf c) ->
  exists c', builds pr c c' /\ len (buf c') = len (buf b') /\ cap (buf c') = cap (buf c).
Proof.
  intros E pr b b' c Hip Hb Hr Hc Hroom. destruct (builds_again E pr b b' c Hip Hb Hc Hr Hroom) as (c' & out & R & U & L & C).
  exists c'. split; [exists out; split; [exact R|apply U]|]. auto.
Qed.

(* C82: the memory of a pipe never shrinks while units of work are built without error. *)
Theorem C82_capacity_never_shrinks : forall (E : Env) pr b b', prog_in_place pr -> empty b -> builds pr b b' -> cap (buf b) <= cap (buf b').
Proof.
  intros E pr b b' Hip Hb (out & Hr & He). destruct (empty_usable b Hb) as [Ub _].
  destruct (run_after pr b b [] [] b' out Hip (Forall_nil _) (Forall_nil _) eq_refl Ub Ub eq_refl Hr He) as (_ & K & _). exact K.
Qed.

(* C82: a pipe used for any number of units of work, of any kinds, keeps its memory if for each of
   them there is room. *)
Theorem C82_reused_pipe_keeps_its_memory : forall (E : Env) units c, empty c ->
  Forall (fun pr => prog_in_place pr /\ exists b b', empty b /\ builds pr b b' /\ (cap (buf b') <= cap (buf c) \/ len (buf b') + 10 <= cap (buf c))) units ->
  capacities units c = Some (repeat (cap (buf c)) (length units)).
Proof.
  intros E units. induction units as [|pr units IH]; intros c Hc Hu; [reflexivity|]. apply Forall_cons_iff in Hu. destruct Hu as ((Hip & b & b' & Hb & Hr & Hroom) & Hus).
  destruct (builds_again E pr b b' c Hip Hb Hc Hr Hroom) as (c' & out & R & [U1 U2] & L & C). cbn [capacities length repeat]. rewrite R, U2.
  destruct (reset_keeps c' U1) as (c2 & -> & E2 & C2). assert (C3 : cap (buf c2) = cap (buf c)) by congruence. rewrite (IH c2 E2), C3; [rewrite C; reflexivity|]. rewrite C3. exact Hus.
Qed.

(* C82: so New(n) never has to grow for units that are at least 10 bytes shorter than n. *)
Theorem C82_new_pipe_never_grows : forall (E : Env) n units,
  Forall (fun pr => prog_in_place pr /\ exists b b', empty b /\ builds pr b b' /\ len (buf b') + 10 <= n) units ->
  capacities units (new_pipe n) = Some (repeat n (length units)).
Proof.
  intros E n units Hu. assert (Hn : cap (buf (new_pipe n)) = n) by (unfold new_pipe, make, cap; cbn [buf data spare]; rewrite !repeat_length; lia).
  rewrite (C82_reused_pipe_keeps_its_memory E units (new_pipe n)); [rewrite Hn; reflexivity|split; [reflexivity|split; reflexivity]|].
  revert Hu. apply Forall_impl. intros pr (H1 & b & b' & H2 & H3 & H4). split; [exact H1|]. exists b, b'. split; [exact H2|]. split; [exact H3|]. rewrite Hn. right. exact H4.
Qed.

(* C82: and building the same unit over and over needs memory in the first round only. *)
Theorem C82_only_the_first_round_grows : forall (E : Env) pr c b k, prog_in_place pr -> empty c -> builds pr c b ->
  capacities (repeat pr (S k)) c = Some (repeat (cap (buf b)) (S k)).
Proof.
  intros E pr c b k Hip Hc Hr. pose proof (builds_usable E pr c b Hc Hr) as [U1 U2]. pose proof Hr as (out & R & _). cbn [repeat capacities]. rewrite R, U2.
  destruct (reset_keeps b U1) as (c2 & -> & E2 & C2). rewrite (C82_reused_pipe_keeps_its_memory E (repeat pr k) c2 E2).
  - rewrite C2, repeat_length. reflexivity.
  - apply Forall_forall. intros x Hx. apply repeat_spec in Hx. subst x. split; [exact Hip|]. exists c, b. split; [exact Hc|]. split; [exact Hr|]. left. lia.
Qed.

(* ---- the hypotheses can be met, and 10 is the least number that will do ---- *)

Local Existing Instance plain.

Definition one_insert := one_call (CInsert (s2b "t") [s2b "a"] [[VUint 1]]).
Definition long_insert := one_call (CInsert (s2b "t") [s2b "a"; s2b "b"] (repeat [VUint 1000; VString (s2b "some text")] 20)).

Example one_insert_in_place : prog_in_place one_insert.
Proof. cbn. repeat constructor. Qed.
Example long_insert_in_place : prog_in_place long_insert.
Proof. cbn. repeat constructor. Qed.
Example one_insert_is_29_long : exists b', builds one_insert (new_pipe 0) b' /\ len (buf b') = 29.
Proof. eexists. split; [eexists; split; vm_compute; reflexivity|vm_compute; reflexivity]. Qed.

Example room_for_10_more_is_enough : capacities [one_insert; one_insert; one_insert] (new_pipe 39) = Some [39; 39; 39].
Proof. vm_compute. reflexivity. Qed.
Example room_for_9_more_is_not : capacities [one_insert; one_insert; one_insert] (new_pipe 38) = Some [39; 39; 39].
Proof. vm_compute. reflexivity. Qed.
Example the_larger_unit_counts : exists n, 39 < n /\ capacities [one_insert; long_insert; one_insert; long_insert] (new_pipe 0) = Some [39; n; n; n].
Proof. exists 1066. split; [lia|vm_compute; reflexivity]. Qed.

(* A user's encoder that appends some bytes. *)
Example appending_is_in_place : forall (E : Env) xs, in_place (fun p tag => Ok (append p (tag :: xs), None)).
Proof.
  intros E xs p q tag p' Hl H. injection H as <-. unfold append. rewrite Hl.
  destruct (Nat.leb_spec (len p + length (tag :: xs)) (cap p)) as [X|X], (Nat.leb_spec (len p + length (tag :: xs)) (cap q)) as [Y|Y];
    unfold len, cap in *; cbn [data spare] in *; rewrite ?app_length, ?skipn_length in *;
    (split; [lia|]; split; [lia|]); intros Hr; try lia; eexists; (split; [reflexivity|]); cbn [data spare]; rewrite ?app_length, ?skipn_length; lia.
Qed.

(* ---- C83 ---- *)

(* C83: the buffer stays, however the unit fails, if no statement has a foreign argument and user
   code does not shrink what it is given. *)
Theorem C83_failed_unit_keeps_the_buffer_otherwise : forall (E : Env) pr b b' out, prog_keeps pr -> disabled b = false ->
  run pr [b] = Ok ([b'], out) -> exists c, reset b' = Ok c /\ empty c /\ cap (buf b) <= cap (buf c).
Proof.
  intros E pr b b' out Hk Hd Hr. destruct (run_cap pr b [] _ out Hk (Forall_nil _) Hd Hr) as (b2 & Hb & D2 & C). injection Hb as <-.
  destruct (reset_keeps b' D2) as (c & A & B & F). exists c. split; [exact A|]. split; [exact B|]. lia.
Qed.

(* It applies to programs that fail: an expression of unsupported type in a row, after other values. *)
Definition bad_row := one_call (CInsert (s2b "t") [s2b "a"; s2b "b"] [[VInt 1%Z; VOther]]).
Example C83_applies : prog_keeps bad_row /\
  match run bad_row [new_pipe 100] with Ok ([b], _) => berr b = Some (EColumnErr 1 EUnsupported) /\ cap (buf b) = 100 | _ => False end.
Proof. vm_compute. repeat constructor. Qed.

(* C83 is false: a foreign argument of a statement costs the pipe its buffer: after Reset its
   capacity is 0, whatever the pipe, the statement and the other arguments. *)
Theorem C83_failed_unit_keeps_the_buffer_refuted : forall (E : Env) b c b1 out before x after, disabled b = false -> berr b = None -> foreign x ->
  (exists stmt, c = CStmtExecute stmt) \/ (exists id, c = CExecute id) ->
  run (one_call (c before)) [b] = Ok ([b1], out) -> berr b1 = None ->
  exists b' c', run (one_call (c (before ++ x :: after))) [b] = Ok ([b'], []) /\ berr b' = Some EUnsupported /\ reset b' = Ok c' /\ cap (buf c') = 0.
Proof.
  intros E b c b1 out before x after Hd He Hx Hc Hr Hb1. unfold one_call in *. cbn [run nth_error] in *. unfold exec_call, guarded in *. rewrite Hd, He in *.
  destruct Hc as [[stmt ->]|[id ->]].
  - destruct (stmt_execute (buf b) stmt before) as [[q [e|]]|] eqn:Hs; cbn [bind set_nth] in Hr; try discriminate.
    + injection Hr as <- _. discriminate.
    + rewrite (stmt_foreign stmt before x after _ q Hx Hs). cbn [bind set_nth]. eexists. eexists. repeat split; reflexivity.
  - destruct (msg_execute (buf b) id before) as [[q [e|]]|] eqn:Hs; cbn [bind set_nth] in Hr; try discriminate.
    + injection Hr as <- _. discriminate.
    + rewrite (execute_foreign id before x after _ q Hx Hs). cbn [bind set_nth]. eexists. eexists. repeat split; reflexivity.
Qed.

(* Such a value, and what it costs: the next unit of work allocates, which it would not have done otherwise. *)
Definition bad_value := one_call (CStmtExecute (s2b "SELECT ?") [VOther]).
Example C83_bad_value : foreign VOther /\ foreign (VPtr false (VPtr true VNil)) /\ exists b out c,
  run (one_call (CStmtExecute (s2b "SELECT ?") [])) [new_pipe 4096] = Ok ([b], out) /\ berr b = None /\
  match run bad_value [new_pipe 4096] with Ok ([b], _) => reset b = Ok c | _ => False end /\
  capacities [one_insert] c = Some [39] /\ capacities [one_insert] (new_pipe 4096) = Some [4096].
Proof.
  split; [constructor|]. split; [repeat constructor|]. eexists. eexists. eexists. repeat split; vm_compute; reflexivity.
Qed.

(* C83: an isolation level that is not supported does not. *)
Theorem C83_bad_level_keeps_the_buffer : forall (E : Env) b lvl body, empty b -> (5 < lvl)%N ->
  exists b', run (PBlock 0 (KTx lvl) body (fun _ => Ret None [])) [b] = Ok ([b'], []) /\ berr b' = Some EIsolation /\ buf b' = buf b.
Proof.
  intros E b lvl body (_ & He & Hd) Hlvl. cbn [run nth_error]. unfold block_begin. rewrite He, Hd. unfold tx_begin.
  destruct lvl as [|[[[l|l|]|[l|l|]|]|[[l|l|]|[l|l|]|]|]]; cbv zeta; try lia; cbn [bind set_nth]; eexists; (split; [reflexivity|]); split; reflexivity.
Qed.

Print Assumptions C82_built_without_new_memory.
Print Assumptions C82_capacity_never_shrinks.
Print Assumptions C82_reused_pipe_keeps_its_memory.
Print Assumptions C82_new_pipe_never_grows.
Print Assumptions C82_only_the_first_round_grows.
Print Assumptions C83_failed_unit_keeps_the_buffer_refuted.
Print Assumptions C83_failed_unit_keeps_the_buffer_otherwise.
Print Assumptions C83_bad_level_keeps_the_buffer.
