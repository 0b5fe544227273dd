(* The account of a session and of a pooled connection (C74), when arguments may also be values that are encoded wrongly. *)
From Coq Require Import String List NArith ZArith Arith Bool Lia ZifyN ZifyNat ZifyBool.
From Coq Require Import List.
From Verif Require Import Base GoSlice SpecWire SpecMsg WireProofs Text Values MsgModel Builder
  SpecValue SpecProg SpecUnit SpecTyped Conn SpecReply SpecServer SpecSession SpecCommit SpecLedger ThmValues ThmDefects ThmTyped ThmServer ThmTypedServe ThmTypedWork ThmTypedReplies ShapeProofs.
From Verif Require ThmBuilder ShapeProofs ThmTx ThmCommit ThmLedger Pool SpecPool System SpecSystem ThmSystem ThmRetry.
Import ListNotations.
Open Scope N_scope.
Open Scope list_scope.

(* The bytes bs were delivered by a unit of work with arguments of the right types, and a server may take them for u. *)
Definition taken_as (E : Env) (bs : bytes) (u : unit_parts) : Prop := exists b cs level body fs inner,
  empty b /\ Forall ThmTx.prepares cs /\ typed_prog word32 (ThmTx.unit_of_work (u_context u) cs level body) /\ delivers b (ThmTx.unit_of_work (u_context u) cs level body) bs /\ nlen bs < 2 ^ 32 /\
  dframes bs = Some fs /\ work_frames word32 (u_context u) cs level body fs (u_prepared u) (u_opening u) inner /\ Forall2 taken_for inner (u_inner u).

Lemma taken_somehow f : exists m, taken_for f m.
Proof.
  destruct (dmsg (fst f) (snd f)) as [m|] eqn:H; [exists m; left; exact H|]. exists commit. right. split; [exact H|exact Logic.I].
Qed.
Lemma all_taken_somehow : forall fs, exists ms, Forall2 taken_for fs ms.
Proof. induction fs as [|f fs (ms & IH)]; [exists []; constructor|]. destruct (taken_somehow f) as [m Hm]. exists (m :: ms). constructor; assumption. Qed.

(* C74: whatever the arguments, a delivered unit of work can be taken for something, and if its callback's frames can all be read only for what they say. *)
Theorem C74_units_are_taken_for_something : forall (E : Env) b context cs level body bs, empty b -> Forall ThmTx.prepares cs ->
  typed_prog word32 (ThmTx.unit_of_work context cs level body) -> delivers b (ThmTx.unit_of_work context cs level body) bs -> nlen bs < 2 ^ 32 ->
  exists fs mp opening inner, dframes bs = Some fs /\ work_frames word32 context cs level body fs mp opening inner /\
    (forall mi, Forall2 taken_for inner mi -> taken_as E bs (mkunit context mp opening mi)) /\
    (exists mi, Forall2 taken_for inner mi) /\ (forall mi mi', Forall2 reads inner mi -> Forall2 taken_for inner mi' -> mi' = mi).
Proof.
  intros E b context cs level body bs He Hc Hok Hd Hl. destruct (work_delivered_frames E b context cs level body bs He Hc Hok Hd Hl) as (fs & mp & l & inner & Hdf & A1 & A2 & A3 & A4).
  exists fs, mp, l, inner. split; [exact Hdf|]. split; [exact A3|]. split; [|split].
  - intros mi T. exists b, cs, level, body, fs, inner. cbn [u_context u_prepared u_opening u_inner]. repeat (split; [assumption|]). exact T.
  - apply all_taken_somehow.
  - intros mi mi' R T. exact (taken_reads _ _ R _ T).
Qed.

Lemma taken_as_facts : forall E bs u, taken_as E bs u -> exists fs, framed bs fs /\ Forall2 taken_for fs (u_messages u) /\ ThmLedger.shaped u.
Proof.
  intros E bs u (b & cs & level & body & fs & inner & He & Hc & Hok & Hd & Hl & Hdf & W & T). exists fs. split; [exact (ThmRetry.dframes_framed _ _ Hdf)|].
  destruct (work_taken _ _ _ _ _ _ _ _ _ W _ T) as [T1 T2]. split; [rewrite ThmLedger.u_messages_eq; exact T1|].
  destruct W as [Ho Fc _ _]. constructor.
  - clear - Fc Hc. induction Fc as [|c m cs ms Hcm Fc IH]; [constructor|]. inversion_clear Hc as [|? ? A B]. constructor; [|exact (IH B)]. destruct Hcm; try destruct A. eauto.
  - destruct (ThmTx.opening_shape _ _ Ho) as (lv & st & A & B & C & _). eauto.
  - exact T2.
Qed.
Lemma all_taken_as : forall E bss us, Forall2 (taken_as E) bss us -> Forall ThmLedger.shaped us /\ exists fs, framed (concat bss) fs /\ Forall2 taken_for fs (concat (map u_messages us)).
Proof.
  intros E bss us H. induction H as [|bs u bss us Hu H [IH (fs & F & T)]]; [split; [constructor|exists []; split; [exact framed_nil|constructor]]|].
  destruct (taken_as_facts _ _ _ Hu) as (fs0 & F0 & T0 & S0). split; [constructor; assumption|]. exists (fs0 ++ fs). cbn [map concat]. split; [apply framed_app; assumption|apply Forall2_app; assumption].
Qed.

(* C74: the units of a session that begins without a transaction in progress, whatever their arguments, and whatever the server takes the frames for that it
   cannot read: what becomes of their changes. *)
Theorem C74_session_whatever_the_values : forall (E : Env) p bss us tr s, Forall2 (taken_as E) bss us ->
  Forall (fun u => Forall SpecSession.plain (u_inner u)) us -> p = true \/ Forall (fun u => Forall ordinary (u_inner u)) us ->
  serve p [] (concat (map u_messages us)) tr -> in_progress s = None ->
  (exists fs, dframes (concat bss) = Some fs /\ Forall2 taken_for fs (concat (map u_messages us))) /\
  exists trs parts n, tr = concat trs /\ Forall2 (fun u t => serve p [] (u_messages u) t) us trs /\ Forall2 first_changes us parts /\
    durable (play tr s) = durable s ++ concat (firstn n parts) /\ pending (play tr s) = concat (skipn n parts) /\
    forall i u t, nth_error us i = Some u -> nth_error trs i = Some t ->
      nth_error t (u_commit u) = Some (commit, Executed) -> (i < n)%nat /\ nth_error parts i = Some (changes (u_inner u)).
Proof.
  intros E p bss us tr s Hd Hp Hpr H Hn. destruct (all_taken_as _ _ _ Hd) as [S (fs & F & T)]. split; [exists fs; split; [exact (framed_dframes _ _ F)|exact T]|].
  exact (ThmLedger.session_account p us tr s S Hp Hpr H Hn).
Qed.

(* C74: and if every COMMIT was executed, all changes of all units are durable, in order, and nothing else. *)
Theorem C74_all_committed_whatever_the_values : forall (E : Env) p bss us trs s, Forall2 (taken_as E) bss us ->
  Forall (fun u => Forall SpecSession.plain (u_inner u)) us -> p = true \/ Forall (fun u => Forall ordinary (u_inner u)) us ->
  serve p [] (concat (map u_messages us)) (concat trs) -> in_progress s = None ->
  Forall2 (fun u t => map fst t = u_messages u /\ nth_error t (u_commit u) = Some (commit, Executed)) us trs ->
  durable (play (concat trs) s) = durable s ++ concat (map (fun u => changes (u_inner u)) us) /\ pending (play (concat trs) s) = [].
Proof. intros E p bss us trs s Hd. apply ThmLedger.committed_account. exact (proj1 (all_taken_as _ _ _ Hd)). Qed.

(* C74: with a pool (compare C74_account_of_a_pooled_connection). *)
Theorem C74_pooled_whatever_the_values : forall (E : Env) size acts sys said k c c0 (unit_of : nat -> unit_parts) p (done : nat -> list (msg * outcome)) s,
  System.run word32 acts (System.new_system size) = Some sys -> SpecSystem.sends said sys -> Forall (SpecSystem.serves word32 said) acts ->
  nth_error (System.conns sys) k = Some c -> nth_error (System.started sys) k = Some c0 ->
  (forall i bs, SpecSystem.unit_is sys i bs -> taken_as E bs (unit_of i) /\ Forall SpecSession.plain (u_inner (unit_of i)) /\ (p = true \/ Forall ordinary (u_inner (unit_of i)))) ->
  let is := SpecSystem.users k (SpecPool.history (System.pool sys)) in
  serve p [] (concat (map (fun i => u_messages (unit_of i)) is)) (concat (map done is)) ->
  Forall (fun i => map fst (done i) = u_messages (unit_of i) /\ Forall2 truth (done i) (map seen_as (said i))) is -> in_progress s = None ->
  exists us last parts n fs, SpecSystem.attempts c = SpecSystem.attempts c0 ++ map (fun u => (u, None)) us ++ last /\ (List.length last <= 1)%nat /\
    Forall2 (SpecSystem.unit_is sys) is us /\ dframes (concat us) = Some fs /\ Forall2 taken_for fs (concat (map (fun i => u_messages (unit_of i)) is)) /\
    Forall2 (fun i => first_changes (unit_of i)) is parts /\
    durable (play (concat (map done is)) s) = durable s ++ concat (firstn n parts) /\ pending (play (concat (map done is)) s) = concat (skipn n parts) /\
    forall j i rs, nth_error is j = Some i -> SpecSystem.got sys i rs None -> nth_error rs (u_commit (unit_of i)) = Some None ->
      (j < n)%nat /\ nth_error parts j = Some (changes (u_inner (unit_of i))).
Proof.
  intros E size acts sys said k c c0 unit_of p done s R S1 S2 Hk Hk0 Hu is Hs Hd Hn.
  assert (Hu' : forall i bs, SpecSystem.unit_is sys i bs -> ThmLedger.shaped (unit_of i) /\ Forall SpecSession.plain (u_inner (unit_of i)) /\ (p = true \/ Forall ordinary (u_inner (unit_of i)))).
  { intros i bs Hi. destruct (Hu i bs Hi) as [X Y]. destruct (taken_as_facts _ _ _ X) as (_ & _ & _ & X'). split; [exact X'|exact Y]. }
  destruct (ThmLedger.pooled_account E size acts sys said k c c0 unit_of p done s R S1 S2 Hk Hk0 Hu' Hs Hd Hn) as (us & l & parts & n & A1 & A2 & B & A3).
  assert (D : Forall2 (taken_as E) us (map unit_of is)) by (clear - B Hu; fold is in B; clearbody is; induction B as [|i u is us Hi B IH]; cbn; constructor; [apply (Hu i u Hi)|exact IH]).
  destruct (all_taken_as _ _ _ D) as [_ (fs & F & T)]. rewrite map_map in T.
  exists us, l, parts, n, fs. split; [exact A1|]. split; [exact A2|]. split; [exact B|]. split; [exact (framed_dframes _ _ F)|]. split; [exact T|exact A3].
Qed.

(* ---- the hypotheses can be met ---- *)

(* ThmTypedServe.wrong_unit twice: in the first the server takes the criteria it cannot read for none and executes the delete, in the second the delete fails. *)
Definition wrong_parts : unit_parts := mkunit 0 [MPrepare 1 (s2b "SELECT 1")] [s2b "START TRANSACTION"] [MDelete (s2b "u") (Some 2) None].
Definition done_all : list (msg * outcome) := map (fun m => (m, Executed)) (u_messages wrong_parts).
Definition done_some : list (msg * outcome) :=
  [(MExpectOpen 0 [CNoError (s2b "1")], Executed); (MPrepare 1 (s2b "SELECT 1"), Executed); (statement (s2b "START TRANSACTION"), Executed); (MDelete (s2b "u") (Some 2) None, SpecServer.Failed); (commit, Skipped); (MExpectClose, SpecServer.Failed)].
Example wrong_account_meets : exists bs, Forall2 (taken_as ThmBuilder.plain) [bs; bs] [wrong_parts; wrong_parts] /\
  Forall (fun u => Forall SpecSession.plain (u_inner u)) [wrong_parts; wrong_parts] /\ serve true [] (concat (map u_messages [wrong_parts; wrong_parts])) (done_all ++ done_some) /\
  nth_error done_all (u_commit wrong_parts) = Some (commit, Executed) /\ nth_error done_some (u_commit wrong_parts) = Some (commit, Skipped).
Proof.
  destruct wrong_unit_sent as (bs & fs & o & p & st & d & c & e & Hd & Hl & Hdf & -> & Hu & Ht & _). exists bs. split; [|split; [|split]].
  - assert (X : taken_as ThmBuilder.plain bs wrong_parts).
    { assert (Hc : Forall ThmTx.prepares [CPrepare 1 (s2b "SELECT 1")]) by (repeat constructor).
      destruct (C74_units_are_taken_for_something ThmBuilder.plain (new_pipe 0) 0 [CPrepare 1 (s2b "SELECT 1")] 0 (PCall 0 (CDelete (s2b "u") (Some (EVariable long_name))) (Ret None [])) bs
        (ShapeProofs.new_empty 0) Hc (proj1 wrong_unit_meets) Hd Hl) as (fs' & mp & op & inner & D' & W & K & _). rewrite Hdf in D'. injection D' as <-.
      destruct W as [W1 W2 W3 W4]. assert (mp = [MPrepare 1 (s2b "SELECT 1")]) as -> by (inversion W2 as [|? ? ? ? X Y]; inversion X; subst; inversion Y; reflexivity).
      assert (op = [s2b "START TRANSACTION"]) as -> by (change (Some [s2b "START TRANSACTION"] = Some op) in W1; congruence). apply K. destruct W4 as (o' & pr & f0 & g & z & Hf & _ & Hp & H0 & _).
      inversion Hp as [|? ? ? ? _ Y]; subst. inversion Y; subst. inversion H0 as [|? ? ? ? _ Y0]; subst. inversion Y0; subst. cbn [app] in Hf. injection Hf as <- <- <- Hf.
      destruct inner as [|i1 [|i2 inner]]; cbn [app] in Hf; try discriminate Hf; [|exfalso; apply (f_equal (@List.length _)) in Hf; cbn [List.length] in Hf; rewrite app_length in Hf; cbn in Hf; lia].
      injection Hf as <- <- <-. constructor; [right; split; [exact Hu|exact Logic.I]|constructor]. }
    constructor; [exact X|constructor; [exact X|constructor]].
  - repeat constructor; left; vm_compute; reflexivity.
  - unfold done_all, done_some, wrong_parts, u_messages. cbn [map concat app u_context u_prepared u_opening u_inner].
    apply S_open; [reflexivity|]. do 4 (apply S_exec; [exact Logic.I|reflexivity|]). apply S_close; [reflexivity|].
    apply S_open; [reflexivity|]. apply S_exec; [exact Logic.I|reflexivity|]. apply S_exec; [exact Logic.I|reflexivity|]. apply S_fail; [exact Logic.I|reflexivity|].
    apply S_skip; [exact Logic.I|reflexivity|]. apply S_close_failed; [reflexivity|]. apply S_done.
  - split; reflexivity.
Qed.

Print Assumptions C74_units_are_taken_for_something.
Print Assumptions C74_session_whatever_the_values.
Print Assumptions C74_all_committed_whatever_the_values.
Print Assumptions C74_pooled_whatever_the_values.
