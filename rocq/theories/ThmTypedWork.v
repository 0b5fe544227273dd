(* What servers and Send do with units of work (C46, C62, C63, C84, C114) when arguments may also be values that are encoded wrongly. *)
From Coq Require Import String List NArith ZArith Arith Bool Lia ZifyN ZifyNat ZifyBool.
From Coq Require Import List.
From Verif Require Import Base GoSlice SpecWire SpecMsg WireProofs Text Values MsgModel Builder
  SpecValue SpecProg SpecUnit SpecTyped Conn SpecReply SpecServer SpecSession SpecApart ThmValues ThmBuilder ThmDefects ThmTyped ThmTypedShape ThmServer ThmTypedServe.
From Verif Require RawSend ThmRaw ThmTx ThmApart Pool SpecPool System SpecSystem ThmSystem ThmRetry.
Import ListNotations.
Open Scope N_scope.
Open Scope list_scope.

(* ---- C46 ---- *)

(* C46: whatever the arguments, the lengths of the frames of what is below 4 GiB are correct. *)
Theorem C46_frames_whatever_the_values_partial : forall (E : Env) b pr bs, empty b -> typed_prog word32 pr -> delivers b pr bs -> nlen bs < 2 ^ 32 ->
  exists fs, dframes bs = Some fs /\ bs = concat (map frame fs).
Proof.
  intros E b pr bs He Hok Hd Hl. destruct (C120_only_its_own_message E b pr bs He Hok Hd Hl) as (fs & ids & out & H1 & H2 & _). exists fs. auto.
Qed.

(* ---- C84 ---- *)

(* C84: whatever the arguments, Send does not panic, whatever the server says and however the connection fails. *)
Theorem C84_units_whatever_the_values : forall (E : Env) b pr bs deadline c, empty b -> typed_prog word32 pr -> delivers b pr bs ->
  nlen bs < (if word32 then 2 ^ 31 else 2 ^ 32) -> exists r c', RawSend.raw_send word32 deadline bs c = RawSend.Returns r c'.
Proof.
  intros E b pr bs d c He Hok Hd Hl. assert (Hl2 : nlen bs < 2 ^ 32) by (destruct word32; lia).
  destruct (C07_whole_frames_whatever_the_values E b pr bs He Hok Hd Hl2) as (fs & -> & Hf). apply ThmRaw.C84_whole_messages_never_panic.
  - eapply Forall_impl; [|exact Hf]. cbv beta. tauto.
  - intros W. rewrite W in Hl. exact Hl.
Qed.

(* ---- C114 ---- *)

(* C114: whatever the arguments, the ways to treat units one after the other are the ways to treat each, *)
Definition typed_unit {E : Env} (u : builder * prog * bytes) : Prop :=
  let '(b, pr, bs) := u in empty b /\ typed_prog word32 pr /\ delivers b pr bs /\ nlen bs < 2 ^ 32.
Theorem C114_units_apart_whatever_the_values : forall (E : Env) (us : list (builder * prog * bytes)), Forall typed_unit us ->
  exists fss, Forall2 (fun u fs => snd u = concat (map frame fs) /\ dframes (snd u) = Some fs) us fss /\
    forall mss, Forall2 (Forall2 taken_for) fss mss ->
    forall propagates tr, serve propagates [] (concat mss) tr <-> exists trs, tr = concat trs /\ Forall2 (serve propagates []) mss trs.
Proof.
  intros E us H.
  assert (G : exists fss, Forall2 (fun u fs => snd u = concat (map frame fs) /\ dframes (snd u) = Some fs) us fss /\ forall mss, Forall2 (Forall2 taken_for) fss mss -> Forall strict mss).
  { induction H as [|[[b pr] bs] us (He & Hok & Hd & Hl) _ (fss & M1 & M2)]; [exists []; split; [constructor|intros mss X; inversion X; constructor]|].
    destruct (C120_only_its_own_message E b pr bs He Hok Hd Hl) as (fs & ids & out & Hbs & Hdf & Hp & _). exists (fs :: fss). split; [constructor; [auto|exact M1]|].
    intros mss X. inversion X as [|? ms ? mss' T X']; subst. constructor; [exact (taken_strict _ _ _ _ _ Hp _ T)|exact (M2 _ X')]. }
  destruct G as (fss & M1 & M2). exists fss. split; [exact M1|]. intros mss T. exact (ThmApart.strict_apart mss (M2 mss T)).
Qed.

(* C114: and a message is skipped exactly if an error has happened in a block of the unit that is still open when it comes (if the
   error of a block's Close is one like others; only if, otherwise). *)
Theorem C114_skipped_whatever_the_values : forall (E : Env) b pr bs, empty b -> typed_prog word32 pr -> delivers b pr bs -> nlen bs < 2 ^ 32 ->
  exists fs, bs = concat (map frame fs) /\ dframes bs = Some fs /\ forall ms, Forall2 taken_for fs ms ->
    (forall propagates tr tr1 m tr2, serve propagates [] ms tr -> tr = tr1 ++ (m, Skipped) :: tr2 -> Exists erred (open_blocks tr1)) /\
    (forall tr tr1 m o tr2, serve true [] ms tr -> tr = tr1 ++ (m, o) :: tr2 -> ordinary m -> (o = Skipped <-> Exists erred (open_blocks tr1))).
Proof.
  intros E b pr bs He Hok Hd Hl. destruct (C120_only_its_own_message E b pr bs He Hok Hd Hl) as (fs & ids & out & Hbs & Hdf & Hp & _).
  exists fs. split; [exact Hbs|]. split; [exact Hdf|]. intros ms T. split.
  - intros p tr tr1 m tr2 H Et. exact (ThmApart.skipped_in p [] ms tr H [] ThmApart.A_nil tr1 m tr2 Et).
  - intros tr tr1 m o tr2 H Et Ho. refine (ThmApart.skipped_exactly [] ms tr H (ThmApart.strict_asking _ (taken_strict _ _ _ _ _ Hp _ T)) [] _ tr1 m o tr2 Et Ho).
    split; [constructor|]. split; [reflexivity|]. split; [discriminate|intros X; inversion X].
Qed.

(* C114: also on a connection of a pool, whoever sent the units. *)
Theorem C114_pooled_whatever_the_values : forall (E : Env) n acts s said k c c0,
  System.run word32 acts (System.new_system n) = Some s -> SpecSystem.sends said s -> Forall (SpecSystem.serves word32 said) acts ->
  (forall i u, SpecSystem.unit_is s i u -> exists b pr, typed_unit (b, pr, u)) ->
  nth_error (System.conns s) k = Some c -> nth_error (System.started s) k = Some c0 ->
  exists us last fss, SpecSystem.attempts c = SpecSystem.attempts c0 ++ map (fun u => (u, None)) us ++ last /\ (List.length last <= 1)%nat /\
    Forall2 (SpecSystem.unit_is s) (SpecSystem.users k (SpecPool.history (System.pool s))) us /\ Forall2 (fun u fs => u = concat (map frame fs) /\ dframes u = Some fs) us fss /\
    forall mss propagates tr, Forall2 (Forall2 taken_for) fss mss -> serve propagates [] (concat mss) tr -> exists trs, tr = concat trs /\ Forall2 (serve propagates []) mss trs /\
      Forall (fun t => forall tr1 m tr2, t = tr1 ++ (m, Skipped) :: tr2 -> Exists erred (open_blocks tr1)) trs.
Proof.
  intros E n acts s said k c c0 R S1 S2 Hu Hk Hk0. destruct (ThmSystem.C62_units_whole_and_in_order word32 n acts s said k c c0 R S1 S2 Hk Hk0) as (us & l & A & B & C).
  assert (G : exists bs, map snd bs = us /\ Forall typed_unit bs).
  { clear - B Hu. induction B as [|i u is us Hi _ (bs & <- & F)]; [exists []; split; [reflexivity|constructor]|]. destruct (Hu i u Hi) as (b & pr & He). exists ((b, pr, u) :: bs). split; [reflexivity|]. constructor; assumption. }
  destruct G as (bs & Eb & Fb). destruct (C114_units_apart_whatever_the_values E bs Fb) as (fss & M1 & M2). exists us, l, fss. split; [exact A|]. split; [destruct C as [->|(i & b & o & -> & _)]; cbn; lia|]. split; [exact B|]. split.
  { rewrite <- Eb. clear - M1. induction M1 as [|[[b pr] u] fs bs fss H _ IH]; cbn [map snd] in *; constructor; assumption. }
  intros mss p tr T H. destruct (proj1 (M2 mss T p tr) H) as (trs & -> & F). exists trs. split; [reflexivity|]. split; [exact F|]. clear - F. induction F as [|ms t mss trs H _ IH]; constructor; [|exact IH].
  intros tr1 m tr2 Et. exact (ThmApart.skipped_in p [] ms t H [] ThmApart.A_nil tr1 m tr2 Et).
Qed.

(* ---- C62 ---- *)

(* C62: if every unit was built by a program, whatever the arguments, the server of each connection reads the frames of
   those programs, unit by unit, never mixed. *)
Theorem C62_server_reads_frames_whatever_the_values : forall (E : Env) n acts s said k c c0,
  System.run word32 acts (System.new_system n) = Some s -> SpecSystem.sends said s -> Forall (SpecSystem.serves word32 said) acts ->
  (forall i u, SpecSystem.unit_is s i u -> exists b pr, typed_unit (b, pr, u)) ->
  nth_error (System.conns s) k = Some c -> nth_error (System.started s) k = Some c0 ->
  exists us last fss, SpecSystem.attempts c = SpecSystem.attempts c0 ++ map (fun u => (u, None)) us ++ last /\ (List.length last <= 1)%nat /\
    dframes (concat us) = Some (concat fss) /\
    Forall2 (fun i fs => exists u b pr ids out, SpecSystem.unit_is s i u /\ typed_unit (b, pr, u) /\ prog_frames word32 pr fs ids out)
      (SpecSystem.users k (SpecPool.history (System.pool s))) fss.
Proof.
  intros E n acts s said k c c0 H Hs Hv Hp Hk Hk0. destruct (ThmSystem.C62_units_whole_and_in_order word32 n acts s said k c c0 H Hs Hv Hk Hk0) as (us & l & A & B & C).
  assert (M : exists fss, framed (concat us) (concat fss) /\
    Forall2 (fun i fs => exists u b pr ids out, SpecSystem.unit_is s i u /\ typed_unit (b, pr, u) /\ prog_frames word32 pr fs ids out) (SpecSystem.users k (SpecPool.history (System.pool s))) fss).
  { clear - Hp B. induction B as [|i u is us Hu B IH]; [exists []; split; [exact framed_nil|constructor]|].
    destruct IH as (fss & S1 & S2). destruct (Hp i u Hu) as (b & pr & Ht). pose proof Ht as (P1 & P2 & P3 & P4).
    destruct (C120_only_its_own_message E b pr u P1 P2 P3 P4) as (fs & ids & out & _ & Hf & Hpf & _).
    exists (fs :: fss). cbn [concat]. split; [apply framed_app; [exact (ThmRetry.dframes_framed _ _ Hf)|exact S1]|]. constructor; [|exact S2]. exists u, b, pr, ids, out. auto. }
  destruct M as (fss & M1 & M2). exists us, l, fss. split; [exact A|]. split; [destruct C as [->|(i & b & o & -> & _)]; cbn; lia|]. split; [exact (framed_dframes _ _ M1)|exact M2].
Qed.

(* ---- C63 ---- *)

Lemma prepares_read w : forall cs fs, Forall2 (call_frame w) cs fs -> Forall ThmTx.prepares cs -> Forall (typed_call w) cs ->
  exists ms, Forall2 reads fs ms /\ Forall2 call_denotes cs ms /\ Forall (fun m => exists id q, m = MPrepare id q) ms.
Proof.
  intros cs fs H. induction H as [|c f cs fs [_ Hc] H IH]; intros Hp Ht; [exists []; auto|]. inversion_clear Hp as [|? ? P1 P2]. inversion_clear Ht as [|? ? T1 T2].
  destruct (IH P2 T2) as (ms & A & B & C). destruct c as [| id q | | | | | | |]; try contradiction. destruct (Hc T1) as (m & M1 & M2). exists (m :: ms).
  split; [constructor; assumption|]. split; [constructor; assumption|]. constructor; [|exact C]. inversion M2; subst; eauto.
Qed.
Lemma typed_calls_then w : forall cs pr, typed_prog w (calls_then cs pr) -> Forall (typed_call w) cs.
Proof. induction cs as [|c cs IH]; intros pr H; cbn [calls_then typed_prog] in H; [constructor|]. destruct H as [H1 H2]. constructor; [exact H1|exact (IH _ H2)]. Qed.

(* C63: whatever the arguments, of a unit of work all changes become durable with the COMMIT, and none without it (on a connection
   with no transaction in progress; see C63_all_or_nothing_partial), whatever the server takes the frames for that it cannot read. *)
Theorem C63_all_or_nothing_whatever_the_values_partial : forall (E : Env) b context cs level body bs, empty b -> Forall ThmTx.prepares cs ->
  typed_prog word32 (ThmTx.unit_of_work context cs level body) -> delivers b (ThmTx.unit_of_work context cs level body) bs -> nlen bs < 2 ^ 32 ->
  exists opening o prepared fs0 inner g z mp ids out,
    bs = concat (map frame (o :: prepared ++ fs0 ++ inner ++ [g; z])) /\ tx_opening level = Some opening /\
    reads o (MExpectOpen context [CNoError (s2b "1")]) /\ Forall2 reads prepared mp /\ Forall2 call_denotes cs mp /\ Forall2 reads fs0 (map statement opening) /\
    prog_frames word32 body inner ids out /\ reads g commit /\ reads z MExpectClose /\
    forall propagates mi tr s, Forall2 taken_for inner mi -> Forall SpecSession.plain mi -> propagates = true \/ Forall ordinary mi ->
      serve propagates [] (ThmTx.unit_messages context mp opening mi) tr -> in_progress s = None ->
      let position := (1 + List.length mp + List.length opening + List.length mi)%nat in
      (nth_error tr position = Some (commit, Executed) -> Forall executed tr /\ play tr s = mksess None (durable s ++ changes mi)) /\
      (nth_error tr position <> Some (commit, Executed) -> durable (play tr s) = durable s).
Proof.
  intros E b context cs level body bs He Hc Hok Hd Hl. unfold ThmTx.unit_of_work, readme_unit in *.
  destruct (C120_only_its_own_message E b _ bs He Hok Hd Hl) as (fs & ids & out & Hbs & _ & Hp & _).
  assert (Tc : Forall (typed_call word32) cs) by (cbn [typed_prog] in Hok; exact (typed_calls_then _ _ _ (proj1 (proj2 Hok)))).
  inversion Hp as [| | |? ? ? open fso fs1 ids1 out1 gc fs2 ids2 ? Ho H0 H1 Hgc H2]; subst fs. cbn [opening closing] in Ho. injection Ho as <-.
  inversion H0 as [|o mo ? ? Hor Hnil]; subst. inversion Hnil; subst. clear H0 Hnil. inversion H2; subst.
  destruct (calls_then_frames _ _ _ _ _ _ H1) as (prepared & ft & -> & Fc & Ht).
  inversion Ht as [| | |? ? ? open' fs0 inner idsi outi g fsn idsn ? Ho' Hf0 Hb Hg Hn]; subst. cbn [opening closing] in *. destruct (tx_opening level) as [l|] eqn:Hlv; [|discriminate]. injection Ho' as <-.
  inversion Hn; subst. destruct (prepares_read _ _ _ Fc Hc Tc) as (mp & P1 & P2 & P3).
  exists l, o, prepared, fs0, inner, g, gc, mp, idsi, outi. split.
  { f_equal. f_equal. cbn [app]. f_equal. rewrite <- !app_assoc. reflexivity. }
  do 8 (split; [assumption || reflexivity|]). intros p mi tr s Ti Hpl Hpr Hs Hn'. cbn zeta. destruct (ThmTx.opening_shape level l Hlv) as (lv & st & -> & B1 & B2 & _).
  assert (P : pending s = []) by (unfold pending; rewrite Hn'; reflexivity).
  destruct (ThmTx.unit_played p context mp lv st mi tr s P3 B1 B2 Hpl (taken_strict _ _ _ _ _ Hb _ Ti) Hpr Hs) as [(C1 & C0 & C2 & _)|(o' & C1 & C2 & C3)].
  - split; [|congruence]. intros _. split; [exact C0|]. rewrite C2, P. reflexivity.
  - split; [congruence|]. intros _. destruct C3 as [[(q & un & _ & ->) _]| ->]; [|reflexivity]. cbn [durable]. rewrite P, app_nil_r. reflexivity.
Qed.

(* ---- the hypotheses can be met ---- *)

(* By ThmTypedServe.wrong_unit, which is a unit of work. *)
Example wrong_unit_is_work : wrong_unit = ThmTx.unit_of_work 0 [CPrepare 1 (s2b "SELECT 1")] 0 (PCall 0 (CDelete (s2b "u") (Some (EVariable long_name))) (Ret None [])).
Proof. reflexivity. Qed.
Example wrong_unit_work_meets : Forall ThmTx.prepares [CPrepare 1 (s2b "SELECT 1")] /\ Forall SpecSession.plain [MDelete (s2b "u") (Some 2) None] /\
  changes [MDelete (s2b "u") (Some 2) None] = [MDelete (s2b "u") (Some 2) None] /\
  ThmTx.unit_messages 0 [MPrepare 1 (s2b "SELECT 1")] [s2b "START TRANSACTION"] [MDelete (s2b "u") (Some 2) None] =
    [MExpectOpen 0 [CNoError (s2b "1")]; MPrepare 1 (s2b "SELECT 1"); statement (s2b "START TRANSACTION"); MDelete (s2b "u") (Some 2) None; commit; MExpectClose].
Proof. split; [repeat constructor|]. split; [repeat constructor; left; vm_compute; reflexivity|]. split; vm_compute; reflexivity. Qed.

Print Assumptions C46_frames_whatever_the_values_partial.
Print Assumptions C84_units_whatever_the_values.
Print Assumptions C114_units_apart_whatever_the_values.
Print Assumptions C114_skipped_whatever_the_values.
Print Assumptions C63_all_or_nothing_whatever_the_values_partial.
Print Assumptions C114_pooled_whatever_the_values.
Print Assumptions C62_server_reads_frames_whatever_the_values.
