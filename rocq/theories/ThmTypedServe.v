(* Send and the server (C27, C47) when arguments may also be values that are encoded wrongly. *)
From Coq Require Import String List NArith ZArith Arith Bool Lia ZifyN ZifyNat ZifyBool.
From Coq Require Import List.
From Verif Require Import Base GoSlice SpecWire SpecMsg WireProofs Text Values MsgModel Builder
  SpecValue SpecProg SpecUnit SpecTyped SpecServer Conn SpecReply ThmValues ThmBuilder ThmDefects ThmTyped ThmTypedShape ThmConn ThmServer ThmRetry.
From Verif Require Import ConnProofs ShapeProofs ReplyProofs.
Import ListNotations.
Open Scope N_scope.
Open Scope list_scope.

(* ---- C27 ---- *)

(* C27: whatever the arguments, a unit that a builder delivered never makes Send panic, whatever the server says, and
   gets at most one response per frame, exactly one if there is no error. *)
Theorem C27_units_whatever_the_values : forall (E : Env) b pr bs deadline c,
  empty b -> typed_prog word32 pr -> delivers b pr bs -> nlen bs < 2 ^ 32 -> can_write c ->
  exists fs ids out rs e c', bs = concat (map frame fs) /\ prog_frames word32 pr fs ids out /\ conn_send word32 deadline bs c = Ok ((rs, e), c') /\
    (List.length rs <= List.length fs)%nat /\ (e = None -> List.length rs = List.length fs).
Proof.
  intros E b pr bs d c He Hok Hd Hl Hw.
  destruct (C120_only_its_own_message E b pr bs He Hok Hd Hl) as (fs & ids & out & F1 & D1 & Hp & _).
  destruct (framed_frame bs fs (dframes_framed bs fs D1)) as [_ F3].
  destruct (send_spec word32 d fs c F3 Hw) as (c' & A & _). cbn zeta in A.
  pose proof (areads_length word32 (ended (rd c)) (map fst fs) (unread c)) as [L1 L2]. rewrite map_length in *.
  destruct (areads word32 (map fst fs) (ended (rd c)) (unread c)) as [[rs e] q]. cbn [fst snd] in *.
  exists fs, ids, out, rs, e, c'. rewrite F1. auto.
Qed.

(* ---- C47 ---- *)

Lemma taken_read f m m' : reads f m -> taken_for f m' -> m' = m.
Proof. unfold reads, taken_for, unreadable. intros H [H'|[H' _]]; unfold reads in *; congruence. Qed.
Lemma taken_ordinary f m : fst f <> 24 -> fst f <> 25 -> taken_for f m -> ordinary m.
Proof.
  intros H1 H2 [H|[_ H]]; destruct m; cbn [ordinary]; try exact Logic.I; try (apply H1; exact H); try (apply H2; exact H).
  - apply H1. exact (dmsg_type _ _ _ _ H eq_refl).
  - apply H2. exact (dmsg_type _ _ _ _ H eq_refl).
Qed.
Lemma taken_reads : forall fs ms, Forall2 reads fs ms -> forall ms', Forall2 taken_for fs ms' -> ms' = ms.
Proof. intros fs ms H. induction H as [|f m fs ms Hf H IH]; intros ms' H'; inversion H'; subst; [reflexivity|]. f_equal; [eapply taken_read; eassumption|auto]. Qed.
Lemma taken_call w c f m : call_frame w c f -> taken_for f m -> ordinary m.
Proof. intros [Hc _]. destruct (call_type_plain c). apply taken_ordinary; congruence. Qed.
Lemma taken_calls w : forall cs fs, Forall2 (call_frame w) cs fs -> forall ms, Forall2 taken_for fs ms -> Forall ordinary ms.
Proof. intros cs fs H. induction H as [|c f cs fs Hc H IH]; intros ms Hm; inversion Hm; subst; constructor; [eapply taken_call; eassumption|auto]. Qed.
Lemma strict_ordinary : forall ms, Forall ordinary ms -> strict ms.
Proof. intros ms H. induction H; constructor; assumption. Qed.

Lemma taken_strict : forall w pr fs ids out, prog_frames w pr fs ids out -> forall ms, Forall2 taken_for fs ms -> strict ms.
Proof.
  intros w pr fs ids out H.
  induction H as [|c next f fs ids out Hc H IH|name cols row next id f g fs ids out [Hr _] Hg H IH|k body next open fs0 fs1 ids1 out1 g fs2 ids2 out Ho H0 H1 IH1 Hg H2 IH2]; intros ms Hm.
  - inversion Hm; subst. constructor.
  - inversion Hm; subst. constructor; [eapply taken_call; eassumption|auto].
  - inversion Hm as [|? m ? ms' T1 Hm']; subst. inversion Hm' as [|? m' ? ms'' T2 Hm'']; subst. constructor; [apply (taken_ordinary f); [rewrite Hr; discriminate..|exact T1]|].
    rewrite (taken_read _ _ _ Hg T2). constructor; [exact Logic.I|auto].
  - apply Forall2_app_inv_l in Hm as (m0 & m' & T0 & Hm & ->). apply Forall2_app_inv_l in Hm as (m1 & m2 & T1 & Hm & ->). cbn [app] in Hm. inversion Hm as [|? mg ? m3 Tg T2]; subst.
    rewrite (taken_reads _ _ H0 _ T0), (taken_read _ _ _ Hg Tg). destruct k as [level|ctx]; cbn [opening closing] in *.
    + destruct (tx_opening level) as [l|]; [|discriminate]. injection Ho as <-. apply strict_app; [apply strict_statements|]. apply strict_app; [auto|]. constructor; [exact Logic.I|auto].
    + injection Ho as <-. cbn [app]. apply St_block; auto.
Qed.

Lemma calls_then_frames w : forall cs pr fs ids out, prog_frames w (calls_then cs pr) fs ids out ->
  exists fs1 fs2, fs = fs1 ++ fs2 /\ Forall2 (call_frame w) cs fs1 /\ prog_frames w pr fs2 ids out.
Proof.
  induction cs as [|c cs IH]; intros pr fs ids out H; cbn [calls_then] in H; [exists [], fs; auto|].
  inversion H as [|? ? f fs' ? ? Hc Hn| |]; subst. destruct (IH _ _ _ _ Hn) as (a & b & -> & F & P). exists (f :: a), b. split; [reflexivity|]. split; [constructor; assumption|exact P].
Qed.

(* C47: whatever the arguments, if the server executes the COMMIT of the transaction in the expectation block, it has
   executed all that comes before it, whatever it takes the frames for that it cannot read. *)
Theorem C47_commit_whatever_the_values : forall (E : Env) b context cs level body next1 next2 bs, empty b ->
  typed_prog word32 (readme_unit context cs level body next1 next2) -> delivers b (readme_unit context cs level body next1 next2) bs -> nlen bs < 2 ^ 32 ->
  exists opening o prepared fs0 inner ids out g after,
    let before := o :: prepared ++ fs0 ++ inner in
    bs = concat (map frame (before ++ g :: after)) /\
    reads o (MExpectOpen context [CNoError (s2b "1")]) /\ Forall2 (call_frame word32) cs prepared /\
    tx_opening level = Some opening /\ Forall2 reads fs0 (map statement opening) /\ prog_frames word32 body inner ids out /\ reads g commit /\
    forall propagates ms tr, propagates = true \/ Forall (fun f => fst f <> 24 /\ fst f <> 25) inner ->
      Forall2 taken_for (before ++ g :: after) ms -> serve propagates [] ms tr ->
      nth_error tr (List.length before) = Some (commit, Executed) -> Forall executed (firstn (List.length before) tr).
Proof.
  intros E b context cs level body next1 next2 bs He Hok Hd Hl. unfold readme_unit in *.
  destruct (C120_only_its_own_message E b _ bs He Hok Hd Hl) as (fs & ids & out & Hbs & _ & Hp & _).
  inversion Hp as [| | |? ? ? open fso fs1 ids1 out1 gc fs2 ids2 ? Ho H0 H1 Hgc H2]; subst fs. cbn [opening closing] in Ho. injection Ho as <-.
  inversion H0 as [|o mo ? ? Hor Hnil]; subst. inversion Hnil; subst. clear H0 Hnil.
  destruct (calls_then_frames _ _ _ _ _ _ H1) as (prepared & ft & -> & Fc & Ht).
  inversion Ht as [| | |? ? ? open' fs0 inner idsi outi g fsn idsn ? Ho' Hf0 Hb Hg Hn]; subst. cbn [opening closing] in *. destruct (tx_opening level) as [l|] eqn:Hlv; [|discriminate]. injection Ho' as <-.
  exists l, o, prepared, fs0, inner, idsi, outi, g, (fsn ++ [gc] ++ fs2). cbn zeta. split.
  { f_equal. f_equal. cbn [app]. f_equal. rewrite <- !app_assoc. reflexivity. }
  do 4 (split; [assumption || reflexivity|]). split; [exact Hb|]. split; [exact Hg|].
  intros propagates ms tr Cond T S N. cbn [app] in T. inversion T as [|? mo ? ms' To T']; subst ms. clear T.
  assert (T : Forall2 taken_for ((prepared ++ fs0 ++ inner) ++ g :: fsn ++ [gc] ++ fs2) ms') by exact T'. clear T'.
  apply Forall2_app_inv_l in T as (body1 & rest1 & Tb & Tr & ->). inversion Tr as [|? mg ? after Tg Ta]; subst rest1. clear Tr.
  rewrite (taken_read _ _ _ Hor To) in S. rewrite (taken_read _ _ _ Hg Tg) in S.
  assert (Lb : List.length (prepared ++ fs0 ++ inner) = List.length body1) by (clear - Tb; induction Tb; cbn; congruence).
  assert (Gen : forall f st rest tr, serve propagates (mkblock true f :: st) (body1 ++ rest) tr ->
    exists tr1 tr2 f', tr = tr1 ++ tr2 /\ map fst tr1 = body1 /\ serve propagates (mkblock true f' :: st) rest tr2 /\ (f' = false -> f = false /\ Forall executed tr1)).
  { apply Forall2_app_inv_l in Tb as (mp & m' & Tp & Tb & ->). apply Forall2_app_inv_l in Tb as (m0 & mi & T0 & Ti & ->).
    pose proof (taken_calls _ _ _ Fc _ Tp) as Op. rewrite (taken_reads _ _ Hf0 _ T0). destruct Cond as [->|Fi]; [apply serve_strict|apply serve_ordinary; rewrite !Forall_app; split; [exact Op|split]].
    - apply strict_app; [exact (strict_ordinary _ Op)|]. apply strict_app; [apply strict_statements|]. exact (taken_strict _ _ _ _ _ Hb _ Ti).
    - clear. induction l; constructor; [exact Logic.I|assumption].
    - clear - Fi Ti. induction Ti as [|f m fs ms Hf T IH]; [constructor|]. inversion_clear Fi as [|? ? [A B] C]. constructor; [exact (taken_ordinary _ _ A B Hf)|auto]. }
  cbn [List.length] in N |- *. rewrite Lb in N |- *.
  inversion S as [|? ? ? tr' Od R H'|? ? ? tr' Od R H'|? ? ? tr' Od R H'|? ? ? ? tr' R H'|? ? ? ? tr' R H'|? ? ? ? tr' R H'|? ? ? tr' R H'|? ? ? tr' R H'|]; subst; try destruct Od; try discriminate R;
    replace (opened context [no_error_1] []) with true in H' by (unfold opened; rewrite orb_comm; reflexivity);
    destruct (Gen _ _ _ _ H') as (t1 & t2 & f' & -> & M & S2 & F); assert (L1 : List.length t1 = List.length body1) by (rewrite <- M; symmetry; apply map_length);
    cbn [List.length nth_error firstn] in N |- *; rewrite <- L1 in N |- *; rewrite nth_error_app2, PeanoNat.Nat.sub_diag in N by lia; rewrite firstn_app, PeanoNat.Nat.sub_diag, firstn_all, firstn_O, app_nil_r;
    destruct t2 as [|[m o'] t2]; try discriminate N; cbn in N; injection N as -> ->.
  + assert (f' = false) as Zf by (inversion S2; subst; try (cbn in *; congruence); try (match goal with H : rejecting _ = false |- _ => exact H end)). destruct (F Zf) as [_ A]. constructor; [reflexivity|exact A].
  + assert (f' = false) as Zf by (inversion S2; subst; try (cbn in *; congruence); try (match goal with H : rejecting _ = false |- _ => exact H end)). destruct (F Zf) as [K _]. discriminate K.
Qed.

Lemma nth_in_firstn {A} : forall (l : list A) i k x, nth_error l i = Some x -> (i < k)%nat -> In x (firstn k l).
Proof.
  induction l as [|y l IH]; intros i k x H Hk; [destruct i; discriminate|]. destruct k as [|k]; [lia|]. destruct i as [|i]; cbn in H |- *; [left; congruence|].
  right. apply (IH i); [exact H|lia].
Qed.

(* C47: in particular, if something before the COMMIT is encoded so wrongly that the server cannot read it, and a server
   does not execute what it cannot read, the COMMIT is not executed. *)
Theorem C47_unreadable_is_not_committed : forall (E : Env) b context cs level body next1 next2 bs, empty b ->
  typed_prog word32 (readme_unit context cs level body next1 next2) -> delivers b (readme_unit context cs level body next1 next2) bs -> nlen bs < 2 ^ 32 ->
  exists before g after, bs = concat (map frame (before ++ g :: after)) /\ reads g commit /\
    forall ms tr i f, nth_error before i = Some f -> unreadable f ->
      Forall2 taken_for (before ++ g :: after) ms -> serve true [] ms tr ->
      (forall t, nth_error tr i = Some t -> snd t <> Executed) ->
      nth_error tr (List.length before) <> Some (commit, Executed).
Proof.
  intros E b context cs level body next1 next2 bs He Hok Hd Hl.
  destruct (C47_commit_whatever_the_values E b context cs level body next1 next2 bs He Hok Hd Hl) as (opening & o & prepared & fs0 & inner & ids & out & g & after & Hbs & _ & _ & _ & _ & _ & Hg & H).
  exists (o :: prepared ++ fs0 ++ inner), g, after. split; [exact Hbs|]. split; [exact Hg|]. intros ms tr i f Hi _ T S Hu Hc.
  pose proof (H true ms tr (or_introl eq_refl) T S Hc) as A.
  assert (Li : (i < List.length (o :: prepared ++ fs0 ++ inner))%nat) by (apply nth_error_Some; congruence).
  assert (Lt : (List.length (o :: prepared ++ fs0 ++ inner) < List.length tr)%nat) by (apply nth_error_Some; congruence).
  destruct (nth_error tr i) as [t|] eqn:Ht; [|apply nth_error_None in Ht; lia].
  apply (Hu t eq_refl). rewrite Forall_forall in A. exact (A t (nth_in_firstn _ _ _ _ Ht Li)).
Qed.

(* ---- the hypotheses can be met ---- *)

(* The unit of the README, with a criteria in its transaction that cannot be read. *)
Definition wrong_unit : prog :=
  readme_unit 0 [CPrepare 1 (s2b "SELECT 1")] 0 (PCall 0 (CDelete (s2b "u") (Some (EVariable long_name))) (Ret None [])) (fun _ => Ret None []) (fun _ => Ret None []).
Example wrong_unit_meets : typed_prog (@word32 plain) wrong_unit /\ ~ prog_ok (@word32 plain) wrong_unit.
Proof.
  split.
  - unfold wrong_unit, readme_unit. change (@word32 plain) with false. pose proof long_name_string. cbn [calls_then typed_prog typed_call]. ok; try assumption.
  - unfold wrong_unit, readme_unit. cbn [calls_then prog_ok call_ok opt]. intros (_ & ((_ & (_ & ((_ & [_ H]) & _) & _)) & _)).
    cbn in H. revert H. vm_compute. intros H. exact (H eq_refl).
Qed.
(* It is sent, and what a server may do with it: the delete fails, so the COMMIT is skipped. *)
Example wrong_unit_sent : exists bs fs o p s d c e, @delivers plain (new_pipe 0) wrong_unit bs /\ nlen bs < 2 ^ 32 /\ dframes bs = Some fs /\ fs = [o; p; s; d; c; e] /\
  unreadable d /\ Forall2 taken_for fs [MExpectOpen 0 [CNoError (s2b "1")]; MPrepare 1 (s2b "SELECT 1"); statement (s2b "START TRANSACTION"); MDelete (s2b "u") (Some 2) None; commit; MExpectClose] /\
  serve true [] [MExpectOpen 0 [CNoError (s2b "1")]; MPrepare 1 (s2b "SELECT 1"); statement (s2b "START TRANSACTION"); MDelete (s2b "u") (Some 2) None; commit; MExpectClose]
    [(MExpectOpen 0 [CNoError (s2b "1")], Executed); (MPrepare 1 (s2b "SELECT 1"), Executed); (statement (s2b "START TRANSACTION"), Executed); (MDelete (s2b "u") (Some 2) None, SpecServer.Failed); (commit, Skipped); (MExpectClose, SpecServer.Failed)].
Proof.
  do 8 eexists. split; [eexists _, _; split; vm_compute; reflexivity|]. split; [vm_compute; reflexivity|]. split; [vm_compute; reflexivity|]. split; [reflexivity|].
  split; [vm_compute; reflexivity|]. split.
  - do 3 (constructor; [left; vm_compute; reflexivity|]). constructor; [right; split; [vm_compute; reflexivity|exact Logic.I]|]. do 2 (constructor; [left; vm_compute; reflexivity|]). constructor.
  - apply S_open; [reflexivity|]. apply S_exec; [exact Logic.I|reflexivity|]. apply S_exec; [exact Logic.I|reflexivity|]. apply S_fail; [exact Logic.I|reflexivity|].
    apply S_skip; [exact Logic.I|reflexivity|]. apply S_close_failed; [reflexivity|]. apply S_done.
Qed.

Print Assumptions C27_units_whatever_the_values.
Print Assumptions C47_commit_whatever_the_values.
Print Assumptions C47_unreadable_is_not_committed.
