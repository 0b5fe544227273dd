(* Using one XPipe again and again (C66), what a unit leaves behind (C64), and prepared statements (C71, C72), when arguments may also be
   values that are encoded wrongly. *)
From Coq Require Import String List NArith ZArith Arith Bool Lia ZifyN ZifyNat ZifyBool.
From Coq Require Import List.
From Verif Require Import Base GoSlice SliceProofs SpecWire SpecMsg WireProofs Text Values MsgModel Builder
  SpecValue SpecProg SpecUnit SpecTyped History SpecHistory SpecReply SpecServer SpecSession SpecPrepared ThmValues BuilderProofs UnitProofs ShapeProofs TypedFrameProofs
  ThmHistory ThmServer ThmPrepared ThmDefects ThmTyped ThmTypedServe ThmTypedWork ThmTypedReplies.
From Verif Require ThmBuilder ThmTx ThmRetry.
Import ListNotations.
Open Scope N_scope.
Open Scope list_scope.
Local Notation length := List.length.

(* ---- C66 ---- *)

(* The arguments of all calls have the types Go wants. *)
Definition typed_op (w32 : bool) (o : op) : Prop := match o with Build pr => typed_prog w32 pr | _ => True end.

(* bs is the frames of the programs, one after the other, and no two of their InsertRow calls use the same variable (compare SpecHistory.holds). *)
Definition holds_frames (w32 : bool) (bs : bytes) (prs : list prog) : Prop :=
  exists units : list (list (N * bytes) * list bytes),
    Forall2 (fun pr u => exists out, prog_frames w32 pr (fst u) (snd u) out) prs units /\
    dframes bs = Some (concat (map fst units)) /\ NoDup (concat (map snd units)).

Definition holding_frames (w32 : bool) (b : builder) (prs : list prog) : Prop :=
  disabled b = false /\
  (berr b = None -> nlen (data (buf b)) < 2 ^ 32 ->
   exists units : list (list (N * bytes) * list bytes),
     Forall2 (fun pr u => exists out, prog_frames w32 pr (fst u) (snd u) out) prs units /\
     framed (data (buf b)) (concat (map fst units)) /\ ids_between 0 (len (buf b)) (concat (map snd units))).

Lemma empty_holding_frames : forall w b, empty b -> holding_frames w b [].
Proof.
  intros w b (Hb & He & Hd). split; [exact Hd|]. intros _ _. exists []. cbn. rewrite Hb. split; [constructor|]. split; [apply framed_nil|apply ids_nil].
Qed.

Lemma build_holding_frames : forall (E : Env) pr b b' prs, typed_prog word32 pr -> holding_frames word32 b prs -> do_op (Build pr) b = (b', Fine) -> holding_frames word32 b' (prs ++ [pr]).
Proof.
  intros E pr b b' prs Hp (Hd & Hh) H. destruct (do_op_built E pr b b' Hd H) as (out & Hr).
  destruct (frame_step pr b [] _ _ Hp (Forall_nil _) Hd Hr) as (_ & b2 & Hb2 & Sd & Se & Sg). assert (b2 = b') by congruence. subst b2.
  split; [exact Sd|]. intros He Hl. assert (Heb : berr b = None).
  { destruct (berr b) eqn:Hx; [|reflexivity]. rewrite Se in He by congruence. congruence. }
  destruct (Sg Heb He) as [Hle Hg]. destruct (Hg Hl) as (bs & Hbs & ms & ids & Hs & Hm & Hi).
  assert (Hlb : nlen (data (buf b)) < 2 ^ 32) by (unfold nlen, len in *; lia).
  destruct (Hh Heb Hlb) as (units & F & S & I). exists (units ++ [(ms, ids)]). split; [|split].
  - apply Forall2_app; [exact F|]. constructor; [|constructor]. exists out. exact Hm.
  - rewrite map_app, concat_app. cbn [map fst concat]. rewrite app_nil_r, Hbs. apply framed_app; assumption.
  - rewrite map_app, concat_app. cbn [map snd concat]. rewrite app_nil_r. apply (ids_app 0 (len (buf b))); [lia|exact Hle|exact I|exact Hi].
Qed.

Lemma history_holding_frames : forall (E : Env) ops last b prs, Forall (typed_op word32) ops -> holding_frames word32 b prs -> ~ In Panicked (history ops b) ->
  exists b', holding_frames word32 b' (SpecHistory.pending prs ops) /\ history (ops ++ last) b = history ops b ++ history last b'.
Proof.
  intros E. induction ops as [|o ops IH]; intros last b prs Hok Hh Hn; [exists b; auto|]. inversion Hok as [|? ? Ho Hops]; subst. cbn [history app] in *.
  destruct (do_op o b) as [b' s] eqn:Hdo. assert (Hs : s <> Panicked) by (intros ->; apply Hn; left; reflexivity).
  assert (Hn' : ~ In Panicked (history ops b')) by (intros Hin; apply Hn; right; exact Hin).
  assert (Hk : holding_frames word32 b' (match o with Build pr => prs ++ [pr] | Send => prs | Reset => [] end)).
  { destruct o as [pr| |].
    - assert (s = Fine) as -> by (cbn [do_op] in Hdo; destruct (run_to pr [b]); congruence). exact (build_holding_frames E pr b b' prs Ho Hh Hdo).
    - cbn [do_op] in Hdo. assert (b' = b) as -> by (destruct (send b) as [[?|?]|]; congruence). exact Hh.
    - cbn [do_op] in Hdo. destruct (reset b) as [b2|] eqn:Hr; [|congruence]. assert (b' = b2) as -> by congruence. apply empty_holding_frames. exact (reset_empty b b2 Hr). }
  destruct (IH last b' _ Hops Hk Hn') as (b2 & H2 & Hh2). exists b2. split; [|rewrite Hh2; reflexivity]. destruct o; exact H2.
Qed.

Lemma holding_frames_sent : forall (E : Env) b prs bs, holding_frames word32 b prs -> history [Send] b = [Sent bs] -> nlen bs < 2 ^ 32 -> holds_frames word32 bs prs.
Proof.
  intros E b prs bs (Hd & Hh) H Hl. cbn [history do_op] in H. unfold send in H. rewrite Hd in H. destruct (berr b) eqn:He; [discriminate|].
  assert (bs = data (buf b)) by congruence. subst bs. destruct (Hh eq_refl Hl) as (units & F & S & I). exists units. split; [exact F|].
  split; [exact (framed_dframes _ _ S)|exact (ids_nodup _ _ _ I)].
Qed.

Lemma before_last : forall (E : Env) ops b before s, history (ops ++ [Send]) b = before ++ [s] -> before = history ops b.
Proof.
  intros E ops b before s H. destruct (history_app E ops [Send] b) as (b1 & Hh & _). rewrite Hh in H.
  assert (Hone : exists s1, history [Send] b1 = [s1]) by (cbn [history]; destruct (do_op Send b1); eauto).
  destruct Hone as [s1 Hs]. rewrite Hs in H. apply app_inj_tail in H. symmetry. apply H.
Qed.

(* C66: whatever the arguments, Send hands over the frames of what was built since New or the last Reset, in order, however often and
   whenever Send was called before. *)
Theorem C66_send_whatever_the_values : forall (E : Env) n ops before bs, Forall (typed_op word32) ops ->
  history (ops ++ [Send]) (new_pipe n) = before ++ [Sent bs] -> ~ In Panicked before -> nlen bs < 2 ^ 32 ->
  holds_frames word32 bs (SpecHistory.pending [] ops).
Proof.
  intros E n ops before bs Hok H Hn Hl. pose proof (before_last E _ _ _ _ H) as Hb. subst.
  destruct (history_holding_frames E ops [Send] (new_pipe n) [] Hok (empty_holding_frames _ _ (new_empty n)) Hn) as (b' & Hh & He).
  rewrite He in H. apply app_inv_head in H. exact (holding_frames_sent E b' _ bs Hh H Hl).
Qed.

(* C66: and after a Reset that did not panic nothing of what went before matters, not even recovered panics. *)
Theorem C66_reset_whatever_the_values : forall (E : Env) n old ops before between bs, Forall (typed_op word32) ops ->
  history (old ++ Reset :: ops ++ [Send]) (new_pipe n) = before ++ Fine :: between ++ [Sent bs] -> length before = length old ->
  ~ In Panicked between -> nlen bs < 2 ^ 32 -> holds_frames word32 bs (SpecHistory.pending [] ops).
Proof.
  intros E n old ops before between bs Hok H Hlen Hn Hl. destruct (history_app E old (Reset :: ops ++ [Send]) (new_pipe n)) as (b1 & Hh & _).
  rewrite Hh in H.
  assert (Hsplit : forall (A : Type) (a c b d : list A), length a = length c -> a ++ b = c ++ d -> b = d).
  { intros A. induction a as [|x a IH]; intros [|y c] b d Hx Hy; try discriminate; [exact Hy|]. cbn in *. injection Hx as Hx. injection Hy as _ Hy. eauto. }
  apply Hsplit in H; [|rewrite history_length; symmetry; exact Hlen]. cbn [history] in H. destruct (do_op Reset b1) as [b2 s] eqn:Hr.
  cbn [do_op] in Hr. destruct (reset b1) as [b3|] eqn:Hr3; [|assert (s = Panicked) by congruence; congruence].
  assert (b3 = b2) by congruence. subst b3. injection H as _ H. pose proof (before_last E _ _ _ _ H) as Hb. subst.
  destruct (history_holding_frames E ops [Send] b2 [] Hok (empty_holding_frames _ _ (reset_empty b1 b2 Hr3)) Hn) as (b' & Hh' & He).
  rewrite He in H. apply app_inv_head in H. exact (holding_frames_sent E b' _ bs Hh' H Hl).
Qed.

(* ---- C64 ---- *)

(* C64: whatever the arguments, and whatever the server takes the frames for that it cannot read: after a unit whose COMMIT was skipped every
   unit that asks for an isolation level fails on that connection and leaves things as they are. *)
Theorem C64_connection_is_spoilt_whatever_the_values_refuted : forall (E : Env) b context cs level body bs, empty b -> Forall ThmTx.prepares cs ->
  typed_prog word32 (ThmTx.unit_of_work context cs level body) -> delivers b (ThmTx.unit_of_work context cs level body) bs -> nlen bs < 2 ^ 32 -> In level [1; 2; 3; 4] ->
  exists fs mp opening inner, bs = concat (map frame fs) /\ work_frames word32 context cs level body fs mp opening inner /\
    forall mi, Forall2 taken_for inner mi -> Forall2 taken_for fs (ThmTx.unit_messages context mp opening mi) /\
    forall propagates tr s rest, Forall SpecSession.plain mi -> propagates = true \/ Forall ordinary mi ->
      serve propagates [] (ThmTx.unit_messages context mp opening mi) tr -> lawful s tr -> in_progress s = Some rest ->
      nth_error tr (1 + length mp + length opening + length mi) <> Some (commit, Executed) /\ play tr s = s.
Proof.
  intros E b context cs level body bs He Hc Hok Hd Hl Hlev. destruct (work_delivered E b context cs level body bs He Hc Hok Hd Hl) as (fs & mp & l & inner & A1 & _ & A3 & A4).
  exists fs, mp, l, inner. split; [exact A1|]. split; [exact A3|]. intros mi T. destruct (work_taken _ _ _ _ _ _ _ _ _ A3 mi T) as [T1 T2]. split; [exact T1|].
  intros p tr s rest Hp Hpr Hs La Hn. destruct (ThmTx.opening_shape level l (w_opening _ _ _ _ _ _ _ _ _ A3)) as (lv & st & -> & B1 & B2 & B3). apply B3 in Hlev.
  destruct (ThmTx.unit_played p context mp lv st mi tr s A4 B1 B2 Hp T2 Hpr Hs) as [(_ & _ & _ & C)|(o & C1 & C2 & [[_ C]|C])].
  - specialize (C Hlev La). congruence.
  - specialize (C Hlev La). congruence.
  - split; [congruence|exact C].
Qed.

(* C64: and a unit of which nothing fails leaves no transaction in progress, so the next one starts afresh. *)
Theorem C64_success_whatever_the_values_partial : forall (E : Env) b context cs level body bs, empty b -> Forall ThmTx.prepares cs ->
  typed_prog word32 (ThmTx.unit_of_work context cs level body) -> delivers b (ThmTx.unit_of_work context cs level body) bs -> nlen bs < 2 ^ 32 ->
  exists fs mp opening inner, bs = concat (map frame fs) /\ work_frames word32 context cs level body fs mp opening inner /\
    forall mi, Forall2 taken_for inner mi -> Forall2 taken_for fs (ThmTx.unit_messages context mp opening mi) /\
    forall propagates tr s, Forall SpecSession.plain mi -> propagates = true \/ Forall ordinary mi ->
      serve propagates [] (ThmTx.unit_messages context mp opening mi) tr -> Forall (fun t => snd t <> SpecServer.Failed) tr -> in_progress s = None ->
      Forall executed tr /\ play tr s = mksess None (durable s ++ changes mi).
Proof.
  intros E b context cs level body bs He Hc Hok Hd Hl. destruct (work_delivered E b context cs level body bs He Hc Hok Hd Hl) as (fs & mp & l & inner & A1 & _ & A3 & A4).
  exists fs, mp, l, inner. split; [exact A1|]. split; [exact A3|]. intros mi T. destruct (work_taken _ _ _ _ _ _ _ _ _ A3 mi T) as [T1 T2]. split; [exact T1|].
  intros p tr s Hp Hpr Hs Hf Hn. destruct (ThmTx.opening_shape level l (w_opening _ _ _ _ _ _ _ _ _ A3)) as (lv & st & -> & B1 & B2 & _).
  pose proof (C47_all_executed_if_nothing_fails p _ _ Hs Hf) as X. split; [exact X|].
  assert (P : pending s = []) by (unfold pending; rewrite Hn; reflexivity).
  destruct (ThmTx.unit_played p context mp lv st mi tr s A4 B1 B2 Hp T2 Hpr Hs) as [(_ & _ & C & _)|(o & C1 & C2 & _)]; [rewrite C, P; reflexivity|].
  apply nth_error_In in C1. rewrite Forall_forall in X. specialize (X _ C1). unfold executed in X. cbn in X. congruence.
Qed.

(* ---- C71 ---- *)

(* C71: whatever the arguments: if the COMMIT of the transaction in the expectation block was executed, every Execute before it ran the text this
   unit prepared last under that number, whatever the server takes the frames for that it cannot read. *)
Theorem C71_committed_units_whatever_the_values : forall (E : Env) b context cs level body next1 next2 bs, empty b ->
  typed_prog word32 (readme_unit context cs level body next1 next2) -> delivers b (readme_unit context cs level body next1 next2) bs -> nlen bs < 2 ^ 32 ->
  exists opening o prepared fs0 inner ids out g after,
    let before := o :: prepared ++ fs0 ++ inner in
    bs = concat (map frame (before ++ g :: after)) /\
    reads o (MExpectOpen context [CNoError (s2b "1")]) /\ Forall2 (call_frame word32) cs prepared /\
    tx_opening level = Some opening /\ Forall2 reads fs0 (map statement opening) /\ prog_frames word32 body inner ids out /\ reads g commit /\
    forall propagates ms tr, propagates = true \/ Forall (fun f => fst f <> 24 /\ fst f <> 25) inner ->
      Forall2 taken_for (before ++ g :: after) ms -> serve propagates [] ms tr -> nth_error tr (length before) = Some (commit, Executed) ->
      forall forgets earlier a id args c text now, firstn (length before) ms = a ++ MExecute id args :: c -> last_prepared a id text ->
        changes_tables forgets (firstn (length a) tr) earlier now -> now id = Some text.
Proof.
  intros E b context cs level body next1 next2 bs He Hok Hd Hl.
  destruct (C47_commit_whatever_the_values E b context cs level body next1 next2 bs He Hok Hd Hl) as (op & o & prepared & fs0 & inner & ids & out & g & after & A1 & A2 & A3 & A4 & A5 & A6 & A7 & Hx).
  exists op, o, prepared, fs0, inner, ids, out, g, after. cbn zeta in *. do 7 (split; [assumption|]). intros p ms tr Hp Ht Hsv Hn f earlier a id args c text now Hb Hlast Htab.
  specialize (Hx p ms tr Hp Ht Hsv Hn). pose proof (serve_msgs _ _ _ _ Hsv) as Hmap. set (k := length (o :: prepared ++ fs0 ++ inner)) in *.
  assert (Hk : (length a <= k)%nat). { apply (f_equal (@length _)) in Hb. rewrite firstn_length, app_length in Hb. pose proof (Nat.le_min_l k (length ms)) as Hm. rewrite Hb in Hm. lia. }
  assert (Ha : map fst (firstn (length a) tr) = a).
  { rewrite <- firstn_map, Hmap. rewrite <- (Nat.min_l (length a) k) by exact Hk. rewrite <- firstn_firstn, Hb, firstn_app, firstn_all, Nat.sub_diag, firstn_O, app_nil_r. reflexivity. }
  apply (prepared_then f (firstn (length a) tr) earlier now id text); [rewrite Ha; exact Hlast|exact Htab|].
  intros x Hin _. rewrite Forall_forall in Hx. apply Hx.
  rewrite <- (firstn_skipn (length a) (firstn k tr)), firstn_firstn, Nat.min_l by exact Hk. apply in_or_app. left. exact Hin.
Qed.

(* C71: in any unit: an Execute the server executed ran the text prepared last under that number, if the Prepare was executed. If failed Prepares
   remove the old statement, it is enough that the Prepare was not skipped. *)
Theorem C71_executes_whatever_the_values_partial : forall (E : Env) b pr bs, empty b -> typed_prog word32 pr -> delivers b pr bs -> nlen bs < 2 ^ 32 ->
  exists fs ids out, bs = concat (map frame fs) /\ dframes bs = Some fs /\ prog_frames word32 pr fs ids out /\
    forall propagates forgets earlier now later ms id args text o tra trb tr2, Forall2 taken_for fs ms ->
      serve propagates [] ms (tra ++ (MPrepare id text, o) :: trb ++ (MExecute id args, Executed) :: tr2) ->
      (forall s, ~ In (MPrepare id s) (map fst trb)) -> ~ In (MDeallocate id) (map fst trb) ->
      changes_tables forgets (tra ++ (MPrepare id text, o) :: trb) earlier now -> changes_table forgets (MExecute id args, Executed) now later ->
      o = Executed \/ o = SpecServer.Failed /\ forgets = true -> now id = Some text.
Proof.
  intros E b pr bs He Hok Hd Hl. destruct (C120_only_its_own_message E b pr bs He Hok Hd Hl) as (fs & ids & out & Hbs & Hdf & Hp & _).
  exists fs, ids, out. do 3 (split; [assumption|]). intros p f earlier now later ms id args text o tra trb tr2 _ _ Hpr Hdd Ht Hex Ho.
  destruct (tables_app _ _ _ _ _ Ht) as (u & _ & H). destruct (tables_cons _ _ _ _ _ H) as (t3 & H3 & H5). pose proof (table_keeps _ id _ _ _ H5 Hpr Hdd) as Hk.
  assert (Hnow : exists s, now id = Some s) by (inversion Hex; subst; [eauto|discriminate]). destruct Hnow as [s0 H4]. destruct Ho as [->|[-> ->]]; inversion H3; subst; try discriminate.
  - rewrite Hk. unfold put. rewrite N.eqb_refl. reflexivity.
  - rewrite Hk in H4. unfold put in H4. rewrite N.eqb_refl in H4. discriminate.
Qed.

(* ---- C72 ---- *)

Lemma deallocates_read w : forall ids fs, Forall2 (call_frame w) (map CDeallocate ids) fs -> Forall (typed_call w) (map CDeallocate ids) -> Forall2 reads fs (map MDeallocate ids).
Proof.
  induction ids as [|id ids IH]; intros fs H T; cbn [map] in *; inversion H as [|? f ? fs' [_ Hc] Hr]; subst; [constructor|]. inversion_clear T as [|? ? T1 T2].
  destruct (Hc T1) as (m & M1 & M2). constructor; [inversion M2; subst; exact M1|exact (IH _ Hr T2)].
Qed.

(* C72: whatever the arguments, a unit that deallocates statements after its expectation block leaves none of them behind, whatever fails or is
   skipped, whatever was prepared before, and whatever the server takes the frames for that it cannot read. *)
Theorem C72_deallocated_whatever_the_values : forall (E : Env) b context body ids bs, empty b ->
  let pr := PBlock 0 (KExpectFailOnError context) body (fun _ => calls_then (map CDeallocate ids) (Ret None [])) in
  typed_prog word32 pr -> delivers b pr bs -> nlen bs < 2 ^ 32 ->
  exists fs, bs = concat (map frame fs) /\ dframes bs = Some fs /\
    forall ms propagates forgets tr earlier now, Forall2 taken_for fs ms -> serve propagates [] ms tr -> changes_tables forgets tr earlier now ->
    forall id, In id ids -> now id = None.
Proof.
  intros E b context body ids bs He pr Hok Hd Hl. destruct (C120_only_its_own_message E b pr bs He Hok Hd Hl) as (fs & vs & out & Hbs & Hdf & Hp & _).
  exists fs. split; [exact Hbs|]. split; [exact Hdf|]. intros ms p f tr earlier now T Hsv Ht id Hin. unfold pr in *. clear Hbs Hdf.
  inversion Hp as [| | |? ? ? open fso fs1 ids1 out1 gc fs2 ids2 ? Ho H0 H1 Hgc H2]; subst fs. cbn [opening closing] in Ho, Hgc. injection Ho as <-.
  destruct (calls_then_frames _ _ _ _ _ _ H2) as (fd & fr & -> & Fc & Hret). inversion Hret; subst. rewrite app_nil_r in T.
  assert (Tc : Forall (typed_call word32) (map CDeallocate ids)).
  { cbn [typed_prog] in Hok. destruct Hok as (_ & _ & Hok). exact (typed_calls_then _ _ _ (Hok [] (Forall_nil _))). }
  pose proof (deallocates_read _ _ _ Fc Tc) as Rd.
  apply Forall2_app_inv_l in T as (m0 & m' & T0 & T & ->). apply Forall2_app_inv_l in T as (m1 & m2 & T1 & T & ->). apply Forall2_app_inv_l in T as (m3 & m4 & T3 & T4 & ->).
  rewrite (taken_reads _ _ H0 _ T0), (taken_reads _ _ Rd _ T4) in Hsv. inversion T3 as [|? mg ? mn Tg Tn]; subst. inversion Tn; subst. rewrite (taken_read _ _ _ Hgc Tg) in Hsv.
  pose proof (taken_strict _ _ _ _ _ H1 _ T1) as Hst.
  assert (Hstrict : strict (MExpectOpen context [no_error_1] :: m1 ++ [MExpectClose])) by (apply (St_block context m1 []); [exact Hst|constructor]).
  assert (Hshape : serve p [] ((MExpectOpen context [no_error_1] :: m1 ++ [MExpectClose]) ++ map MDeallocate ids) tr).
  { cbn [app] in Hsv |- *. rewrite <- app_assoc. exact Hsv. }
  destruct (serve_balanced p _ Hstrict _ _ _ Hshape) as (tr1 & tr2 & st' & -> & _ & Hs2 & L). destruct st' as [|? ?]; [|discriminate].
  destruct (tables_app _ _ _ _ _ Ht) as (u & _ & Hu). exact (deallocated _ _ _ _ _ _ Hs2 Hu id Hin).
Qed.

(* ---- the hypotheses can be met ---- *)

(* A pipe that is used again, with a criteria that cannot be read. *)
Definition wrong_delete : prog := PCall 0 (CDelete (s2b "u") (Some (EVariable long_name))) (Ret None []).
Definition wrong_ops : list op := [Build (add_row 1); Send; Reset; Build (add_row 2); Send; Build wrong_delete].
Example wrong_history_meets : Forall (typed_op (@word32 ThmBuilder.plain)) wrong_ops /\ ~ op_ok (@word32 ThmBuilder.plain) (Build wrong_delete) /\
  exists before bs, @history ThmBuilder.plain (wrong_ops ++ [Send]) (new_pipe 64) = before ++ [Sent bs] /\ ~ In Panicked before /\ nlen bs < 2 ^ 32 /\
    SpecHistory.pending [] wrong_ops = [add_row 2; wrong_delete].
Proof.
  split; [|split].
  - pose proof long_name_string. unfold wrong_ops, add_row, wrong_delete. repeat (apply Forall_cons; [change (@word32 ThmBuilder.plain) with false; cbn [typed_op typed_prog typed_call]; try exact Logic.I; ThmBuilder.ok; try assumption|]). all: apply Forall_nil.
  - unfold wrong_delete. cbn [op_ok prog_ok call_ok opt]. intros ((_ & [_ H]) & _). cbn in H. revert H. vm_compute. intros H. exact (H eq_refl).
  - unfold wrong_ops. cbn [app]. exists (removelast (@history ThmBuilder.plain (wrong_ops ++ [Send]) (new_pipe 64))). eexists. split; [vm_compute; reflexivity|].
    split; [vm_compute; intuition discriminate|]. split; [vm_compute; reflexivity|reflexivity].
Qed.

(* A unit that prepares a statement, sends the unreadable criteria, and deallocates the statement after its block. *)
Definition wrong_tidy : prog :=
  PBlock 0 (KExpectFailOnError 0) (PCall 0 (CPrepare 1 (s2b "SELECT 1")) wrong_delete) (fun _ => calls_then (map CDeallocate [1]) (Ret None [])).
Definition wrong_tidy_trace : list (msg * outcome) :=
  [(MExpectOpen 0 [CNoError (s2b "1")], Executed); (MPrepare 1 (s2b "SELECT 1"), Executed); (MDelete (s2b "u") (Some 2) None, SpecServer.Failed); (MExpectClose, SpecServer.Failed); (MDeallocate 1, Executed)].
Example wrong_tidy_meets : typed_prog (@word32 ThmBuilder.plain) wrong_tidy /\
  exists bs fs, @delivers ThmBuilder.plain (new_pipe 0) wrong_tidy bs /\ nlen bs < 2 ^ 32 /\ dframes bs = Some fs /\ Forall2 taken_for fs (map fst wrong_tidy_trace) /\
    serve true [] (map fst wrong_tidy_trace) wrong_tidy_trace.
Proof.
  split.
  - pose proof long_name_string. unfold wrong_tidy, wrong_delete. change (@word32 ThmBuilder.plain) with false. cbn [map calls_then typed_prog typed_call]. ThmBuilder.ok; try assumption.
  - do 2 eexists. split; [eexists _, _; split; vm_compute; reflexivity|]. split; [vm_compute; reflexivity|]. split; [vm_compute; reflexivity|]. split.
    + cbn [map fst wrong_tidy_trace]. do 2 (constructor; [left; vm_compute; reflexivity|]). constructor; [right; split; [vm_compute; reflexivity|exact Logic.I]|]. do 2 (constructor; [left; vm_compute; reflexivity|]). constructor.
    + cbn [map fst wrong_tidy_trace]. apply S_open; [reflexivity|]. apply S_exec; [exact Logic.I|reflexivity|]. apply S_fail; [exact Logic.I|reflexivity|]. apply S_close_failed; [reflexivity|]. apply S_exec; [exact Logic.I|reflexivity|]. apply S_done.
Qed.

(* The unit of ThmTypedServe.wrong_unit meets those of C64 and C71 (ThmTypedServe.wrong_unit_sent, ThmTypedWork.wrong_unit_work_meets). If nothing of it fails: *)
Example wrong_unit_succeeds : serve true [] (ThmTx.unit_messages 0 [MPrepare 1 (s2b "SELECT 1")] [s2b "START TRANSACTION"] [MDelete (s2b "u") (Some 2) None])
    (map (fun m => (m, Executed)) (ThmTx.unit_messages 0 [MPrepare 1 (s2b "SELECT 1")] [s2b "START TRANSACTION"] [MDelete (s2b "u") (Some 2) None])).
Proof.
  unfold ThmTx.unit_messages. cbn [map app]. apply S_open; [reflexivity|]. do 4 (apply S_exec; [exact Logic.I|reflexivity|]). apply S_close; [reflexivity|]. apply S_done.
Qed.

Print Assumptions C66_send_whatever_the_values.
Print Assumptions C66_reset_whatever_the_values.
Print Assumptions C64_connection_is_spoilt_whatever_the_values_refuted.
Print Assumptions C64_success_whatever_the_values_partial.
Print Assumptions C71_committed_units_whatever_the_values.
Print Assumptions C71_executes_whatever_the_values_partial.
Print Assumptions C72_deallocated_whatever_the_values.
