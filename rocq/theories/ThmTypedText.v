(* C20 and C102: the text or the id of a statement and its arguments, when some of these are encoded wrongly. *)
From Coq Require Import String List NArith ZArith Arith Bool Lia ZifyN ZifyNat ZifyBool.
From Coq Require Import List.
From Verif Require Import Base GoSlice SliceProofs SpecWire SpecMsg WireProofs Pure Text TextProofs Values AnyModel ExprModel MsgModel Builder SpecValue SpecProg SpecUnit
  AnyProofs StringProofs HeaderProofs HeadProofs ValueProofs MsgProofs BuilderProofs UnitProofs SpecTyped TypedProofs TypedRunProofs TypedFrameProofs ThmTypedHeads.
From Verif Require ThmValues ThmBuilder ThmDefects ThmTyped.
Import ListNotations.
Open Scope N_scope.
Open Scope list_scope.

(* An argument is sent as some scalar, and as the right one unless it is encoded wrongly. *)
Definition sent_as (w32 : bool) (v : gvalue) (x : bytes) : Prop := exists s, dany x = Some s /\ (no_known_defect w32 v -> any_denotes v s).

Definition adds (tag : N) (p q : slice) (D : scalar -> Prop) : Prop := exists bs x s, WireProofs.reads bs [(tag, WLen x)] /\ dany x = Some s /\ D s /\ data q = data p ++ bs.
Lemma outcome_any_adds : forall (E : Env) tag D Q K S W (f : enc) p q, outcome dany word32 tag D Q K S W f -> f E p = Ok (q, None) -> nlen (data q) < 2 ^ 32 -> adds tag p q D.
Proof.
  intros E tag D Q K S W f p q [(s & bs & x & Ds & R & X & _ & G)|[[[B _] _]|[B _]]] H Hl.
  - destruct (G E eq_refl p) as [sp G1]. rewrite G1 in H. apply ok_fst in H. subst q. exists bs, x, s. auto.
  - destruct (B E eq_refl _ _ H).
  - destruct (B E eq_refl _ _ H) as [_ Big]. lia.
Qed.
Lemma switch_adds : forall (E : Env) v tag p q, 0 < tag < 16 -> well_formed word32 v -> type_switch v p tag = Ok (q, None) -> nlen (data q) < 2 ^ 32 -> adds tag p q (fun _ => True).
Proof.
  assert (A : forall (E : Env) v tag p q, 0 < tag < 16 -> well_formed word32 v -> no_known_defect word32 v -> type_switch v p tag = Ok (q, None) -> nlen (data q) < 2 ^ 32 -> adds tag p q (fun _ => True)).
  { intros E v tag p q Ht Hw Hd H Hl. destruct (outcome_any_adds E tag _ _ _ _ _ _ p q (any_outcome_switch word32 v tag Ht Hw Hd) H Hl) as (bs & x & s & R & X & _ & D). exists bs, x, s. auto. }
  intros E v tag p q Ht. induction v; intros Hw H Hl; try (eapply A; [exact Ht|exact Hw|exact Logic.I|exact H|exact Hl]).
  - destruct (duration_scalar word32 d) as [D1 D2]. destruct (pany_ok tag _ Ht D1) as (pl & R & Hd). cbn [type_switch] in H. unfold okm in H.
    destruct (emits_any_duration tag d (duration_text word32 d) Ht D2 (append_duration_text d) p) as [sp G]. rewrite G in H. cbn [bind] in H. apply ok_fst in H. subst q.
    exists (pany tag (SOctets (duration_text word32 d) None)), pl. eexists. split; [exact R|]. split; [exact Hd|]. split; [exact Logic.I|reflexivity].
  - discriminate.
  - apply IHv; [exact Hw| |exact Hl]. rewrite <- H. destruct iface; [reflexivity|]. destruct v as [| | | | | | | | | | | | | | | | | | | | | | | | | | |[]]; reflexivity.
Qed.
Lemma any_adds : forall (E : Env) v tag p q, 0 < tag < 16 -> well_formed word32 v -> append_any v p tag = Ok (q, None) -> nlen (data q) < 2 ^ 32 ->
  exists bs x, WireProofs.reads bs [(tag, WLen x)] /\ sent_as word32 v x /\ data q = data p ++ bs.
Proof.
  intros E v tag p q Ht Hw H Hl. assert (A : adds tag p q (fun _ => True)).
  { destruct v; try (eapply switch_adds; [exact Ht|exact Hw|exact H|exact Hl]).
    destruct (outcome_any_adds E tag _ _ _ _ _ _ p q (any_outcome word32 VNil tag Ht Hw Logic.I) H Hl) as (bs & x & s & R & X & _ & D). exists bs, x, s. auto. }
  destruct A as (bs & x & s & R & X & _ & D). exists bs, x. split; [exact R|]. split; [|exact D]. exists s. split; [exact X|]. intros Hd.
  destruct (outcome_any_adds E tag _ _ _ _ _ _ p q (any_outcome word32 v tag Ht Hw Hd) H Hl) as (bs2 & x2 & s2 & R2 & X2 & Ds & D2).
  rewrite D in D2. apply app_inv_head in D2. subst bs2. destruct R as [_ R], R2 as [_ R2]. assert (s2 = s) as <- by congruence. exact Ds.
Qed.
Lemma args_add : forall (E : Env) tag wrap args j p q, 0 < tag < 16 -> typed_values word32 args -> each (fun v p => append_any v p tag) wrap j args p = Ok (q, None) -> nlen (data q) < 2 ^ 32 ->
  exists bs xs, WireProofs.reads bs (map (fun x => (tag, WLen x)) xs) /\ Forall2 (sent_as word32) args xs /\ data q = data p ++ bs.
Proof.
  intros E tag wrap args. induction args as [|v args IH]; intros j p q Ht Hw H Hl.
  - apply ok_fst in H. subst q. exists [], []. split; [apply reads_nil|]. split; [constructor|]. rewrite app_nil_r. reflexivity.
  - rewrite each_cons in H. destruct (append_any v p tag) as [[p1 [e|]]|] eqn:H1; cbn [bind] in H; try discriminate. inversion Hw; subst.
    destruct (IH _ p1 q Ht ltac:(assumption) H Hl) as (bs & xs & R & F & D). rewrite D, nlen_app in Hl.
    destruct (any_adds E v tag p p1 Ht ltac:(assumption) H1 ltac:(lia)) as (b & x & R1 & S1 & D1).
    exists (b ++ bs), (x :: xs). split; [exact (reads_app _ _ _ _ R1 R)|]. split; [constructor; assumption|]. rewrite D, D1, app_assoc. reflexivity.
Qed.
Lemma args_frame : forall (E : Env) h ty hb hf args sp q2 q, typed_values word32 args -> length h = 4%nat -> ty < 256 -> WireProofs.reads hb hf ->
  append_args 2 args (mk (h ++ ty :: hb) sp) = Ok (q2, None) -> patch_length q2 0 = Ok q -> nlen (data q) < 2 ^ 32 ->
  exists pl xs, dframes (data q) = Some [(ty, pl)] /\ dfields pl = Some (hf ++ map (fun x => (2, WLen x)) xs) /\ Forall2 (sent_as word32) args xs.
Proof.
  intros E h ty hb hf args sp q2 q Ha Hh Ht Rh H2 Hp Hl. assert (L2 : nlen (data q2) < 2 ^ 32) by (pose proof (patch_len _ _ _ Hp) as P; unfold len, nlen in *; lia).
  destruct (args_add E 2 _ args _ _ q2 ltac:(lia) Ha H2 L2) as (ob & xs & Ro & F & D). cbn [data] in D. rewrite <- app_assoc in D. cbn [app] in D.
  destruct q2 as [d2 sp2]. cbn [data] in D. subst d2. pose proof (reads_app _ _ _ _ Rh Ro) as [Ib R].
  pose proof (patch_ok [] h (ty :: hb ++ ob) sp2 0 eq_refl Hh) as P. cbn [app] in P. rewrite P in Hp.
  assert (q = mk (lebytes 4 (nlen (ty :: hb ++ ob)) ++ ty :: hb ++ ob) sp2) as -> by congruence. cbn [data] in *. rewrite nlen_cons in *.
  exists (hb ++ ob), xs. split; [|split; [exact R|exact F]]. apply framed_dframes.
  pose proof (framed_cons (1 + nlen (hb ++ ob)) ty (hb ++ ob) [] [] eq_refl) as G. rewrite app_nil_r in G. apply G; [|exact Ht|exact Ib|apply framed_nil]. rewrite nlen_app, nlen_cons in Hl. lia.
Qed.

(* C102, whatever the values: the text of a statement is the one the program gave, and there are as many arguments as it gave, each of them a scalar. *)
Theorem C102_statement_whatever_the_values : forall (E : Env) b stmt args bs, empty b -> typed_call word32 (CStmtExecute stmt args) ->
  delivers b (one_call (CStmtExecute stmt args)) bs -> nlen bs < 2 ^ 32 ->
  exists pl xs, dframes bs = Some [(12, pl)] /\ dfields pl = Some ((1, WLen stmt) :: map (fun x => (2, WLen x)) xs) /\ Forall2 (sent_as word32) args xs.
Proof.
  intros E b stmt args bs He [[Hb Hs] Ha] Hd Hl. destruct (one_sent E b _ bs He Hd) as (dis & q & Hr & Hq & He0 & Hp0). subst bs. unfold run_call in Hr. rewrite stmt_execute_eq in Hr.
  destruct (stmt_head_ok stmt ltac:(lia) (buf b)) as (h & sp & Hh & Hi). rewrite He0, app_nil_l in Hi. rewrite Hi in Hr. cbn [bind] in Hr. rewrite Hp0 in Hr.
  destruct (append_args _ _ _) as [[q2 [e|]]|] eqn:H2; cbn [bind] in Hr; try discriminate. unfold okm in Hr. destruct (patch_length q2 0) as [q3|] eqn:H3; cbn [bind] in Hr; [|discriminate]. apply ok_fst in Hr. subst q3.
  exact (args_frame E h 12 (plen 1 stmt) [(1, WLen stmt)] args sp q2 q Ha Hh ltac:(lia) (reads_plen 1 stmt ltac:(lia) ltac:(lia) Hb) H2 H3 Hl).
Qed.

(* C20, the same for Execute: the arguments that are not encoded wrongly survive beside those that are. *)
Theorem C20_arguments_whatever_the_others : forall (E : Env) b id args bs, empty b -> typed_call word32 (CExecute id args) ->
  delivers b (one_call (CExecute id args)) bs -> nlen bs < 2 ^ 32 ->
  exists pl xs, dframes bs = Some [(41, pl)] /\ dfields pl = Some ((1, WVarint id) :: map (fun x => (2, WLen x)) xs) /\ Forall2 (sent_as word32) args xs.
Proof.
  intros E b id args bs He [Hid Ha] Hd Hl. destruct (one_sent E b _ bs He Hd) as (dis & q & Hr & Hq & He0 & Hp0). subst bs. unfold run_call in Hr. rewrite execute_eq in Hr.
  destruct (execute_head_ok id Hid (buf b)) as (h & sp & Hh & Hi). rewrite He0, app_nil_l in Hi. rewrite Hi in Hr. cbn [bind] in Hr. rewrite Hp0 in Hr.
  destruct (append_args _ _ _) as [[q2 [e|]]|] eqn:H2; cbn [bind] in Hr; try discriminate. unfold okm in Hr. destruct (patch_length q2 0) as [q3|] eqn:H3; cbn [bind] in Hr; [|discriminate]. apply ok_fst in Hr. subst q3.
  exact (args_frame E h 41 (pvar 1 id) [(1, WVarint id)] args sp q2 q Ha Hh ltac:(lia) (reads_pvar 1 id ltac:(lia) ltac:(lia)) H2 H3 Hl).
Qed.

(* ---- the hypotheses can be met ---- *)
#[local] Existing Instance ThmBuilder.plain.

Definition wrong_args : list gvalue := [VBool true; VPtr false ThmDefects.least; VNil].
Example wrong_args_meet : empty (new_pipe 0) /\ typed_values word32 wrong_args /\ ~ values_ok word32 wrong_args /\
  (exists bs, typed_call word32 (CStmtExecute (s2b "CALL f(?, ?, ?)") wrong_args) /\ delivers (new_pipe 0) (one_call (CStmtExecute (s2b "CALL f(?, ?, ?)") wrong_args)) bs /\ nlen bs < 2 ^ 32) /\
  (exists bs, typed_call word32 (CExecute 300 wrong_args) /\ delivers (new_pipe 0) (one_call (CExecute 300 wrong_args)) bs /\ nlen bs < 2 ^ 32).
Proof.
  assert (Hw : typed_values word32 wrong_args) by (constructor; [exact Logic.I|]; constructor; [exact (ThmDefects.least_well_formed false)|]; constructor; [exact Logic.I|constructor]).
  split; [split; [reflexivity|split; reflexivity]|]. split; [exact Hw|].
  split; [intros H; inversion_clear H as [|? ? _ H0]; inversion_clear H0 as [|? ? [_ H1] _]; cbn in H1; destruct H1 as [H1 _]; apply H1; reflexivity|].
  split; (eexists; split; [|split; [unfold delivers; do 2 eexists; split; vm_compute; reflexivity|vm_compute; reflexivity]]); cbn [typed_call]; (split; [|exact Hw]).
  - ThmBuilder.ok.
  - lia.
Qed.

Print Assumptions C102_statement_whatever_the_values.
Print Assumptions C20_arguments_whatever_the_others.
