(* What builder calls append for any well-formed argument, also for those that are encoded wrongly:
   whole frames, that depend on nothing but the arguments. *)
From Coq Require Import String List NArith ZArith Arith Bool Lia ZifyN ZifyNat ZifyBool.
From Coq Require Import List.
From Verif Require Import Base GoSlice SliceProofs Varint VarintProofs SpecWire SpecMsg WireProofs Pure Text TextProofs Values AnyModel ExprModel
  MsgModel AnyProofs StringProofs HeaderProofs SpecValue ValueProofs HeadProofs Builder SpecProg MsgProofs BuilderProofs SpecTyped ThmValues.
Import ListNotations.
Open Scope N_scope.

Ltac Zify.zify_post_hook ::= Z.div_mod_to_equations.

(* ---- combinators ---- *)

(* The sizes beyond which nothing is claimed: of values, and of messages. *)
Inductive scale := Value | Message.
Definition limit (t : scale) : N := match t with Value => 2 ^ 62 | Message => 2 ^ 32 end.
Lemma limit_le : forall t, limit t <= 2 ^ 62.
Proof. intros []; cbn [limit]; lia. Qed.

Section Lay.
Variable t : scale.

(* MsgProofs.parts and heads without what the bytes mean. *)
(* Only succeeds with that much data or more. *)
Definition bigat (w : bool) (f : enc) : Prop :=
  forall E, @word32 E = w -> forall p q, f E p = Ok (q, None) -> (len p <= len q)%nat /\ limit t <= nlen (data q).
Definition lays (w : bool) (Q K S : Prop) (W : N) (f : enc) : Prop :=
  (exists bs, is_bytes bs /\ nlen bs <= W /\ good w f bs) \/ (bad w f Q K /\ ~ S) \/ (bigat w f /\ 2 ^ 61 <= W).

Lemma outcome_lays : forall {A} (dec : bytes -> option A) w tag D Q K S W f, outcome dec w tag D Q K S W f -> lays w Q K S W f.
Proof using.
  pose proof (limit_le t) as Hlim. intros A dec w tag D Q K S W f [(x & bs & pl & H1 & H2 & H3 & [H4 H6] & H5)|[H|[H HW]]].
  - left. exists bs. split; [apply H2|]. split; assumption.
  - right. left. exact H.
  - right. right. split; [|exact HW]. intros E HE p q Hq. destruct (H E HE p q Hq). split; [assumption|lia].
Qed.

Lemma lays_ext : forall w Q K S W f g, same w f g -> lays w Q K S W f -> lays w Q K S W g.
Proof using.
  intros w Q K S W f g He [(bs & H1 & H4 & H3)|[[Hb Hs]|[Hb Hs]]].
  - left. exists bs. repeat (split; [assumption|]). exact (good_ext _ _ _ _ He H3).
  - right. left. split; [exact (bad_ext _ _ _ _ _ He Hb)|exact Hs].
  - right. right. split; [intros E HE p q; rewrite <- He by assumption; apply Hb; assumption|exact Hs].
Qed.
Lemma lays_weaken : forall w (Q Q' K K' S S' : Prop) W W' f,
  (Q' -> Q) -> (K' -> K) -> (S' -> S) -> W <= W' -> lays w Q K S W f -> lays w Q' K' S' W' f.
Proof using.
  intros w Q Q' K K' S S' W W' f HQ HK HS HW [(bs & H1 & H4 & H3)|[[[B1 B2] Hs]|[Hb Hs]]].
  - left. exists bs. split; [assumption|]. split; [lia|assumption].
  - right. left. split; [|auto]. split; [exact B1|]. intros q E HE p. destruct (B2 (HQ q) E HE p) as (r & e & Hr & Hl).
    exists r, e. split; [exact Hr|]. auto.
  - right. right. split; [exact Hb|lia].
Qed.

Lemma lays_seq : forall w Q1 Q2 K S1 S2 W1 W2 f g, lays w Q1 K S1 W1 f -> lays w Q2 K S2 W2 g ->
  lays w (Q1 /\ Q2) K (S1 /\ S2) (W1 + W2) (seq f g).
Proof using.
  intros w Q1 Q2 K S1 S2 W1 W2 f g [(b1 & F1 & FW & F3)|[[[F1 F2] FS]|[F FW]]] Hg.
  - destruct Hg as [(b2 & G1 & GW & G3)|[[[G1 G2] GS]|[G GW]]].
    + left. exists (b1 ++ b2). split; [apply Forall_app; split; assumption|]. split; [rewrite nlen_app; lia|].
      intros E HE p. unfold seq. destruct (F3 E HE p) as [sp ->]. cbn [bind].
      destruct (G3 E HE (mk (data p ++ b1) sp)) as [sp' ->]. exists sp'. cbn [data]. rewrite app_assoc. reflexivity.
    + right. left. split; [|tauto]. split.
      * intros E HE p q. unfold seq. destruct (F3 E HE p) as [sp ->]. cbn [bind]. apply G1. assumption.
      * intros [_ q2] E HE p. unfold seq. destruct (F3 E HE p) as [sp ->]. cbn [bind].
        destruct (G2 q2 E HE (mk (data p ++ b1) sp)) as (q & e & Hq & Hl). exists q, e. split; [exact Hq|]. intros k. specialize (Hl k).
        unfold len in *. cbn [data] in Hl. rewrite app_length in Hl. lia.
    + right. right. split; [|lia]. intros E HE p q. unfold seq. destruct (F3 E HE p) as [sp ->]. cbn [bind]. intros Hq.
      destruct (G E HE _ _ Hq) as [L1 L2]. split; [|exact L2]. unfold len in L1 |- *. cbn [data] in L1. rewrite app_length in L1. lia.
  - right. left. split; [|tauto]. split.
    + intros E HE p q. unfold seq. specialize (F1 E HE p). destruct (f E p) as [[r [e|]]|]; cbn [bind]; try discriminate.
      exfalso. apply (F1 r). reflexivity.
    + intros [q1 _] E HE p. unfold seq. destruct (F2 q1 E HE p) as (r & e & -> & Hl). cbn [bind]. eauto.
  - right. right. split; [|lia]. intros E HE p q. unfold seq. specialize (F E HE p).
    destruct (f E p) as [[r [e|]]|]; cbn [bind]; try discriminate. intros Hq. destruct (F r eq_refl) as [L1 L2].
    destruct Hg as [(b2 & G1 & GW & G3)|[[[G1 G2] GS]|[G GW]]].
    + destruct (G3 E HE r) as [sp Hp]. rewrite Hp in Hq. apply ok_fst in Hq. subst q. unfold len in *. cbn [data]. rewrite app_length, nlen_app. split; lia.
    + exfalso. exact (G1 E HE r q Hq).
    + destruct (G E HE _ _ Hq) as [L3 L4]. split; [lia|assumption].
Qed.


Lemma lays_seqx : forall w (Q Q' K S : Prop) W f g k, lays w Q K S W (seq f g) ->
  (forall E q e, k E q e = Ok (q, Some e) \/ k E q e = Panic) -> (Q' -> forall E q e, k E q e = Ok (q, Some e)) -> (Q' -> Q) ->
  lays w Q' K S W (seqx f g k).
Proof using.
  intros w Q Q' K S W f g k [(bs & H1 & H4 & H3)|[[Hb Hs]|[Hb Hs]]] Hk HQ' HQ.
  - left. exists bs. repeat (split; [assumption|]). apply seqx_good. assumption.
  - right. left. split; [exact (seqx_bad _ _ _ _ _ _ _ Hb Hk HQ' HQ)|exact Hs].
  - right. right. split; [intros E HE p q; specialize (Hb E HE p q); unfold seq, seqx in *; destruct (f E p) as [[r [e|]]|]; cbn [bind] in *; try discriminate; [|exact Hb]; destruct (Hk E r e) as [->| ->]; discriminate|exact Hs].
Qed.
Lemma lays_outer : forall w (Q Q' S S' : Prop) W K dis lvl (f : enc), lays w Q K S W f -> (Q' -> False) -> (S' -> False) ->
  lays w Q' K S' W (fun E p => do _ <- use_outer dis lvl; f E p).
Proof using.
  intros w Q Q' S S' W K dis lvl f Hf HQ HS. destruct (use_outer dis lvl) as [[]|]; cbn [bind].
  - eapply lays_weaken; [| | | |exact Hf]; auto; [intros q; destruct (HQ q)|intros s; destruct (HS s)|lia].
  - right. left. split; [|exact HS]. split; [discriminate|]. intros q. destruct (HQ q).
Qed.
Lemma lays_nothing : forall w Q K S W, lays w Q K S W (fun E p => Ok (p, None)).
Proof using.
  intros w Q K S W. left. exists []. split; [constructor|]. split; [cbn; lia|].
  intros E HE p. exists (spare p). rewrite app_nil_r. destruct p; reflexivity.
Qed.

(* An encoder that always appends bs. *)
Lemma lays_emits : forall w Q K S W (m : forall E : Env, slice -> res slice) bs,
  (forall E, @word32 E = w -> @emits (m E) bs) -> is_bytes bs -> nlen bs <= W -> lays w Q K S W (fun E p => okm (m E p)).
Proof using.
  intros w Q K S W m bs Hm Hb HW. left. exists bs. repeat (split; [assumption|]).
  intros E HE p. destruct (Hm E HE p) as [sp Hp]. exists sp. unfold okm. rewrite Hp. reflexivity.
Qed.

(* A loop over values. *)
Lemma lays_each : forall {A} w quiet keep Sup W (f : forall E : Env, A -> slice -> res (slice * option err)) wrap xs,
  Forall (fun x => lays w (quiet x) keep (Sup x) (W x) (fun E p => f E x p)) xs ->
  forall j, lays w (all quiet xs) keep (all Sup xs) (total_weight W xs) (fun E p => each (f E) wrap j xs p).
Proof using.
  intros A w quiet keep Sup W f wrap xs H. induction H as [|x xs Hx H IH]; intros j.
  - apply (lays_ext w _ _ _ _ (fun E p => Ok (p, None))); [intros E HE p; reflexivity|apply lays_nothing].
  - rewrite total_cons. cbn [all].
    apply (lays_ext w _ _ _ _ (seqx (fun E p => f E x p) (fun E p => each (f E) wrap (S j) xs p) (fun E q e => Ok (q, Some (wrap j e))))).
    { intros E HE p. rewrite each_cons. reflexivity. }
    destruct (lays_seq w _ _ _ _ _ _ _ _ _ Hx (IH (S j))) as [(bs & H1 & H4 & H3)|[[[B1 B2] Hs]|[Hb Hs]]].
    + left. exists bs. repeat (split; [assumption|]). apply seqx_good. assumption.
    + right. left. split; [|exact Hs]. split.
      * intros E HE p q. specialize (B1 E HE p q). unfold seq, seqx in *. destruct (f E x p) as [[r [e|]]|]; cbn [bind] in *; try discriminate. assumption.
      * intros q E HE p. destruct (B2 q E HE p) as (r & e & Hr & Hl). unfold seq, seqx in *.
        destruct (f E x p) as [[r' [e'|]]|]; cbn [bind] in *; try discriminate; [|eauto]. injection Hr as <- <-. eauto.
    + right. right. split; [|exact Hs]. intros E HE p q. specialize (Hb E HE p q). unfold seq, seqx in *.
      destruct (f E x p) as [[r [e|]]|]; cbn [bind] in *; try discriminate. exact Hb.
Qed.

(* Parameters followed by a header written in front of them. *)
Lemma lays_headed : forall w (Q K S : Prop) W (f : enc) (hd : forall E : Env, slice -> nat -> res slice) (pure : bytes -> bytes) (extra : N),
  lays w Q K S W f ->
  (forall b, nlen b < 2 ^ 62 -> nlen (pure b) <= extra + nlen b) ->
  (forall b, is_bytes b -> nlen b < 2 ^ 62 -> is_bytes (pure b)) ->
  (forall E a b sp, nlen b < 2 ^ 62 -> exists sp', hd E (mk (a ++ b) sp) (length a) = Ok (mk (a ++ pure b) sp')) ->
  (forall E p i q, hd E p i = Ok q -> (len p <= len q)%nat) ->
  lays w Q K S (extra + W) (fun E p => do (q, e) <- f E p; match e with Some e => Ok (q, Some e) | None => okm (hd E q (len p)) end).
Proof using.
  pose proof (limit_le t) as Hlim. intros w Q K S W f hd pure extra Hf Hsz Hb Hhd Hlen.
  destruct Hf as [(bs & F1 & F5 & F4)|[[[F1 F2] HS]|[F HW]]].
  - destruct (N.lt_ge_cases (nlen bs) (2 ^ 62)) as [Hl|Hl].
    + left. exists (pure bs). split; [apply Hb; assumption|]. split; [specialize (Hsz bs Hl); lia|].
      intros E HE p. destruct (F4 E HE p) as [sp Hp]. rewrite Hp. cbn [bind].
      destruct (Hhd E (data p) bs sp Hl) as [sp' Hq]. exists sp'. unfold okm, len. rewrite Hq. reflexivity.
    + right. right. split; [|lia]. intros E HE p q H. destruct (F4 E HE p) as [sp Hp]. rewrite Hp in H. cbn [bind] in H. unfold okm in H.
      destruct (hd E _ _) as [q'|] eqn:Hq; [|discriminate]. injection H as <-. apply Hlen in Hq.
      unfold len, nlen in *. cbn [data] in *. rewrite app_length in Hq. split; lia.
  - right. left. split; [|exact HS]. split.
    + intros E HE p q. specialize (F1 E HE p). destruct (f E p) as [[q' [e|]]|]; cbn [bind]; try discriminate.
      exfalso. apply (F1 q'). reflexivity.
    + intros Hq E HE p. destruct (F2 Hq E HE p) as (q & e & -> & Hl). cbn [bind]. eauto.
  - right. right. split; [|lia]. intros E HE p q H. specialize (F E HE p). destruct (f E p) as [[q' [e|]]|]; cbn [bind] in H; try discriminate.
    destruct (F q' eq_refl) as [L1 L2]. unfold okm in H. destruct (hd E q' (len p)) as [q2|] eqn:Hq; [|discriminate].
    injection H as <-. apply Hlen in Hq. unfold len, nlen in *. split; lia.
Qed.

Lemma lays_error : forall w (Q K S : Prop) W (f : enc), ~ S ->
  (forall E, @word32 E = w -> forall p, exists q e, f E p = Ok (q, Some e) /\ (K -> len p <= len q)%nat) -> lays w Q K S W f.
Proof using.
  intros w Q K S W f HS H. right. left. split; [|exact HS]. split.
  - intros E HE p q Hq. destruct (H E HE p) as (r & e & Hr & _). congruence.
  - intros _. exact H.
Qed.
End Lay.

Lemma lays_message : forall w Q K S W f, lays Value w Q K S W f -> lays Message w Q K S W f.
Proof.
  intros w Q K S W f [H|[H|[H HW]]]; [left; exact H|right; left; exact H|right; right]. split; [|exact HW].
  intros E HE p q Hq. destruct (H E HE p q Hq). cbn [limit] in *. split; [assumption|lia].
Qed.

(* The same after four bytes that are overwritten later (MsgProofs.heads). *)
Definition layh (w : bool) (ty : N) (Q K S : Prop) (W : N) (f : enc) : Prop :=
  (exists bs, is_bytes bs /\ nlen bs <= W /\ goodh w f (ty :: bs)) \/ (badh w f Q K /\ ~ S) \/ (bigm w f /\ 2 ^ 61 <= W).
Lemma heads_layh : forall w ty H Q K S W f, heads w ty H Q K S W f -> layh w ty Q K S W f.
Proof.
  intros w ty H Q K S W f [(bs & fs & H1 & H2 & H4 & H3)|Hb]; [|right; exact Hb].
  left. exists bs. split; [apply H1|]. split; assumption.
Qed.
Lemma layh_ext : forall w ty Q K S W f g, same w f g -> layh w ty Q K S W f -> layh w ty Q K S W g.
Proof.
  intros w ty Q K S W f g He [(bs & H1 & H4 & H3)|[[[B1 B2] Hs]|[Hb Hs]]].
  - left. exists bs. repeat (split; [assumption|]). intros E HE p. rewrite <- He by assumption. apply H3. assumption.
  - right. left. split; [|exact Hs]. split.
    + intros E HE p. rewrite <- He by assumption. apply B1. assumption.
    + intros q E HE p. rewrite <- He by assumption. apply B2; assumption.
  - right. right. split; [exact (bigm_ext _ _ _ He Hb)|exact Hs].
Qed.
Lemma layh_seq : forall w ty Q1 Q2 K S1 S2 W1 W2 f g, layh w ty Q1 K S1 W1 f -> lays Message w Q2 K S2 W2 g ->
  layh w ty (Q1 /\ Q2) K (S1 /\ S2) (W1 + W2) (seq f g).
Proof.
  intros w ty Q1 Q2 K S1 S2 W1 W2 f g [(b1 & F1 & FW & F3)|[[[F1 F2] FS]|[F FW]]] Hg.
  - destruct Hg as [(b2 & G1 & GW & G3)|[[[G1 G2] GS]|[G GW]]].
    + left. exists (b1 ++ b2). split; [apply Forall_app; split; assumption|]. split; [rewrite nlen_app; lia|].
      intros E HE p. unfold seq. destruct (F3 E HE p) as (h & sp & Hh & ->). cbn [bind].
      destruct (G3 E HE (mk (data p ++ h ++ ty :: b1) sp)) as [sp' ->]. exists h, sp'. split; [exact Hh|].
      cbn [data app]. rewrite <- !app_assoc. reflexivity.
    + right. left. split; [|tauto]. split.
      * intros E HE p q. unfold seq. destruct (F3 E HE p) as (h & sp & Hh & ->). cbn [bind]. apply G1. assumption.
      * intros [_ q2] E HE p. unfold seq. destruct (F3 E HE p) as (h & sp & Hh & ->). cbn [bind].
        destruct (G2 q2 E HE (mk (data p ++ h ++ ty :: b1) sp)) as (q & e & Hq & Hl). exists q, e. split; [exact Hq|]. intros k. specialize (Hl k).
        unfold len in *. cbn [data] in Hl. rewrite !app_length in Hl. lia.
    + right. right. split; [|lia]. intros E HE p q. unfold seq. destruct (F3 E HE p) as (h & sp & Hh & ->). cbn [bind]. intros Hq.
      destruct (G E HE _ _ Hq) as [L1 L2]. split; [|exact L2]. unfold len in L1 |- *. cbn [data] in L1. rewrite app_length in L1. lia.
  - right. left. split; [|tauto]. split.
    + intros E HE p q. unfold seq. specialize (F1 E HE p). destruct (f E p) as [[r [e|]]|]; cbn [bind]; try discriminate.
      exfalso. apply (F1 r). reflexivity.
    + intros [q1 _] E HE p. unfold seq. destruct (F2 q1 E HE p) as (r & e & -> & Hl). cbn [bind]. eauto.
  - right. right. split; [|lia]. intros E HE p q. unfold seq. specialize (F E HE p).
    destruct (f E p) as [[r [e|]]|]; cbn [bind]; try discriminate. intros Hq. destruct (F r eq_refl) as [L1 L2].
    destruct Hg as [(b2 & G1 & GW & G3)|[[[G1 G2] GS]|[G GW]]].
    + destruct (G3 E HE r) as [sp Hp]. rewrite Hp in Hq. apply ok_fst in Hq. subst q. unfold len in *. cbn [data]. rewrite app_length, nlen_app. split; lia.
    + exfalso. exact (G1 E HE r q Hq).
    + destruct (G E HE _ _ Hq) as [L3 L4]. split; [lia|assumption].
Qed.
Lemma layh_seqx : forall w ty (Q Q' K S : Prop) W f g k, layh w ty Q K S W (seq f g) ->
  (forall E q e, k E q e = Ok (q, Some e) \/ k E q e = Panic) -> (Q' -> forall E q e, k E q e = Ok (q, Some e)) -> (Q' -> Q) ->
  layh w ty Q' K S W (seqx f g k).
Proof.
  intros w ty Q Q' K S W f g k [(bs & H1 & H4 & H3)|[[Hb Hs]|[Hb Hs]]] Hk HQ' HQ.
  - left. exists bs. repeat (split; [assumption|]). apply seqx_goodh. assumption.
  - right. left. split; [exact (seqx_badh _ _ _ _ _ _ _ Hb Hk HQ' HQ)|exact Hs].
  - right. right. split; [apply seqx_big; assumption|exact Hs].
Qed.

(* ---- values ---- *)

Lemma duration_scalar : forall w d, scalar_ok (SOctets (duration_text w d) None) /\ nlen (duration_text w d) < 90.
Proof. intros w d. destruct (duration_text_bytes w d) as [B L]. split; [|assumption]. cbn. split; [assumption|]. split; [lia|exact I]. Qed.

Lemma any_switch_lays : forall w v tag, 0 < tag < 16 -> well_formed w v ->
  lays Value w (panic_free v) False (arg_behind_pointer v) (weight v) (fun E p => type_switch v p tag).
Proof.
  intros w v tag Ht. induction v; intros Hw;
    try (eapply outcome_lays; apply any_outcome_switch; [assumption|exact Hw|exact I]; fail).
  - destruct (duration_scalar w d) as [D1 D2]. cbn [type_switch].
    apply (lays_emits Value w _ _ _ _ _ (pany tag (SOctets (duration_text w d) None))).
    + intros E HE. apply emits_any_duration; [assumption|assumption|]. intros p. rewrite <- HE. apply append_duration_text.
    + destruct (pany_ok tag _ Ht D1) as (pl & Hr & _). apply Hr.
    + pose proof (nlen_pany tag _ D1). cbn [scalar_len weight] in *. lia.
  - right. left. split; [|cbn; tauto]. split; [intros E HE p q; cbn [type_switch]; discriminate|].
    intros _ E HE p. do 2 eexists. split; [reflexivity|]. intros [].
  - specialize (IHv Hw). apply (lays_ext Value w _ _ _ _ (fun E p => type_switch v p tag)); [|exact IHv].
    intros E _ p. destruct iface; [reflexivity|]. destruct v as [| | | | | | | | | | | | | | | | | | | | | | | | | | |[]]; reflexivity.
Qed.

Lemma any_lays : forall w v tag, 0 < tag < 16 -> well_formed w v ->
  lays Value w (panic_free v) False (arg_accepted v) (weight v) (fun E p => append_any v p tag).
Proof.
  intros w v tag Ht Hw. destruct v; try (eapply lays_weaken; [| | | |exact (any_switch_lays w _ tag Ht Hw)]; [tauto|tauto|intros [H|H]; [discriminate|exact H]|lia]).
  eapply outcome_lays. apply any_outcome; [assumption|exact Hw|exact I].
Qed.

Lemma args_lays : forall w tag args, 0 < tag < 16 -> typed_values w args ->
  lays Value w (Forall panic_free args) False (Forall arg_accepted args) (total_weight weight args) (fun E p => append_args tag args p).
Proof.
  intros w tag args Ht Ha. unfold append_args.
  apply lays_weaken with (all panic_free args) False (all arg_accepted args) (total_weight weight args); auto;
    [intros H; apply all_Forall; exact H|intros H; apply all_Forall; exact H|lia|].
  apply (lays_each Value w panic_free False arg_accepted weight (fun E v p => append_any v p tag)).
  eapply Forall_impl; [|exact Ha]. intros v Hv. apply any_lays; assumption.
Qed.

Definition expr_aim (w : bool) (v : gvalue) : Prop := forall tag, 0 < tag < 16 -> well_formed w v ->
  lays Value w (panic_free v) True (expr_accepted v) (weight v) (fun E p => append_expr v p tag).
Definition fun_aim (w : bool) (f : exprfun) : Prop := forall tag, 0 < tag < 16 -> well_formed_fun w f ->
  lays Value w (panic_free_fun f) True (fun_accepted f) (fun_weight f) (fun E p => run_fun f p tag).

Lemma params_lays : forall w ps tag, 0 < tag < 16 -> Forall (expr_aim w) ps -> all (well_formed w) ps ->
  forall wrap, lays Value w (all panic_free ps) True (all expr_accepted ps) (total_weight weight ps) (fun E p => each (fun v p => append_expr v p tag) wrap 0 ps p).
Proof.
  intros w ps tag Ht HP Hw wrap. apply (lays_each Value w panic_free True expr_accepted weight (fun E v p => append_expr v p tag)).
  apply all_Forall in Hw. rewrite Forall_forall in *. intros v Hv. apply (HP v Hv tag Ht (Hw v Hv)).
Qed.

Lemma plen_bytes : forall t b, 0 < t < 16 -> nlen b < 2 ^ 64 -> is_bytes b -> is_bytes (plen t b).
Proof. intros t b Ht Hl Hb. apply (reads_plen t b Ht Hl Hb). Qed.
Lemma pvar_bytes : forall t x, 0 < t < 16 -> x < 2 ^ 64 -> is_bytes (pvar t x).
Proof. intros t x Ht Hx. apply (reads_pvar t x Ht Hx). Qed.
Lemma app_bytes : forall a b, is_bytes a -> is_bytes b -> is_bytes (a ++ b).
Proof. intros a b Ha Hb. apply Forall_app. split; assumption. Qed.

Lemma poper_bytes : forall tag name ps, 0 < tag < 16 -> is_bytes name -> nlen name < 2 ^ 62 -> is_bytes ps -> nlen ps < 2 ^ 62 -> is_bytes (poper tag name ps).
Proof.
  intros tag name ps Ht Hb Hn Hp Hl. unfold poper. pose proof (nlen_plen 1 name ltac:(lia)). pose proof (nlen_app (plen 1 name) ps).
  pose proof (nlen_plen 6 (plen 1 name ++ ps) ltac:(lia)). pose proof (nlen_pvar 1 5 ltac:(lia)).
  pose proof (nlen_app (pvar 1 5) (plen 6 (plen 1 name ++ ps))).
  apply plen_bytes; [assumption|lia|]. apply app_bytes; [apply pvar_bytes; lia|]. apply plen_bytes; [lia|lia|].
  apply app_bytes; [apply plen_bytes; [lia|lia|assumption]|assumption].
Qed.
Lemma pcall_bytes : forall tag name ps, 0 < tag < 16 -> is_bytes name -> nlen name < 2 ^ 62 -> is_bytes ps -> nlen ps < 2 ^ 62 -> is_bytes (pcall tag name ps).
Proof.
  intros tag name ps Ht Hb Hn Hp Hl. unfold pcall. pose proof (nlen_plen 1 name ltac:(lia)). pose proof (nlen_plen 1 (plen 1 name) ltac:(lia)).
  pose proof (nlen_app (plen 1 (plen 1 name)) ps).
  pose proof (nlen_plen 5 (plen 1 (plen 1 name) ++ ps) ltac:(lia)). pose proof (nlen_pvar 1 4 ltac:(lia)).
  pose proof (nlen_app (pvar 1 4) (plen 5 (plen 1 (plen 1 name) ++ ps))).
  apply plen_bytes; [assumption|lia|]. apply app_bytes; [apply pvar_bytes; lia|]. apply plen_bytes; [lia|lia|].
  apply app_bytes; [apply plen_bytes; [lia|lia|]|assumption]. apply plen_bytes; [lia|lia|assumption].
Qed.
Lemma pset_bytes : forall name v, is_bytes name -> nlen name < 2 ^ 62 -> is_bytes v -> nlen v < 2 ^ 62 -> is_bytes (pset name v).
Proof.
  intros name v Hb Hn Hv Hl. unfold pset. pose proof (nlen_plen 2 name ltac:(lia)). pose proof (nlen_plen 1 (plen 2 name) ltac:(lia)).
  pose proof (nlen_pvar 2 1 ltac:(lia)).
  pose proof (nlen_app (plen 1 (plen 2 name)) (pvar 2 1 ++ v)). pose proof (nlen_app (pvar 2 1) v).
  apply plen_bytes; [lia|lia|]. apply app_bytes; [apply plen_bytes; [lia|lia|]; apply plen_bytes; [lia|lia|assumption]|].
  apply app_bytes; [apply pvar_bytes; lia|assumption].
Qed.
Lemma nlen_pset : forall name v, nlen name < 2 ^ 62 -> nlen v < 2 ^ 62 -> nlen (pset name v) <= 512 + nlen name + nlen v.
Proof.
  intros name v Hn Hl. unfold pset. pose proof (nlen_plen 2 name ltac:(lia)). pose proof (nlen_plen 1 (plen 2 name) ltac:(lia)).
  pose proof (nlen_pvar 2 1 ltac:(lia)).
  pose proof (nlen_app (plen 1 (plen 2 name)) (pvar 2 1 ++ v)). pose proof (nlen_app (pvar 2 1) v).
  pose proof (nlen_plen 7 (plen 1 (plen 2 name) ++ pvar 2 1 ++ v) ltac:(lia)). lia.
Qed.

Lemma fun_leaf_lays : forall w f, match f with EOperator _ _ | ECall _ _ => False | _ => True end -> fun_aim w f.
Proof.
  intros w f Hf tag Ht Hw. destruct f as [name|name ps|name ps|name|pos|u]; try contradiction;
    try (eapply outcome_lays; apply fun_leaf; [exact I|assumption|exact Hw|exact I]; fail).
  cbn [run_fun fun_weight]. destruct Hw as [Hb Hl]. pose proof (uvarint_nlen (nlen name) ltac:(lia)).
  eapply lays_emits; [intros E _; apply emits_expr_variable_any; [lia|exact Hl]| |].
  - apply app_bytes; [|apply app_bytes; [apply uvarint_bytes|exact Hb]].
    repeat (constructor; [first [apply N.mod_upper_bound; discriminate|unfold is_byte; lia]|]). constructor.
  - rewrite !nlen_app. match goal with |- nlen ?a + _ <= _ => change (nlen a) with 5 end. lia.
Qed.
Lemma value_leaf_lays : forall w v, match v with VFunc (Some _) | VPtr _ _ => False | _ => True end -> expr_aim w v.
Proof.
  intros w v Hv tag Ht Hw.
  destruct v as [|z|z|z|z|z|n|n|n|n|n|s|b|b|bits|bits|t|d|s collation|b|s|b|s|b|[f|]|i v|a e|a e]; try contradiction;
    try (eapply outcome_lays; apply value_leaf; [exact I|assumption|exact Hw|exact I]; fail).
  destruct (duration_scalar w d) as [D1 D2]. cbn [append_expr expr_method].
  apply (lays_emits Value w _ _ _ _ _ (plit tag (SOctets (duration_text w d) None))).
  + intros E HE. apply emits_expr_duration; [assumption|assumption|]. intros p. rewrite <- HE. apply append_duration_text.
  + destruct (plit_ok tag _ Ht D1) as (pl & Hr & _). apply Hr.
  + pose proof (nlen_plit tag _ D1). cbn [scalar_len weight] in *. lia.
Qed.


Lemma expr_lays_all : forall w, (forall v, expr_aim w v) /\ (forall f, fun_aim w f).
Proof.
  intros w.
  assert (Hfunc : forall f, fun_aim w f -> expr_aim w (VFunc (Some f))) by (intros f Hf tag Ht Hw; exact (Hf tag Ht Hw)).
  assert (Hptr : forall i v, expr_aim w v -> expr_aim w (VPtr i v)).
  { intros i v Hv tag Ht Hw. specialize (Hv tag Ht Hw). cbn [append_expr panic_free].
    destruct i; [apply lays_error; [cbn; tauto|intros E HE p; do 2 eexists; split; [reflexivity|]; auto; lia]|].
    destruct v as [|z|z|z|z|z|n|n|n|n|n|s|b|b|bits|bits|t|d|s collation|b|s|b|s|b|f|i v|a e|a [e|]];
      cbn [expr_method]; try (apply lays_error; [cbn; tauto|intros E HE p; do 2 eexists; split; [reflexivity|]; auto; lia]; fail);
      exact Hv. }
  assert (Hoper : forall name ps, Forall (expr_aim w) ps -> fun_aim w (EOperator name ps)).
  { intros name ps Hps tag Ht [[Hb Hn] Hw]. cbn [run_fun panic_free_fun].
    apply (lays_headed Value w _ _ _ _ (fun E p => each (fun v p => append_expr v p tagOperatorParam) EParam 0 ps p)
      (fun E p i => operator_header p i tag name) (poper tag name) (512 + nlen name)).
    - apply params_lays; try assumption. unfold tagOperatorParam. lia.
    - intros b Hl. apply nlen_poper; assumption.
    - intros b Hbb Hl. apply poper_bytes; assumption.
    - intros E a b sp Hl. apply operator_header_ok; assumption.
    - intros E p i q. apply operator_header_len. }
  assert (Hcall : forall name ps, Forall (expr_aim w) ps -> fun_aim w (ECall name ps)).
  { intros name ps Hps tag Ht [[Hb Hn] Hw]. cbn [run_fun panic_free_fun].
    apply (lays_headed Value w _ _ _ _ (fun E p => each (fun v p => append_expr v p tagFunctionCallParam) EParam 0 ps p)
      (fun E p i => call_header p i tag name) (pcall tag name) (512 + nlen name)).
    - apply params_lays; try assumption. unfold tagFunctionCallParam. lia.
    - intros b Hl. apply nlen_pcall; assumption.
    - intros b Hbb Hl. apply pcall_bytes; assumption.
    - intros E a b sp Hl. apply call_header_ok; assumption.
    - intros E p i q. apply call_header_len. }
  split.
  - exact (gvalue_deep _ _ (value_leaf_lays w) Hfunc Hptr (fun_leaf_lays w) Hoper Hcall).
  - exact (exprfun_deep _ _ (value_leaf_lays w) Hfunc Hptr (fun_leaf_lays w) Hoper Hcall).
Qed.
Lemma expr_lays : forall w v, expr_aim w v.
Proof. intros w. exact (proj1 (expr_lays_all w)). Qed.
Lemma fun_lays : forall w f, fun_aim w f.
Proof. intros w. exact (proj2 (expr_lays_all w)). Qed.

(* ---- rows, sets, criteria ---- *)

Lemma row_lays : forall w row, typed_values w row ->
  lays Message w (Forall panic_free row) True (Forall expr_accepted row) (row_weight row) (fun E p => append_insert_row p row).
Proof.
  intros w row Hw.
  assert (Ho : lays Value w (all panic_free row) True (all expr_accepted row) (total_weight weight row)
    (fun E p => each (fun v p => append_expr v p tagTypedRowField) EColumnErr 0 row p)).
  { apply (lays_each Value w panic_free True expr_accepted weight (fun E v p => append_expr v p 1)).
    eapply Forall_impl; [|exact Hw]. intros v Hv. apply expr_lays; [lia|assumption]. }
  destruct Ho as [(bs & H2 & H5 & H4)|[[[B1 B2] Hs]|[Hb Hs]]]; unfold row_weight.
  - destruct (N.lt_ge_cases (nlen bs) (2 ^ 62)) as [Hl|Hl].
    + left. exists (plen 4 bs). split; [apply plen_bytes; [lia|lia|exact H2]|].
      split; [pose proof (nlen_plen 4 bs ltac:(lia)); lia|]. intros E HE p. rewrite insert_row_eq. cbv zeta. destruct (append_spec p [34; 0; 0]) as [sp ->].
      destruct (H4 E HE (mk (data p ++ [34; 0; 0]) sp)) as [sp' ->]. cbn [bind data]. rewrite <- app_assoc.
      destruct (row_fix_ok (data p) bs sp' (len (mk (data p ++ [34; 0; 0]) sp)) Hl) as [sp2 Hr].
      { unfold len. cbn [data]. rewrite app_length. reflexivity. }
      rewrite Hr. exists sp2. reflexivity.
    + right. right. cbn [limit] in *. split; [|lia]. intros E HE p q Hq. rewrite insert_row_eq in Hq. cbv zeta in Hq. destruct (append_spec p [34; 0; 0]) as [sp Ha].
      rewrite Ha in Hq. destruct (H4 E HE (mk (data p ++ [34; 0; 0]) sp)) as [sp' Hp]. rewrite Hp in Hq. cbn [bind data] in Hq.
      unfold okm in Hq. destruct (row_fix _ _) as [r|] eqn:Hr; [|discriminate]. injection Hq as <-.
      apply row_fix_len in Hr; cbn [limit]; unfold len, nlen in *; cbn [data] in *; rewrite !app_length in *; cbn [length] in *; lia.
  - right. left. split; [|rewrite all_Forall in Hs; exact Hs]. split.
    + intros E HE p q. rewrite insert_row_eq. cbv zeta. specialize (B1 E HE (append p [34; 0; 0])).
      destruct (each _ _ _ _ _) as [[r [e|]]|]; cbn [bind]; try discriminate. exfalso. apply (B1 r). reflexivity.
    + intros q E HE p. rewrite insert_row_eq. cbv zeta. apply all_Forall in q.
      destruct (B2 q E HE (append p [34; 0; 0])) as (r & e & -> & Hl). cbn [bind]. exists r, e. split; [reflexivity|].
      intros _. specialize (Hl I). rewrite len_append in Hl. lia.
  - right. right. split; [|lia]. intros E HE p q. rewrite insert_row_eq. cbv zeta. specialize (Hb E HE (append p [34; 0; 0])). cbv beta in Hb.
    destruct (each _ _ _ _ _) as [[r [e|]]|]; cbn [bind]; try discriminate. destruct (Hb r eq_refl) as [L1 L2]. cbn [limit] in *.
    unfold okm. destruct (row_fix _ _) as [r'|] eqn:Hr; [|discriminate]. intros Hq. injection Hq as <-.
    rewrite len_append in *. cbn [length] in *. apply row_fix_len in Hr; [|lia]. cbn [limit] in *. unfold len, nlen in *. lia.
Qed.

Lemma rows_lays : forall w ncols rows i, Forall (typed_values w) rows ->
  lays Message w (Forall (Forall panic_free) rows) True (Forall (fun row => length row = ncols /\ Forall expr_accepted row) rows)
    (total_weight row_weight rows) (fun E p => insert_rows ncols i rows p).
Proof.
  intros w ncols rows i H. revert i. induction H as [|row rows Hr H IH]; intros i.
  - cbn [insert_rows]. apply lays_nothing.
  - cbn [insert_rows]. destruct (Nat.eqb_spec (length row) ncols) as [Hl|Hl].
    + eapply lays_weaken; [| | | |exact (lays_seq Message w _ _ True _ _ _ _ _ _ (row_lays w row Hr) (IH (S i)))].
      * intros Hq. inversion Hq; subst. auto.
      * auto.
      * intros Hq. inversion Hq as [|? ? [? ?] ?]; subst. auto.
      * rewrite total_cons. lia.
    + apply lays_error; [intros Hq; inversion Hq as [|? ? [? ?] ?]; subst; contradiction|].
      intros E HE p. do 2 eexists. split; [reflexivity|]. intros _. apply Nat.le_refl.
Qed.

Lemma iops_lays : forall w dis ops, Forall (typed_values w) (rows_of ops) ->
  lays Message w (Forall iop_quiet ops) True (Forall iop_accepted ops) (total_weight row_weight (rows_of ops)) (fun E p => run_iops dis ops p None).
Proof.
  intros w dis ops. induction ops as [|[row|lvl] ops IH]; intros H; cbn [rows_of run_iops] in *.
  - apply lays_nothing.
  - inversion H as [|? ? Hr Hrs]; subst.
    apply (lays_ext Message w _ _ _ _ (seqx (fun E p => append_insert_row p row) (fun E p => run_iops dis ops p None) (fun E q e => run_iops dis ops q (Some e)))).
    { intros E HE p. unfold seqx. destruct (append_insert_row p row) as [[q [e|]]|]; reflexivity. }
    eapply lays_seqx.
    + eapply lays_weaken; [intros q; exact q|intros k; exact k| | |exact (lays_seq Message w _ _ True _ _ _ _ _ _ (row_lays w row Hr) (IH Hrs))].
      * intros Hq. inversion Hq; subst. auto.
      * rewrite total_cons. lia.
    + intros E q e. apply iops_error.
    + intros Hq E q e. inversion Hq; subst. apply iops_error_quiet. assumption.
    + intros Hq. inversion Hq; subst. auto.
  - apply (lays_outer Message w (Forall iop_quiet ops) _ (Forall iop_accepted ops)); [apply IH; assumption| |]; intros Hq; inversion Hq; subst; assumption.
Qed.

Lemma set_lays : forall w name v, go_string name -> well_formed w v ->
  lays Message w (panic_free v) True (expr_accepted v) (set_weight (name, v)) (fun E p => append_update_set p name v).
Proof.
  intros w name v [Hb Hn] Hw. unfold set_weight. cbn [fst snd].
  apply lays_message. apply (lays_headed Value w _ _ _ _ (fun E p => append_expr v p tagUpdateOperationValue) (fun E p i => set_header p i name) (pset name) (512 + nlen name)).
  - apply expr_lays; [unfold tagUpdateOperationValue; lia|assumption].
  - intros b Hl. apply nlen_pset; assumption.
  - intros b Hbb Hl. apply pset_bytes; assumption.
  - intros E a b sp Hl. apply set_header_ok; assumption.
  - intros E p i q. apply set_header_len.
Qed.

Lemma sets_lays : forall w set, typed_sets w set ->
  lays Message w (Forall (fun kv => panic_free (snd kv)) set) True (Forall (fun kv => expr_accepted (snd kv)) set)
    (total_weight set_weight set) (fun E p => update_sets set p).
Proof.
  intros w set. induction set as [|[k v] set IH]; intros [H1 H2]; cbn [update_sets].
  - apply lays_nothing.
  - cbn [map snd] in H2. inversion H1; subst. inversion H2 as [|? ? Hv H2']; subst. cbn [fst] in *.
    eapply lays_weaken; [| | | |exact (lays_seq Message w _ _ True _ _ _ _ _ _ (set_lays w k v ltac:(assumption) Hv) (IH ltac:(split; assumption)))].
    + intros Hq. inversion Hq; subst. auto.
    + auto.
    + intros Hq. inversion Hq; subst. auto.
    + rewrite total_cons. lia.
Qed.

Lemma uops_lays : forall w dis ops, typed_sets w (sets_of ops) ->
  lays Message w (Forall uop_quiet ops) True (Forall uop_accepted ops) (total_weight set_weight (sets_of ops)) (fun E p => run_uops dis ops p None).
Proof.
  intros w dis ops. induction ops as [|[name v|lvl] ops IH]; intros H; cbn [sets_of run_uops] in *.
  - apply lays_nothing.
  - destruct H as [H1 H2]. cbn [map snd] in H2. inversion H1; subst. inversion H2 as [|? ? Hv H2']; subst. cbn [fst] in *.
    apply (lays_ext Message w _ _ _ _ (seqx (fun E p => append_update_set p name v) (fun E p => run_uops dis ops p None) (fun E q e => run_uops dis ops q (Some e)))).
    { intros E HE p. unfold seqx. destruct (append_update_set p name v) as [[q [e|]]|]; reflexivity. }
    eapply lays_seqx.
    + eapply lays_weaken; [intros q; exact q|intros k; exact k| | |exact (lays_seq Message w _ _ True _ _ _ _ _ _ (set_lays w name v ltac:(assumption) Hv) (IH ltac:(split; assumption)))].
      * intros Hq. inversion Hq; subst. auto.
      * rewrite total_cons. lia.
    + intros E q e. apply uops_error.
    + intros Hq E q e. inversion Hq; subst. apply uops_error_quiet. assumption.
    + intros Hq. inversion Hq; subst. auto.
  - apply (lays_outer Message w (Forall uop_quiet ops) _ (Forall uop_accepted ops)); [apply IH; assumption| |]; intros Hq; inversion Hq; subst; assumption.
Qed.

Lemma criteria_lays : forall w tag cr, 0 < tag < 16 -> opt (well_formed_fun w) cr ->
  lays Message w (opt panic_free_fun cr) True (opt fun_accepted cr) (criteria_weight cr)
    (fun E p => match cr with None => Ok (p, None) | Some f => run_fun f p tag end).
Proof.
  intros w tag [f|] Ht Hf; cbn [opt] in *; [|apply lays_nothing]. apply lays_message. apply fun_lays; assumption.
Qed.

(* ---- whole messages ---- *)

(* The bytes are whole frames of the types a builder can be asked for. *)
Definition whole (bs : bytes) : Prop := exists fs, framed bs fs /\ Forall (fun f => In (fst f) built_types) fs.
Lemma whole_nil : whole [].
Proof. exists []. split; [apply framed_nil|constructor]. Qed.
Lemma whole_app : forall a b, whole a -> whole b -> whole (a ++ b).
Proof.
  intros a b (fa & A1 & A2) (fb & B1 & B2). exists (fa ++ fb). split; [apply framed_app; assumption|apply Forall_app; split; assumption].
Qed.
Lemma built_byte : forall ty, In ty built_types -> ty < 256.
Proof. intros ty H. cbn in H. lia. Qed.
Lemma whole_one : forall ty pl, In ty built_types -> is_bytes pl -> 1 + nlen pl < 2 ^ 32 -> whole (lebytes 4 (1 + nlen pl) ++ ty :: pl).
Proof.
  intros ty pl Ht Hp Hl. exists [(ty, pl)]. split.
  - pose proof (framed_cons (1 + nlen pl) ty pl [] [] eq_refl Hl (built_byte ty Ht) Hp framed_nil) as H. rewrite app_nil_r in H. exact H.
  - constructor; [exact Ht|constructor].
Qed.
(* One frame, of that type. *)
Definition one (ty : N) (bs : bytes) : Prop :=
  In ty built_types /\ exists pl, is_bytes pl /\ 1 + nlen pl < 2 ^ 32 /\ bs = lebytes 4 (1 + nlen pl) ++ ty :: pl.
Lemma one_whole : forall ty bs, one ty bs -> whole bs.
Proof. intros ty bs (H & pl & H1 & H2 & ->). apply whole_one; assumption. Qed.
Lemma one_some : forall ty bs, one ty bs -> bs <> [].
Proof.
  intros ty bs (H & pl & H1 & H2 & ->) He. apply (f_equal (@length N)) in He. rewrite app_length in He. cbn [length] in He. lia.
Qed.

Definition laid (w : bool) (ty : N) (Q S : Prop) (W : N) (f : enc) : Prop :=
  (exists bs, one ty bs /\ nlen bs <= 8 + W /\ good w f bs) \/ (bad w f Q False /\ ~ S) \/
  (bigm w f /\ 2 ^ 31 <= W /\ (W < 2 ^ 61 -> exists bs, nlen bs <= 8 + W /\ good w f bs)).

Lemma laid_ext : forall w ty Q S W f g, same w f g -> laid w ty Q S W f -> laid w ty Q S W g.
Proof.
  intros w ty Q S W f g He [(bs & H1 & H4 & H3)|[[Hb Hs]|[Hb [Hs Hx]]]].
  - left. exists bs. repeat (split; [assumption|]). exact (good_ext _ _ _ _ He H3).
  - right. left. split; [exact (bad_ext _ _ _ _ _ He Hb)|exact Hs].
  - right. right. split; [exact (bigm_ext _ _ _ He Hb)|]. split; [exact Hs|].
    intros Hw. destruct (Hx Hw) as (bs & Hl & Hg). exists bs. split; [exact Hl|exact (good_ext _ _ _ _ He Hg)].
Qed.
Lemma laid_weaken : forall w ty (Q Q' S S' : Prop) W W' f,
  (Q' -> Q) -> (S' -> S) -> W <= W' -> laid w ty Q S W f -> laid w ty Q' S' W' f.
Proof.
  intros w ty Q Q' S S' W W' f HQ HS HW [(bs & H1 & H4 & H3)|[[[B1 B2] Hs]|[Hb [Hs Hx]]]].
  - left. exists bs. split; [assumption|]. split; [lia|assumption].
  - right. left. split; [|auto]. split; [exact B1|]. intros q E HE p. destruct (B2 (HQ q) E HE p) as (r & e & Hr & Hl).
    exists r, e. split; [exact Hr|]. intros [].
  - right. right. split; [exact Hb|]. split; [lia|].
    intros Hw. destruct Hx as (bs & Hl & Hg); [lia|]. exists bs. split; [lia|exact Hg].
Qed.

(* An encoder that appends a frame. *)
Lemma laid_good : forall w Q S W (g : enc) ty bs, In ty built_types -> is_bytes bs -> nlen bs <= W ->
  good w g (lebytes 4 (1 + nlen bs) ++ ty :: bs) -> laid w ty Q S W g.
Proof.
  intros w Q S W g ty bs Ht Hr HW Hgood.
  assert (Hn : nlen (lebytes 4 (1 + nlen bs) ++ ty :: bs) = 5 + nlen bs) by (rewrite nlen_app, (nlen_cons ty); unfold nlen at 1; rewrite lebytes_length; lia).
  destruct (N.lt_ge_cases (1 + nlen bs) (2 ^ 32)) as [Hl|Hl].
  - left. eexists. split; [split; [exact Ht|]; exists bs; repeat (split; [assumption|]); reflexivity|]. split; [lia|exact Hgood].
  - right. right. split; [|split; [lia|intros _; eexists; split; [|exact Hgood]; lia]].
    intros E HE p q Hq. destruct (Hgood E HE p) as [sp Hq']. rewrite Hq' in Hq. apply ok_fst in Hq. subst q.
    unfold len. cbn [data]. rewrite app_length, nlen_app. split; lia.
Qed.
Lemma laid_emits : forall w Q S W (f : forall E : Env, slice -> res slice) ty pl,
  (forall E, @emits (f E) (lebytes 4 (1 + nlen pl) ++ ty :: pl)) -> In ty built_types -> is_bytes pl -> nlen pl <= W ->
  laid w ty Q S W (fun E p => okm (f E p)).
Proof.
  intros w Q S W f ty pl Hf Ht Hp HW. apply (laid_good w Q S W _ ty pl Ht Hp HW).
  intros E HE p. destruct (Hf E p) as [sp Hq]. exists sp. unfold okm. rewrite Hq. reflexivity.
Qed.

Lemma patched_laid : forall w ty Q S W f K, In ty built_types -> layh w ty Q K S W f -> laid w ty Q S W (patched f).
Proof.
  intros w ty Q S W f K Ht [(bs & H1 & H4 & H3)|[[[B1 B2] Hs]|[Hb Hs]]].
  - apply (laid_good w Q S W _ ty bs Ht H1 H4). intros E HE p. destruct (H3 E HE p) as (h & sp & Hh & Hq). exists sp. unfold patched. rewrite Hq. cbn [bind].
    rewrite patch_ok by (assumption || reflexivity). rewrite nlen_cons. reflexivity.
  - right. left. split; [|exact Hs]. split.
    + intros E HE p q. unfold patched. specialize (B1 E HE p). destruct (f E p) as [[r [e|]]|]; cbn [bind]; try discriminate.
      exfalso. apply (B1 r). reflexivity.
    + intros q E HE p. unfold patched. destruct (B2 q E HE p) as (r & e & -> & Hl). cbn [bind]. exists r, e. split; [reflexivity|]. intros [].
  - right. right. split; [|split; lia]. intros E HE p q. unfold patched. specialize (Hb E HE p). destruct (f E p) as [[r [e|]]|]; cbn [bind]; try discriminate.
    unfold okm. destruct (patch_length r (len p)) as [r'|] eqn:Hr; cbn [bind]; [|discriminate]. intros Hq. injection Hq as <-.
    destruct (Hb r eq_refl). apply patch_len in Hr. unfold len, nlen in *. split; lia.
Qed.
Lemma patched_anyway_laid : forall w ty Q S W f, In ty built_types -> layh w ty Q True S W f -> laid w ty Q S W (patched_anyway f).
Proof.
  intros w ty Q S W f Ht [(bs & H1 & H4 & H3)|[[[B1 B2] Hs]|[Hb Hs]]].
  - apply (laid_good w Q S W _ ty bs Ht H1 H4). intros E HE p. destruct (H3 E HE p) as (h & sp & Hh & Hq). exists sp. unfold patched_anyway. rewrite Hq. cbn [bind].
    rewrite patch_ok by (assumption || reflexivity). rewrite nlen_cons. reflexivity.
  - right. left. split; [|exact Hs]. split.
    + intros E HE p q. unfold patched_anyway. specialize (B1 E HE p). destruct (f E p) as [[r [e|]]|]; cbn [bind]; try discriminate.
      * destruct (patch_length r (len p)); discriminate.
      * exfalso. apply (B1 r). reflexivity.
    + intros q E HE p. unfold patched_anyway. destruct (B2 q E HE p) as (r & e & -> & Hl). cbn [bind].
      destruct (patch_some r (len p) (Hl I)) as [r' ->]. cbn [bind]. exists r', e. split; [reflexivity|]. intros [].
  - right. right. split; [|split; lia]. intros E HE p q. unfold patched_anyway. specialize (Hb E HE p). destruct (f E p) as [[r e]|]; cbn [bind]; try discriminate.
    destruct (patch_length r (len p)) as [r'|] eqn:Hr; cbn [bind]; [|discriminate]. intros Hq. injection Hq as <- ->.
    destruct (Hb r eq_refl). apply patch_len in Hr. unfold len, nlen in *. split; lia.
Qed.

Ltac is_built := cbn; tauto.

Lemma head_layh : forall w ty Q K S W (m : forall E : Env, slice -> res slice) bs,
  (forall E, emitsh (m E) (ty :: bs)) -> is_bytes bs -> nlen bs <= W -> layh w ty Q K S W (fun E p => okm (m E p)).
Proof.
  intros w ty Q K S W m bs Hm Hr HW. left. exists bs. repeat (split; [assumption|]).
  intros E HE p. destruct (Hm E p) as (h & sp & Hh & Hp). exists h, sp. split; [assumption|]. unfold okm. rewrite Hp. reflexivity.
Qed.

Lemma update_layh : forall w name cr, go_string name -> opt (well_formed_fun w) cr ->
  layh w 19 (True /\ opt panic_free_fun cr) True (True /\ opt fun_accepted cr) (name_weight name + criteria_weight cr) (fun E p => msg_update p name cr).
Proof.
  intros w name cr Hn Hc.
  apply layh_ext with (seq (fun E p => okm (update_head name p)) (fun E p => match cr with None => Ok (p, None) | Some f => run_fun f p 4 end)).
  { intros E HE p. rewrite update_eq. unfold seq, okm. destruct (update_head name p); reflexivity. }
  apply layh_seq; [eapply heads_layh; apply update_head_heads; assumption|apply criteria_lays; [lia|assumption]].
Qed.

Lemma call_laid : forall w dis c, typed_call w c -> laid w (call_type c) (call_quiet c) (call_accepted c) (call_weight c) (run_call dis c).
Proof.
  intros w dis [stmt args|id stmt|id args|id|name cols rows|name cols ops e|name cr set|name cr ops e|name cr] H; cbn [typed_call call_type call_quiet call_accepted call_weight] in *;
    unfold run_call.
  - destruct H as [[Hb Hl] Ha].
    apply laid_ext with (patched (seq (fun E p => okm (stmt_head stmt p)) (fun E p => append_args 2 args p))).
    { intros E HE p. rewrite stmt_execute_eq. unfold patched, seq, okm. destruct (stmt_head stmt p); reflexivity. }
    eapply laid_weaken with (Q := True /\ Forall panic_free args) (S := True /\ Forall arg_accepted args); [auto|auto|apply N.le_refl|].
    apply (patched_laid w 12 _ _ _ _ False); [is_built|]. apply layh_seq; [|apply lays_message; apply args_lays; [lia|assumption]].
    eapply head_layh; [intros E; apply stmt_head_ok; lia|apply plen_bytes; [lia|lia|assumption]|].
    pose proof (nlen_plen 1 stmt ltac:(lia)). unfold name_weight. lia.
  - destruct H as [Hi [Hb Hl]]. pose proof (nlen_plen 1 stmt ltac:(lia)) as L1.
    pose proof (nlen_plen 6 (plen 1 stmt) ltac:(lia)). pose proof (nlen_pvar 1 5 ltac:(lia)). pose proof (nlen_pvar 1 id ltac:(lia)).
    pose proof (nlen_app (pvar 1 5) (plen 6 (plen 1 stmt))). pose proof (nlen_plen 2 (pvar 1 5 ++ plen 6 (plen 1 stmt)) ltac:(lia)).
    apply (laid_emits w _ _ _ (fun E p => msg_prepare p id stmt) 40 (pprepare id stmt)); [intros E; apply prepare_ok; assumption|is_built| |].
    + unfold pprepare. apply app_bytes; [apply pvar_bytes; lia|]. apply plen_bytes; [lia|lia|].
      apply app_bytes; [apply pvar_bytes; lia|]. apply plen_bytes; [lia|lia|]. apply plen_bytes; [lia|lia|assumption].
    + unfold pprepare, name_weight. rewrite nlen_app. lia.
  - destruct H as [Hi Ha].
    apply laid_ext with (patched (seq (fun E p => okm (execute_head id p)) (fun E p => append_args 2 args p))).
    { intros E HE p. rewrite execute_eq. unfold patched, seq, okm. destruct (execute_head id p); reflexivity. }
    eapply laid_weaken with (Q := True /\ Forall panic_free args) (S := True /\ Forall arg_accepted args); [auto|auto|apply N.le_refl|].
    apply (patched_laid w 41 _ _ _ _ False); [is_built|]. apply layh_seq; [|apply lays_message; apply args_lays; [lia|assumption]].
    eapply head_layh; [intros E; apply execute_head_ok; lia|apply pvar_bytes; lia|]. pose proof (nlen_pvar 1 id ltac:(lia)). lia.
  - apply (laid_emits w _ _ _ (fun E p => msg_deallocate p id) 42 (pvar 1 id)); [intros E; apply deallocate_ok; assumption|is_built|apply pvar_bytes; lia|].
    pose proof (nlen_pvar 1 id ltac:(lia)). lia.
  - destruct H as (Hn & Hc & Hr).
    apply laid_ext with (patched (seq (fun E p => okm (msg_insert p name cols)) (fun E p => insert_rows (length cols) 0 rows p))).
    { intros E HE p. unfold do_insert, patched, seq, okm. destruct (msg_insert p name cols); reflexivity. }
    eapply laid_weaken with (Q := True /\ Forall (Forall panic_free) rows)
      (S := True /\ Forall (fun row => length row = length cols /\ Forall expr_accepted row) rows); [auto|auto|apply N.le_refl|].
    apply (patched_laid w 18 _ _ _ _ True); [is_built|]. apply layh_seq; [eapply heads_layh; apply insert_head_heads; assumption|apply rows_lays; assumption].
  - destruct H as (Hn & Hc & Hr).
    apply laid_ext with (patched_anyway (seq (fun E p => okm (msg_insert p name cols)) (fun E p => run_iops dis ops p None))).
    { intros E HE p. unfold do_insert_f, patched_anyway, seq, okm. destruct (msg_insert p name cols); reflexivity. }
    eapply laid_weaken with (Q := True /\ Forall iop_quiet ops) (S := True /\ Forall iop_accepted ops); [auto|auto|apply N.le_refl|].
    apply (patched_anyway_laid w 18); [is_built|]. apply layh_seq; [eapply heads_layh; apply insert_head_heads; assumption|apply iops_lays; assumption].
  - destruct H as (Hn & Hc & Hs).
    apply laid_ext with (patched (seq (fun E p => msg_update p name cr) (fun E p => update_sets set p))).
    { intros E HE p. unfold do_update, patched, seq. destruct (msg_update p name cr) as [[q [e|]]|]; reflexivity. }
    eapply laid_weaken with (Q := (True /\ opt panic_free_fun cr) /\ Forall (fun kv => panic_free (snd kv)) set)
      (S := (True /\ opt fun_accepted cr) /\ Forall (fun kv => expr_accepted (snd kv)) set); [tauto|tauto|apply N.le_refl|].
    apply (patched_laid w 19 _ _ _ _ True); [is_built|]. apply layh_seq; [apply update_layh; assumption|apply sets_lays; assumption].
  - destruct H as (Hn & Hc & Hs).
    apply laid_ext with (patched_anyway (seqx (fun E p => msg_update p name cr) (fun E p => run_uops dis ops p None) (fun E q e => run_uops dis ops q (Some e)))).
    { intros E HE p. unfold do_update_f, patched_anyway, seqx. destruct (msg_update p name cr) as [[q [e'|]]|]; reflexivity. }
    eapply laid_weaken with (Q := (True /\ opt panic_free_fun cr) /\ Forall uop_quiet ops)
      (S := (True /\ opt fun_accepted cr) /\ Forall uop_accepted ops); [tauto|tauto|apply N.le_refl|].
    apply (patched_anyway_laid w 19); [is_built|].
    eapply layh_seqx; [apply layh_seq; [apply update_layh; assumption|apply uops_lays; eassumption]| | |].
    + intros E q e'. apply uops_error.
    + intros [_ Hq] E q e'. apply uops_error_quiet. assumption.
    + intros H. exact H.
  - destruct H as (Hn & Hc).
    apply laid_ext with (patched_anyway (seq (fun E p => okm (delete_head name p)) (fun E p => match cr with None => Ok (p, None) | Some f => run_fun f p 3 end))).
    { intros E HE p. rewrite delete_eq. unfold patched_anyway, seq, okm. destruct (delete_head name p); reflexivity. }
    eapply laid_weaken with (Q := True /\ opt panic_free_fun cr) (S := True /\ opt fun_accepted cr); [tauto|tauto|apply N.le_refl|].
    apply (patched_anyway_laid w 20); [is_built|]. apply layh_seq; [eapply heads_layh; apply delete_head_heads; assumption|apply criteria_lays; [lia|assumption]].
Qed.

Lemma typed_row_laid : forall w name cols row, go_string name -> Forall go_string cols -> typed_values w row ->
  laid w 18 (Forall panic_free row) (Forall expr_accepted row) (row_size name cols row)
    (patched (seq (fun E p => okm (msg_insert p name cols)) (fun E p => append_insert_row p row))).
Proof.
  intros w name cols row Hn Hc Hr.
  eapply laid_weaken; [intros H; exact (conj I H)|intros H; exact (conj I H)|apply N.le_refl|].
  apply (patched_laid w 18 _ _ _ _ True); [is_built|]. apply layh_seq; [eapply heads_layh; apply insert_head_heads; assumption|apply row_lays; assumption].
Qed.

Lemma open_laid : forall w op Q S W, op < 2 -> 512 <= W -> laid w 24 Q S W (fun E p => okm (expect_open p op [ONoError true])).
Proof.
  intros w op Q S W Ho HW. pose proof (nlen_pvar 1 op ltac:(lia)).
  apply (laid_emits w _ _ _ (fun E p => expect_open p op [ONoError true]) 24 (popen op [ONoError true])); [|is_built| |].
  - intros E. apply expect_open_ok; [lia|]. repeat constructor.
  - unfold popen. cbn [map concat]. rewrite app_nil_r. apply app_bytes; [apply pvar_bytes; lia|]. repeat (constructor; [reflexivity|]). constructor.
  - unfold popen. cbn [map concat]. rewrite app_nil_r, nlen_app. change (nlen (pcond (ONoError true))) with 7. lia.
Qed.
Lemma close_laid : forall w Q S W, laid w 25 Q S W (fun E p => Ok (expect_close p, None)).
Proof.
  intros w Q S W. apply (laid_emits w _ _ _ (fun E p => Ok (expect_close p)) 25 []); [|is_built|constructor|apply N.le_0_l].
  intros E. apply expect_close_ok.
Qed.
