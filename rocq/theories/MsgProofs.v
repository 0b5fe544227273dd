(* Every builder call appends one message that says what the call stands for, or fails. *)
From Coq Require Import List NArith ZArith Arith Bool Lia ZifyN ZifyNat ZifyBool.
From Verif Require Import Base GoSlice SliceProofs Varint VarintProofs Chunks SpecWire SpecMsg WireProofs Pure
  Text Values AnyModel ExprModel MsgModel AnyProofs StringProofs HeaderProofs SpecValue ValueProofs HeadProofs Builder SpecProg.
Import ListNotations.
Open Scope N_scope.

Ltac Zify.zify_post_hook ::= Z.div_mod_to_equations.

(* ---- combinators ---- *)

Lemma ok_fst : forall {A B} (a c : A) (b d : B), Ok (a, b) = Ok (c, d) -> a = c.
Proof. congruence. Qed.

(* Only succeeds with 4 GiB of data or more. *)
Definition bigm (w : bool) (f : enc) : Prop :=
  forall E, @word32 E = w -> forall p q, f E p = Ok (q, None) -> (len p <= len q)%nat /\ 2 ^ 32 <= nlen (data q).
(* S: everything is accepted; W: a bound for the size. *)
Definition parts (w : bool) (H : fields -> Prop) (Q K S : Prop) (W : N) (f : enc) : Prop :=
  (exists bs fs, reads bs fs /\ H fs /\ nlen bs <= W /\ good w f bs) \/ (bad w f Q K /\ ~ S) \/ (bigm w f /\ 2 ^ 61 <= W).

(* The same after four bytes that are overwritten later. *)
Definition goodh (w : bool) (f : enc) (bs : bytes) : Prop :=
  forall E, @word32 E = w -> forall p, exists h sp, length h = 4%nat /\ f E p = Ok (mk (data p ++ h ++ bs) sp, None).
Definition badh (w : bool) (f : enc) (Q K : Prop) : Prop :=
  (forall E, @word32 E = w -> forall p q, f E p <> Ok (q, None)) /\
  (Q -> forall E, @word32 E = w -> forall p, exists q e, f E p = Ok (q, Some e) /\ (K -> len p + 4 <= len q)%nat).
Definition heads (w : bool) (ty : N) (H : fields -> Prop) (Q K S : Prop) (W : N) (f : enc) : Prop :=
  (exists bs fs, reads bs fs /\ H fs /\ nlen bs <= W /\ goodh w f (ty :: bs)) \/ (badh w f Q K /\ ~ S) \/ (bigm w f /\ 2 ^ 61 <= W).

Definition seq (f g : enc) : enc := fun E p =>
  do (q, e) <- f E p; match e with Some e => Ok (q, Some e) | None => g E q end.
Definition both (H1 H2 : fields -> Prop) (fs : fields) : Prop := exists f1 f2, fs = f1 ++ f2 /\ H1 f1 /\ H2 f2.

Definition same (w : bool) (f g : enc) : Prop := forall E, @word32 E = w -> forall p, f E p = g E p.

Lemma bigm_ext : forall w f g, same w f g -> bigm w f -> bigm w g.
Proof. intros w f g He H E HE p q. rewrite <- He by assumption. apply H. assumption. Qed.
Lemma parts_ext : forall w H Q K S W f g, same w f g -> parts w H Q K S W f -> parts w H Q K S W g.
Proof.
  intros w H Q K S W f g He [(bs & fs & H1 & H2 & H4 & H3)|[[Hb Hs]|[Hb Hs]]].
  - left. exists bs, fs. repeat (split; [assumption|]). exact (good_ext _ _ _ _ He H3).
  - right. left. split; [exact (bad_ext _ _ _ _ _ He Hb)|exact Hs].
  - right. right. split; [exact (bigm_ext _ _ _ He Hb)|exact Hs].
Qed.
Lemma heads_ext : forall w ty H Q K S W f g, same w f g -> heads w ty H Q K S W f -> heads w ty H Q K S W g.
Proof.
  intros w ty H Q K S W f g He [(bs & fs & H1 & H2 & H4 & H3)|[[[B1 B2] Hs]|[Hb Hs]]].
  - left. exists bs, fs. repeat (split; [assumption|]). intros E HE p. rewrite <- He by assumption. apply H3. assumption.
  - right. left. split; [|exact Hs]. split.
    + intros E HE p. rewrite <- He by assumption. apply B1. assumption.
    + intros q E HE p. rewrite <- He by assumption. apply B2; assumption.
  - right. right. split; [exact (bigm_ext _ _ _ He Hb)|exact Hs].
Qed.
Lemma parts_weaken : forall w (H H' : fields -> Prop) (Q Q' K K' S S' : Prop) W W' f,
  (forall fs, H fs -> H' fs) -> (Q' -> Q) -> (K' -> K) -> (S' -> S) -> W <= W' -> parts w H Q K S W f -> parts w H' Q' K' S' W' f.
Proof.
  intros w H H' Q Q' K K' S S' W W' f HH HQ HK HS HW [(bs & fs & H1 & H2 & H4 & H3)|[[[B1 B2] Hs]|[Hb Hs]]].
  - left. exists bs, fs. split; [assumption|]. split; [auto|]. split; [lia|assumption].
  - right. left. split; [|auto]. split; [exact B1|]. intros q E HE p. destruct (B2 (HQ q) E HE p) as (r & e & Hr & Hl).
    exists r, e. split; [exact Hr|]. auto.
  - right. right. split; [exact Hb|lia].
Qed.

Lemma outcome_parts : forall {A} (dec : bytes -> option A) w tag D Q K S W f, outcome dec w tag D Q K S W f ->
  parts w (fun fs => exists x pl, fs = [(tag, WLen pl)] /\ dec pl = Some x /\ D x) Q K S W f.
Proof.
  intros A dec w tag D Q K S W f [(x & bs & pl & H1 & H2 & H3 & [H4 H6] & H5)|[H|[H HW]]].
  - left. exists bs, [(tag, WLen pl)]. split; [assumption|]. split; [exists x, pl; auto|]. split; assumption.
  - right. left. exact H.
  - right. right. split; [|lia]. intros E HE p q Hq. destruct (H E HE p q Hq). split; [assumption|lia].
Qed.

Lemma parts_seq : forall w H1 H2 Q1 Q2 K S1 S2 W1 W2 f g, parts w H1 Q1 K S1 W1 f -> parts w H2 Q2 K S2 W2 g ->
  parts w (both H1 H2) (Q1 /\ Q2) K (S1 /\ S2) (W1 + W2) (seq f g).
Proof.
  intros w H1 H2 Q1 Q2 K S1 S2 W1 W2 f g [(b1 & f1 & F1 & F2 & FW & F3)|[[[F1 F2] FS]|[F FW]]] Hg.
  - destruct Hg as [(b2 & f2 & G1 & G2 & GW & G3)|[[[G1 G2] GS]|[G GW]]].
    + left. exists (b1 ++ b2), (f1 ++ f2). split; [apply reads_app; assumption|]. split; [exists f1, f2; auto|]. split; [rewrite nlen_app; lia|].
      intros E HE p. unfold seq. destruct (F3 E HE p) as [sp ->]. cbn [bind].
      destruct (G3 E HE (mk (data p ++ b1) sp)) as [sp' ->]. exists sp'. cbn [data]. rewrite app_assoc. reflexivity.
    + right. left. split; [|tauto]. split.
      * intros E HE p q. unfold seq. destruct (F3 E HE p) as [sp ->]. cbn [bind]. apply G1. assumption.
      * intros [_ q2] E HE p. unfold seq. destruct (F3 E HE p) as [sp ->]. cbn [bind].
        destruct (G2 q2 E HE (mk (data p ++ b1) sp)) as (q & e & Hq & Hl). exists q, e. split; [exact Hq|]. intros k. specialize (Hl k).
        unfold len in *. cbn [data] in Hl. rewrite app_length in Hl. lia.
    + right. right. split; [|lia]. intros E HE p q. unfold seq. destruct (F3 E HE p) as [sp ->]. cbn [bind]. intros Hq.
      destruct (G E HE _ _ Hq) as [L1 L2]. split; [|exact L2]. unfold len in L1 |- *. cbn [data] in L1. rewrite app_length in L1. lia.
  - right. left. split; [|tauto]. split.
    + intros E HE p q. unfold seq. specialize (F1 E HE p). destruct (f E p) as [[r [e|]]|]; cbn [bind]; try discriminate.
      exfalso. apply (F1 r). reflexivity.
    + intros [q1 _] E HE p. unfold seq. destruct (F2 q1 E HE p) as (r & e & -> & Hl). cbn [bind]. eauto.
  - right. right. split; [|lia]. intros E HE p q. unfold seq. specialize (F E HE p).
    destruct (f E p) as [[r [e|]]|]; cbn [bind]; try discriminate. intros Hq. destruct (F r eq_refl) as [L1 L2].
    destruct Hg as [(b2 & f2 & G1 & G2 & GW & G3)|[[[G1 G2] GS]|[G GW]]].
    + destruct (G3 E HE r) as [sp Hp]. rewrite Hp in Hq. injection Hq as <-. unfold len in *. cbn [data]. rewrite app_length, nlen_app. split; lia.
    + exfalso. exact (G1 E HE r q Hq).
    + destruct (G E HE _ _ Hq) as [L3 L4]. split; [lia|assumption].
Qed.

Lemma heads_seq : forall w ty H1 H2 Q1 Q2 K S1 S2 W1 W2 f g, heads w ty H1 Q1 K S1 W1 f -> parts w H2 Q2 K S2 W2 g ->
  heads w ty (both H1 H2) (Q1 /\ Q2) K (S1 /\ S2) (W1 + W2) (seq f g).
Proof.
  intros w ty H1 H2 Q1 Q2 K S1 S2 W1 W2 f g [(b1 & f1 & F1 & F2 & FW & F3)|[[[F1 F2] FS]|[F FW]]] Hg.
  - destruct Hg as [(b2 & f2 & G1 & G2 & GW & G3)|[[[G1 G2] GS]|[G GW]]].
    + left. exists (b1 ++ b2), (f1 ++ f2). split; [apply reads_app; assumption|]. split; [exists f1, f2; auto|]. split; [rewrite nlen_app; lia|].
      intros E HE p. unfold seq. destruct (F3 E HE p) as (h & sp & Hh & ->). cbn [bind].
      destruct (G3 E HE (mk (data p ++ h ++ ty :: b1) sp)) as [sp' ->]. exists h, sp'. split; [exact Hh|].
      cbn [data app]. rewrite <- !app_assoc. reflexivity.
    + right. left. split; [|tauto]. split.
      * intros E HE p q. unfold seq. destruct (F3 E HE p) as (h & sp & Hh & ->). cbn [bind]. apply G1. assumption.
      * intros [_ q2] E HE p. unfold seq. destruct (F3 E HE p) as (h & sp & Hh & ->). cbn [bind].
        destruct (G2 q2 E HE (mk (data p ++ h ++ ty :: b1) sp)) as (q & e & Hq & Hl). exists q, e. split; [exact Hq|]. intros k. specialize (Hl k).
        unfold len in *. cbn [data] in Hl. rewrite !app_length in Hl. lia.
    + right. right. split; [|lia]. intros E HE p q. unfold seq. destruct (F3 E HE p) as (h & sp & Hh & ->). cbn [bind]. intros Hq.
      destruct (G E HE _ _ Hq) as [L1 L2]. split; [|exact L2]. unfold len in L1 |- *. cbn [data] in L1. rewrite app_length in L1. lia.
  - right. left. split; [|tauto]. split.
    + intros E HE p q. unfold seq. specialize (F1 E HE p). destruct (f E p) as [[r [e|]]|]; cbn [bind]; try discriminate.
      exfalso. apply (F1 r). reflexivity.
    + intros [q1 _] E HE p. unfold seq. destruct (F2 q1 E HE p) as (r & e & -> & Hl). cbn [bind]. eauto.
  - right. right. split; [|lia]. intros E HE p q. unfold seq. specialize (F E HE p).
    destruct (f E p) as [[r [e|]]|]; cbn [bind]; try discriminate. intros Hq. destruct (F r eq_refl) as [L1 L2].
    destruct Hg as [(b2 & f2 & G1 & G2 & GW & G3)|[[[G1 G2] GS]|[G GW]]].
    + destruct (G3 E HE r) as [sp Hp]. rewrite Hp in Hq. injection Hq as <-. unfold len in *. cbn [data]. rewrite app_length, nlen_app. split; lia.
    + exfalso. exact (G1 E HE r q Hq).
    + destruct (G E HE _ _ Hq) as [L3 L4]. split; [lia|assumption].
Qed.

Lemma heads_emits : forall w ty (H : fields -> Prop) Q K S W (m : forall E : Env, slice -> res slice) bs fs,
  (forall E, emitsh (m E) (ty :: bs)) -> reads bs fs -> H fs -> nlen bs <= W -> heads w ty H Q K S W (fun E p => okm (m E p)).
Proof.
  intros w ty H Q K S W m bs fs Hm Hr HH HW. left. exists bs, fs. repeat (split; [assumption|]).
  intros E HE p. destruct (Hm E p) as (h & sp & Hh & Hp). exists h, sp. split; [assumption|]. unfold okm. rewrite Hp. reflexivity.
Qed.

Lemma parts_nothing : forall w (H : fields -> Prop) Q K S W, H [] -> parts w H Q K S W (fun E p => Ok (p, None)).
Proof.
  intros w H Q K S W HH. left. exists [], []. split; [apply reads_nil|]. split; [assumption|]. split; [cbn; lia|].
  intros E HE p. exists (spare p). rewrite app_nil_r. destruct p; reflexivity.
Qed.
Lemma parts_error : forall w H (Q K S : Prop) W (f : enc) e, ~ S -> (forall E p, f E p = Ok (p, Some e)) -> parts w H Q K S W f.
Proof.
  intros w H Q K S W f e HS He. right. left. split; [|exact HS]. split.
  - intros E HE p q. rewrite He. discriminate.
  - intros _ E HE p. rewrite He. exists p, e. split; [reflexivity|]. intros _. lia.
Qed.

(* ---- whole messages ---- *)

(* The bytes are one or more whole frames that say ms. *)
Definition says (bs : bytes) (ms : list msg) : Prop :=
  exists fs, framed bs fs /\ Forall2 (fun f m => dmsg (fst f) (snd f) = Some m) fs ms.

Lemma says_nil : says [] [].
Proof. exists []. split; [apply framed_nil|constructor]. Qed.
Lemma says_app : forall a b ma mb, says a ma -> says b mb -> says (a ++ b) (ma ++ mb).
Proof.
  intros a b ma mb (fa & A1 & A2) (fb & B1 & B2). exists (fa ++ fb). split; [apply framed_app; assumption|apply Forall2_app; assumption].
Qed.
Lemma says_dstream : forall bs ms, says bs ms -> dstream bs = Some ms.
Proof.
  intros bs ms (fs & Hf & Hm). unfold dstream. rewrite (framed_dframes _ _ Hf). cbn [obind]. apply omap_Forall2. exact Hm.
Qed.
Lemma says_one : forall ty pl m, ty < 256 -> is_bytes pl -> 1 + nlen pl < 2 ^ 32 -> dmsg ty pl = Some m ->
  says (lebytes 4 (1 + nlen pl) ++ ty :: pl) [m].
Proof.
  intros ty pl m Ht Hp Hl Hm. exists [(ty, pl)]. split.
  - pose proof (framed_cons (1 + nlen pl) ty pl [] [] eq_refl Hl Ht Hp framed_nil) as H. rewrite app_nil_r in H. exact H.
  - constructor; [exact Hm|constructor].
Qed.

Definition msg_outcome (w : bool) (D : msg -> Prop) (Q S : Prop) (W : N) (f : enc) : Prop :=
  (exists m bs, D m /\ says bs [m] /\ nlen bs <= 8 + W /\ good w f bs) \/ (bad w f Q False /\ ~ S) \/
  (bigm w f /\ 2 ^ 31 <= W /\ (W < 2 ^ 61 -> exists bs, nlen bs <= 8 + W /\ good w f bs)).

Lemma msg_outcome_ext : forall w D Q S W f g, same w f g -> msg_outcome w D Q S W f -> msg_outcome w D Q S W g.
Proof.
  intros w D Q S W f g He [(m & bs & H1 & H2 & H4 & H3)|[[Hb Hs]|[Hb [Hs Hx]]]].
  - left. exists m, bs. repeat (split; [assumption|]). exact (good_ext _ _ _ _ He H3).
  - right. left. split; [exact (bad_ext _ _ _ _ _ He Hb)|exact Hs].
  - right. right. split; [exact (bigm_ext _ _ _ He Hb)|]. split; [exact Hs|].
    intros Hw. destruct (Hx Hw) as (bs & Hl & Hg). exists bs. split; [exact Hl|exact (good_ext _ _ _ _ He Hg)].
Qed.
Lemma msg_outcome_weaken : forall w (D D' : msg -> Prop) (Q Q' S S' : Prop) W W' f,
  (forall m, D m -> D' m) -> (Q' -> Q) -> (S' -> S) -> W <= W' -> msg_outcome w D Q S W f -> msg_outcome w D' Q' S' W' f.
Proof.
  intros w D D' Q Q' S S' W W' f HD HQ HS HW [(m & bs & H1 & H2 & H4 & H3)|[[[B1 B2] Hs]|[Hb [Hs Hx]]]].
  - left. exists m, bs. split; [auto|]. split; [assumption|]. split; [lia|assumption].
  - right. left. split; [|auto]. split; [exact B1|]. intros q E HE p. destruct (B2 (HQ q) E HE p) as (r & e & Hr & Hl).
    exists r, e. split; [exact Hr|]. intros [].
  - right. right. split; [exact Hb|]. split; [lia|].
    intros Hw. destruct Hx as (bs & Hl & Hg); [lia|]. exists bs. split; [lia|exact Hg].
Qed.

Lemma msg_emits : forall w (D : msg -> Prop) Q S W (f : forall E : Env, slice -> res slice) ty pl m,
  (forall E, @emits (f E) (lebytes 4 (1 + nlen pl) ++ ty :: pl)) -> ty < 256 -> is_bytes pl -> dmsg ty pl = Some m -> D m -> nlen pl <= W ->
  msg_outcome w D Q S W (fun E p => okm (f E p)).
Proof.
  intros w D Q S W f ty pl m Hf Ht Hp Hm HD HW.
  assert (Hg : good w (fun E p => okm (f E p)) (lebytes 4 (1 + nlen pl) ++ ty :: pl)).
  { intros E HE p. destruct (Hf E p) as [sp Hq]. exists sp. unfold okm. rewrite Hq. reflexivity. }
  destruct (N.lt_ge_cases (1 + nlen pl) (2 ^ 32)) as [Hl|Hl].
  - left. exists m. eexists. split; [exact HD|]. split; [apply says_one; eassumption|]. split; [|exact Hg].
    rewrite nlen_app, (nlen_cons ty). unfold nlen at 1. rewrite lebytes_length. lia.
  - right. right. split; [|split; [lia|intros _; eexists; split; [|exact Hg]; rewrite nlen_app, (nlen_cons ty); unfold nlen at 1; rewrite lebytes_length; lia]].
    intros E HE p q H. destruct (Hg E HE p) as [sp Hq]. rewrite Hq in H. apply ok_fst in H. subst q.
    unfold len. cbn [data]. rewrite app_length, !nlen_app, (nlen_cons ty). split; [lia|]. lia.
Qed.

(* Patching the frame length after success. *)
Definition patched (f : enc) : enc := fun E p =>
  do (q, e) <- f E p; match e with Some e => Ok (q, Some e) | None => okm (patch_length q (len p)) end.
(* Patching it in any case. *)
Definition patched_anyway (f : enc) : enc := fun E p =>
  do (q, e) <- f E p; do q <- patch_length q (len p); Ok (q, e).

Section Patched.
Variables (w : bool) (ty : N) (H : fields -> Prop) (D : msg -> Prop) (Q S : Prop) (W : N) (f : enc).
Hypothesis Ht : ty < 256.
Hypothesis Hdec : forall fs, H fs -> exists m, D m /\ forall pl, dfields pl = Some fs -> dmsg ty pl = Some m.

Lemma good_patched : forall bs fs (g : enc), reads bs fs -> H fs -> nlen bs <= W -> goodh w f (ty :: bs) ->
  (forall E p h sp, f E p = Ok (mk (data p ++ h ++ ty :: bs) sp, None) -> length h = 4%nat ->
     g E p = Ok (mk (data p ++ lebytes 4 (1 + nlen bs) ++ ty :: bs) sp, None)) ->
  msg_outcome w D Q S W g.
Proof using Ht Hdec.
  intros bs fs g Hr HH HW Hg Hp.
  assert (Hgood : good w g (lebytes 4 (1 + nlen bs) ++ ty :: bs)).
  { intros E HE p. destruct (Hg E HE p) as (h & sp & Hh & Hq). exists sp. apply (Hp E p h sp Hq Hh). }
  destruct (Hdec fs HH) as (m & HD & Hm).
  destruct (N.lt_ge_cases (1 + nlen bs) (2 ^ 32)) as [Hl|Hl].
  - left. exists m. eexists. split; [exact HD|]. split; [|split; [|exact Hgood]].
    + apply says_one; [assumption|apply Hr|assumption|]. apply Hm. apply Hr.
    + rewrite nlen_app, (nlen_cons ty). unfold nlen at 1. rewrite lebytes_length. lia.
  - right. right. split; [|split; [lia|intros _; eexists; split; [|exact Hgood]; rewrite nlen_app, (nlen_cons ty); unfold nlen at 1; rewrite lebytes_length; lia]].
    intros E HE p q Hq. destruct (Hgood E HE p) as [sp Hq']. rewrite Hq' in Hq. apply ok_fst in Hq. subst q.
    unfold len. cbn [data]. rewrite app_length, !nlen_app, (nlen_cons ty). split; lia.
Qed.

Lemma patched_outcome : forall K, heads w ty H Q K S W f -> msg_outcome w D Q S W (patched f).
Proof using Ht Hdec.
  intros K [(bs & fs & H1 & H2 & H4 & H3)|[[[B1 B2] Hs]|[Hb Hs]]].
  - apply (good_patched bs fs _ H1 H2 H4 H3). intros E p h sp Hq Hh. unfold patched. rewrite Hq. cbn [bind].
    rewrite patch_ok by (assumption || reflexivity). rewrite nlen_cons. reflexivity.
  - right. left. split; [|exact Hs]. split.
    + intros E HE p q. unfold patched. specialize (B1 E HE p). destruct (f E p) as [[r [e|]]|]; cbn [bind]; try discriminate.
      exfalso. apply (B1 r). reflexivity.
    + intros q E HE p. unfold patched. destruct (B2 q E HE p) as (r & e & -> & Hl). cbn [bind]. exists r, e. split; [reflexivity|]. intros [].
  - right. right. split; [|split; lia]. intros E HE p q. unfold patched. specialize (Hb E HE p). destruct (f E p) as [[r [e|]]|]; cbn [bind]; try discriminate.
    unfold okm. destruct (patch_length r (len p)) as [r'|] eqn:Hr; cbn [bind]; [|discriminate]. intros Hq. injection Hq as <-.
    destruct (Hb r eq_refl). apply patch_len in Hr. unfold len, nlen in *. split; lia.
Qed.

Lemma patched_anyway_outcome : heads w ty H Q True S W f -> msg_outcome w D Q S W (patched_anyway f).
Proof using Ht Hdec.
  intros [(bs & fs & H1 & H2 & H4 & H3)|[[[B1 B2] Hs]|[Hb Hs]]].
  - apply (good_patched bs fs _ H1 H2 H4 H3). intros E p h sp Hq Hh. unfold patched_anyway. rewrite Hq. cbn [bind].
    rewrite patch_ok by (assumption || reflexivity). rewrite nlen_cons. reflexivity.
  - right. left. split; [|exact Hs]. split.
    + intros E HE p q. unfold patched_anyway. specialize (B1 E HE p). destruct (f E p) as [[r [e|]]|]; cbn [bind]; try discriminate.
      * destruct (patch_length r (len p)); discriminate.
      * exfalso. apply (B1 r). reflexivity.
    + intros q E HE p. unfold patched_anyway. destruct (B2 q E HE p) as (r & e & -> & Hl). cbn [bind].
      destruct (patch_some r (len p) (Hl I)) as [r' ->]. cbn [bind]. exists r', e. split; [reflexivity|]. intros [].
  - right. right. split; [|split; lia]. intros E HE p q. unfold patched_anyway. specialize (Hb E HE p). destruct (f E p) as [[r e]|]; cbn [bind]; try discriminate.
    destruct (patch_length r (len p)) as [r'|] eqn:Hr; cbn [bind]; [|discriminate]. intros Hq. injection Hq as <- ->.
    destruct (Hb r eq_refl). apply patch_len in Hr. unfold len, nlen in *. split; lia.
Qed.
End Patched.

(* ---- repeated fields ---- *)

Definition one {A B} (tag : N) (dec : bytes -> option B) (D : A -> B -> Prop) (x : A) (fs : fields) : Prop :=
  exists y pl, fs = [(tag, WLen pl)] /\ dec pl = Some y /\ D x y.
Definition many {A B} (tag : N) (dec : bytes -> option B) (D : A -> B -> Prop) (xs : list A) (fs : fields) : Prop :=
  exists ys pls, fs = lens tag pls /\ Forall2 (fun pl y => dec pl = Some y) pls ys /\ Forall2 D xs ys.

Lemma many_nil : forall {A B} tag (dec : bytes -> option B) (D : A -> B -> Prop), many tag dec D [] [].
Proof. intros. exists [], []. split; [reflexivity|]. split; constructor. Qed.
Lemma many_cons : forall {A B} tag (dec : bytes -> option B) (D : A -> B -> Prop) x xs fs,
  both (one tag dec D x) (many tag dec D xs) fs -> many tag dec D (x :: xs) fs.
Proof.
  intros A B tag dec D x xs fs (f1 & f2 & -> & (y & pl & -> & H1 & H2) & (ys & pls & -> & H3 & H4)).
  exists (y :: ys), (pl :: pls). split; [reflexivity|]. split; constructor; assumption.
Qed.

Lemma outcomes_parts : forall {A B} (dec : bytes -> option B) w tag (D : A -> B -> Prop) Q K S W xs f,
  outcomes dec w tag D Q K S W xs f -> parts w (many tag dec D xs) (all Q xs) K (all S xs) (total_weight W xs) f.
Proof.
  intros A B dec w tag D Q K S W xs f [(ys & bs & pls & H1 & H2 & H3 & H5 & H4)|[H|[H HW]]].
  - left. exists bs, (lens tag pls). split; [assumption|]. split; [exists ys, pls; auto|]. split; assumption.
  - right. left. exact H.
  - right. right. split; [|lia]. intros E HE p q Hq. destruct (H E HE p q Hq). split; [assumption|lia].
Qed.

Lemma args_parts : forall w tag args, 0 < tag < 16 -> values_ok w args ->
  parts w (many tag dany any_denotes args) (Forall panic_free args) False (Forall arg_accepted args) (total_weight weight args)
    (fun E p => append_args tag args p).
Proof.
  intros w tag args Ht Ha. unfold append_args.
  apply parts_weaken with (many tag dany any_denotes args) (all panic_free args) False (all arg_accepted args) (total_weight weight args); auto;
    [intros H; apply all_Forall; exact H|intros H; apply all_Forall; exact H|lia|].
  apply outcomes_parts. apply (each_outcomes dany w tag any_denotes panic_free False arg_accepted weight (fun E v p => append_any v p tag)).
  apply Forall_forall. intros v Hv. unfold values_ok in Ha. rewrite Forall_forall in Ha. destruct (Ha v Hv). apply any_outcome; assumption.
Qed.

(* ---- rows ---- *)

Lemma row_parts : forall w row, values_ok w row ->
  parts w (one 4 drow (Forall2 expr_denotes) row) (Forall panic_free row) True (Forall expr_accepted row) (row_weight row)
    (fun E p => append_insert_row p row).
Proof.
  intros w row Hw.
  assert (Ho : outcomes dexpr w 1 expr_denotes panic_free True expr_accepted weight row
    (fun E p => each (fun v p => append_expr v p tagTypedRowField) EColumnErr 0 row p)).
  { apply (each_outcomes dexpr w 1 expr_denotes panic_free True expr_accepted weight (fun E v p => append_expr v p 1)).
    apply Forall_forall. intros v Hv. unfold values_ok in Hw. rewrite Forall_forall in Hw. destruct (Hw v Hv). apply expr_outcome; [lia|assumption..]. }
  destruct Ho as [(es & bs & pls & H1 & H2 & H3 & H5 & H4)|[[[B1 B2] Hs]|[Hb Hs]]]; unfold row_weight.
  - destruct (N.lt_ge_cases (nlen bs) (2 ^ 62)) as [Hl|Hl].
    + left. exists (plen 4 bs), [(4, WLen bs)]. split; [apply reads_plen; [lia|lia|apply H2]|]. split.
      * exists es, bs. split; [reflexivity|]. split; [|exact H1]. unfold drow. rewrite (proj2 H2). cbn [obind].
        rewrite only_lens by reflexivity. rewrite all_of_lens. apply omap_lens. exact H3.
      * split; [pose proof (nlen_plen 4 bs ltac:(lia)); lia|]. intros E HE p. rewrite insert_row_eq. cbv zeta. destruct (append_spec p [34; 0; 0]) as [sp ->].
        destruct (H4 E HE (mk (data p ++ [34; 0; 0]) sp)) as [sp' ->]. cbn [bind data]. rewrite <- app_assoc.
        destruct (row_fix_ok (data p) bs sp' (len (mk (data p ++ [34; 0; 0]) sp)) Hl) as [sp2 Hr].
        { unfold len. cbn [data]. rewrite app_length. reflexivity. }
        rewrite Hr. exists sp2. reflexivity.
    + right. right. split; [|lia]. intros E HE p q Hq. rewrite insert_row_eq in Hq. cbv zeta in Hq. destruct (append_spec p [34; 0; 0]) as [sp Ha].
      rewrite Ha in Hq. destruct (H4 E HE (mk (data p ++ [34; 0; 0]) sp)) as [sp' Hp]. rewrite Hp in Hq. cbn [bind data] in Hq.
      unfold okm in Hq. destruct (row_fix _ _) as [r|] eqn:Hr; [|discriminate]. injection Hq as <-.
      apply row_fix_len in Hr; unfold len, nlen in *; cbn [data] in *; rewrite !app_length in *; cbn [length] in *; lia.
  - right. left. split; [|rewrite all_Forall in Hs; exact Hs]. split.
    + intros E HE p q. rewrite insert_row_eq. cbv zeta. specialize (B1 E HE (append p [34; 0; 0])).
      destruct (each _ _ _ _ _) as [[r [e|]]|]; cbn [bind]; try discriminate. exfalso. apply (B1 r). reflexivity.
    + intros q E HE p. rewrite insert_row_eq. cbv zeta. apply all_Forall in q.
      destruct (B2 q E HE (append p [34; 0; 0])) as (r & e & -> & Hl). cbn [bind]. exists r, e. split; [reflexivity|].
      intros _. specialize (Hl I). rewrite len_append in Hl. lia.
  - right. right. split; [|lia]. intros E HE p q. rewrite insert_row_eq. cbv zeta. specialize (Hb E HE (append p [34; 0; 0])). cbv beta in Hb.
    destruct (each _ _ _ _ _) as [[r [e|]]|]; cbn [bind]; try discriminate. destruct (Hb r eq_refl) as [L1 L2].
    unfold okm. destruct (row_fix _ _) as [r'|] eqn:Hr; [|discriminate]. intros Hq. injection Hq as <-.
    rewrite len_append in *. cbn [length] in *. apply row_fix_len in Hr; [|lia]. unfold len, nlen in *. lia.
Qed.

Lemma rows_parts : forall w ncols rows i, Forall (values_ok w) rows ->
  parts w (fun fs => many 4 drow (Forall2 expr_denotes) rows fs /\ Forall (fun row => length row = ncols) rows)
    (Forall (Forall panic_free) rows) True (Forall (fun row => length row = ncols /\ Forall expr_accepted row) rows)
    (total_weight row_weight rows) (fun E p => insert_rows ncols i rows p).
Proof.
  intros w ncols rows i H. revert i. induction H as [|row rows Hr H IH]; intros i.
  - cbn [insert_rows]. apply parts_nothing. split; [apply many_nil|constructor].
  - cbn [insert_rows]. destruct (Nat.eqb_spec (length row) ncols) as [Hl|Hl].
    + eapply parts_weaken; [| | | | |exact (parts_seq w _ _ _ _ True _ _ _ _ _ _ (row_parts w row Hr) (IH (S i)))].
      * intros fs (f1 & f2 & -> & H1 & H2 & H3). split; [apply many_cons; exists f1, f2; auto|constructor; assumption].
      * intros Hq. inversion Hq; subst. auto.
      * auto.
      * intros Hq. inversion Hq as [|? ? [? ?] ?]; subst. auto.
      * rewrite total_cons. lia.
    + apply parts_error with (ERowLen i ncols (length row)); [|reflexivity].
      intros Hq. inversion Hq as [|? ? [? ?] ?]; subst. contradiction.
Qed.

Lemma iops_error : forall E dis ops p e, @run_iops E dis ops p (Some e) = Ok (p, Some e) \/ @run_iops E dis ops p (Some e) = Panic.
Proof.
  intros E dis ops. induction ops as [|[row|lvl] ops IH]; intros p e; cbn [run_iops]; [auto|apply IH|].
  unfold use_outer. destruct (nth_error dis lvl) as [[]|]; cbn [bind]; auto.
Qed.
Lemma iops_error_quiet : forall E dis ops p e, Forall iop_quiet ops -> @run_iops E dis ops p (Some e) = Ok (p, Some e).
Proof.
  intros E dis ops p e H. induction H as [|o ops Ho H IH]; [reflexivity|]. destruct o as [row|lvl]; [exact IH|destruct Ho].
Qed.
Lemma uops_error : forall E dis ops p e, @run_uops E dis ops p (Some e) = Ok (p, Some e) \/ @run_uops E dis ops p (Some e) = Panic.
Proof.
  intros E dis ops. induction ops as [|[row v|lvl] ops IH]; intros p e; cbn [run_uops]; [auto|apply IH|].
  unfold use_outer. destruct (nth_error dis lvl) as [[]|]; cbn [bind]; auto.
Qed.
Lemma uops_error_quiet : forall E dis ops p e, Forall uop_quiet ops -> @run_uops E dis ops p (Some e) = Ok (p, Some e).
Proof.
  intros E dis ops p e H. induction H as [|o ops Ho H IH]; [reflexivity|]. destruct o as [row v|lvl]; [exact IH|destruct Ho].
Qed.

(* Replacing how an error is passed on: by something that panics or keeps the error. *)
Definition seqx (f g : enc) (k : forall E : Env, slice -> err -> res (slice * option err)) : enc := fun E p =>
  do (q, e) <- f E p; match e with Some e => k E q e | None => g E q end.

Lemma seqx_bad : forall w f g k (Q Q' K : Prop), bad w (seq f g) Q K ->
  (forall E q e, k E q e = Ok (q, Some e) \/ k E q e = Panic) -> (Q' -> forall E q e, k E q e = Ok (q, Some e)) -> (Q' -> Q) ->
  bad w (seqx f g k) Q' K.
Proof.
  intros w f g k Q Q' K [B1 B2] Hk HQ' HQ. split.
  - intros E HE p q. specialize (B1 E HE p q). unfold seq, seqx in *. destruct (f E p) as [[r [e|]]|]; cbn [bind] in *; try discriminate; [|assumption].
    destruct (Hk E r e) as [->| ->]; discriminate.
  - intros q E HE p. destruct (B2 (HQ q) E HE p) as (r & e & Hr & Hl). unfold seq, seqx in *.
    destruct (f E p) as [[r' [e'|]]|]; cbn [bind] in *; try discriminate; [|eauto]. rewrite (HQ' q). eauto.
Qed.
Lemma seqx_good : forall w f g k bs, good w (seq f g) bs -> good w (seqx f g k) bs.
Proof.
  intros w f g k bs H E HE p. destruct (H E HE p) as [sp Hp]. exists sp. unfold seq, seqx in *.
  destruct (f E p) as [[r [e|]]|]; cbn [bind] in *; try discriminate. exact Hp.
Qed.
Lemma seqx_goodh : forall w f g k bs, goodh w (seq f g) bs -> goodh w (seqx f g k) bs.
Proof.
  intros w f g k bs H E HE p. destruct (H E HE p) as (h & sp & Hh & Hp). exists h, sp. split; [exact Hh|]. unfold seq, seqx in *.
  destruct (f E p) as [[r [e|]]|]; cbn [bind] in *; try discriminate. exact Hp.
Qed.
Lemma seqx_big : forall w f g k, (forall E q e, k E q e = Ok (q, Some e) \/ k E q e = Panic) -> bigm w (seq f g) -> bigm w (seqx f g k).
Proof.
  intros w f g k Hk H E HE p q. specialize (H E HE p q). unfold seq, seqx in *.
  destruct (f E p) as [[r [e|]]|]; cbn [bind] in *; try discriminate; [|exact H]. destruct (Hk E r e) as [->| ->]; discriminate.
Qed.
Lemma seqx_badh : forall w f g k (Q Q' K : Prop), badh w (seq f g) Q K ->
  (forall E q e, k E q e = Ok (q, Some e) \/ k E q e = Panic) -> (Q' -> forall E q e, k E q e = Ok (q, Some e)) -> (Q' -> Q) ->
  badh w (seqx f g k) Q' K.
Proof.
  intros w f g k Q Q' K [B1 B2] Hk HQ' HQ. split.
  - intros E HE p q. specialize (B1 E HE p q). unfold seq, seqx in *. destruct (f E p) as [[r [e|]]|]; cbn [bind] in *; try discriminate; [|assumption].
    destruct (Hk E r e) as [->| ->]; discriminate.
  - intros q E HE p. destruct (B2 (HQ q) E HE p) as (r & e & Hr & Hl). unfold seq, seqx in *.
    destruct (f E p) as [[r' [e'|]]|]; cbn [bind] in *; try discriminate; [|eauto]. rewrite (HQ' q). eauto.
Qed.
Lemma parts_seqx : forall w H (Q Q' K S : Prop) W f g k, parts w H Q K S W (seq f g) ->
  (forall E q e, k E q e = Ok (q, Some e) \/ k E q e = Panic) -> (Q' -> forall E q e, k E q e = Ok (q, Some e)) -> (Q' -> Q) ->
  parts w H Q' K S W (seqx f g k).
Proof.
  intros w H Q Q' K S W f g k [(bs & fs & H1 & H2 & H4 & H3)|[[Hb Hs]|[Hb Hs]]] Hk HQ' HQ.
  - left. exists bs, fs. repeat (split; [assumption|]). apply seqx_good. assumption.
  - right. left. split; [exact (seqx_bad _ _ _ _ _ _ _ Hb Hk HQ' HQ)|exact Hs].
  - right. right. split; [apply seqx_big; assumption|exact Hs].
Qed.
Lemma heads_seqx : forall w ty H (Q Q' K S : Prop) W f g k, heads w ty H Q K S W (seq f g) ->
  (forall E q e, k E q e = Ok (q, Some e) \/ k E q e = Panic) -> (Q' -> forall E q e, k E q e = Ok (q, Some e)) -> (Q' -> Q) ->
  heads w ty H Q' K S W (seqx f g k).
Proof.
  intros w ty H Q Q' K S W f g k [(bs & fs & H1 & H2 & H4 & H3)|[[Hb Hs]|[Hb Hs]]] Hk HQ' HQ.
  - left. exists bs, fs. repeat (split; [assumption|]). apply seqx_goodh. assumption.
  - right. left. split; [exact (seqx_badh _ _ _ _ _ _ _ Hb Hk HQ' HQ)|exact Hs].
  - right. right. split; [apply seqx_big; assumption|exact Hs].
Qed.

(* A use of an outer builder changes nothing, or panics. *)
Lemma parts_outer : forall w H (Q Q' S S' : Prop) W K dis lvl (f : enc), parts w H Q K S W f -> (Q' -> False) -> (S' -> False) ->
  parts w H Q' K S' W (fun E p => do _ <- use_outer dis lvl; f E p).
Proof.
  intros w H Q Q' S S' W K dis lvl f Hf HQ HS. destruct (use_outer dis lvl) as [[]|]; cbn [bind].
  - eapply parts_weaken; [| | | | |exact Hf]; auto; [intros q; destruct (HQ q)|intros s; destruct (HS s)|lia].
  - right. left. split; [|exact HS]. split; [discriminate|]. intros q. destruct (HQ q).
Qed.

Lemma iops_parts : forall w dis ops, Forall (values_ok w) (rows_of ops) ->
  parts w (many 4 drow (Forall2 expr_denotes) (rows_of ops)) (Forall iop_quiet ops) True (Forall iop_accepted ops)
    (total_weight row_weight (rows_of ops)) (fun E p => run_iops dis ops p None).
Proof.
  intros w dis ops. induction ops as [|[row|lvl] ops IH]; intros H; cbn [rows_of run_iops] in *.
  - apply parts_nothing. apply many_nil.
  - inversion H as [|? ? Hr Hrs]; subst.
    apply (parts_ext w _ _ _ _ _ (seqx (fun E p => append_insert_row p row) (fun E p => run_iops dis ops p None) (fun E q e => run_iops dis ops q (Some e)))).
    { intros E HE p. unfold seqx. destruct (append_insert_row p row) as [[q [e|]]|]; reflexivity. }
    eapply parts_seqx.
    + eapply parts_weaken; [|intros q; exact q|intros k; exact k| | |exact (parts_seq w _ _ _ _ True _ _ _ _ _ _ (row_parts w row Hr) (IH Hrs))].
      * intros fs Hfs. apply many_cons. exact Hfs.
      * intros Hq. inversion Hq; subst. auto.
      * rewrite total_cons. lia.
    + intros E q e. apply iops_error.
    + intros Hq E q e. inversion Hq; subst. apply iops_error_quiet. assumption.
    + intros Hq. inversion Hq; subst. auto.
  - apply (parts_outer w _ (Forall iop_quiet ops) _ (Forall iop_accepted ops)); [apply IH; assumption| |]; intros Hq; inversion Hq; subst; assumption.
Qed.

(* ---- sets ---- *)

Lemma set_parts : forall w name v, go_string name -> well_formed w v -> no_known_defect w v ->
  parts w (one 7 dset set_denotes (name, v)) (panic_free v) True (expr_accepted v) (set_weight (name, v))
    (fun E p => append_update_set p name v).
Proof.
  intros w name v [Hb Hn] Hw Hc.
  assert (Ho : outcome dexpr w 3 (expr_denotes v) (panic_free v) True (expr_accepted v) (weight v) (fun E p => append_expr v p tagUpdateOperationValue))
    by (apply expr_outcome; [unfold tagUpdateOperationValue; lia|assumption..]).
  unfold append_update_set. cbv zeta.
  destruct Ho as [(x & bs & pl & H1 & H2 & H3 & [H4 H6] & H5)|[[[B1 B2] Hs]|[Hbig Hs]]]; unfold set_weight; cbn [fst snd].
  - left. destruct (reads_plen 2 name ltac:(lia) ltac:(lia) Hb) as [R1 R2]. pose proof (nlen_plen 2 name ltac:(lia)).
    pose proof (reads_app _ _ _ _ (reads_plen 1 (plen 2 name) ltac:(lia) ltac:(lia) R1)
      (reads_app _ _ _ _ (reads_pvar 2 1 ltac:(lia) ltac:(lia)) H2)) as R3.
    pose proof (nlen_plen 1 (plen 2 name) ltac:(lia)). pose proof (nlen_pvar 2 1 ltac:(lia)).
    exists (pset name bs), [(7, WLen (plen 1 (plen 2 name) ++ pvar 2 1 ++ bs))]. split.
    { apply reads_plen; [lia|szs; lia|apply R3]. }
    split.
    + exists (name, x). eexists. split; [reflexivity|]. split; [|split; [reflexivity|exact H1]].
      unfold dset. rewrite (proj2 R3). cbn -[plen dfields dexpr dname]. unfold dname. rewrite R2. cbn -[plen dfields dexpr]. unfold dsub. cbn [as_len obind].
      rewrite H3. reflexivity.
    + split; [unfold pset; pose proof (nlen_plen 7 (plen 1 (plen 2 name) ++ pvar 2 1 ++ bs)); rewrite !nlen_app in *; lia|]. intros E HE p. destruct (H5 E HE p) as [sp ->]. cbn [bind].
      destruct (set_header_ok (data p) bs sp name Hn H4) as [sp' Hs]. exists sp'. unfold okm, len. rewrite Hs. reflexivity.
  - right. left. split; [|exact Hs]. split.
    + intros E HE p q. specialize (B1 E HE p). destruct (append_expr _ _ _) as [[q' [e|]]|]; cbn [bind]; try discriminate.
      exfalso. apply (B1 q'). reflexivity.
    + intros q E HE p. destruct (B2 q E HE p) as (r & e & -> & Hl). cbn [bind]. eauto.
  - right. right. split; [|lia]. intros E HE p q H. specialize (Hbig E HE p). cbv beta in Hbig. destruct (append_expr _ _ _) as [[q' [e|]]|]; cbn [bind] in H; try discriminate.
    destruct (Hbig q' eq_refl) as [L1 L2]. unfold okm in H. destruct (set_header q' (len p) name) as [q2|] eqn:Hq; [|discriminate].
    injection H as <-. apply set_header_len in Hq. unfold len, nlen in *. lia.
Qed.

Lemma sets_parts : forall w set, sets_ok w set ->
  parts w (many 7 dset set_denotes set) (Forall (fun kv => panic_free (snd kv)) set) True (Forall (fun kv => expr_accepted (snd kv)) set)
    (total_weight set_weight set) (fun E p => update_sets set p).
Proof.
  intros w set. induction set as [|[k v] set IH]; intros [H1 H2]; cbn [update_sets].
  - apply parts_nothing. apply many_nil.
  - cbn [map snd] in H2. inversion H1; subst. inversion H2 as [|? ? [Hv1 Hv2] H2']; subst. cbn [fst] in *.
    eapply parts_weaken; [| | | | |exact (parts_seq w _ _ _ _ True _ _ _ _ _ _ (set_parts w k v ltac:(assumption) Hv1 Hv2) (IH ltac:(split; assumption)))].
    + intros fs Hfs. apply many_cons. exact Hfs.
    + intros Hq. inversion Hq; subst. auto.
    + auto.
    + intros Hq. inversion Hq; subst. auto.
    + rewrite total_cons. lia.
Qed.

Lemma uops_parts : forall w dis ops, sets_ok w (sets_of ops) ->
  parts w (many 7 dset set_denotes (sets_of ops)) (Forall uop_quiet ops) True (Forall uop_accepted ops)
    (total_weight set_weight (sets_of ops)) (fun E p => run_uops dis ops p None).
Proof.
  intros w dis ops. induction ops as [|[name v|lvl] ops IH]; intros H; cbn [sets_of run_uops] in *.
  - apply parts_nothing. apply many_nil.
  - destruct H as [H1 H2]. cbn [map snd] in H2. inversion H1; subst. inversion H2 as [|? ? [Hv1 Hv2] H2']; subst. cbn [fst] in *.
    apply (parts_ext w _ _ _ _ _ (seqx (fun E p => append_update_set p name v) (fun E p => run_uops dis ops p None) (fun E q e => run_uops dis ops q (Some e)))).
    { intros E HE p. unfold seqx. destruct (append_update_set p name v) as [[q [e|]]|]; reflexivity. }
    eapply parts_seqx.
    + eapply parts_weaken; [|intros q; exact q|intros k; exact k| | |exact (parts_seq w _ _ _ _ True _ _ _ _ _ _ (set_parts w name v ltac:(assumption) Hv1 Hv2) (IH ltac:(split; assumption)))].
      * intros fs Hfs. apply many_cons. exact Hfs.
      * intros Hq. inversion Hq; subst. auto.
      * rewrite total_cons. lia.
    + intros E q e. apply uops_error.
    + intros Hq E q e. inversion Hq; subst. apply uops_error_quiet. assumption.
    + intros Hq. inversion Hq; subst. auto.
  - apply (parts_outer w _ (Forall uop_quiet ops) _ (Forall uop_accepted ops)); [apply IH; assumption| |]; intros Hq; inversion Hq; subst; assumption.
Qed.

(* ---- criteria ---- *)

Definition crit (tag : N) (cr : option exprfun) (fs : fields) : Prop :=
  match cr with
  | None => fs = []
  | Some f => exists e pl, fs = [(tag, WLen pl)] /\ dexpr pl = Some e /\ fun_denotes f e
  end.

Lemma criteria_parts : forall w tag cr, 0 < tag < 16 -> opt (fun_ok w) cr ->
  parts w (crit tag cr) (opt panic_free_fun cr) True (opt fun_accepted cr) (criteria_weight cr)
    (fun E p => match cr with None => Ok (p, None) | Some f => run_fun f p tag end).
Proof.
  intros w tag [f|] Ht Hf; cbn [opt crit] in *.
  - destruct Hf as [Hf1 Hf2]. apply outcome_parts. apply fun_outcome; assumption.
  - apply parts_nothing. reflexivity.
Qed.

(* ---- decoding whole messages ---- *)

Ltac field_calc := unfold req_field, opt_field; rewrite ?only_app, ?all_of_app, ?only_lens, ?all_of_lens, ?all_of_lens_other by reflexivity.

Lemma dsub_lens : forall {A} (d : bytes -> option A) pls ys, Forall2 (fun pl y => d pl = Some y) pls ys -> omap (dsub d) (map WLen pls) = Some ys.
Proof. intros A d pls ys H. unfold dsub. apply omap_lens. exact H. Qed.

(* The column list as a part of its own *)
Lemma reads_columns : forall cols, Forall go_string cols -> reads (pcolumns cols) (lens 3 (map (plen 1) cols)).
Proof.
  intros cols H. induction H as [|c cols [Hb Hl] H IH]; [apply reads_nil|].
  unfold pcolumns in *. cbn [map concat]. change (lens 3 (plen 1 c :: map (plen 1) cols)) with ([(3, WLen (plen 1 c))] ++ lens 3 (map (plen 1) cols)).
  apply reads_app; [|exact IH]. pose proof (nlen_plen 1 c ltac:(lia)).
  apply reads_plen; [lia|lia|]. apply (reads_plen 1 c); [lia|lia|assumption].
Qed.
Lemma columns_decode : forall cols, Forall go_string cols ->
  Forall2 (fun pl c => dname 1 pl = Some c) (map (plen 1) cols) cols.
Proof.
  intros cols H. induction H as [|c cols [Hb Hl] H IH]; [constructor|]. cbn [map]. constructor; [|exact IH].
  destruct (reads_plen 1 c ltac:(lia) ltac:(lia) Hb) as [_ R]. unfold dname. rewrite R. reflexivity.
Qed.

Lemma dname_plen : forall n s, 0 < n < 16 -> go_string s -> dname n (plen n s) = Some s.
Proof.
  intros n s Hn [Hb Hl]. destruct (reads_plen n s ltac:(lia) ltac:(lia) Hb) as [_ R]. unfold dname. rewrite R. cbn [obind].
  unfold only, req_field, all_of. cbn [forallb existsb fst filter]. rewrite N.eqb_refl. reflexivity.
Qed.

Lemma nlen_pcolumns : forall cols, Forall go_string cols -> nlen (pcolumns cols) <= total_weight name_weight cols.
Proof.
  intros cols H. induction H as [|c cols [Hb Hl] H IH]; [reflexivity|].
  unfold pcolumns in *. cbn [map concat]. rewrite total_cons, nlen_app. pose proof (nlen_plen 1 c ltac:(lia)).
  pose proof (nlen_plen 3 (plen 1 c) ltac:(lia)). unfold name_weight at 1. lia.
Qed.

Lemma insert_head_heads : forall w name cols Q K S, go_string name -> Forall go_string cols ->
  heads w 18 (fun fs => fs = [(1, WLen (plen 1 name))] ++ [(2, WVarint 2)] ++ lens 3 (map (plen 1) cols)) Q K S
    (name_weight name + total_weight name_weight cols) (fun E p => okm (msg_insert p name cols)).
Proof.
  intros w name cols Q K S [Hb Hl] Hc. eapply heads_emits; [| |reflexivity|].
  - intros E. apply insert_head_ok; [assumption|]. eapply Forall_impl; [|exact Hc]. intros c [_ H]. exact H.
  - pose proof (nlen_plen 1 name ltac:(lia)). destruct (reads_plen 1 name ltac:(lia) ltac:(lia) Hb) as [R1 _].
    apply reads_app; [apply reads_plen; [lia|lia|assumption]|]. apply reads_app; [apply reads_pvar; lia|]. apply reads_columns. assumption.
  - pose proof (nlen_pcolumns cols Hc). pose proof (nlen_plen 1 name ltac:(lia)). pose proof (nlen_plen 1 (plen 1 name) ltac:(lia)).
    pose proof (nlen_pvar 2 2 ltac:(lia)). rewrite !nlen_app. unfold name_weight at 1. lia.
Qed.

Lemma insert_decode : forall name cols rows, go_string name -> Forall go_string cols ->
  forall fs, both (fun fs => fs = [(1, WLen (plen 1 name))] ++ [(2, WVarint 2)] ++ lens 3 (map (plen 1) cols))
    (many 4 drow (Forall2 expr_denotes) rows) fs ->
  exists ess, Forall2 (Forall2 expr_denotes) rows ess /\
    forall pl, dfields pl = Some fs -> dmsg 18 pl = Some (MInsert name (Some table_model) cols ess).
Proof.
  intros name cols rows Hn Hc fs (f1 & f2 & -> & -> & (ess & pls & -> & H1 & H2)). exists ess. split; [assumption|].
  intros pl Hpl. cbn [dmsg]. unfold dinsert. rewrite Hpl. cbn [obind].
  field_calc. cbn -[plen omap dname drow]. rewrite dname_plen by (lia || assumption). cbn -[plen omap dname drow].
  rewrite ?app_nil_r, (dsub_lens _ _ _ (columns_decode cols Hc)). cbn [obind]. rewrite (dsub_lens _ _ _ H1). reflexivity.
Qed.

Lemma update_head_heads : forall w name Q K S, go_string name ->
  heads w 19 (fun fs => fs = [(2, WLen (plen 1 name))] ++ [(3, WVarint 2)]) Q K S (name_weight name) (fun E p => okm (update_head name p)).
Proof.
  intros w name Q K S [Hb Hl]. eapply heads_emits; [| |reflexivity|].
  - intros E. apply update_head_ok; assumption.
  - pose proof (nlen_plen 1 name ltac:(lia)). destruct (reads_plen 1 name ltac:(lia) ltac:(lia) Hb) as [R1 _].
    apply reads_app; [apply reads_plen; [lia|lia|assumption]|]. apply reads_pvar; lia.
  - pose proof (nlen_plen 1 name ltac:(lia)). pose proof (nlen_plen 2 (plen 1 name) ltac:(lia)).
    pose proof (nlen_pvar 3 2 ltac:(lia)). rewrite !nlen_app. unfold name_weight. lia.
Qed.

Lemma update_decode : forall name cr sets, go_string name ->
  forall fs, both (both (fun fs => fs = [(2, WLen (plen 1 name))] ++ [(3, WVarint 2)]) (crit 4 cr)) (many 7 dset set_denotes sets) fs ->
  exists c ss, criteria_denotes cr c /\ Forall2 set_denotes sets ss /\
    forall pl, dfields pl = Some fs -> dmsg 19 pl = Some (MUpdate name (Some table_model) c ss).
Proof.
  intros name cr sets Hn fs (f12 & f3 & -> & (f1 & f2 & -> & -> & Hcr) & (ss & pls & -> & H1 & H2)).
  assert (Hc : exists c, criteria_denotes cr c /\ only [2; 3; 4; 7] f2 = true /\ all_of 2 f2 = [] /\ all_of 3 f2 = [] /\ all_of 7 f2 = [] /\
    match all_of 4 f2 with [] => c = None | [WLen b] => exists e, c = Some e /\ dexpr b = Some e | _ => False end).
  { destruct cr as [f|]; cbn [crit] in Hcr.
    - destruct Hcr as (e & pl & -> & Hd & Hf). exists (Some e). split; [constructor; assumption|]. repeat (split; [reflexivity|]). cbn. eauto.
    - subst f2. exists None. split; [constructor|]. repeat (split; [reflexivity|]). reflexivity. }
  destruct Hc as (c & Hc1 & Ho & A2 & A3 & A7 & A4). exists c, ss. split; [assumption|]. split; [assumption|].
  intros pl Hpl. cbn [dmsg]. unfold dupdate. rewrite Hpl. cbn [obind].
  field_calc. rewrite Ho, A2, A3, A7. cbn -[plen omap dname dset dexpr]. rewrite dname_plen by (lia || assumption). cbn -[plen omap dname dset dexpr].
  rewrite (dsub_lens _ _ _ H1). rewrite app_nil_r. destruct (all_of 4 f2) as [|[n|b|b|b] [|x r]]; try contradiction.
  - subst c. reflexivity.
  - destruct A4 as (e & -> & He). cbn -[dexpr]. unfold dsub. cbn [as_len obind]. rewrite He. reflexivity.
Qed.

Lemma delete_head_heads : forall w name Q K S, go_string name ->
  heads w 20 (fun fs => fs = [(1, WLen (plen 1 name))]) Q K S (name_weight name) (fun E p => okm (delete_head name p)).
Proof.
  intros w name Q K S [Hb Hl]. eapply heads_emits; [| |reflexivity|].
  - intros E. apply delete_head_ok; assumption.
  - pose proof (nlen_plen 1 name ltac:(lia)). destruct (reads_plen 1 name ltac:(lia) ltac:(lia) Hb) as [R1 _].
    apply reads_plen; [lia|lia|assumption].
  - pose proof (nlen_plen 1 name ltac:(lia)). pose proof (nlen_plen 1 (plen 1 name) ltac:(lia)). unfold name_weight. lia.
Qed.

Lemma delete_decode : forall name cr, go_string name ->
  forall fs, both (fun fs => fs = [(1, WLen (plen 1 name))]) (crit 3 cr) fs ->
  exists c, criteria_denotes cr c /\ forall pl, dfields pl = Some fs -> dmsg 20 pl = Some (MDelete name None c).
Proof.
  intros name cr Hn fs (f1 & f2 & -> & -> & Hcr). destruct cr as [f|]; cbn [crit] in Hcr.
  - destruct Hcr as (e & b & -> & Hd & Hf). exists (Some e). split; [constructor; assumption|].
    intros pl Hpl. cbn [dmsg]. unfold ddelete. rewrite Hpl. cbn -[plen dname dexpr].
    rewrite dname_plen by (lia || assumption). cbn -[dexpr]. unfold dsub. cbn [as_len obind]. rewrite Hd. reflexivity.
  - subst f2. exists None. split; [constructor|].
    intros pl Hpl. cbn [dmsg]. unfold ddelete. rewrite Hpl. cbn -[plen dname dexpr].
    rewrite dname_plen by (lia || assumption). reflexivity.
Qed.

(* ---- one call, one message ---- *)

Lemma stmt_outcome : forall w stmt args, go_string stmt -> values_ok w args ->
  msg_outcome w (call_denotes (CStmtExecute stmt args)) (Forall panic_free args) (call_accepted (CStmtExecute stmt args)) (call_weight (CStmtExecute stmt args)) (fun E p => stmt_execute p stmt args).
Proof.
  intros w stmt args [Hb Hl] Ha.
  apply msg_outcome_ext with (patched (seq (fun E p => okm (stmt_head stmt p)) (fun E p => append_args 2 args p))).
  { intros E HE p. rewrite stmt_execute_eq. unfold patched, seq, okm. destruct (stmt_head stmt p); reflexivity. }
  eapply msg_outcome_weaken with (D := call_denotes (CStmtExecute stmt args)) (Q := True /\ Forall panic_free args) (S := True /\ Forall arg_accepted args); [auto|auto| | |]; [cbn; auto|apply N.le_refl|].
  apply (patched_outcome w 12 (both (fun fs => fs = [(1, WLen stmt)]) (many 2 dany any_denotes args)) _ _ _ _ _ ltac:(lia)) with False.
  - intros fs (f1 & f2 & -> & -> & (ss & pls & -> & H1 & H2)). exists (MStmtExecute stmt ss). split; [constructor; assumption|].
    intros pl Hpl. cbn [dmsg]. unfold dstmt_execute. rewrite Hpl. cbn [obind]. field_calc. cbn -[omap dany].
    rewrite (dsub_lens _ _ _ H1). reflexivity.
  - apply heads_seq; [|apply args_parts; [lia|assumption]].
    eapply heads_emits; [| |reflexivity|]; [intros E; apply stmt_head_ok; lia|apply reads_plen; [lia|lia|assumption]|].
    pose proof (nlen_plen 1 stmt ltac:(lia)). unfold name_weight. lia.
Qed.

Lemma execute_outcome : forall w id args, id < 2 ^ 32 -> values_ok w args ->
  msg_outcome w (call_denotes (CExecute id args)) (Forall panic_free args) (call_accepted (CExecute id args)) (call_weight (CExecute id args)) (fun E p => msg_execute p id args).
Proof.
  intros w id args Hi Ha.
  apply msg_outcome_ext with (patched (seq (fun E p => okm (execute_head id p)) (fun E p => append_args 2 args p))).
  { intros E HE p. rewrite execute_eq. unfold patched, seq, okm. destruct (execute_head id p); reflexivity. }
  eapply msg_outcome_weaken with (D := call_denotes (CExecute id args)) (Q := True /\ Forall panic_free args) (S := True /\ Forall arg_accepted args); [auto|auto| | |]; [cbn; auto|apply N.le_refl|].
  apply (patched_outcome w 41 (both (fun fs => fs = [(1, WVarint id)]) (many 2 dany any_denotes args)) _ _ _ _ _ ltac:(lia)) with False.
  - intros fs (f1 & f2 & -> & -> & (ss & pls & -> & H1 & H2)). exists (MExecute id ss). split; [constructor; assumption|].
    intros pl Hpl. cbn [dmsg]. unfold dexecute. rewrite Hpl. cbn [obind]. field_calc. cbn -[omap dany N.ltb N.pow].
    unfold du32. cbn [as_varint obind]. destruct (N.ltb_spec id (2 ^ 32)); [|lia]. cbn [obind].
    rewrite (dsub_lens _ _ _ H1). reflexivity.
  - apply heads_seq; [|apply args_parts; [lia|assumption]].
    eapply heads_emits; [| |reflexivity|]; [intros E; apply execute_head_ok; lia|apply reads_pvar; lia|].
    pose proof (nlen_pvar 1 id ltac:(lia)). lia.
Qed.

Lemma prepare_outcome : forall w id stmt Q, id < 2 ^ 32 -> go_string stmt ->
  msg_outcome w (call_denotes (CPrepare id stmt)) Q (call_accepted (CPrepare id stmt)) (call_weight (CPrepare id stmt)) (fun E p => okm (msg_prepare p id stmt)).
Proof.
  intros w id stmt Q Hi [Hb Hl].
  pose proof (nlen_plen 1 stmt ltac:(lia)) as L1. destruct (reads_plen 1 stmt ltac:(lia) ltac:(lia) Hb) as [R1 _].
  pose proof (reads_app _ _ _ _ (reads_pvar 1 5 ltac:(lia) ltac:(lia)) (reads_plen 6 (plen 1 stmt) ltac:(lia) ltac:(lia) R1)) as R2.
  pose proof (nlen_plen 6 (plen 1 stmt) ltac:(lia)). pose proof (nlen_pvar 1 5 ltac:(lia)).
  assert (Hs : nlen (pvar 1 5 ++ plen 6 (plen 1 stmt)) < 2 ^ 64) by (szs; lia).
  pose proof (reads_app _ _ _ _ (reads_pvar 1 id ltac:(lia) ltac:(lia)) (reads_plen 2 _ ltac:(lia) Hs (proj1 R2))) as R3.
  apply (msg_emits w _ _ _ _ _ 40 (pprepare id stmt) (MPrepare id stmt)); [|lia|apply R3| |constructor|].
  - intros E. apply prepare_ok; assumption.
  - cbn [dmsg]. unfold dprepare, pprepare. rewrite (proj2 R3). cbn -[plen pvar dfields dname N.ltb N.pow].
    unfold du32. cbn [as_varint obind]. destruct (N.ltb_spec id (2 ^ 32)); [|lia]. cbn [obind].
    rewrite (proj2 R2). cbn -[plen dname]. rewrite dname_plen by (lia || (split; assumption)). reflexivity.
  - cbn [call_weight]. unfold name_weight, pprepare. pose proof (nlen_plen 2 _ Hs). pose proof (nlen_pvar 1 id ltac:(lia)).
    rewrite !nlen_app in *. lia.
Qed.

Lemma deallocate_outcome : forall w id Q, id < 2 ^ 32 ->
  msg_outcome w (call_denotes (CDeallocate id)) Q (call_accepted (CDeallocate id)) (call_weight (CDeallocate id)) (fun E p => okm (msg_deallocate p id)).
Proof.
  intros w id Q Hi. pose proof (reads_pvar 1 id ltac:(lia) ltac:(lia)) as R.
  apply (msg_emits w _ _ _ _ _ 42 (pvar 1 id) (MDeallocate id)); [|lia|apply R| |constructor|pose proof (nlen_pvar 1 id ltac:(lia)); cbn [call_weight]; lia].
  - intros E. apply deallocate_ok. assumption.
  - cbn [dmsg]. unfold ddeallocate. rewrite (proj2 R). cbn -[N.ltb N.pow].
    unfold du32. cbn [as_varint obind]. destruct (N.ltb_spec id (2 ^ 32)); [|lia]. reflexivity.
Qed.

Lemma insert_outcome : forall w name cols rows, go_string name -> Forall go_string cols -> Forall (values_ok w) rows ->
  msg_outcome w (call_denotes (CInsert name cols rows)) (Forall (Forall panic_free) rows) (call_accepted (CInsert name cols rows)) (call_weight (CInsert name cols rows)) (fun E p => do_insert name cols rows p).
Proof.
  intros w name cols rows Hn Hc Hr.
  apply msg_outcome_ext with (patched (seq (fun E p => okm (msg_insert p name cols)) (fun E p => insert_rows (length cols) 0 rows p))).
  { intros E HE p. unfold do_insert, patched, seq, okm. destruct (msg_insert p name cols); reflexivity. }
  eapply msg_outcome_weaken with (D := call_denotes (CInsert name cols rows)) (Q := True /\ Forall (Forall panic_free) rows)
    (S := True /\ Forall (fun row => length row = length cols /\ Forall expr_accepted row) rows); [auto|auto| | |]; [cbn; auto|apply N.le_refl|].
  eapply (patched_outcome w 18 _ _ _ _ _ _ ltac:(lia)) with True; [|apply heads_seq; [apply insert_head_heads; assumption|apply rows_parts; assumption]].
  intros fs (f1 & f2 & -> & Hf1 & Hf2 & Hlen).
  destruct (insert_decode name cols rows Hn Hc (f1 ++ f2)) as (ess & H1 & H2); [exists f1, f2; auto|].
  exists (MInsert name (Some table_model) cols ess). split; [constructor; assumption|exact H2].
Qed.

Lemma insert_f_outcome : forall w dis name cols ops cberr, go_string name -> Forall go_string cols -> Forall (values_ok w) (rows_of ops) ->
  msg_outcome w (call_denotes (CInsertF name cols ops cberr)) (Forall iop_quiet ops) (call_accepted (CInsertF name cols ops cberr)) (call_weight (CInsertF name cols ops cberr)) (fun E p => do_insert_f dis name cols ops p).
Proof.
  intros w dis name cols ops cberr Hn Hc Hr.
  apply msg_outcome_ext with (patched_anyway (seq (fun E p => okm (msg_insert p name cols)) (fun E p => run_iops dis ops p None))).
  { intros E HE p. unfold do_insert_f, patched_anyway, seq, okm. destruct (msg_insert p name cols); reflexivity. }
  eapply msg_outcome_weaken with (D := call_denotes (CInsertF name cols ops cberr)) (Q := True /\ Forall iop_quiet ops) (S := True /\ Forall iop_accepted ops); [auto|auto| | |]; [cbn; auto|apply N.le_refl|].
  eapply (patched_anyway_outcome w 18 _ _ _ _ _ _ ltac:(lia)); [|apply heads_seq; [apply insert_head_heads; assumption|apply iops_parts; assumption]].
  intros fs Hfs. destruct (insert_decode name cols (rows_of ops) Hn Hc fs Hfs) as (ess & H1 & H2).
  exists (MInsert name (Some table_model) cols ess). split; [constructor; assumption|exact H2].
Qed.

Lemma update_parts : forall w name cr, go_string name -> opt (fun_ok w) cr ->
  heads w 19 (both (fun fs => fs = [(2, WLen (plen 1 name))] ++ [(3, WVarint 2)]) (crit 4 cr)) (True /\ opt panic_free_fun cr) True (True /\ opt fun_accepted cr)
    (name_weight name + criteria_weight cr) (fun E p => msg_update p name cr).
Proof.
  intros w name cr Hn Hc.
  apply heads_ext with (seq (fun E p => okm (update_head name p)) (fun E p => match cr with None => Ok (p, None) | Some f => run_fun f p 4 end)).
  { intros E HE p. rewrite update_eq. unfold seq, okm. destruct (update_head name p); reflexivity. }
  apply heads_seq; [apply update_head_heads; assumption|apply criteria_parts; [lia|assumption]].
Qed.

Lemma update_outcome : forall w name cr set, go_string name -> opt (fun_ok w) cr -> sets_ok w set ->
  msg_outcome w (call_denotes (CUpdate name cr set)) (opt panic_free_fun cr /\ Forall (fun kv => panic_free (snd kv)) set) (call_accepted (CUpdate name cr set)) (call_weight (CUpdate name cr set))
    (fun E p => do_update name cr set p).
Proof.
  intros w name cr set Hn Hc Hs.
  apply msg_outcome_ext with (patched (seq (fun E p => msg_update p name cr) (fun E p => update_sets set p))).
  { intros E HE p. unfold do_update, patched, seq. destruct (msg_update p name cr) as [[q [e|]]|]; reflexivity. }
  eapply msg_outcome_weaken with (D := call_denotes (CUpdate name cr set)) (Q := (True /\ opt panic_free_fun cr) /\ Forall (fun kv => panic_free (snd kv)) set)
    (S := (True /\ opt fun_accepted cr) /\ Forall (fun kv => expr_accepted (snd kv)) set); [auto|tauto| | |]; [cbn; tauto|apply N.le_refl|].
  eapply (patched_outcome w 19 _ _ _ _ _ _ ltac:(lia)) with True; [|apply heads_seq; [apply update_parts; assumption|apply sets_parts; assumption]].
  intros fs Hfs. destruct (update_decode name cr set Hn fs Hfs) as (c & ss & H1 & H2 & H3).
  exists (MUpdate name (Some table_model) c ss). split; [constructor; assumption|exact H3].
Qed.

Lemma update_f_outcome : forall w dis name cr ops cberr, go_string name -> opt (fun_ok w) cr -> sets_ok w (sets_of ops) ->
  msg_outcome w (call_denotes (CUpdateF name cr ops cberr)) (opt panic_free_fun cr /\ Forall uop_quiet ops) (call_accepted (CUpdateF name cr ops cberr)) (call_weight (CUpdateF name cr ops cberr))
    (fun E p => do_update_f dis name cr ops p).
Proof.
  intros w dis name cr ops cberr Hn Hc Hs.
  apply msg_outcome_ext with (patched_anyway (seqx (fun E p => msg_update p name cr) (fun E p => run_uops dis ops p None) (fun E q e => run_uops dis ops q (Some e)))).
  { intros E HE p. unfold do_update_f, patched_anyway, seqx. destruct (msg_update p name cr) as [[q [e|]]|]; reflexivity. }
  eapply msg_outcome_weaken with (D := call_denotes (CUpdateF name cr ops cberr)) (Q := (True /\ opt panic_free_fun cr) /\ Forall uop_quiet ops)
    (S := (True /\ opt fun_accepted cr) /\ Forall uop_accepted ops); [auto|tauto| | |]; [cbn; tauto|apply N.le_refl|].
  eapply (patched_anyway_outcome w 19 _ _ _ _ _ _ ltac:(lia)).
  2: { eapply heads_seqx; [apply heads_seq; [apply update_parts; assumption|apply uops_parts; eassumption]| | |].
       - intros E q e. apply uops_error.
       - intros [_ Hq] E q e. apply uops_error_quiet. assumption.
       - intros H. exact H. }
  intros fs Hfs. destruct (update_decode name cr (sets_of ops) Hn fs Hfs) as (c & ss & H1 & H2 & H3).
  exists (MUpdate name (Some table_model) c ss). split; [constructor; assumption|exact H3].
Qed.

Lemma delete_outcome : forall w name cr, go_string name -> opt (fun_ok w) cr ->
  msg_outcome w (call_denotes (CDelete name cr)) (opt panic_free_fun cr) (call_accepted (CDelete name cr)) (call_weight (CDelete name cr)) (fun E p => msg_delete p name cr).
Proof.
  intros w name cr Hn Hc.
  apply msg_outcome_ext with (patched_anyway (seq (fun E p => okm (delete_head name p)) (fun E p => match cr with None => Ok (p, None) | Some f => run_fun f p 3 end))).
  { intros E HE p. rewrite delete_eq. unfold patched_anyway, seq, okm. destruct (delete_head name p); reflexivity. }
  eapply msg_outcome_weaken with (D := call_denotes (CDelete name cr)) (Q := True /\ opt panic_free_fun cr) (S := True /\ opt fun_accepted cr); [auto|tauto| | |]; [cbn; tauto|apply N.le_refl|].
  eapply (patched_anyway_outcome w 20 _ _ _ _ _ _ ltac:(lia)); [|apply heads_seq; [apply delete_head_heads; assumption|apply criteria_parts; [lia|assumption]]].
  intros fs Hfs. destruct (delete_decode name cr Hn fs Hfs) as (c & H1 & H2).
  exists (MDelete name None c). split; [constructor; assumption|exact H2].
Qed.

Definition run_call (dis : list bool) (c : call) : enc := fun E p =>
  match c with
  | CStmtExecute stmt args => stmt_execute p stmt args
  | CPrepare id stmt => okm (msg_prepare p id stmt)
  | CExecute id args => msg_execute p id args
  | CDeallocate id => okm (msg_deallocate p id)
  | CInsert name columns rows => do_insert name columns rows p
  | CInsertF name columns ops _ => do_insert_f dis name columns ops p
  | CUpdate name criteria set => do_update name criteria set p
  | CUpdateF name criteria ops _ => do_update_f dis name criteria ops p
  | CDelete name criteria => msg_delete p name criteria
  end.

Lemma call_outcome : forall w dis c, call_ok w c -> msg_outcome w (call_denotes c) (call_quiet c) (call_accepted c) (call_weight c) (run_call dis c).
Proof.
  intros w dis [stmt args|id stmt|id args|id|name cols rows|name cols ops e|name cr set|name cr ops e|name cr] H; cbn [call_ok call_quiet] in *.
  - apply stmt_outcome; apply H.
  - apply prepare_outcome; apply H.
  - apply execute_outcome; apply H.
  - apply deallocate_outcome; apply H.
  - apply insert_outcome; apply H.
  - apply insert_f_outcome; apply H.
  - apply update_outcome; apply H.
  - apply update_f_outcome; apply H.
  - apply delete_outcome; apply H.
Qed.

(* ---- the messages of blocks ---- *)

Lemma open_outcome : forall w op (D : msg -> Prop) Q S W, op < 2 -> 512 <= W -> D (MExpectOpen op [no_error_1]) ->
  msg_outcome w D Q S W (fun E p => okm (expect_open p op [ONoError true])).
Proof.
  intros w op D Q S W Ho HW HD.
  assert (R : reads (popen op [ONoError true]) [(1, WVarint op); (2, WLen [8; 1; 18; 1; 49])]).
  { unfold popen. cbn [map concat]. rewrite app_nil_r. change [(1, WVarint op); (2, WLen [8; 1; 18; 1; 49])] with ([(1, WVarint op)] ++ [(2, WLen [8; 1; 18; 1; 49])]).
    apply reads_app; [apply reads_pvar; lia|]. apply (reads_plen 2 [8; 1; 18; 1; 49]); [lia|reflexivity|repeat constructor]. }
  apply (msg_emits w _ _ _ _ _ 24 (popen op [ONoError true]) (MExpectOpen op [no_error_1])); [|lia|apply R| |exact HD|].
  - intros E. apply expect_open_ok; [lia|]. repeat constructor.
  - cbn [dmsg]. unfold dexpect_open. rewrite (proj2 R). cbn -[N.ltb]. destruct (N.ltb_spec op 2); [|lia]. reflexivity.
  - unfold popen. cbn [map concat]. rewrite app_nil_r, nlen_app. pose proof (nlen_pvar 1 op ltac:(lia)).
    change (nlen (pcond (ONoError true))) with 7. lia.
Qed.
Lemma close_outcome : forall w (D : msg -> Prop) Q S W, D MExpectClose -> msg_outcome w D Q S W (fun E p => Ok (expect_close p, None)).
Proof.
  intros w D Q S W HD. apply (msg_emits w _ _ _ _ (fun E p => Ok (expect_close p)) 25 [] MExpectClose); [|lia|constructor|reflexivity|exact HD|apply N.le_0_l].
  intros E. apply expect_close_ok.
Qed.
