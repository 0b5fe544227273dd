(* Proofs about replies that say more than the .proto files declare. *)
From Coq Require Import String List NArith ZArith Arith Bool Lia ZifyN ZifyNat ZifyBool.
From Coq Require Import List.
From Verif Require Import Base SpecWire SpecGroups Unmarshal UnmarshalProofs SpecUnit SpecSchema Conn SpecReply ConnProofs ReplyProofs SpecMore.
Import ListNotations.
Open Scope N_scope.
Open Scope list_scope.

(* A wire prefix is read, and then the rest. *)
Lemma ufields_app : forall a fa b, wire a fa -> ufields (a ++ b) = match ufields b with Some fb => Some (fa ++ fb) | None => None end.
Proof.
  intros a fa b W. induction W as [|n typ key v w rest fs Hn Hk Hv W IH|n key body inside close rest fs Hn Hk Wb _ Hc W IH].
  - cbn [app]. destruct (ufields b); reflexivity.
  - rewrite <- !app_assoc. pose proof (varint_of_nonempty _ _ Hk) as L. destruct (plain_app _ _ _ (rest ++ b) Hv) as (P & T & T3 & T4).
    pose proof (tag_app n typ key (v ++ rest ++ b) Hn Hk T) as Tg.
    destruct key as [|k0 key]; [cbn in L; lia|]. cbn [app] in *. rewrite ufields_step, Tg. rewrite value_S.
    destruct (N.eqb_spec typ 3); [contradiction|]. rewrite P. cbv beta iota. rewrite (ufields_k_fuel _ (rest ++ b) (length (rest ++ b))) by (rewrite ?app_length; lia). fold (ufields (rest ++ b)). rewrite IH. destruct (ufields b); reflexivity.
  - rewrite <- !app_assoc. pose proof (varint_of_nonempty _ _ Hk) as L. assert (T : 3 < 8) by lia.
    pose proof (tag_app n 3 key (body ++ close ++ rest ++ b) Hn Hk T) as Tg.
    assert (G : consume_group 1 n (close ++ rest ++ b) = Some (rest ++ b)).
    { rewrite group_S, (tag_app n 4 close (rest ++ b) Hn Hc ltac:(lia)). cbn. rewrite N.eqb_refl. reflexivity. }
    destruct (group_over _ _ Wb _ _ _ _ G) as (k & Gk). apply group_enough in Gk.
    destruct key as [|k0 key]; [cbn in L; lia|]. cbn [app] in *. rewrite ufields_step, Tg, value_S, N.eqb_refl, Gk. cbv beta iota.
    rewrite (ufields_k_fuel _ (rest ++ b) (length (rest ++ b))) by (rewrite ?app_length; lia). fold (ufields (rest ++ b)). rewrite IH. destruct (ufields b); reflexivity.
Qed.

(* ---- the fields that count ---- *)

Definition agree (ns : list N) (p q : bytes) : Prop :=
  match ufields p, ufields q with
  | Some fs, Some gs => forall n, In n ns -> last_varint n fs = last_varint n gs /\ last_len n fs = last_len n gs
  | None, None => True
  | _, _ => False
  end.
Lemma agree_refl ns p : agree ns p p.
Proof. unfold agree. destruct (ufields p); auto. Qed.
Lemma agree_trans ns p q r : agree ns p q -> agree ns q r -> agree ns p r.
Proof.
  unfold agree. destruct (ufields p), (ufields q), (ufields r); try tauto. intros A B n H. destruct (A n H) as [-> ->]. exact (B n H).
Qed.

Lemma last_varint_app n fs gs : last_varint n (fs ++ gs) = match last_varint n gs with Some x => Some x | None => last_varint n fs end.
Proof.
  induction fs as [|[m w] fs IH]; cbn [app last_varint]; [destruct (last_varint n gs); reflexivity|]. rewrite IH. destruct (last_varint n gs); reflexivity.
Qed.
Lemma last_len_app n fs gs : last_len n (fs ++ gs) = match last_len n gs with Some x => Some x | None => last_len n fs end.
Proof.
  induction fs as [|[m w] fs IH]; cbn [app last_len]; [destruct (last_len n gs); reflexivity|]. rewrite IH. destruct (last_len n gs); reflexivity.
Qed.
Lemma last_none type n fs : In n (declared type) -> Forall (undeclared type) fs -> last_varint n fs = None /\ last_len n fs = None.
Proof.
  intros Hn H. induction H as [|[m w] fs Hm H IH]; [auto|]. destruct IH as [A B]. cbn [last_varint last_len]. rewrite A, B.
  destruct (N.eqb_spec m n) as [->|]; [contradiction (Hm Hn)|auto].
Qed.

Lemma extended_agree type p q : extended type p q -> agree (declared type) p q.
Proof.
  induction 1 as [|a b x fa fx _ IH Wa Wx U]; [apply agree_refl|]. apply (agree_trans _ _ _ _ IH). unfold agree.
  rewrite (ufields_app _ _ b Wa), (ufields_app _ _ (x ++ b) Wa), (ufields_app _ _ b Wx). destruct (ufields b) as [fb|]; [|exact I].
  intros n Hn. destruct (last_none _ _ _ Hn U) as [A B]. rewrite !last_varint_app, !last_len_app, A, B. destruct (last_varint n fb), (last_len n fb); auto.
Qed.

(* ---- the messages ---- *)

Lemma agree_error p q : agree (declared 1) p q -> unmarshal_error p = unmarshal_error q.
Proof.
  unfold agree, unmarshal_error. destruct (ufields p) as [fs|], (ufields q) as [gs|]; try tauto. intros H. cbn [obind].
  destruct (H 1) as [-> _]; [vm_compute; tauto|]. destruct (H 2) as [-> _]; [vm_compute; tauto|]. destruct (H 3) as [_ ->]; [vm_compute; tauto|]. destruct (H 4) as [_ ->]; [vm_compute; tauto|]. reflexivity.
Qed.
Lemma agree_meta p q : agree (declared 12) p q -> unmarshal_meta_ok p = unmarshal_meta_ok q.
Proof.
  unfold agree, unmarshal_meta_ok. destruct (ufields p) as [fs|], (ufields q) as [gs|]; try tauto. intros H. cbn [obind]. destruct (H 1) as [-> _]; [vm_compute; tauto|]. reflexivity.
Qed.
Lemma agree_continue p q : agree (declared 3) p q -> unmarshal_continue p = unmarshal_continue q.
Proof.
  unfold agree, unmarshal_continue. destruct (ufields p) as [fs|], (ufields q) as [gs|]; try tauto. intros H. cbn [obind]. destruct (H 1) as [_ ->]; [vm_compute; tauto|]. reflexivity.
Qed.

Lemma error_seen p : unmarshal_error (seen (1, p)) = unmarshal_error p.
Proof. destruct p; reflexivity. Qed.
Lemma meta_seen p : unmarshal_meta_ok (seen (12, p)) = unmarshal_meta_ok p.
Proof. destruct p; reflexivity. Qed.
Lemma continue_seen p : unmarshal_continue (seen (3, p)) = unmarshal_continue p.
Proof. destruct p; reflexivity. Qed.

Lemma dispatch_more ct f g : message_more f g -> dispatch ct (fst g) (seen g) = dispatch ct (fst f) (seen f).
Proof.
  destruct f as [ty p], g as [ty' q]. intros [E X]. cbn [fst snd] in *. subst ty'. unfold dispatch, srvOK, srvAUTH_OK, srvSTMT_EXECUTE_OK, srvCOLUMN_META, srvERROR, srvAUTH_CONTINUE.
  destruct (_ || _)%bool; [reflexivity|]. destruct (N.eqb_spec ty 12) as [->|].
  { rewrite !meta_seen, (agree_meta p q); [reflexivity|]. apply extended_agree, X. cbn. tauto. }
  destruct (N.eqb_spec ty 1) as [->|].
  { rewrite !error_seen, (agree_error p q); [reflexivity|]. apply extended_agree, X. cbn. tauto. }
  destruct (N.eqb_spec ty 3) as [->|]; [|reflexivity].
  rewrite !continue_seen, (agree_continue p q); [reflexivity|]. apply extended_agree, X. cbn. tauto.
Qed.

(* ---- reading ---- *)

Definition streams (w32 : bool) (bs cs : bytes) : Prop := exists fs gs rest,
  bs = concat (map frame fs) ++ rest /\ cs = concat (map frame gs) ++ rest /\ more fs gs /\ Forall (fits w32) fs /\ Forall (fits w32) gs.

Lemma aread_more w32 ct fin bs cs : streams w32 bs cs ->
  fst (aread w32 ct fin cs) = fst (aread w32 ct fin bs) /\
  (snd (fst (aread w32 ct fin bs)) <> Some CBadMeta -> streams w32 (snd (aread w32 ct fin bs)) (snd (aread w32 ct fin cs))).
Proof.
  intros (fs & gs & rest & -> & -> & M & Ff & Fg). induction M as [|f g fs gs E M IH|g fs gs I M IH].
  - cbn [map concat app]. split; [reflexivity|]. intros _. destruct (aread w32 ct fin rest) as [a r]. cbn [snd]. exists [], [], r. repeat split; constructor.
  - inversion Ff as [|? ? F1 F2]; subst. inversion Fg as [|? ? G1 G2]; subst. specialize (IH F2 G2). cbn [map concat]. rewrite <- !app_assoc.
    rewrite (aread_eq _ _ _ (frame f ++ _)), (aread_eq _ _ _ (frame g ++ _)).
    destruct (amessage_frame w32 fin f (concat (map frame fs) ++ rest) F1) as (n & r & -> & En). destruct (amessage_frame w32 fin g (concat (map frame gs) ++ rest) G1) as (m & s & -> & Em).
    rewrite (dispatch_more ct f g E). rewrite En, Em. destruct (dispatch ct (fst f) (seen f)) as [[resp o]|]; [|exact IH].
    assert (S : streams w32 (concat (map frame fs) ++ rest) (concat (map frame gs) ++ rest)) by (exists fs, gs, rest; repeat split; assumption).
    destruct o as [[]|]; cbn [fst snd]; auto. split; [reflexivity|]. intros C. congruence.
  - inversion Fg as [|? ? G1 G2]; subst. specialize (IH Ff G2). cbn [map concat]. rewrite <- app_assoc. rewrite (aread_eq _ _ _ (frame g ++ _)).
    destruct (amessage_frame w32 fin g (concat (map frame gs) ++ rest) G1) as (m & s & -> & Em). rewrite (dispatch_interim ct g I), Em. exact IH.
Qed.

Lemma c_read_more w32 ct c d : says_more w32 c d -> fst (c_read w32 ct d) = fst (c_read w32 ct c) /\
  (snd (fst (c_read w32 ct c)) <> Some CBadMeta -> says_more w32 (snd (c_read w32 ct c)) (snd (c_read w32 ct d))).
Proof.
  intros (S & H2 & H3 & H4 & H5 & H6). destruct (c_read_spec w32 ct c) as (c' & -> & A2 & A3 & A4 & A5 & A6 & A7).
  destruct (c_read_spec w32 ct d) as (d' & -> & B2 & B3 & B4 & B5 & B6 & B7). cbn [fst snd]. rewrite H2 in *.
  destruct (aread_more w32 ct (ended (rd c)) _ _ S) as [E P]. split; [exact E|]. intros N. specialize (P N).
  unfold says_more. rewrite A2, B2. split; [exact P|]. repeat split; congruence.
Qed.

Lemma read_responses_more : forall w32 k rest rs c d, says_more w32 c d -> same_result_more w32 snd (read_responses w32 k rest rs c) (read_responses w32 k rest rs d).
Proof.
  intros w32 k. induction k as [|k IH]; intros rest rs c d H; cbn [read_responses]; destruct rest as [|x rest]; cbn [same_result_more]; auto.
  destruct (nth_error (x :: rest) 4) as [ct|]; [|exact I]. destruct (c_read_more w32 ct c d H) as [E1 E2].
  destruct (c_read w32 ct c) as [rc c']. destruct (c_read w32 ct d) as [rd' d']. cbn [fst snd] in *. subst rd'. destruct (snd rc) as [e|] eqn:Er; [split; auto|]. apply IH. apply E2. discriminate.
Qed.

Lemma set_deadline_more w32 t c d : says_more w32 c d -> fst (set_deadline t d) = fst (set_deadline t c) /\ says_more w32 (snd (set_deadline t c)) (snd (set_deadline t d)).
Proof.
  intros (S & H2 & H3 & H4 & H5 & H6). unfold set_deadline. rewrite H4. destruct (next_result (deadlines c)) as [x l]. split; [reflexivity|].
  split; [exact S|]. cbn. rewrite H3, H5, H6. auto 10.
Qed.
Lemma write_more w32 b c d : says_more w32 c d -> fst (write b d) = fst (write b c) /\ says_more w32 (snd (write b c)) (snd (write b d)).
Proof.
  intros (S & H2 & H3 & H4 & H5 & H6). unfold write. rewrite H5. destruct (next_result (writes c)) as [x l]. split; [reflexivity|].
  split; [exact S|]. cbn. rewrite H3, H4, H6. auto 10.
Qed.

Lemma conn_send_more w32 t b c d : says_more w32 c d -> same_result_more w32 snd (conn_send w32 t b c) (conn_send w32 t b d).
Proof.
  intros H. unfold conn_send. destruct (set_deadline_more w32 t c d H) as [E1 E2]. destruct (set_deadline t c) as [x c1]. destruct (set_deadline t d) as [y d1]. cbn [fst snd] in *. subst y.
  destruct x; [split; auto|]. destruct (write_more w32 b c1 d1 E2) as [F1 F2]. destruct (write b c1) as [x c2]. destruct (write b d1) as [y d2]. cbn [fst snd] in *. subst y.
  destruct x; [split; auto|]. apply read_responses_more. exact F2.
Qed.
Lemma write_one_more w32 t b c d : says_more w32 c d -> same_result_more w32 snd (write_one w32 t b c) (write_one w32 t b d).
Proof.
  intros H. unfold write_one. destruct (set_deadline_more w32 t c d H) as [E1 E2]. destruct (set_deadline t c) as [x c1]. destruct (set_deadline t d) as [y d1]. cbn [fst snd] in *. subst y.
  destruct x; [split; auto|]. destruct (write_more w32 b c1 d1 E2) as [F1 F2]. destruct (write b c1) as [x c2]. destruct (write b d1) as [y d2]. cbn [fst snd] in *. subst y.
  destruct x; [split; auto|]. destruct (nth_error b 4) as [ct|]; [|exact I]. destruct (c_read_more w32 ct c2 d2 F2) as [G1 G2].
  destruct (c_read w32 ct c2), (c_read w32 ct d2). cbn [fst snd same_result_more] in *. auto.
Qed.
Lemma authenticate_more w32 t cr m c d : says_more w32 c d -> same_result_more w32 (fun e => e) (authenticate w32 t cr m c) (authenticate w32 t cr m d).
Proof.
  intros H. unfold authenticate. destruct (start m cr) as [s|]; cbn [bind]; [|exact I]. pose proof (write_one_more w32 t s c d H) as W.
  destruct (write_one w32 t s c) as [[rc c1]|], (write_one w32 t s d) as [[rd' d1]|]; cbn [bind same_result_more] in *; try contradiction; [|exact I]. destruct W as [-> W].
  destruct (snd rc) as [e|] eqn:Er; [|split; [reflexivity|auto]]. assert (W' : e <> CBadMeta -> says_more w32 c1 d1) by (intros N; apply W; congruence).
  destruct e; try (split; [reflexivity|intros N; apply W'; congruence]). destruct (continue m) as [k|]; [|split; [reflexivity|intros _; apply W'; discriminate]].
  destruct (k cr data) as [s2|]; cbn [bind]; [|exact I].
  pose proof (write_one_more w32 t s2 c1 d1 (W' ltac:(discriminate))) as W2. destruct (write_one w32 t s2 c1) as [[r2 c2]|], (write_one w32 t s2 d1) as [[r3 d2]|]; cbn [bind same_result_more] in *; try contradiction; [|exact I].
  destruct W2 as [-> W2]. auto.
Qed.
