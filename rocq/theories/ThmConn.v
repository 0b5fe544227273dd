(* Properties of a connection: C27 - C31, C48, C49. *)
From Coq Require Import String List NArith ZArith Arith Bool Lia ZifyN ZifyNat ZifyBool.
From Coq Require Import List.
From Verif Require Import Base GoSlice SpecWire SpecMsg Varint VarintProofs WireProofs SpecValue Builder SpecProg SpecUnit Conn SpecReply.
From Verif Require ConnProofs.
From Verif Require Import UnmarshalProofs.
From Verif Require Import ReplyProofs ShapeProofs ThmBuilder.
Import ListNotations.
Open Scope N_scope.
Open Scope list_scope.
Ltac Zify.zify_post_hook ::= Z.div_mod_to_equations.

(* ---- C27: one response per request, in order, in sync ---- *)

Lemma requests_map : forall xs, request_bytes xs = concat (map frame (map asked xs)).
Proof. intros. unfold request_bytes. rewrite map_map. reflexivity. Qed.
Lemma requests_fit : forall w32 xs, Forall (exchange_ok w32) xs -> Forall (fun f => 1 + nlen (snd f) < 2 ^ 32) (map asked xs).
Proof. intros w32 xs H. apply Forall_map. eapply Forall_impl; [|exact H]. intros x [A _]. exact A. Qed.

Theorem C27_one_response_per_request : forall w32 deadline xs rest c,
  Forall (exchange_ok w32) xs -> Forall goes_on xs -> can_write c -> unread c = replies_bytes xs ++ rest ->
  exists c', conn_send w32 deadline (request_bytes xs) c = Ok ((map seen_as xs, None), c') /\ unread c' = rest.
Proof.
  intros w32 d xs rest c H1 H2 Hw Hu. rewrite requests_map. destruct (send_spec w32 d (map asked xs) c (requests_fit _ _ H1) Hw) as (c' & A & B & _).
  cbn zeta in A, B. rewrite Hu in A, B. rewrite (map_map asked fst) in A, B. pose proof (areads_go w32 (ended (rd c)) xs [] rest H1 H2) as G. rewrite app_nil_r in G. rewrite G in A, B.
  cbn in A, B. rewrite app_nil_r in A. eauto.
Qed.

(* A unit that a builder delivered never makes Send panic, whatever the server says, and gets at
   most one response per message, exactly one if there is no error. *)
Lemma areads_length : forall w32 fin cts bs,
  let A := areads w32 cts fin bs in
  (List.length (fst (fst A)) <= List.length cts)%nat /\ (snd (fst A) = None -> List.length (fst (fst A)) = List.length cts).
Proof.
  intros w32 fin cts. induction cts as [|ct cts IH]; intros bs; cbn [areads]; [auto|]. destruct (ConnProofs.aread w32 ct fin bs) as [a q].
  destruct (snd a) as [e|]; cbn [fst snd List.length]; [split; [lia|discriminate]|]. specialize (IH q). cbn zeta in IH.
  destruct (areads w32 cts fin q) as [b q']. cbn [fst snd List.length] in *. destruct IH as [I1 I2]. split; [lia|]. intros He. rewrite (I2 He). reflexivity.
Qed.

Theorem C27_units_get_one_response_per_message : forall (E : Env) b pr bs deadline c,
  empty b -> prog_ok word32 pr -> delivers b pr bs -> nlen bs < 2 ^ 32 -> can_write c ->
  exists ms rs e c', dstream bs = Some ms /\ conn_send word32 deadline bs c = Ok ((rs, e), c') /\
    (List.length rs <= List.length ms)%nat /\ (e = None -> List.length rs = List.length ms).
Proof.
  intros E b pr bs d c He Hok Hd Hl Hw. destruct (delivers_step E b pr bs He Hok Hd Hl) as (b' & out & ms & ids & _ & _ & _ & _ & Hs & _).
  exists ms. pose proof (MsgProofs.says_dstream bs ms Hs) as Hds. destruct Hs as (fs & Hf & Hm). destruct (framed_frame bs fs Hf) as [F1 F2]. rewrite F1 in *.
  destruct (send_spec word32 d fs c F2 Hw) as (c' & A & _). cbn zeta in A.
  pose proof (areads_length word32 (ended (rd c)) (map fst fs) (unread c)) as [L1 L2]. rewrite map_length in *.
  assert (L : List.length fs = List.length ms) by (clear - Hm; induction Hm; cbn; congruence).
  destruct (areads word32 (map fst fs) (ended (rd c)) (unread c)) as [[rs e] q]. cbn [fst snd] in *.
  exists rs, e, c'. rewrite <- L. auto.
Qed.

(* ---- C28: success means every reply was read ---- *)

Theorem C28_success_means_complete_replies : forall w32 deadline requests c rs c',
  Forall (fun f => 1 + nlen (snd f) < 2 ^ 32) requests -> can_write c -> is_bytes (unread c) ->
  conn_send w32 deadline (concat (map frame requests)) c = Ok ((rs, None), c') ->
  exists replies, unread c = concat (map reply_bytes replies) ++ unread c' /\
    List.length replies = List.length requests /\ Forall2 (answers w32) replies rs /\ Forall2 (fun f r => ~ stops (fst f) r) requests rs.
Proof.
  intros w32 d requests c rs c' Hf Hw Hb H. destruct (send_spec w32 d requests c Hf Hw) as (c1 & A & B & _). cbn zeta in A, B. rewrite A in H. injection H as H <-.
  destruct (areads w32 (map fst requests) (ended (rd c)) (unread c)) as [r q] eqn:E. cbn [fst snd] in *. subst r q.
  destruct (areads_back _ _ _ _ _ _ Hb E) as (ps & P1 & P2 & P3). exists ps. split; [exact P1|].
  assert (L : List.length ps = List.length rs) by (clear - P2; induction P2; cbn; congruence).
  assert (Q : Forall2 (fun f r => ~ stops (fst f) r) requests rs).
  { clear - P3. remember (map fst requests) as cts eqn:Ec. revert requests Ec. induction P3 as [|ct r cts rs H P3 IH]; intros [|f fs] Ec; try discriminate; constructor; injection Ec as -> Ec; auto. }
  assert (L2 : List.length requests = List.length rs) by (clear - Q; induction Q; cbn; congruence). split; [congruence|]. auto.
Qed.

(* Conversely: a stream that does not begin with that many complete, well-formed replies gives an error. *)
Theorem C28_truncated_replies_are_errors : forall w32 deadline requests c,
  Forall (fun f => 1 + nlen (snd f) < 2 ^ 32) requests -> can_write c -> is_bytes (unread c) ->
  (forall replies rs rest, unread c = concat (map reply_bytes replies) ++ rest -> Forall2 (answers w32) replies rs -> List.length replies <> List.length requests) ->
  exists rs e c', conn_send w32 deadline (concat (map frame requests)) c = Ok ((rs, Some e), c').
Proof.
  intros w32 d requests c Hf Hw Hb Hn. destruct (send_spec w32 d requests c Hf Hw) as (c1 & A & _). cbn zeta in A.
  destruct (fst (areads w32 (map fst requests) (ended (rd c)) (unread c))) as [rs [e|]]; [eauto|].
  destruct (C28_success_means_complete_replies _ _ _ _ _ _ Hf Hw Hb A) as (ps & P1 & P2 & P3 & _). destruct (Hn _ _ _ P1 P3 P2).
Qed.

(* ---- C29: fatal and session errors stop Send ---- *)

Theorem C29_stopping_errors : forall w32 deadline before x after e rest c,
  Forall (exchange_ok w32) before -> Forall goes_on before -> exchange_ok w32 x ->
  Forall (fun y => 1 + nlen (snd (asked y)) < 2 ^ 32) after ->
  seen_as x = Some e -> (severity e = 1 \/ session_request (fst (asked x))) ->
  can_write c -> unread c = replies_bytes before ++ reply_bytes (replied x) ++ rest ->
  exists c', conn_send w32 deadline (request_bytes (before ++ x :: after)) c = Ok ((map seen_as before ++ [Some e], Some (CServer e)), c') /\
    unread c' = rest.
Proof.
  intros w32 d before x after e rest c H1 H2 H3 H4 Hx Hs Hw Hu. rewrite requests_map.
  assert (Hf : Forall (fun f => 1 + nlen (snd f) < 2 ^ 32) (map asked (before ++ x :: after))).
  { rewrite map_app. apply Forall_app. split; [apply (requests_fit _ _ H1)|]. constructor; [apply H3|apply Forall_map; exact H4]. }
  destruct (send_spec w32 d _ c Hf Hw) as (c' & A & B & _). cbn zeta in A, B. rewrite Hu in A, B. rewrite (map_map asked fst), (map_app (fun x => fst (asked x))) in A, B.
  rewrite (areads_go _ _ _ _ _ H1 H2) in A, B. cbn [map areads] in A, B. rewrite (aread_reply _ _ _ _ _ _ (proj2 H3)) in A, B.
  rewrite Hx, (outcome_stop (fst (asked x)) e Hs) in A, B. cbn [fst snd] in A, B. eauto.
Qed.

(* ---- C30: neither the size of replies nor their segmentation matters ---- *)

Theorem C30_segmentation_irrelevant : forall w32 deadline bs a b, same_stream a b ->
  same_result (conn_send w32 deadline bs a) (conn_send w32 deadline bs b) /\
  same_result (write_one w32 deadline bs a) (write_one w32 deadline bs b) /\
  forall creds m, same_result (authenticate w32 deadline creds m a) (authenticate w32 deadline creds m b).
Proof. intros. split; [apply conn_send_same; assumption|]. split; [apply write_one_same; assumption|]. intros. apply authenticate_same. assumption. Qed.

(* The frames of a reply may be of any size: only the final message counts. *)
Theorem C30_size_irrelevant : forall w32 deadline ct p c r is1 is2 f,
  can_write c -> 1 + nlen p < 2 ^ 32 ->
  answers w32 (mkreply is1 f) r -> answers w32 (mkreply is2 f) r ->
  (forall rest, unread c = reply_bytes (mkreply is1 f) ++ rest \/ unread c = reply_bytes (mkreply is2 f) ++ rest ->
    exists c' e, write_one w32 deadline (frame (ct, p)) c = Ok ((r, e), c') /\ unread c' = rest /\ (e = None <-> ~ stops ct r)).
Proof.
  intros w32 d ct p c r is1 is2 f Hw Hp H1 H2 rest Hu. destruct (write_one_spec w32 d ct p c Hw Hp) as (c' & A & B & _). exists c', (outcome ct r).
  assert (K : ConnProofs.aread w32 ct (ended (rd c)) (unread c) = ((r, outcome ct r), rest)).
  { destruct Hu as [->| ->]; apply aread_reply; assumption. }
  rewrite K in A, B. split; [exact A|]. split; [exact B|]. destruct r as [e|]; cbn [outcome].
  - destruct (stops_dec ct (Some e)); split; intros; congruence || contradiction.
  - cbn. tauto.
Qed.

(* ---- C31: server errors are reported faithfully ---- *)

Lemma error_bytes_message : forall e, severity e < 2 -> code e < 2 ^ 32 -> is_bytes (text e) -> is_bytes (sql_state e) ->
  nlen (text e) < 2 ^ 32 -> nlen (sql_state e) < 2 ^ 32 -> error_message (error_bytes e) e.
Proof.
  intros [sev c st tx] Hs Hc Ht Hq Lt Lq. cbn [severity code text sql_state] in *. unfold error_bytes. cbn [severity code text sql_state].
  assert (R : reads (8 :: uvarint sev ++ 16 :: uvarint c ++ 26 :: uvarint (nlen tx) ++ tx ++ 34 :: uvarint (nlen st) ++ st)
    [(1, WVarint sev); (2, WVarint c); (3, WLen tx); (4, WLen st)]).
  { change [(1, WVarint sev); (2, WVarint c); (3, WLen tx); (4, WLen st)] with ([(1, WVarint sev)] ++ [(2, WVarint c)] ++ [(3, WLen tx)] ++ [(4, WLen st)]).
    replace (8 :: uvarint sev ++ 16 :: uvarint c ++ 26 :: uvarint (nlen tx) ++ tx ++ 34 :: uvarint (nlen st) ++ st)
      with ((8 * 1 :: uvarint sev) ++ (8 * 2 :: uvarint c) ++ (8 * 3 + 2 :: uvarint (nlen tx) ++ tx) ++ (8 * 4 + 2 :: uvarint (nlen st) ++ st)).
    - apply reads_app; [apply reads_varint; lia|]. apply reads_app; [apply reads_varint; lia|]. apply reads_app; apply reads_len; try lia; assumption.
    - cbn [app]. rewrite <- !app_assoc. reflexivity. }
  destruct R as [_ R]. exists [(1, WVarint sev); (2, WVarint c); (3, WLen tx); (4, WLen st)], c. cbn [severity code text sql_state]. split; [apply wire_dfields; exact R|].
  split; [right; exists sev; rewrite N.mod_small by lia; split; [|reflexivity]; exists [], [(2, WVarint c); (3, WLen tx); (4, WLen st)]; split; [reflexivity|intros w H; cbn in H; intuition discriminate]|].
  split; [exists [(1, WVarint sev)], [(3, WLen tx); (4, WLen st)]; split; [reflexivity|intros w H; cbn in H; intuition discriminate]|]. split; [rewrite N.mod_small by lia; reflexivity|].
  split; [exists [(1, WVarint sev); (2, WVarint c)], [(4, WLen st)]|exists [(1, WVarint sev); (2, WVarint c); (3, WLen tx)], []]; (split; [reflexivity|intros w H; cbn in H; intuition discriminate]).
Qed.

(* Whatever encoding of the error the server chose; the error also ends Send if it is fatal, or answers a session request. *)
Theorem C31_server_errors_faithful : forall (w32 : bool) deadline request p e before rest c,
  error_message p e -> 1 + nlen p < (if w32 then 2 ^ 31 else 2 ^ 32) -> 1 + nlen (snd request) < 2 ^ 32 ->
  Forall interim before -> Forall (fits w32) before -> can_write c ->
  unread c = concat (map frame before) ++ frame (1, p) ++ rest ->
  exists c' o, conn_send w32 deadline (frame request) c = Ok (([Some e], o), c') /\ unread c' = rest /\
    (stops (fst request) (Some e) /\ o = Some (CServer e) \/ ~ stops (fst request) (Some e) /\ o = None).
Proof.
  intros w32 d request p e is rest c He Hl Hr Hi Hf Hw Hu.
  assert (A : answers w32 (mkreply is (1, p)) (Some e)).
  { split; [exact Hi|]. split; [split; [reflexivity|exact He]|]. apply Forall_app. split; [exact Hf|]. constructor; [exact Hl|constructor]. }
  destruct (send_spec w32 d [request] c ltac:(constructor; [exact Hr|constructor]) Hw) as (c' & B & C & _). cbn zeta in B, C. cbn [map concat] in B, C. rewrite app_nil_r in B.
  assert (U : unread c = reply_bytes (mkreply is (1, p)) ++ rest).
  { rewrite Hu. unfold reply_bytes. cbn [interims final]. rewrite map_app, concat_app. cbn [map concat]. rewrite app_nil_r, <- app_assoc. reflexivity. }
  cbn [areads] in B, C. rewrite U, (aread_reply _ _ _ _ _ _ A) in B, C. cbn [fst snd outcome] in B, C. exists c'.
  destruct (stops_dec (fst request) (Some e)); cbn [fst snd] in B, C; eexists; (split; [exact B|]); split; auto.
Qed.

(* In particular the usual one. *)
Theorem C31_usual_encoding : forall (w32 : bool) deadline request e before rest c,
  severity e < 2 -> code e < 2 ^ 32 -> is_bytes (text e) -> is_bytes (sql_state e) ->
  1 + nlen (error_bytes e) < (if w32 then 2 ^ 31 else 2 ^ 32) -> 1 + nlen (snd request) < 2 ^ 32 ->
  Forall interim before -> Forall (fits w32) before -> can_write c ->
  unread c = concat (map frame before) ++ frame (1, error_bytes e) ++ rest ->
  exists c' o, conn_send w32 deadline (frame request) c = Ok (([Some e], o), c') /\ unread c' = rest /\
    (stops (fst request) (Some e) /\ o = Some (CServer e) \/ ~ stops (fst request) (Some e) /\ o = None).
Proof.
  intros w32 d request e is rest c Hs Hc Ht Hq Hl Hr Hi Hf Hw Hu.
  assert (Lt : nlen (text e) < 2 ^ 32 /\ nlen (sql_state e) < 2 ^ 32).
  { unfold error_bytes, nlen in Hl. unfold nlen. do 6 (rewrite ?app_length in Hl; cbn [List.length] in Hl). destruct w32; lia. }
  apply (C31_server_errors_faithful w32 d request (error_bytes e) e is rest c); try assumption. apply error_bytes_message; tauto.
Qed.

(* An error with its fields in another order, one of them twice, and an unknown field: the last code counts. *)
Example odd_error : error_message [34; 1; 72; 16; 9; 122; 0; 26; 2; 111; 104; 16; 149; 8] (mkse 0 1045 [72] [111; 104]).
Proof. apply error_unmarshal. vm_compute. reflexivity. Qed.

(* The same after a group with a group in it, which are skipped. *)
Example odd_error_group : error_message ([59; 8; 1; 131; 8; 16; 5; 132; 8; 60] ++ [34; 1; 72; 16; 9; 122; 0; 26; 2; 111; 104; 16; 149; 8]) (mkse 0 1045 [72] [111; 104]).
Proof. apply error_unmarshal. vm_compute. reflexivity. Qed.
(* A group that is not closed, or closed by another number, is malformed. *)
Example bad_group : forall e, ~ error_message (error_bytes (mkse 0 1045 [72] [111]) ++ [59; 8; 1]) e /\ ~ error_message (error_bytes (mkse 0 1045 [72] [111]) ++ [59; 8; 1; 68]) e.
Proof. intros e. split; intros H; apply error_unmarshal in H; vm_compute in H; discriminate H. Qed.

(* ---- C48: one write per unit, deadlines do not leak ---- *)

Theorem C48_one_write_after_deadline : forall w32 deadline bs c r c', conn_send w32 deadline bs c = Ok (r, c') ->
  (exists e, log c' = SetDeadline (ckind c) deadline (Some e) :: log c /\ r = ([], Some (CDeadline e))) \/
  (exists o, log c' = Write (ckind c) bs o :: SetDeadline (ckind c) deadline None :: log c /\ (forall e, o = Some e -> r = ([], Some (CWrite e)))).
Proof.
  intros w32 d bs c r c' H. unfold conn_send, set_deadline in H. destruct (next_result (deadlines c)) as [[e|] l].
  - injection H as <- <-. left. cbn. eauto.
  - right. unfold write in H. cbn [writes rd ckind deadlines log] in H. destruct (next_result (writes c)) as [[e|] l'].
    + injection H as <- <-. exists (Some e). cbn. split; [reflexivity|]. intros e' [= <-]. reflexivity.
    + rewrite (read_responses_log _ _ _ _ _ _ _ H). exists None. cbn. split; [reflexivity|discriminate].
Qed.

(* ---- C49: the authentication handshake ---- *)

(* A mechanism that builds well-formed session messages of less than 4 GiB. *)
Definition mechanism_ok (m : mechanism) (creds : credentials) : Prop :=
  (exists p, start m creds = Ok (frame (4, p)) /\ 1 + nlen p < 2 ^ 32) /\
  (forall k d, continue m = Some k -> exists p, k creds d = Ok (frame (5, p)) /\ 1 + nlen p < 2 ^ 32).
(* The writes and deadlines of the next two messages succeed. *)
Definition can_write_twice (c : conn) : Prop :=
  can_write c /\ fst (next_result (snd (next_result (deadlines c)))) = None /\ fst (next_result (snd (next_result (writes c)))) = None.
Definition sent (k : kind) (deadline : option N) (b : bytes) : list event := [Write k b None; SetDeadline k deadline None].

(* Without a challenge there is one message, and its reply is the outcome. *)
Theorem C49_unchallenged : forall w32 deadline creds m c b p r rest,
  mechanism_ok m creds -> start m creds = Ok b -> can_write c ->
  answers w32 p r -> unread c = reply_bytes p ++ rest ->
  exists c', authenticate w32 deadline creds m c = Ok (match r with None => None | Some e => Some (CServer e) end, c') /\
    log c' = sent (ckind c) deadline b ++ log c /\ unread c' = rest.
Proof.
  intros w32 d creds m c b p r rest [(q & S1 & S2) _] Hb Hw A Hu. rewrite S1 in Hb. injection Hb as <-.
  destruct (write_one_spec w32 d 4 q c Hw S2) as (c' & W1 & W2 & _ & _ & W5 & _). rewrite Hu, (aread_reply _ _ _ _ _ _ A) in W1, W2. cbn [fst snd] in W1, W2.
  exists c'. unfold authenticate. rewrite S1. cbn [bind]. rewrite W1. cbn [bind snd]. split; [|split; [exact W5|exact W2]].
  destruct r as [e|]; cbn [outcome]; [|reflexivity]. destruct (stops_dec 4 (Some e)) as [|n]; [reflexivity|]. destruct n. cbn. unfold session_request. cbn. auto.
Qed.

(* A challenge is answered by one message computed from it, whose reply is the outcome. *)
Theorem C49_challenged : forall w32 deadline creds m k c b b2 p d p2 r rest,
  mechanism_ok m creds -> start m creds = Ok b -> continue m = Some k -> k creds d = Ok b2 -> can_write_twice c ->
  challenges w32 p d -> answers w32 p2 r -> unread c = reply_bytes p ++ reply_bytes p2 ++ rest ->
  exists c', authenticate w32 deadline creds m c = Ok (match r with None => None | Some e => Some (CServer e) end, c') /\
    log c' = sent (ckind c) deadline b2 ++ sent (ckind c) deadline b ++ log c /\ unread c' = rest.
Proof.
  intros w32 d creds m k c b b2 p dat p2 r rest [(q & S1 & S2) Hk] Hb Hc Hk2 (Hw & Hw2 & Hw3) A A2 Hu. rewrite S1 in Hb. injection Hb as <-.
  destruct (Hk k dat Hc) as (q2 & K1 & K2). rewrite K1 in Hk2. injection Hk2 as <-.
  destruct (write_one_spec w32 d 4 q c Hw S2) as (c1 & W1 & W2 & W3 & W4 & W5 & W6 & W7). rewrite Hu, (aread_challenge _ _ _ _ _ _ A) in W1, W2. cbn [fst snd N.eqb Pos.eqb] in W1, W2.
  assert (Cw : can_write c1) by (split; congruence).
  destruct (write_one_spec w32 d 5 q2 c1 Cw K2) as (c2 & X1 & X2 & _ & _ & X5 & _). rewrite W2, (aread_reply _ _ _ _ _ _ A2) in X1, X2. cbn [fst snd] in X1, X2.
  exists c2. unfold authenticate. rewrite S1. cbn [bind]. rewrite W1. cbn [bind snd]. rewrite Hc, K1. cbn [bind]. rewrite X1. cbn [bind snd]. split; [|split; [|exact X2]].
  - destruct r as [e|]; cbn [outcome]; [|reflexivity]. destruct (stops_dec 5 (Some e)) as [|n]; [reflexivity|]. destruct n. cbn. unfold session_request. cbn. auto.
  - rewrite X5, W4, W5. reflexivity.
Qed.

(* A challenge to a mechanism that cannot answer, and a second challenge, are errors. *)
Theorem C49_unexpected_challenge : forall w32 deadline creds m c b p d rest,
  mechanism_ok m creds -> start m creds = Ok b -> continue m = None -> can_write c ->
  challenges w32 p d -> unread c = reply_bytes p ++ rest ->
  exists c', authenticate w32 deadline creds m c = Ok (Some CUnexpectedContinue, c') /\ log c' = sent (ckind c) deadline b ++ log c /\ unread c' = rest.
Proof.
  intros w32 d creds m c b p dat rest [(q & S1 & S2) _] Hb Hc Hw A Hu. rewrite S1 in Hb. injection Hb as <-.
  destruct (write_one_spec w32 d 4 q c Hw S2) as (c1 & W1 & W2 & W3 & W4 & W5 & W6 & W7). rewrite Hu, (aread_challenge _ _ _ _ _ _ A) in W1, W2. cbn [fst snd N.eqb Pos.eqb] in W1, W2.
  exists c1. unfold authenticate. rewrite S1. cbn [bind]. rewrite W1. cbn [bind snd]. rewrite Hc. auto.
Qed.
Theorem C49_second_challenge : forall w32 deadline creds m k c b b2 p d p2 d2 rest,
  mechanism_ok m creds -> start m creds = Ok b -> continue m = Some k -> k creds d = Ok b2 -> can_write_twice c ->
  challenges w32 p d -> challenges w32 p2 d2 -> unread c = reply_bytes p ++ reply_bytes p2 ++ rest ->
  exists c', authenticate w32 deadline creds m c = Ok (Some CUnexpectedContinue, c') /\
    log c' = sent (ckind c) deadline b2 ++ sent (ckind c) deadline b ++ log c /\ unread c' = rest.
Proof.
  intros w32 d creds m k c b b2 p dat p2 d2 rest [(q & S1 & S2) Hk] Hb Hc Hk2 (Hw & Hw2 & Hw3) A A2 Hu. rewrite S1 in Hb. injection Hb as <-.
  destruct (Hk k dat Hc) as (q2 & K1 & K2). rewrite K1 in Hk2. injection Hk2 as <-.
  destruct (write_one_spec w32 d 4 q c Hw S2) as (c1 & W1 & W2 & W3 & W4 & W5 & W6 & W7). rewrite Hu, (aread_challenge _ _ _ _ _ _ A) in W1, W2. cbn [fst snd N.eqb Pos.eqb] in W1, W2.
  assert (Cw : can_write c1) by (split; congruence).
  destruct (write_one_spec w32 d 5 q2 c1 Cw K2) as (c2 & X1 & X2 & _ & _ & X5 & _). rewrite W2, (aread_challenge _ _ _ _ _ _ A2) in X1, X2. cbn [fst snd N.eqb Pos.eqb] in X1, X2.
  exists c2. unfold authenticate. rewrite S1. cbn [bind]. rewrite W1. cbn [bind snd]. rewrite Hc, K1. cbn [bind]. rewrite X1. cbn [bind snd]. split; [reflexivity|]. split; [|exact X2].
  rewrite X5, W4, W5. reflexivity.
Qed.

(* Whatever the server sends: success means that the last message read reports success. *)
Theorem C49_success_means_ok : forall w32 deadline creds m c c',
  mechanism_ok m creds -> is_bytes (unread c) -> authenticate w32 deadline creds m c = Ok (None, c') ->
  exists before p, unread c = before ++ reply_bytes p ++ unread c' /\ answers w32 p None.
Proof.
  intros w32 d creds m c c' [(q & S1 & S2) Hk] Hb H. unfold authenticate in H. rewrite S1 in H. cbn [bind] in H.
  destruct (write_one w32 d (frame (4, q)) c) as [[a c1]|] eqn:W; cbn [bind] in H; [|discriminate].
  destruct (write_one_back _ _ _ _ _ _ _ Hb W) as (u & U1 & U2). destruct (snd a) as [e|] eqn:Ea.
  - destruct e as [| | | | | | |dd| | |]; try discriminate. destruct (continue m) as [k|] eqn:Ek; [|discriminate]. destruct (Hk k dd eq_refl) as (q2 & K1 & K2). rewrite K1 in H. cbn [bind] in H.
    destruct (write_one w32 d (frame (5, q2)) c1) as [[a2 c2]|] eqn:W2; cbn [bind] in H; [|discriminate]. injection H as H <-.
    assert (Hb1 : is_bytes (unread c1)) by (rewrite U1 in Hb; apply Forall_app in Hb; apply Hb).
    destruct (write_one_back _ _ _ _ _ _ _ Hb1 W2) as (u2 & V1 & V2). destruct (V2 H) as (p & -> & P2 & P3).
    exists u, p. rewrite <- V1. split; [exact U1|]. destruct (fst a2) as [e|]; [|exact P2]. destruct P3. cbn. unfold session_request. cbn. auto.
  - injection H as <-. destruct (U2 eq_refl) as (p & -> & P2 & P3). exists [], p. split; [exact U1|]. destruct (fst a) as [e|]; [|exact P2]. destruct P3. cbn. unfold session_request. cbn. auto.
Qed.

(* ---- the hypotheses are met ---- *)

(* Three requests. The first is answered by a notice, column meta data, a row of 5000 bytes (more
   than the read buffer holds), fetch-done and StmtExecuteOk; the second by an error; the third by Ok. *)
Definition dup : server_error := mkse 0 1062 (s2b "23000") (s2b "Duplicate entry").
Definition sample_exchanges : list exchange := [
  mkx (12, s2b "abc") (mkreply [(11, [8; 4]); (12, [8; 1; 18; 1; 97]); (13, repeat 7 (N.to_nat 5000)); (14, [])] (17, [])) None;
  mkx (18, []) (mkreply [] (1, error_bytes dup)) (Some dup);
  mkx (25, []) (mkreply [(11, [])] (0, [])) None].
Example sample_exchanges_ok : Forall (exchange_ok true) sample_exchanges /\ Forall goes_on sample_exchanges.
Proof.
  assert (I : forall ty p, ~ In ty [0; 1; 3; 4; 12; 17] -> interim (ty, p)).
  { intros ty p H. split; [intros F; apply H; cbn in *; tauto|]. intros E. cbn in E, H. subst. tauto. }
  split; unfold sample_exchanges;
    repeat match goal with
    | |- _ => progress cbn [interims final replied asked seen_as app]
    | |- Forall _ (_ :: _) => constructor
    | |- Forall _ [] => constructor
    | |- exchange_ok _ _ => split
    | |- answers _ _ _ => split; [|split]
    | |- reports _ None => cbn; tauto
    | |- interim (12, _) => split; [cbn; intuition lia|intros _; eexists _, _; split; [apply wire_dfields; vm_compute; reflexivity|apply number_last; vm_compute; reflexivity]]
    | |- interim _ => apply I; cbn; intuition lia
    | |- fits _ _ => vm_compute; reflexivity
    | |- _ < _ => vm_compute; reflexivity
    | |- goes_on _ => unfold goes_on, stops, session_request; cbn; intuition lia
    end.
  split; [reflexivity|]. cbn [snd final replied seen_as]. apply error_bytes_message; try (vm_compute; reflexivity); vm_compute; repeat constructor.
Qed.
(* The same bytes in pieces of n. *)
Fixpoint pieces (k : nat) (n : nat) (bs : bytes) : list bytes :=
  match k with O => [bs] | S k => firstn n bs :: pieces k n (skipn n bs) end.
Definition sample_conn (n : nat) : conn :=
  mkc Tcp (mkr [] (pieces 900 n (replies_bytes sample_exchanges ++ [99])) IoEOF) [] [] [].
Example sample_send : forall n, In n [1; 7; 4096; 4097]%nat ->
  exists c', conn_send false (Some 5) (request_bytes sample_exchanges) (sample_conn n) = Ok (([None; Some dup; None], None), c') /\ unread c' = [99].
Proof.
  intros n Hn. assert (U : unread (sample_conn n) = replies_bytes sample_exchanges ++ [99]).
  { unfold unread, sample_conn. cbn [rd held inbound app]. generalize (replies_bytes sample_exchanges ++ [99]). clear. generalize 900%nat as k. induction k as [|k IH]; intros bs; cbn [pieces concat].
    - apply app_nil_r.
    - rewrite IH. apply firstn_skipn. }
  apply (C27_one_response_per_request false (Some 5) sample_exchanges [99] (sample_conn n)); [|apply sample_exchanges_ok|split; reflexivity|exact U].
  eapply Forall_impl; [|exact (proj1 sample_exchanges_ok)]. intros x (A & B & C & D). split; [exact A|]. split; [exact B|]. split; [exact C|]. eapply Forall_impl; [|exact D].
  intros f. unfold fits. lia.
Qed.
(* The model computes it. *)
Example sample_send_computed : match conn_send false (Some 5) (request_bytes sample_exchanges) (sample_conn 7) with
  | Ok (r, c') => r = ([None; Some dup; None], None) /\ unread c' = [99] | Panic => False end.
Proof. vm_compute. split; reflexivity. Qed.
(* Cut short, it is an error. *)
Example sample_cut : match conn_send false None (request_bytes sample_exchanges) (mkc Tcp (mkr [] [removelast (replies_bytes sample_exchanges)] IoEOF) [] [] []) with
  | Ok (r, _) => r = ([None; Some dup; None], Some (CRead IoEOF)) | Panic => False end.
Proof. vm_compute. reflexivity. Qed.
(* A fatal error stops. *)
Definition shutdown : server_error := mkse 1 1053 (s2b "08S01") (s2b "Server shutdown in progress").
Example sample_fatal : match conn_send false None (request_bytes sample_exchanges) (mkc Tcp (mkr (frame (1, error_bytes shutdown)) [frame (0, [])] IoEOF) [] [] []) with
  | Ok (r, c') => r = ([Some shutdown], Some (CServer shutdown)) /\ unread c' = frame (0, []) | Panic => False end.
Proof. vm_compute. split; reflexivity. Qed.
(* A mechanism, and a challenge. *)
Definition toy : mechanism := {| start := fun c => Ok (frame (4, user_name c)); continue := Some (fun c d => Ok (frame (5, password c))) |}.
Definition toy_creds : credentials := {| user_name := s2b "u"; password := s2b "p"; database := [] |}.
Example toy_ok : mechanism_ok toy toy_creds /\ challenges true (mkreply [(11, [])] (3, [10; 3; 1; 2; 3])) [1; 2; 3].
Proof.
  split; [split|].
  - eexists. split; [reflexivity|]. vm_compute. reflexivity.
  - intros k d H. injection H as <-. eexists. split; [reflexivity|]. vm_compute. reflexivity.
  - split; [repeat constructor; cbn; intuition lia|]. split; [split; [reflexivity|]; eexists; split; [apply wire_dfields; vm_compute; reflexivity|apply bytes_last; vm_compute; reflexivity]|]. repeat constructor; vm_compute; reflexivity.
Qed.
Example toy_authenticates : match authenticate false None toy_creds toy (mkc Tls (mkr [] [reply_bytes (mkreply [(11, [])] (3, [10; 3; 1; 2; 3])); frame (4, [])] IoEOF) [] [] []) with
  | Ok (r, c') => r = None /\ log c' = [Write Tls (frame (5, s2b "p")) None; SetDeadline Tls None None; Write Tls (frame (4, s2b "u")) None; SetDeadline Tls None None] | Panic => False end.
Proof. vm_compute. split; reflexivity. Qed.

Print Assumptions C27_one_response_per_request.
Print Assumptions C27_units_get_one_response_per_message.
Print Assumptions C28_success_means_complete_replies.
Print Assumptions C28_truncated_replies_are_errors.
Print Assumptions C29_stopping_errors.
Print Assumptions C30_segmentation_irrelevant.
Print Assumptions C30_size_irrelevant.
Print Assumptions C31_server_errors_faithful.
Print Assumptions C31_usual_encoding.
Print Assumptions C48_one_write_after_deadline.
Print Assumptions C49_unchallenged.
Print Assumptions C49_challenged.
Print Assumptions C49_unexpected_challenge.
Print Assumptions C49_second_challenge.
Print Assumptions C49_success_means_ok.
