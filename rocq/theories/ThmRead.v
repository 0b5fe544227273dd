(* C96: replies are looked at with the bytes the server sent, although they are looked at in buffers that are slid, refilled
   and used again. MemRead has the buffers as arrays, and bufio.Reader and io.ReadFull as their source has them. *)
From Coq Require Import String List NArith ZArith Arith Bool Lia ZifyN ZifyNat ZifyBool.
From Coq Require Import List.
From Verif Require Import Base SpecWire SpecUnit Conn SpecReply ConnProofs ThmConn MemRead SpecRead MemReadProofs.
Import ListNotations.
Open Scope N_scope.

(* The connection of Conn a connection over memory stands for. *)
Definition as_conn (m : mconn) : conn := mkc (m_kind m) (mkr (pending (m_rd m)) [] (fails_with (src (m_rd m)))) (m_deadlines m) (m_writes m) (m_log m).
Lemma as_conn_stands : forall m, well_formed (m_rd m) -> calm (m_rd m) -> stands_for m (as_conn m).
Proof. intros m W C. unfold stands_for, as_conn, unread. cbn. rewrite app_nil_r. auto 10. Qed.

(* The next SetDeadline and the next Write succeed. *)
Definition m_can_write (m : mconn) : Prop := fst (next_result (m_deadlines m)) = None /\ fst (next_result (m_writes m)) = None.

(* Send, WriteOne and Authenticate do over memory what they do in Conn, so all that is proved there holds: however the bytes
   come in, wherever in the buffer the messages are, and whatever was in the buffers before. *)
Theorem C96_same_outcomes : forall w32 deadline m c, stands_for m c ->
  (forall b, same_outcome (m_send w32 deadline b m) (conn_send w32 deadline b c)) /\
  (forall b, same_outcome (m_write_one w32 deadline b m) (write_one w32 deadline b c)) /\
  (forall creds mech, same_outcome (m_authenticate w32 deadline creds mech m) (authenticate w32 deadline creds mech c)).
Proof.
  intros w32 deadline m c S. split; [|split]; intros.
  - apply send_same. exact S.
  - apply write_one_same. exact S.
  - apply authenticate_same. exact S.
Qed.

(* One response per request, each what the server reported, and the connection is left in sync. *)
Theorem C96_one_response_per_request : forall w32 deadline xs rest m,
  Forall (exchange_ok w32) xs -> Forall goes_on xs -> m_can_write m ->
  well_formed (m_rd m) -> calm (m_rd m) -> pending (m_rd m) = replies_bytes xs ++ rest ->
  exists m', m_send w32 deadline (request_bytes xs) m = Ok ((map seen_as xs, None), m') /\
    pending (m_rd m') = rest /\ well_formed (m_rd m') /\ calm (m_rd m').
Proof.
  intros w32 deadline xs rest m H1 H2 H3 W C P. pose proof (as_conn_stands m W C) as S.
  destruct (C27_one_response_per_request w32 deadline xs rest (as_conn m) H1 H2 H3) as (c & E & U); [unfold unread, as_conn; cbn; rewrite app_nil_r; exact P|].
  pose proof (send_same w32 deadline (request_bytes xs) m (as_conn m) S) as Q. rewrite E in Q. destruct (m_send _ _ _ _) as [[a m']|]; [|destruct Q].
  destruct Q as [-> (W' & C' & P' & _)]. exists m'. split; [reflexivity|]. rewrite P'. auto.
Qed.

(* Success means that every reply was there. *)
Theorem C96_success_means_complete_replies : forall w32 deadline requests m rs m',
  Forall (fun f => 1 + nlen (snd f) < 2 ^ 32) requests -> m_can_write m ->
  well_formed (m_rd m) -> calm (m_rd m) -> is_bytes (pending (m_rd m)) ->
  m_send w32 deadline (concat (map frame requests)) m = Ok ((rs, None), m') ->
  exists replies, pending (m_rd m) = concat (map reply_bytes replies) ++ pending (m_rd m') /\
    List.length replies = List.length requests /\ Forall2 (answers w32) replies rs /\ Forall2 (fun f r => ~ stops (fst f) r) requests rs.
Proof.
  intros w32 deadline requests m rs m' H1 H2 W C B E. pose proof (as_conn_stands m W C) as S.
  pose proof (send_same w32 deadline (concat (map frame requests)) m (as_conn m) S) as Q. rewrite E in Q. destruct (conn_send _ _ _ _) as [[a c']|] eqn:F; [|destruct Q].
  destruct Q as [<- (W' & C' & P' & _)]. rewrite P'. assert (U : unread (as_conn m) = pending (m_rd m)) by (unfold unread, as_conn; cbn; apply app_nil_r).
  rewrite <- U. apply (C28_success_means_complete_replies w32 deadline requests (as_conn m) rs c' H1 H2); [rewrite U; exact B|exact F].
Qed.

(* Read returns, with any net.Conn: it neither panics nor goes on for ever. What it returns is what the bytes say, or
   the error of bufio for a net.Conn that stalls; and the reader is fit for use. *)
Theorem C96_read_returns : forall w32 ct b r, well_formed b -> held r ++ concat (inbound r) = pending b -> ended r = fails_with (src b) ->
  exists x b', m_read w32 ct b = Ok (x, b') /\ well_formed b' /\ fails_with (src b') = fails_with (src b) /\
    ((x = fst (conn_read w32 ct r) /\ pending b' = held (snd (conn_read w32 ct r)) ++ concat (inbound (snd (conn_read w32 ct r)))) \/ (x = (None, Some (CRead no_progress)) /\ ~ calm b)).
Proof.
  intros w32 ct b r W F E. change (held r ++ concat (inbound r)) with (flat r) in F. destruct (m_read_spec w32 ct b W) as (a & b' & -> & (G1 & G2 & G3) & A1 & A2). destruct (conn_read_spec w32 ct r) as (r' & R1 & R2 & R3).
  rewrite F, E in R1, R2. exists a, b'. split; [reflexivity|]. split; [exact G1|]. split; [exact G2|]. rewrite R1. cbn [fst snd]. change (held r' ++ concat (inbound r')) with (flat r'). rewrite R2.
  destruct A1 as [A1|A1]; [left; rewrite A1; auto|].
  destruct (aread w32 ct (fails_with (src b)) (pending b)) as [y z] eqn:Q. cbn [fst snd].
  (* either it is what the bytes say as well, or the reader was not calm *)
  assert (DE : forall p q : ioerr, {p = q} + {p <> q}) by (decide equality; apply N.eq_dec).
  assert (DS : forall p q : option cerr, {p = q} + {p <> q}).
  { decide equality. decide equality; try apply Z.eq_dec; try (apply list_eq_dec, N.eq_dec); try apply DE.
    decide equality; try (apply list_eq_dec, N.eq_dec); apply N.eq_dec. }
  assert (DR : forall p q : response, {p = q} + {p <> q}).
  { decide equality. decide equality; try (apply list_eq_dec, N.eq_dec); apply N.eq_dec. }
  assert (DY : {y = a} + {y <> a}) by (destruct y as [y1 y2], a as [a1 a2]; destruct (DR y1 a1), (DS y2 a2); (left; congruence) || (right; congruence)).
  destruct (list_eq_dec N.eq_dec z (pending b')) as [Z|Z]; [destruct DY as [Y|Y]|].
  - left. auto.
  - right. split; [exact A1|]. intros C. apply Y. specialize (A2 C). congruence.
  - right. split; [exact A1|]. intros C. apply Z. specialize (A2 C). congruence.
Qed.

Lemma Ok_eq : forall {A} (x y : A), Ok x = Ok y -> x = y.
Proof. intros A x y H. injection H as H. exact H. Qed.
Lemma fill_loop_stalls : forall i b b' z, chunks (src b) = repeat [] i ++ z -> fill_loop i b = b' -> kept b' = Some no_progress /\ pos_r b' = pos_r b /\ pos_w b' = pos_w b.
Proof.
  induction i as [|i IH]; intros b b' z H Q; cbn [fill_loop] in Q; [subst b'; cbn; auto|]. unfold src_read in Q. rewrite H in Q. cbn [repeat app] in Q. change (nlen []) with 0 in Q.
  destruct (N.leb_spec 0 (nlen (buf b) - pos_w b)); [|lia]. change (nlen []) with 0 in Q. change (0 <? 0) with false in Q. cbv iota zeta in Q. rewrite N.add_0_r in Q.
  match type of Q with fill_loop i ?x = _ => destruct (IH x b' z eq_refl Q) as (A & B & C) end.
  cbn [pos_r pos_w] in *. auto.
Qed.

(* A net.Conn that gives nothing 100 times where a message should begin: an error, not a wait for ever. *)
Theorem C96_stalled : forall w32 ct b after, well_formed b -> kept b = None -> pos_w b - pos_r b < 5 ->
  chunks (src b) = repeat [] 100 ++ after ->
  exists b', m_read w32 ct b = Ok ((None, Some (CRead no_progress)), b') /\ well_formed b' /\ pending b' = pending b.
Proof.
  intros w32 ct b z W K B H. unfold m_read. cbn [m_read_k]. unfold m_message.
  destruct (slide_spec b W K ltac:(unfold buffered; lia)) as (S1 & S2 & S3 & S4 & S5).
  assert (F : exists b1, m_fill b = Ok b1 /\ kept b1 = Some no_progress /\ buffered b1 = buffered b /\ pending b1 = pending b /\ well_formed b1).
  { destruct (m_fill_spec b W K ltac:(unfold buffered; lia)) as (b1 & F1 & (F2 & _) & F3 & _). exists b1. split; [exact F1|].
    unfold m_fill in F1. cbv zeta in F1. destruct (nlen (buf (slide b)) <=? pos_w (slide b)); [discriminate|]. apply Ok_eq in F1.
    destruct (fill_loop_stalls max_empty (slide b) b1 z ltac:(rewrite S4; exact H) F1) as (X1 & X2 & X3). clear F1. split; [exact X1|].
    split; [|auto]. unfold buffered. rewrite X2, X3. unfold slide, buffered. destruct (0 <? pos_r b); [cbn [pos_r pos_w]; lia|reflexivity]. }
  destruct F as (b1 & F1 & F2 & F3 & F4 & F5).
  assert (P : m_peek 5 b = Ok (PFailed no_progress, mkb (buf b1) (pos_r b1) (pos_w b1) None (src b1))).
  { unfold m_peek. cbn [peek_loop]. rewrite K, (proj1 W). destruct (N.ltb_spec (buffered b) 5); [|unfold buffered in *; lia]. destruct (N.ltb_spec (buffered b) 4096); [|lia]. cbn [andb]. rewrite F1. cbn [bind].
    assert (L : peek_loop (length (src_bytes (src b))) 5 b1 = Ok b1) by (destruct (length _); cbn [peek_loop]; rewrite F2, !andb_false_r; reflexivity).
    rewrite L. cbn [bind]. rewrite (proj1 F5). change (4096 <? 5) with false. cbv iota. rewrite F3. destruct (N.ltb_spec (buffered b) 5); [|lia]. unfold read_err. rewrite F2. reflexivity. }
  rewrite P. cbn [bind]. eexists. split; [reflexivity|]. split; [|rewrite <- F4; reflexivity]. destruct F5 as (V1 & V2 & V3). unfold well_formed. cbn [buf pos_r pos_w kept src]. split; [exact V1|]. split; [exact V2|discriminate].
Qed.

(* A new reader, and one set to another net.Conn: only the bytes of that one are ever seen. *)
Theorem C96_new_and_reset : forall s, never_stalls s ->
  (well_formed (new_bufrd s) /\ calm (new_bufrd s) /\ pending (new_bufrd s) = concat (chunks s) ++ final_chunk s) /\
  forall b, well_formed b -> well_formed (reset_bufrd s b) /\ calm (reset_bufrd s b) /\ pending (reset_bufrd s b) = concat (chunks s) ++ final_chunk s.
Proof.
  intros s N. split.
  - split; [|split].
    + unfold well_formed, new_bufrd. cbn [buf pos_r pos_w kept src]. split; [unfold nlen; rewrite repeat_length; reflexivity|]. split; [lia|discriminate].
    + split; [exact N|]. left. reflexivity.
    + reflexivity.
  - intros b (W1 & _). split; [|split].
    + unfold well_formed, reset_bufrd. cbn [buf pos_r pos_w kept src]. split; [exact W1|]. split; [lia|discriminate].
    + split; [exact N|]. left. reflexivity.
    + reflexivity.
Qed.

(* ---- the hypotheses can be met ---- *)

(* No chunk is empty: never_stalls holds. *)
Lemma no_empty_no_stall : forall s, Forall (fun c => c <> []) (chunks s) -> never_stalls s.
Proof.
  intros s F a z E. rewrite E in F. apply Forall_app in F. destruct F as [_ F]. apply Forall_app in F. destruct F as [F _].
  inversion F as [|x l H _ X]. apply H. reflexivity.
Qed.

(* The replies of ThmConn (one of them of 5000 bytes) in pieces of n bytes, the last piece with the end of the stream, an
   empty read in between, to a connection whose buffer is full of other bytes. *)
Definition used_bufrd (s : source) : bufrd := reset_bufrd s (mkb (repeat 7 (N.to_nat 4096)) 17 4096 (Some IoEOF) s).
Definition sample_source (n : nat) : source := mksrc ([] :: pieces 60 n (replies_bytes sample_exchanges)) [99] IoEOF.
Definition sample_mconn (n : nat) : mconn := mkmc Tcp (used_bufrd (sample_source n)) [] [] [].

Example sample_meets : forall n, In n [1; 97; 4096; 4097]%nat ->
  exists m', m_send false (Some 5) (request_bytes sample_exchanges) (sample_mconn n) = Ok (([None; Some dup; None], None), m') /\ pending (m_rd m') = [99].
Proof.
  intros n Hn.
  assert (N : never_stalls (sample_source n)).
  { intros a z E. assert (L : length (chunks (sample_source n)) = 62%nat).
    { reflexivity. }
    rewrite E in L. rewrite !app_length, repeat_length in L. lia. }
  destruct (C96_new_and_reset (sample_source n) N) as [_ R].
  specialize (R (mkb (repeat 7 (N.to_nat 4096)) 17 4096 None (sample_source n))). destruct R as (W & C & P).
  { unfold well_formed. cbn [buf pos_r pos_w kept src]. split; [unfold nlen; rewrite repeat_length; reflexivity|]. split; [lia|discriminate]. }
  edestruct (C96_one_response_per_request false (Some 5) sample_exchanges [99] (sample_mconn n)) as (m' & E & U & _);
    [| apply sample_exchanges_ok | split; reflexivity | exact W | exact C | | exists m'; split; [exact E|exact U]].
  - eapply Forall_impl; [|exact (proj1 sample_exchanges_ok)]. intros x (A & B & D & F). split; [exact A|]. split; [exact B|]. split; [exact D|]. eapply Forall_impl; [|exact F].
    intros f. unfold fits. lia.
  - etransitivity; [exact P|]. unfold sample_source. cbn [chunks final_chunk concat app]. f_equal. clear. generalize (replies_bytes sample_exchanges). generalize 60%nat as k.
    induction k as [|k IH]; intros bs; cbn [pieces concat]; [apply app_nil_r|]. rewrite IH. apply firstn_skipn.
Qed.
(* The model computes it, through the large buffer, slides and refills. *)
Example sample_computed : match m_send false (Some 5) (request_bytes sample_exchanges) (sample_mconn 97) with
  | Ok (r, m') => r = ([None; Some dup; None], None) /\ pending (m_rd m') = [99] | Panic => False end.
Proof. vm_compute. split; reflexivity. Qed.
(* Cut short in the middle of the second reply. *)
Example cut_computed : match m_send false None (request_bytes sample_exchanges) (mkmc Tcp (used_bufrd (mksrc [firstn 40 (replies_bytes sample_exchanges)] [] IoEOF)) [] [] []) with
  | Ok (r, m') => snd r <> None | Panic => False end.
Proof. vm_compute. discriminate. Qed.
(* A net.Conn that stalls. *)
Example stalled_computed : match m_read false 12 (new_bufrd (mksrc (repeat [] 100 ++ [frame (0, [])]) [] IoEOF)) with
  | Ok (r, b') => r = (None, Some (CRead no_progress)) /\ fst (match m_read false 12 b' with Ok x => x | Panic => (r, b') end) = (None, None) | Panic => False end.
Proof. vm_compute. split; reflexivity. Qed.

Print Assumptions C96_same_outcomes.
Print Assumptions C96_one_response_per_request.
Print Assumptions C96_success_means_complete_replies.
Print Assumptions C96_read_returns.
Print Assumptions C96_stalled.
Print Assumptions C96_new_and_reset.
