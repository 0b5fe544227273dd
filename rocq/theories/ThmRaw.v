(* C84: Send given any bytes. *)
From Coq Require Import String List NArith ZArith Arith Bool Lia ZifyN ZifyNat ZifyBool.
From Coq Require Import List.
From Verif Require Import Base SpecWire GoSlice Text Values Builder SpecUnit SpecProg SpecReply Conn RawSend ConnProofs ReplyProofs ThmConn.
From Verif Require History ThmBuilder Pool SpecPool ThmPool PoolProofs.
Import ListNotations.
Open Scope N_scope.
Open Scope list_scope.
Ltac Zify.zify_post_hook ::= Z.div_mod_to_equations.

(* A reply takes at least five bytes. *)
Lemma aread_consumes : forall k bs, (length bs <= k)%nat -> forall w32 ct fin r rest, aread w32 ct fin bs = ((r, None), rest) -> (length rest + 5 <= length bs)%nat.
Proof.
  induction k as [|k IH]; intros bs Hk w32 ct fin r rest H; rewrite aread_eq in H; destruct (amessage w32 fin bs) as [[[[st b] n]|e] q] eqn:Ha; try discriminate;
    pose proof (amessage_consumes _ _ _ _ _ _ _ Ha) as Hc.
  - lia.
  - destruct (dispatch ct st b) as [[resp [e|]]|]; [destruct e; discriminate|injection H as <- <-; exact Hc|].
    apply IH in H; lia.
Qed.

Lemma c_read_consumes : forall w32 ct c r c', c_read w32 ct c = ((r, None), c') -> (length (unread c') + 5 <= length (unread c))%nat.
Proof.
  intros w32 ct c r c' H. destruct (c_read_spec w32 ct c) as (c1 & R1 & R2 & _). rewrite R1 in H. destruct (aread w32 ct (ended (rd c)) (unread c)) as [a q] eqn:Ha.
  cbn [fst snd] in *. injection H as -> <-. rewrite R2. exact (aread_consumes _ _ (le_n _) _ _ _ _ _ Ha).
Qed.

(* The fuel is enough. *)
Lemma raw_fuel : forall k1 k2 w32 b i rs c, (length (unread c) < k1)%nat -> (length (unread c) < k2)%nat -> raw_responses k1 w32 b i rs c = raw_responses k2 w32 b i rs c.
Proof.
  induction k1 as [|k1 IH]; intros [|k2] w32 b i rs c H1 H2; try lia. cbn [raw_responses]. destruct (i <? _)%Z; [|reflexivity]. destruct (_ || _)%bool; [reflexivity|].
  destruct (c_read w32 _ c) as [[r [e|]] c1] eqn:Hc; cbn [fst snd]; [reflexivity|]. apply c_read_consumes in Hc. destruct (i <? 0)%Z; [reflexivity|]. apply IH; lia.
Qed.

Definition agree (x : ends) (y : res ((list response * option cerr) * conn)) : Prop :=
  match x with Returns r c => y = Ok (r, c) | Panics _ => y = Panic end.

(* On 64 bit platforms the two models of Send agree, whatever the bytes. *)
Lemma raw_agrees : forall k1 k2 b i rs c, (0 <= i)%Z -> (length (unread c) < k1)%nat -> (length (skipn (Z.to_nat i) b) <= k2)%nat ->
  agree (raw_responses k1 false b i rs c) (read_responses false k2 (skipn (Z.to_nat i) b) rs c).
Proof.
  induction k1 as [|k1 IH]; intros k2 b i rs c Hi Hu Hk; [lia|]. cbn [raw_responses]. rewrite skipn_length in Hk.
  destruct (Z.ltb_spec i (Z.of_nat (length b))) as [L|L].
  - destruct (skipn (Z.to_nat i) b) as [|x rest] eqn:Hs; [apply (f_equal (@length N)) in Hs; rewrite skipn_length in Hs; cbn in Hs; lia|].
    destruct k2 as [|k2]; [lia|]. cbn [read_responses]. rewrite <- Hs.
    destruct (Z.ltb_spec (i + 4) 0) as [X|X]; [lia|]. cbn [orb].
    destruct (Z.leb_spec (Z.of_nat (length b)) (i + 4)) as [Y|Y].
    + destruct (nth_error (skipn (Z.to_nat i) b) 4) eqn:Hn; [|reflexivity]. assert (nth_error (skipn (Z.to_nat i) b) 4 <> None) as Hx by congruence. apply nth_error_Some in Hx. rewrite skipn_length in Hx. lia.
    + destruct (nth_error (skipn (Z.to_nat i) b) 4) as [ct|] eqn:Hn; [|apply nth_error_None in Hn; rewrite skipn_length in Hn; lia].
      assert (Hct : nth (Z.to_nat (i + 4)) b 0 = ct).
      { rewrite <- (firstn_skipn (Z.to_nat i) b), app_nth2; rewrite firstn_length; [|lia]. apply nth_error_nth. rewrite <- Hn. f_equal. lia. }
      rewrite Hct. destruct (c_read false ct c) as [[r [e|]] c1] eqn:Hc; cbn [fst snd]; [reflexivity|]. apply c_read_consumes in Hc.
      destruct (Z.ltb_spec i 0) as [Z0|_]; [lia|]. unfold wrap_int. set (u := le (firstn 4 (skipn (Z.to_nat i) b))).
      assert (Hint : int_of_u32 false u = Z.of_N u) by reflexivity. rewrite Hint.
      specialize (IH k2 b (i + 4 + Z.of_N u)%Z (rs ++ [r]) c1 ltac:(lia) ltac:(lia)).
      assert (Hsk : skipn (Z.to_nat (i + 4 + Z.of_N u)) b = skipN (4 + u) (skipn (Z.to_nat i) b)).
      { pose proof (skipN_add (4 + u) (Z.to_N i) b) as Hadd. unfold skipN in *. replace (N.to_nat (Z.to_N i)) with (Z.to_nat i) in Hadd by lia. rewrite Hadd. f_equal. lia. }
      rewrite <- Hsk. apply IH. rewrite skipn_length. lia.
  - rewrite skipn_all2 by lia. destruct k2; reflexivity.
Qed.

Lemma raw_send_agrees : forall deadline b c, agree (raw_send false deadline b c) (conn_send false deadline b c).
Proof.
  intros d b c. unfold raw_send, conn_send. destruct (set_deadline d c) as [[e|] c1]; [reflexivity|]. destruct (write b c1) as [[e|] c2]; [reflexivity|].
  apply (raw_agrees _ _ b 0 [] c2); [lia|unfold unread; lia|]. cbn [skipn Z.to_nat]. lia.
Qed.

(* On 32 bit platforms they agree for whole messages. *)
Lemma frame_length : forall f, length (frame f) = (5 + length (snd f))%nat.
Proof. intros f. unfold frame. cbn. reflexivity. Qed.

Lemma raw_whole : forall w32 fs k1 k2 pre rs c, Forall (fun f => 1 + nlen (snd f) < 2 ^ 32) fs ->
  (w32 = true -> nlen (pre ++ concat (map frame fs)) < 2 ^ 31) -> (length (unread c) < k1)%nat -> (length (concat (map frame fs)) <= k2)%nat ->
  agree (raw_responses k1 w32 (pre ++ concat (map frame fs)) (Z.of_nat (length pre)) rs c) (read_responses w32 k2 (concat (map frame fs)) rs c).
Proof.
  intros w32. induction fs as [|f fs IH]; intros k1 k2 pre rs c Hf Hl Hu Hk; (destruct k1 as [|k1]; [lia|]); cbn [map concat raw_responses].
  - rewrite app_nil_r, Z.ltb_irrefl. destruct k2; reflexivity.
  - inversion_clear Hf as [|? ? F1 F2]. cbn [map concat] in Hl, Hk. set (tl := concat (map frame fs)) in *. destruct (frame_head f tl F1) as (A & B & C & _ & D & F).
    pose proof (frame_length f) as Lf. unfold nlen in Hl. rewrite !app_length in Hl. rewrite !app_length.
    destruct (Z.ltb_spec (Z.of_nat (length pre)) (Z.of_nat (length pre + (length (frame f) + length tl)))) as [_|X]; [|lia].
    destruct (Z.ltb_spec (Z.of_nat (length pre) + 4) 0) as [X|_]; [lia|]. cbn [orb].
    destruct (Z.leb_spec (Z.of_nat (length pre + (length (frame f) + length tl))) (Z.of_nat (length pre) + 4)) as [X|_]; [lia|].
    replace (Z.to_nat (Z.of_nat (length pre) + 4)) with (length pre + 4)%nat by lia. rewrite app_nth2_plus, B. rewrite Nat2Z.id.
    replace (skipn (length pre) (pre ++ frame f ++ tl)) with (frame f ++ tl) by (rewrite skipn_app, skipn_all, Nat.sub_diag; reflexivity). rewrite A.
    rewrite app_length in Hk. destruct k2 as [|m]; [lia|].
    assert (Hcons : exists x l, frame f ++ tl = x :: l) by (unfold frame; cbn [app]; eauto). destruct Hcons as (x & l & Hx).
    assert (R : read_responses w32 (S m) (frame f ++ tl) rs c =
      let (a, c1) := c_read w32 (fst f) c in match snd a with Some e => Ok ((rs ++ [fst a], Some e), c1) | None => read_responses w32 m tl (rs ++ [fst a]) c1 end).
    { cbn [read_responses]. rewrite C, A, F, Hx. reflexivity. }
    rewrite R. clear R. destruct (c_read w32 (fst f) c) as [[r [e|]] c1] eqn:Hc; cbn [fst snd]; [reflexivity|]. apply c_read_consumes in Hc.
    destruct (Z.ltb_spec (Z.of_nat (length pre)) 0) as [X|_]; [lia|].
    assert (Hnext : wrap_int w32 (Z.of_nat (length pre) + 4 + int_of_u32 w32 (1 + nlen (snd f))) = Z.of_nat (length (pre ++ frame f))).
    { rewrite app_length, Lf. unfold wrap_int, int_of_u32. destruct w32; cbn [andb].
      - specialize (Hl eq_refl). unfold nlen. destruct (N.leb_spec (2 ^ 31) (1 + N.of_nat (length (snd f)))) as [X|X]; lia.
      - unfold nlen. lia. }
    rewrite Hnext. rewrite (app_assoc pre). apply IH; [exact F2| |lia|lia]. intros W. specialize (Hl W). unfold nlen. fold tl. rewrite !app_length. lia.
Qed.

Lemma raw_send_whole : forall w32 deadline fs c, Forall (fun f => 1 + nlen (snd f) < 2 ^ 32) fs -> (w32 = true -> nlen (concat (map frame fs)) < 2 ^ 31) ->
  agree (raw_send w32 deadline (concat (map frame fs)) c) (conn_send w32 deadline (concat (map frame fs)) c).
Proof.
  intros w32 d fs c Hf Hl. unfold raw_send, conn_send. destruct (set_deadline d c) as [[e|] c1]; [reflexivity|]. destruct (write _ c1) as [[e|] c2]; [reflexivity|].
  apply (raw_whole w32 fs _ _ [] [] c2 Hf Hl); [unfold unread; lia|lia].
Qed.


(* C84: so the model of Send the other properties are about is exact: for all bytes on 64 bit platforms, and for whole messages on 32 bit ones. *)
Theorem C84_models_of_send_agree : forall deadline b c, agree (raw_send false deadline b c) (conn_send false deadline b c) /\
  forall fs, b = concat (map frame fs) -> Forall (fun f => 1 + nlen (snd f) < 2 ^ 32) fs -> nlen b < 2 ^ 31 -> agree (raw_send true deadline b c) (conn_send true deadline b c).
Proof. intros d b c. split; [apply raw_send_agrees|]. intros fs -> Hf Hl. apply raw_send_whole; auto. Qed.

(* C84: bytes that are whole messages never make Send panic, whatever the server says and however the connection fails. *)
Theorem C84_whole_messages_never_panic : forall w32 deadline fs c, Forall (fun f => 1 + nlen (snd f) < 2 ^ 32) fs -> (w32 = true -> nlen (concat (map frame fs)) < 2 ^ 31) ->
  exists r c', raw_send w32 deadline (concat (map frame fs)) c = Returns r c'.
Proof.
  intros w32 d fs c Hf Hl. pose proof (raw_send_whole w32 d fs c Hf Hl) as Ha. destruct (raw_send w32 d _ c) as [r c'|c']; [eauto|]. exfalso. cbn [agree] in Ha.
  unfold conn_send in Ha. destruct (set_deadline d c) as [[e|] c1]; [discriminate|]. destruct (write _ c1) as [[e|] c2]; [discriminate|].
  destruct (read_responses_spec w32 fs _ [] c2 Hf (le_n _)) as (c3 & R & _). cbn zeta in R. congruence.
Qed.

(* C84: so no unit of work does that a pipe hands over. *)
Theorem C84_units_never_panic : forall (E : Env) b pr bs deadline c, empty b -> prog_ok word32 pr -> delivers b pr bs -> nlen bs < (if word32 then 2 ^ 31 else 2 ^ 32) ->
  exists r c', raw_send word32 deadline bs c = Returns r c'.
Proof.
  intros E b pr bs d c He Hok Hd Hl. assert (Hl2 : nlen bs < 2 ^ 32) by (destruct word32; lia).
  destruct (ThmBuilder.C07_sent_bytes_are_whole_frames E b pr bs He Hok Hd Hl2) as (fs & -> & Hf). apply C84_whole_messages_never_panic.
  - eapply Forall_impl; [|exact Hf]. cbv beta. tauto.
  - intros W. rewrite W in Hl. exact Hl.
Qed.

(* Whole messages that the server answers, with anything after them. *)
Lemma raw_prefix : forall w32 fs tail k1 pre rs c rs' rest, Forall (fun f => 1 + nlen (snd f) < 2 ^ 32) fs ->
  (w32 = true -> nlen (pre ++ concat (map frame fs) ++ tail) < 2 ^ 31) -> (length (unread c) < k1)%nat ->
  areads w32 (map fst fs) (ended (rd c)) (unread c) = ((rs', None), rest) -> exists k2 c',
  raw_responses k1 w32 (pre ++ concat (map frame fs) ++ tail) (Z.of_nat (length pre)) rs c =
    raw_responses k2 w32 (pre ++ concat (map frame fs) ++ tail) (Z.of_nat (length (pre ++ concat (map frame fs)))) (rs ++ rs') c' /\
  unread c' = rest /\ (length (unread c') < k2)%nat /\ log c' = log c.
Proof.
  intros w32. induction fs as [|f fs IH]; intros tail k1 pre rs c rs' rest Hf Hl Hu Ha; cbn [map concat areads] in *.
  - injection Ha as <- <-. exists k1, c. rewrite !app_nil_r. auto.
  - destruct k1 as [|k1]; [lia|]. inversion_clear Hf as [|? ? F1 F2]. set (tl := concat (map frame fs)) in *. rewrite <- app_assoc in *.
    destruct (frame_head f (tl ++ tail) F1) as (A & B & C & _ & D & F).
    pose proof (frame_length f) as Lf. unfold nlen in Hl. rewrite !app_length in Hl.
    remember (Z.of_nat (length (pre ++ frame f ++ tl))) as target eqn:Ht. cbn [raw_responses]. rewrite !app_length.
    destruct (Z.ltb_spec (Z.of_nat (length pre)) (Z.of_nat (length pre + (length (frame f) + (length tl + length tail))))) as [_|X]; [|lia].
    destruct (Z.ltb_spec (Z.of_nat (length pre) + 4) 0) as [X|_]; [lia|]. cbn [orb].
    destruct (Z.leb_spec (Z.of_nat (length pre + (length (frame f) + (length tl + length tail)))) (Z.of_nat (length pre) + 4)) as [X|_]; [lia|].
    replace (Z.to_nat (Z.of_nat (length pre) + 4)) with (length pre + 4)%nat by lia. rewrite app_nth2_plus, B. rewrite Nat2Z.id.
    replace (skipn (length pre) (pre ++ frame f ++ tl ++ tail)) with (frame f ++ tl ++ tail) by (rewrite skipn_app, skipn_all, Nat.sub_diag; reflexivity). rewrite A.
    destruct (c_read_spec w32 (fst f) c) as (c1 & R1 & R2 & R3 & _ & _ & _ & R7). rewrite R1.
    destruct (aread w32 (fst f) (ended (rd c)) (unread c)) as [[r [e|]] q] eqn:Hq; cbn [fst snd] in *; [discriminate|].
    pose proof (c_read_consumes _ _ _ _ _ R1) as Hc.
    destruct (areads w32 (map fst fs) (ended (rd c)) q) as [[rs2 o2] q2] eqn:Hq2. cbn [fst snd] in Ha. injection Ha as <- -> <-.
    destruct (Z.ltb_spec (Z.of_nat (length pre)) 0) as [X|_]; [lia|].
    assert (Hnext : wrap_int w32 (Z.of_nat (length pre) + 4 + int_of_u32 w32 (1 + nlen (snd f))) = Z.of_nat (length (pre ++ frame f))).
    { rewrite app_length, Lf. unfold wrap_int, int_of_u32. destruct w32; cbn [andb].
      - specialize (Hl eq_refl). unfold nlen. destruct (N.leb_spec (2 ^ 31) (1 + N.of_nat (length (snd f)))) as [X|X]; lia.
      - unfold nlen. lia. }
    rewrite Hnext. destruct (IH tail k1 (pre ++ frame f) (rs ++ [r]) c1 rs2 q2 F2) as (k2 & c' & G1 & G2 & G3 & G4).
    + intros W. specialize (Hl W). unfold nlen. fold tl. rewrite !app_length. lia.
    + lia.
    + rewrite R2, R3. exact Hq2.
    + exists k2, c'. fold tl in G1. rewrite <- !app_assoc in G1. cbn [app] in G1. subst target. split; [exact G1|]. split; [exact G2|]. split; [exact G3|]. congruence.
Qed.

(* C84 is false for other bytes: if the last message has not even a header, and the server has answered those before, Send panics. All of the bytes have
   been written by then, and the connection is neither closed nor, in the pool, returned: see below. *)
Theorem C84_cut_header_panics_refuted : forall w32 deadline xs tail rest c,
  Forall (exchange_ok w32) xs -> Forall goes_on xs -> can_write c -> unread c = replies_bytes xs ++ rest -> (1 <= length tail <= 4)%nat ->
  (w32 = true -> nlen (request_bytes xs ++ tail) < 2 ^ 31) ->
  exists c', raw_send w32 deadline (request_bytes xs ++ tail) c = Panics c' /\ unread c' = rest /\
    log c' = [Write (ckind c) (request_bytes xs ++ tail) None; SetDeadline (ckind c) deadline None] ++ log c.
Proof.
  intros w32 d xs tail rest c H1 H2 [W1 W2] Hu Ht Hl. unfold raw_send, set_deadline, write. destruct (next_result (deadlines c)) as [x l]. cbn [fst] in W1. subst x.
  cbn [writes]. destruct (next_result (writes c)) as [x l']. cbn [fst] in W2. subst x. cbn [ckind rd deadlines log].
  rewrite requests_map in *. set (c2 := mkc _ _ _ _ _).
  destruct (raw_prefix w32 (map asked xs) tail (S (length (held (rd c) ++ concat (inbound (rd c))))) [] [] c2 (map seen_as xs) rest (requests_fit _ _ H1) Hl) as (k2 & c' & G1 & G2 & G3 & G4).
  - unfold unread, c2. cbn [rd]. lia.
  - change (unread c2) with (unread c). change (ended (rd c2)) with (ended (rd c)). rewrite Hu. rewrite (map_map asked fst).
    pose proof (areads_go w32 (ended (rd c)) xs [] rest H1 H2) as G. rewrite app_nil_r in G. rewrite G. cbn. rewrite app_nil_r. reflexivity.
  - exists c'. cbn [app] in G1. change (Z.of_nat (length (@nil N))) with 0%Z in G1. rewrite G1. split; [|split; [exact G2|exact G4]].
    destruct k2 as [|k2]; [reflexivity|]. cbn [raw_responses]. rewrite app_length.
    destruct (_ <? _)%Z eqn:X1; [|apply Z.ltb_ge in X1; lia]. destruct (_ || _)%bool eqn:X2; [reflexivity|]. apply orb_false_elim in X2. destruct X2 as [X2 X3]. apply Z.leb_gt in X3. lia.
Qed.

Lemma endless_step : forall k ty rs c, raw_responses (S k) true [252; 255; 255; 255; ty] 0 rs c =
  let (a, c1) := c_read true ty c in
  match snd a with Some e => Returns (rs ++ [fst a], Some e) c1 | None => raw_responses k true [252; 255; 255; 255; ty] 0 (rs ++ [fst a]) c1 end.
Proof. intros. reflexivity. Qed.

(* C84: nor does it return one response per message for other bytes: on 32 bit platforms a length of 2^32-4 makes one message take all
   the replies there will ever be. *)
Theorem C84_endless_message_refuted : forall deadline ty ps rs c,
  Forall2 (answers true) ps rs -> Forall (fun r => ~ stops ty r) rs -> can_write c -> unread c = concat (map reply_bytes ps) ->
  exists c', raw_send true deadline [252; 255; 255; 255; ty] c = Returns (rs ++ [None], Some (CRead (ended (rd c)))) c'.
Proof.
  intros d ty ps rs c H1 H2 [W1 W2] Hu. unfold raw_send, set_deadline, write. destruct (next_result (deadlines c)) as [x l]. cbn [fst] in W1. subst x.
  cbn [writes]. destruct (next_result (writes c)) as [x l']. cbn [fst] in W2. subst x. cbn [ckind rd deadlines log]. set (c2 := mkc _ _ _ _ _).
  assert (G : forall ps rs c k rs0, Forall2 (answers true) ps rs -> Forall (fun r => ~ stops ty r) rs -> unread c = concat (map reply_bytes ps) -> (length (unread c) < k)%nat ->
    exists c', raw_responses k true [252; 255; 255; 255; ty] 0 rs0 c = Returns (rs0 ++ rs ++ [None], Some (CRead (ended (rd c)))) c').
  { clear. induction ps as [|p ps IH]; intros rs c k rs0 H1 H2 Hu Hk; inversion H1 as [|p' y ps' l' Ap Aps]; subst; (destruct k as [|k]; [lia|]); rewrite endless_step.
    - destruct (c_read_spec true ty c) as (c1 & R1 & _). rewrite R1, Hu. cbn [map concat]. rewrite aread_eq. cbn. eauto.
    - destruct (c_read_spec true ty c) as (c1 & R1 & R2 & R3 & _). rewrite R1. cbn [map concat] in Hu. rewrite Hu in R1, R2 |- *. inversion_clear H2 as [|? ? S1 S2].
      rewrite (aread_reply _ _ _ _ _ _ Ap), (outcome_go _ _ S1) in R1, R2 |- *. cbn [fst snd] in *.
      destruct (IH l' c1 k (rs0 ++ [y]) Aps S2 R2) as (c' & G). { apply c_read_consumes in R1. lia. }
      exists c'. rewrite G, R3, <- !app_assoc. reflexivity. }
  destruct (G ps rs c2 (S (length (held (rd c) ++ concat (inbound (rd c))))) [] H1 H2 Hu) as (c' & R); [unfold unread, c2; cbn [rd]; lia|]. exists c'. exact R.
Qed.

(* C84: a length of almost 2^31 makes Send panic on 32 bit platforms, after the reply to that message: the sum of the position
   and the length is negative there. On others it is just the last message. *)
Theorem C84_length_overflows_refuted : forall w32 deadline header ty body p r rest c,
  length header = 4%nat -> 2 ^ 31 - 4 <= le header < 2 ^ 31 -> nlen (header ++ ty :: body) < 2 ^ 31 ->
  answers w32 p r -> ~ stops ty r -> can_write c -> unread c = reply_bytes p ++ rest ->
  exists c', raw_send w32 deadline (header ++ ty :: body) c = (if w32 then Panics c' else Returns ([r], None) c') /\ unread c' = rest.
Proof.
  intros w32 d header ty body p r rest c Hh Hl Hlen Ha Hs [W1 W2] Hu. unfold raw_send, set_deadline, write. destruct (next_result (deadlines c)) as [x l]. cbn [fst] in W1. subst x.
  cbn [writes]. destruct (next_result (writes c)) as [x l']. cbn [fst] in W2. subst x. cbn [ckind rd deadlines log]. set (c2 := mkc _ _ _ _ _).
  assert (Hu2 : unread c2 = reply_bytes p ++ rest) by exact Hu. fold (unread c).
  assert (L5 : (5 <= length (header ++ ty :: body))%nat) by (rewrite app_length; cbn [length]; lia).
  assert (Hty : nth 4 (header ++ ty :: body) 0 = ty) by (rewrite app_nth2 by lia; rewrite Hh; reflexivity).
  assert (Hhd : firstn 4 (header ++ ty :: body) = header) by (rewrite firstn_app, Hh, Nat.sub_diag, firstn_all2 by lia; apply app_nil_r).
  destruct (c_read_spec w32 ty c2) as (c3 & R1 & R2 & R3 & _). rewrite Hu2 in R1, R2. rewrite (aread_reply _ _ _ _ _ _ Ha), (outcome_go _ _ Hs) in R1, R2. cbn [fst snd] in R1, R2.
  pose proof (c_read_consumes _ _ _ _ _ R1) as Hc. rewrite Hu2 in Hc. change (unread c2) with (unread c) in *.
  set (b := header ++ ty :: body) in *. rewrite Hu. assert (Hb : (5 <= Z.of_nat (length b) < 2147483648)%Z) by (clear - L5 Hlen; unfold nlen in Hlen; change (2 ^ 31) with 2147483648 in Hlen; lia).
  assert (Hl' : (2147483644 <= Z.of_N (le header) < 2147483648)%Z) by (clear - Hl; change (2 ^ 31) with 2147483648 in Hl; lia). clear Hl Hlen L5.
  exists c3. split; [|exact R2]. destruct (length (reply_bytes p ++ rest)) as [|k]; [lia|]. cbn [raw_responses].
  destruct (Z.ltb_spec 0 (Z.of_nat (length b))); [|lia]. change (0 + 4)%Z with 4%Z. destruct (Z.ltb_spec 4 0); [lia|]. destruct (Z.leb_spec (Z.of_nat (length b)) 4); [lia|].
  cbn [orb]. change (Z.to_nat 4) with 4%nat. rewrite Hty, R1. cbn [fst snd]. change (Z.to_nat 0) with 0%nat. cbn [skipn]. change (0 <? 0)%Z with false. cbv iota. rewrite Hhd.
  assert (Hi : int_of_u32 w32 (le header) = Z.of_N (le header)).
  { unfold int_of_u32. change (2 ^ 31) with 2147483648. destruct (N.leb_spec 2147483648 (le header)); [lia|]. rewrite andb_false_r. reflexivity. }
  rewrite Hi. unfold wrap_int. destruct w32.
  - set (i := ((4 + Z.of_N (le header) + 2 ^ 31) mod 2 ^ 32 - 2 ^ 31)%Z). assert (Hneg : (i = 4 + Z.of_N (le header) - 2 ^ 32)%Z).
    { unfold i. clear - Hl'. change (2 ^ 31)%Z with 2147483648%Z. change (2 ^ 32)%Z with 4294967296%Z. lia. }
    change (2 ^ 32)%Z with 4294967296%Z in Hneg. clearbody i.
    destruct (Z.ltb_spec i (Z.of_nat (length b))); [|lia]. destruct (Z.ltb_spec (i + 4) 0); [|lia]. reflexivity.
  - destruct (Z.ltb_spec (4 + Z.of_N (le header)) (Z.of_nat (length b))); [lia|]. reflexivity.
Qed.

(* C84: a pipe can get there: half a message, left by a panic that was recovered from (C67), with a length left over from an earlier message, makes Send panic. *)
Theorem C84_half_a_message_panics_refuted : exists bs c c',
  @History.history ThmBuilder.plain [History.Build (one_call (CStmtExecute (s2b "DELETE FROM t LIMIT 9") [])); History.Reset;
      History.Build (one_call (CInsert (s2b "t") [s2b "a"] [[VInt 1]; [VFunc None]])); History.Send] (new_pipe 64) =
    [History.Fine; History.Fine; History.Panicked; History.Sent bs] /\
  can_write c /\ raw_send false None bs c = Panics c' /\ log c' = [Write Tcp bs None; SetDeadline Tcp None None].
Proof.
  eexists. exists (mkc Tcp (mkr [] (repeat (frame (17, [])) 9) IoEOF) [] [] []). eexists. split; [vm_compute; reflexivity|]. split; [split; reflexivity|].
  split; vm_compute; reflexivity.
Qed.

(* ---- what becomes of the connection ---- *)

Lemma still_sending : forall a s t i c, Pool.actor a <> Some i -> Pool.step a s = Some t -> SpecPool.sending s i c -> SpecPool.sending t i c.
Proof.
  intros a s t i c Ha Hst (b & Hb). unfold SpecPool.sending. unfold Pool.step in Hst. destruct (Pool.crashed s); [discriminate|].
  assert (Hap : forall x, nth_error (Pool.calls s ++ [x]) i = Some (Pool.SSend c, b)).
  { intros x. rewrite nth_error_app1; [exact Hb|]. apply nth_error_Some. congruence. }
  destruct a as [| |k|k|k|k|k ok|k ok|k|k|k]; cbn [Pool.actor] in Ha;
    try (injection Hst as <-; cbn [Pool.calls]; eauto);
    destruct (nth_error (Pool.calls s) k) as [[p bb]|] eqn:Hk; try discriminate.
  - injection Hst as <-. cbn [Pool.go Pool.calls]. destruct (Nat.eq_dec k i) as [->|Hn].
    + rewrite Hb in Hk. injection Hk as <- <-. rewrite (PoolProofs.nth_set_same _ _ _ _ _ Hb). eauto.
    + rewrite PoolProofs.nth_set_other by exact Hn. eauto.
  - destruct p; try discriminate; destruct (Pool.idle s); try (destruct (Pool.ch_closed s); [|discriminate]); injection Hst as <-; cbn [Pool.go Pool.calls]; rewrite PoolProofs.nth_set_other by congruence; eauto.
  - destruct p; try discriminate; destruct bb; try discriminate; injection Hst as <-; cbn [Pool.go Pool.calls]; rewrite PoolProofs.nth_set_other by congruence; eauto.
  - destruct p; try discriminate; destruct bb; try discriminate; destruct (Pool.idle s); try discriminate; destruct (Pool.ch_closed s); try discriminate; injection Hst as <-; cbn [Pool.go Pool.calls]; rewrite PoolProofs.nth_set_other by congruence; eauto.
  - destruct p; try discriminate; destruct ok; injection Hst as <-; cbn [Pool.go Pool.calls]; rewrite PoolProofs.nth_set_other by congruence; eauto.
  - destruct p; try discriminate; injection Hst as <-; cbn [Pool.go Pool.calls]; rewrite PoolProofs.nth_set_other by congruence; eauto.
  - destruct p; try discriminate; injection Hst as <-; cbn [Pool.go Pool.calls]; rewrite PoolProofs.nth_set_other by congruence; eauto.
  - destruct p; try discriminate. destruct (Pool.ch_closed s); [injection Hst as <-; cbn [Pool.crash Pool.calls]; eauto|].
    destruct (_ <? _)%nat; injection Hst as <-; cbn [Pool.go Pool.calls]; rewrite PoolProofs.nth_set_other by congruence; eauto.
  - destruct p; try discriminate. destruct (Pool.ch_closed s); injection Hst as <-; cbn [Pool.crash Pool.calls]; [eauto|]. rewrite PoolProofs.nth_set_other by congruence; eauto.
Qed.

Lemma run_still_sending : forall acts s t i c, Forall (fun a => Pool.actor a <> Some i) acts -> Pool.run acts s = Some t -> SpecPool.sending s i c -> SpecPool.sending t i c.
Proof.
  induction acts as [|a acts IH]; intros s t i c Ha Hr Hs; cbn [Pool.run] in Hr; [injection Hr as <-; exact Hs|].
  inversion_clear Ha as [|? ? A1 A2]. destruct (Pool.step a s) as [s1|] eqn:Hst; [|discriminate]. apply (IH s1 t i c A2 Hr). exact (still_sending a s s1 i c A1 Hst Hs).
Qed.

Lemma run_app : forall acts1 acts2 s, Pool.run (acts1 ++ acts2) s = match Pool.run acts1 s with Some t => Pool.run acts2 t | None => None end.
Proof. induction acts1 as [|a acts1 IH]; intros acts2 s; cbn [app Pool.run]; [reflexivity|]. destruct (Pool.step a s); [apply IH|reflexivity]. Qed.

(* C84: a Send that panics does not go on, and its connection is lost to the pool, but stays open: whatever all the other calls do, it is never closed and never idle again. *)
Theorem C84_connection_is_leaked_refuted : forall n s acts t i c, SpecPool.reachable n s -> SpecPool.sending s i c ->
  Forall (fun a => Pool.actor a <> Some i) acts -> Pool.run acts s = Some t ->
  ~ SpecPool.is_closed t c /\ ~ In c (Pool.idle t) /\ forall j, SpecPool.holds t j c -> j = i.
Proof.
  intros n s acts t i c (acts0 & H0) Hs Ha Hr. destruct (run_still_sending acts s t i c Ha Hr Hs) as (b & Hb).
  assert (Hreach : SpecPool.reachable n t) by (exists (acts0 ++ acts); rewrite run_app, H0; exact Hr).
  assert (Hh : SpecPool.holds t i c) by (exists (Pool.SSend c), b; split; [exact Hb|left; reflexivity]).
  destruct (ThmPool.C37_used_is_not_idle n t i c Hreach Hh) as [A B]. split; [exact B|]. split; [exact A|]. intros j Hj. exact (ThmPool.C37_one_user n t j i c Hreach Hj Hh).
Qed.

(* The hypotheses can be met: a Send in a fresh pool that panics, and another that does not. *)
Definition leak_before : list Pool.action := [Pool.CallSend; Pool.Default 0; Pool.Dialled 0 true].
Definition leak_after : list Pool.action :=
  [Pool.CallSend; Pool.Default 1; Pool.Dialled 1 true; Pool.Sent 1 true; Pool.Return 1; Pool.CallClose; Pool.Receive 2; Pool.CloseConn 2; Pool.Default 2; Pool.CloseCh 2].
Example leak_meets : exists s t, Pool.run leak_before (Pool.new_pool 2) = Some s /\ SpecPool.sending s 0 0%nat /\
  Forall (fun a => Pool.actor a <> Some 0%nat) leak_after /\ Pool.run leak_after s = Some t /\ SpecPool.is_closed t 1%nat.
Proof.
  let r := eval vm_compute in (Pool.run leak_before (Pool.new_pool 2)) in match r with Some ?s => exists s;
    let q := eval vm_compute in (Pool.run leak_after s) in match q with Some ?t => exists t end end.
  split; [vm_compute; reflexivity|]. split; [exists false; vm_compute; reflexivity|]. split; [repeat (constructor; [discriminate|]); constructor|].
  split; [vm_compute; reflexivity|]. exists 2%nat. vm_compute. tauto.
Qed.

(* Two statements that are answered, and three bytes more. *)
Definition stmt_exchange : exchange := mkx (12, 10 :: 8 :: s2b "SELECT 1") (mkreply [] (17, [])) None.
Example stmt_exchange_ok : forall w32, exchange_ok w32 stmt_exchange /\ goes_on stmt_exchange.
Proof. intros w32. split; [|intros H; exact H]. split; [vm_compute; reflexivity|]. split; [constructor|]. split; [right; right; left; reflexivity|]. repeat constructor. destruct w32; vm_compute; reflexivity. Qed.
Example cut_meets : exists c c', can_write c /\ unread c = replies_bytes [stmt_exchange; stmt_exchange] /\ raw_send true None (request_bytes [stmt_exchange; stmt_exchange] ++ [5; 0; 0]) c = Panics c'.
Proof.
  exists (mkc Tcp (mkr [] [frame (17, []); frame (17, [])] IoEOF) [] [] []). eexists. split; [split; reflexivity|]. split; vm_compute; reflexivity.
Qed.
Example endless_meets : exists c c', raw_send true None [252; 255; 255; 255; 12] c = Returns ([None; None; None; None], Some (CRead IoEOF)) c'.
Proof. exists (mkc Tcp (mkr [] [frame (17, []); frame (17, []); frame (17, [])] IoEOF) [] [] []). eexists. vm_compute. reflexivity. Qed.

Print Assumptions C84_models_of_send_agree.
Print Assumptions C84_whole_messages_never_panic.
Print Assumptions C84_units_never_panic.
Print Assumptions C84_cut_header_panics_refuted.
Print Assumptions C84_endless_message_refuted.
Example overflow_meets : exists c c' d', can_write c /\ raw_send true None [253; 255; 255; 127; 12; 7] c = Panics c' /\
  raw_send false None [253; 255; 255; 127; 12; 7] c = Returns ([None], None) d'.
Proof.
  exists (mkc Tcp (mkr [] [frame (17, [])] IoEOF) [] [] []). eexists. eexists. split; [split; reflexivity|]. split; vm_compute; reflexivity.
Qed.

Print Assumptions C84_length_overflows_refuted.
Print Assumptions C84_half_a_message_panics_refuted.
Print Assumptions C84_connection_is_leaked_refuted.
