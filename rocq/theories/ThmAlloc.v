(* C78: the memory Send uses for replies. *)
From Coq Require Import String List NArith ZArith Arith Bool Lia ZifyN ZifyNat ZifyBool.
From Coq Require Import List.
From Verif Require Import Base SpecWire SpecUnit Conn Alloc SpecAlloc SpecReply SpecBroken ConnProofs ReplyProofs ThmConn ThmBroken.
Import ListNotations.
Open Scope N_scope.
Open Scope list_scope.
Ltac Zify.zify_post_hook ::= Z.div_mod_to_equations.

(* ---- on streams ---- *)

Definition amessage_makes (w32 : bool) (cap : N) (bs : bytes) : list N :=
  if nlen bs <? 5 then [] else
  let n := int_of_u32 w32 (le (firstn 4 bs)) in
  if (n <? 1)%Z then [] else
  let n := Z.to_N (n - 1) in
  if andb (buf_size <? n) (cap <? n) then [n] else [].

Lemma message_makes_spec w32 cap r : message_makes w32 cap r = amessage_makes w32 cap (flat r).
Proof.
  unfold message_makes, amessage_makes. destruct (N.ltb_spec (nlen (flat r)) 5) as [L|L].
  - destruct (peek_failed 5 r ltac:(unfold buf_size; lia) L) as (r' & -> & _). reflexivity.
  - destruct (peek_got 5 r ltac:(unfold buf_size; lia) L) as (r1 & -> & A & B & C). destruct (firstn_5_4 (flat r)) as [-> _].
    set (n := int_of_u32 w32 (le (firstn 4 (flat r)))). destruct (n <? 1)%Z; [reflexivity|]. set (m := Z.to_N (n - 1)). destruct (discard_spec 5 r1 C) as [D1 D2].
    destruct (N.ltb_spec buf_size m) as [X|X]; cbn [andb].
    + destruct (N.ltb_spec 0 m); [|unfold buf_size in X; lia]. destruct (peek_full m (discard 5 r1) X) as (r2 & -> & _). reflexivity.
    + destruct (0 <? m); [|reflexivity]. destruct (N.le_gt_cases m (nlen (flat (discard 5 r1)))) as [Y|Y].
      * destruct (peek_got m (discard 5 r1) X Y) as (r2 & -> & _). reflexivity.
      * destruct (peek_failed m (discard 5 r1) X Y) as (r2 & -> & _). reflexivity.
Qed.

Fixpoint amakes_k (k : nat) (w32 : bool) (ct : N) (cap : N) (fin : ioerr) (bs : bytes) : list N :=
  match k with
  | O => []
  | S k =>
      let made := amessage_makes w32 cap bs in
      made ++
      match amessage w32 fin bs with
      | (inr _, _) => []
      | (inl (st, b, n), r) => match dispatch ct st b with Some _ => [] | None => amakes_k k w32 ct (last made cap) fin (skipN n r) end
      end
  end.

Lemma read_makes_spec : forall k w32 ct cap r, read_makes k w32 ct cap r = amakes_k k w32 ct cap (ended r) (flat r).
Proof.
  induction k as [|k IH]; intros w32 ct cap r; cbn [read_makes amakes_k]; [reflexivity|]. rewrite message_makes_spec. f_equal.
  destruct (read_message_spec w32 r) as (r1 & -> & A & B & C). destruct (amessage w32 (ended r) (flat r)) as [[[[st b] n]|e] rest]; cbn [fst snd] in *; [|reflexivity].
  destruct (dispatch ct st b); [reflexivity|]. destruct (discard_spec n r1 C) as [D1 D2]. rewrite IH, D1, D2, A, B. reflexivity.
Qed.

Definition amakes (w32 : bool) (ct : N) (fin : ioerr) (bs : bytes) : list N := amakes_k (S (List.length bs)) w32 ct 0 fin bs.

Lemma conn_makes_spec w32 ct r : conn_makes w32 ct r = amakes w32 ct (ended r) (flat r).
Proof. unfold conn_makes. rewrite read_makes_spec. reflexivity. Qed.

Fixpoint amakes_all (w32 : bool) (cts : list N) (fin : ioerr) (bs : bytes) : list (list N) :=
  match cts with
  | [] => []
  | ct :: cts =>
      let (a, rest) := aread w32 ct fin bs in
      amakes w32 ct fin bs :: match snd a with Some _ => [] | None => amakes_all w32 cts fin rest end
  end.

Lemma responses_makes_spec : forall w32 requests k c, Forall (fun f => 1 + nlen (snd f) < 2 ^ 32) requests ->
  (List.length (concat (map frame requests)) <= k)%nat ->
  responses_makes w32 k (concat (map frame requests)) c = amakes_all w32 (map fst requests) (ended (rd c)) (unread c).
Proof.
  intros w32 requests. induction requests as [|f fs IH]; intros k c Hf Hk; cbn [map concat amakes_all].
  - destruct k; reflexivity.
  - inversion Hf as [|? ? F1 F2]; subst. destruct (frame_head f (concat (map frame fs)) F1) as (A & B & C & _ & D & E).
    assert (Hl : exists x xs, frame f ++ concat (map frame fs) = x :: xs) by (unfold frame; cbn [app]; eauto).
    cbn [map concat] in Hk. unfold nlen in D. destruct k as [|k]; [lia|]. destruct Hl as (x & xs & Hl).
    destruct (c_read_spec w32 (fst f) c) as (c1 & R1 & R2 & R3 & _).
    assert (G : responses_makes w32 (S k) (frame f ++ concat (map frame fs)) c =
      conn_makes w32 (fst f) (rd c) ::
      match snd (fst (aread w32 (fst f) (ended (rd c)) (unread c))) with Some _ => [] | None => responses_makes w32 k (concat (map frame fs)) c1 end).
    { cbn [responses_makes]. rewrite C, A, E, R1. rewrite Hl. reflexivity. }
    rewrite G. clear G. rewrite conn_makes_spec. change (flat (rd c)) with (unread c). destruct (aread w32 (fst f) (ended (rd c)) (unread c)) as [a bs]. cbn [fst snd] in *.
    destruct (snd a); [reflexivity|]. rewrite (IH k c1 F2) by lia. rewrite R2, R3. reflexivity.
Qed.

Lemma send_makes_spec w32 d requests c : Forall (fun f => 1 + nlen (snd f) < 2 ^ 32) requests -> can_write c ->
  send_makes w32 d (concat (map frame requests)) c = amakes_all w32 (map fst requests) (ended (rd c)) (unread c).
Proof.
  intros Hf [W1 W2]. unfold send_makes, set_deadline, write. destruct (next_result (deadlines c)) as [x l]. cbn [fst] in W1. subst x. cbn [writes].
  destruct (next_result (writes c)) as [x l']. cbn [fst] in W2. subst x. cbn [ckind rd deadlines log]. rewrite responses_makes_spec by (assumption || apply le_n). reflexivity.
Qed.

(* ---- sizes ---- *)

Lemma total_app a b : total (a ++ b) = total a + total b.
Proof. induction a as [|x a IH]; cbn [app total fold_right] in *; [reflexivity|]. unfold total in *. lia. Qed.

Lemma amessage_makes_cases w32 cap bs : is_bytes bs -> amessage_makes w32 cap bs = [] \/
  exists n, amessage_makes w32 cap bs = [n] /\ 5 <= nlen bs /\ le (firstn 4 bs) = 1 + n /\ buf_size < n /\ cap < n /\ 1 + n < (if w32 then 2 ^ 31 else 2 ^ 32).
Proof.
  intros Hb. unfold amessage_makes. destruct (N.ltb_spec (nlen bs) 5) as [L|L]; [auto|]. destruct (Z.ltb_spec (int_of_u32 w32 (le (firstn 4 bs))) 1) as [P|P]; [auto|].
  destruct (N.ltb_spec buf_size (Z.to_N (int_of_u32 w32 (le (firstn 4 bs)) - 1))) as [A|A]; cbn [andb]; [|auto].
  destruct (N.ltb_spec cap (Z.to_N (int_of_u32 w32 (le (firstn 4 bs)) - 1))) as [B|B]; [|auto]. right.
  pose proof (u32_bound bs Hb L) as U. set (u := le (firstn 4 bs)) in *.
  assert (I : int_of_u32 w32 u = Z.of_N u /\ u < (if w32 then 2 ^ 31 else 2 ^ 32)).
  { unfold int_of_u32 in *. destruct w32; cbn [andb] in *; [|auto]. destruct (N.leb_spec (2 ^ 31) u); [lia|auto]. }
  destruct I as [I1 I2]. rewrite I1 in *. exists (Z.to_N (Z.of_N u - 1)). split; [reflexivity|]. split; [exact L|]. split; [lia|]. split; [exact A|]. split; [exact B|]. lia.
Qed.

(* What amessage makes of such a message. *)
Lemma amessage_large (w32 : bool) fin bs n : 5 <= nlen bs -> le (firstn 4 bs) = 1 + n -> buf_size < n -> 1 + n < (if w32 then 2 ^ 31 else 2 ^ 32) ->
  amessage w32 fin bs = (if n <=? nlen (skipN 5 bs) then (inl (nth 4 bs 0, firstN n (skipN 5 bs), 0), skipN n (skipN 5 bs)) else (inr (CRead (eof_in_frame fin (skipN 5 bs))), []))
    :> (N * bytes * N + cerr) * bytes.
Proof.
  intros L Hn Hb Hf. unfold amessage. rewrite Hn. destruct (N.ltb_spec (nlen bs) 5); [lia|].
  assert (E : int_of_u32 w32 (1 + n) = Z.of_N (1 + n)).
  { unfold int_of_u32. destruct w32; cbn [andb]; [|reflexivity]. destruct (N.leb_spec (2 ^ 31) (1 + n)); [lia|reflexivity]. }
  rewrite E. destruct (Z.ltb_spec (Z.of_N (1 + n)) 1); [lia|]. replace (Z.to_N (Z.of_N (1 + n) - 1)) with n by lia.
  destruct (N.ltb_spec 0 n); [|lia]. destruct (N.leb_spec n buf_size); [lia|]. reflexivity.
Qed.

Lemma nlen_skipN n (l : bytes) : nlen (skipN n l) = nlen l - n.
Proof. unfold nlen, skipN. rewrite skipn_length. lia. Qed.

Lemma amessage_rest w32 fin bs x r : amessage w32 fin bs = (x, r) -> nlen r <= nlen bs.
Proof.
  unfold amessage. intros H. assert (S5 : nlen (skipN 5 bs) <= nlen bs) by (rewrite nlen_skipN; lia).
  destruct (nlen bs <? 5); [injection H as <- <-; lia|]. destruct (_ <? 1)%Z; [injection H as <- <-; exact S5|].
  destruct (0 <? _); [|injection H as <- <-; exact S5]. destruct (_ <=? buf_size).
  - destruct (_ <=? nlen (skipN 5 bs)); injection H as <- <-; exact S5.
  - destruct (_ <=? nlen (skipN 5 bs)); injection H as <- <-; [rewrite nlen_skipN; lia|unfold nlen; cbn; lia].
Qed.

Definition overrun (a : option cerr) : N := match a with Some (CRead _) => 2 ^ 32 | _ => 0 end.

Lemma amakes_bound : forall k w32 ct cap fin bs, is_bytes bs ->
  let (a, rest) := aread_k k w32 ct fin bs in total (amakes_k k w32 ct cap fin bs) + nlen rest <= nlen bs + overrun (snd a).
Proof.
  induction k as [|k IH]; intros w32 ct cap fin bs Hb; cbn [aread_k amakes_k]; [cbn; lia|]. rewrite (surjective_pairing (amessage w32 fin bs)).
  destruct (amessage w32 fin bs) as [m r] eqn:E. cbn [fst snd]. pose proof (amessage_rest _ _ _ _ _ E) as Hr. destruct (amessage_makes_cases w32 cap bs Hb) as [->|(n & -> & L & Hn & Hbig & Hcap & Hf)].
  - cbn [app last]. destruct m as [[[st b] n]|e]; [|cbn; unfold overrun; destruct e; lia].
    assert (Hs : nlen (skipN n r) <= nlen bs) by (rewrite nlen_skipN; lia).
    assert (Hb' : is_bytes (skipN n r)).
    { destruct (amessage_back _ _ _ _ _ _ _ Hb E) as (p & E1 & _). rewrite E1 in Hb. apply Forall_app in Hb. apply Hb. }
    destruct (dispatch ct st b) as [[resp o]|].
    + change (total []) with 0. destruct o as [[]|]; unfold overrun; cbn [snd]; lia.
    + specialize (IH w32 ct cap fin (skipN n r) Hb'). destruct (aread_k k w32 ct fin (skipN n r)) as [a rest]. lia.
  - rewrite (amessage_large w32 fin bs n L Hn Hbig Hf) in E. destruct (N.leb_spec n (nlen (skipN 5 bs))) as [G|G].
    + injection E as <- <-. cbn [last]. change (skipN 0 (skipN n (skipN 5 bs))) with (skipN n (skipN 5 bs)).
      assert (Hs : nlen (skipN n (skipN 5 bs)) + n <= nlen bs) by (rewrite nlen_skipN in *; rewrite nlen_skipN in *; lia).
      assert (Hb' : is_bytes (skipN n (skipN 5 bs))) by (apply is_bytes_skipN, is_bytes_skipN; exact Hb).
      rewrite total_app. change (total [n]) with (n + 0). destruct (dispatch ct (nth 4 bs 0) (firstN n (skipN 5 bs))) as [[resp o]|].
      * change (total []) with 0. destruct o as [[]|]; unfold overrun; cbn [snd]; lia.
      * specialize (IH w32 ct n fin _ Hb'). destruct (aread_k k w32 ct fin (skipN n (skipN 5 bs))) as [a rest]. lia.
    + injection E as <- <-. change (total ([n] ++ [])) with (n + 0). unfold overrun. cbn [snd]. unfold nlen at 1. cbn [List.length]. destruct w32; lia.
Qed.

Lemma amakes_announced : forall k w32 ct cap fin bs n, is_bytes bs -> In n (amakes_k k w32 ct cap fin bs) -> 4096 < n /\ announced n bs.
Proof.
  induction k as [|k IH]; intros w32 ct cap fin bs n Hb H; cbn [amakes_k] in H; [destruct H|]. apply in_app_or in H. destruct H as [H|H].
  - destruct (amessage_makes_cases w32 cap bs Hb) as [E|(m & E & L & Hn & Hbig & _)]; rewrite E in H; [destruct H|]. destruct H as [<-|[]].
    split; [exact Hbig|]. destruct (header_parts bs L) as (E1 & H5 & H4). exists [], (firstN 5 bs), (skipN 5 bs). split; [exact E1|]. split; [exact H5|]. rewrite H4. exact Hn.
  - destruct (amessage w32 fin bs) as [[[[st b] m]|e] r] eqn:E; [|destruct H]. destruct (dispatch ct st b); [destruct H|].
    destruct (amessage_back _ _ _ _ _ _ _ Hb E) as (p & E1 & _). assert (Hb' : is_bytes (skipN m r)) by (rewrite E1 in Hb; apply Forall_app in Hb; apply Hb).
    destruct (IH _ _ _ _ _ _ Hb' H) as (H1 & ms & h & rest & F1 & F2 & F3). split; [exact H1|]. exists ((st, p) :: ms), h, rest. cbn [map concat]. rewrite <- app_assoc, <- F1. auto.
Qed.

Lemma all_bound : forall w32 cts fin bs, is_bytes bs ->
  let (a, rest) := areads w32 cts fin bs in total (concat (amakes_all w32 cts fin bs)) + nlen rest <= nlen bs + overrun (snd a).
Proof.
  intros w32 cts fin. induction cts as [|ct cts IH]; intros bs Hb; cbn [areads amakes_all]; [cbn; lia|].
  pose proof (amakes_bound (S (List.length bs)) w32 ct 0 fin bs Hb) as B. unfold amakes.
  change (aread_k (S (List.length bs)) w32 ct fin bs) with (aread w32 ct fin bs) in B. destruct (aread w32 ct fin bs) as [[r o] rest] eqn:E. cbn [snd fst] in *. cbn [concat].
  rewrite total_app. destruct o as [e|]; cbn [fst snd concat]; [unfold total at 2; cbn [fold_right]; lia|].
  assert (Hb' : is_bytes rest). { destruct (aread_suffix _ bs (le_n _) _ _ _ _ _ E) as (u & ->). apply Forall_app in Hb. apply Hb. }
  specialize (IH rest Hb'). destruct (areads w32 cts fin rest) as [[rs o] q]. cbn [fst snd] in *. unfold overrun in B. lia.
Qed.

Lemma announced_after fs bs n : announced n bs -> announced n (concat (map frame fs) ++ bs).
Proof. intros (ms & h & rest & -> & H). exists (fs ++ ms), h, rest. rewrite map_app, concat_app, <- app_assoc. auto. Qed.

Lemma all_announced : forall w32 cts fin bs n, is_bytes bs -> In n (concat (amakes_all w32 cts fin bs)) -> 4096 < n /\ announced n bs.
Proof.
  intros w32 cts fin. induction cts as [|ct cts IH]; intros bs n Hb H; cbn [amakes_all] in H; [destruct H|].
  destruct (aread w32 ct fin bs) as [[r o] rest] eqn:E. cbn [snd concat] in H. apply in_app_or in H. destruct H as [H|H]; [exact (amakes_announced _ _ _ _ _ _ _ Hb H)|].
  destruct o as [e|]; [destruct H|]. destruct (aread_back _ bs (le_n _) _ _ _ _ _ Hb E) as (p & -> & _). assert (Hb' : is_bytes rest) by (apply Forall_app in Hb; apply Hb).
  destruct (IH rest n Hb' H) as [H1 H2]. split; [exact H1|]. apply announced_after. exact H2.
Qed.

(* ---- the theorems ---- *)

(* C78: memory is allocated only for messages longer than the read buffer, and of the size they announce. *)
Theorem C78_buffers_fit_messages : forall w32 deadline requests c n,
  Forall (fun f => 1 + nlen (snd f) < 2 ^ 32) requests -> can_write c -> is_bytes (unread c) ->
  In n (concat (send_makes w32 deadline (concat (map frame requests)) c)) -> 4096 < n /\ announced n (unread c).
Proof. intros w32 d requests c n Hf Hw Hb H. rewrite (send_makes_spec _ _ _ _ Hf Hw) in H. exact (all_announced _ _ _ _ _ Hb H). Qed.

(* C78: unless the connection breaks, all of it is paid for: it is no more than what arrived and was used. *)
Theorem C78_bounded_by_what_arrived_partial : forall w32 deadline requests c rs e c',
  Forall (fun f => 1 + nlen (snd f) < 2 ^ 32) requests -> can_write c -> is_bytes (unread c) ->
  conn_send w32 deadline (concat (map frame requests)) c = Ok ((rs, e), c') -> (forall x, e <> Some (CRead x)) ->
  total (concat (send_makes w32 deadline (concat (map frame requests)) c)) + nlen (unread c') <= nlen (unread c).
Proof.
  intros w32 d requests c rs e c' Hf Hw Hb H He. rewrite (send_makes_spec _ _ _ _ Hf Hw). destruct (send_spec w32 d requests c Hf Hw) as (c1 & A & B & _). cbn zeta in A, B.
  pose proof (all_bound w32 (map fst requests) (ended (rd c)) (unread c) Hb) as L. destruct (areads w32 (map fst requests) (ended (rd c)) (unread c)) as [a rest]. cbn [fst snd] in A, B.
  rewrite A in H. injection H as H <-. subst a. cbn [snd] in L. unfold overrun in L. rewrite B. destruct e as [[]|]; try lia. exfalso. eapply He. reflexivity.
Qed.

(* C78: in any case it is less than 4 GiB more. *)
Theorem C78_at_most_4GiB_more : forall w32 deadline requests c,
  Forall (fun f => 1 + nlen (snd f) < 2 ^ 32) requests -> can_write c -> is_bytes (unread c) ->
  total (concat (send_makes w32 deadline (concat (map frame requests)) c)) <= nlen (unread c) + 2 ^ 32.
Proof.
  intros w32 d requests c Hf Hw Hb. rewrite (send_makes_spec _ _ _ _ Hf Hw). pose proof (all_bound w32 (map fst requests) (ended (rd c)) (unread c) Hb) as L.
  destruct (areads w32 (map fst requests) (ended (rd c)) (unread c)) as [a rest]. unfold overrun in L. destruct (snd a) as [[]|]; lia.
Qed.

(* C78: which is what five bytes can do. *)
Theorem C78_bounded_by_what_arrived_refuted : forall (w32 : bool) deadline request, 1 + nlen (snd request) < 2 ^ 32 ->
  exists c c', can_write c /\ nlen (unread c) = 5 /\ is_bytes (unread c) /\
    send_makes w32 deadline (frame request) c = [[if w32 then 2 ^ 31 - 2 else 2 ^ 32 - 2]] /\
    conn_send w32 deadline (frame request) c = Ok (([None], Some (CRead IoEOF)), c').
Proof.
  intros w32 d f Hf. set (c := mkc Tcp (mkr [] [[255; 255; 255; if w32 then 127 else 255; 11]] IoEOF) [] [] []).
  assert (F : Forall (fun f => 1 + nlen (snd f) < 2 ^ 32) [f]) by (constructor; [exact Hf|constructor]).
  assert (W : can_write c) by (split; reflexivity).
  pose proof (send_makes_spec w32 d [f] c F W) as S. destruct (send_spec w32 d [f] c F W) as (c' & A & _). cbn zeta in A. cbn [map concat] in A, S. rewrite app_nil_r in A, S.
  exists c, c'. split; [exact W|]. split; [reflexivity|]. split; [unfold c; destruct w32; repeat constructor; vm_compute; reflexivity|]. split; [rewrite S|rewrite A]; destruct w32; vm_compute; reflexivity.
Qed.

(* C78: when no message is longer than the read buffer, nothing is allocated. *)
Theorem C78_small_messages_cost_nothing : forall w32 deadline requests c,
  Forall (fun f => 1 + nlen (snd f) < 2 ^ 32) requests -> can_write c -> is_bytes (unread c) ->
  (forall n, announced n (unread c) -> n <= 4096) ->
  concat (send_makes w32 deadline (concat (map frame requests)) c) = [].
Proof.
  intros w32 d requests c Hf Hw Hb H. destruct (concat (send_makes w32 d (concat (map frame requests)) c)) as [|n l] eqn:E; [reflexivity|].
  assert (I : In n (concat (send_makes w32 d (concat (map frame requests)) c))) by (rewrite E; left; reflexivity).
  destruct (C78_buffers_fit_messages _ _ _ _ _ Hf Hw Hb I) as [A B]. specialize (H n B). lia.
Qed.

Print Assumptions C78_buffers_fit_messages.
Print Assumptions C78_bounded_by_what_arrived_partial.
Print Assumptions C78_at_most_4GiB_more.
Print Assumptions C78_bounded_by_what_arrived_refuted.
Print Assumptions C78_small_messages_cost_nothing.

(* ---- examples ---- *)

(* Two statements; the first is answered by a row of 5000 bytes, a notice of 4500 bytes, and its end. *)
Definition long_row : bytes := repeat 97 (N.to_nat 5000).
Definition long_notice : bytes := repeat 98 (N.to_nat 4500).
Definition long_reply (second : bytes) : conn :=
  mkc Tcp (mkr [] [frame (11, long_notice) ++ frame (11, long_row) ++ frame (17, []); second] IoEOF) [] [] [].

(* The second message is longer, so another buffer is needed; both are paid for by what was sent. *)
Example long_reply_makes :
  send_makes false None (concat (map frame [(12, [1]); (12, [2])])) (long_reply (frame (17, []))) = [[4500; 5000]; []] /\
  announced 4500 (unread (long_reply (frame (17, [])))) /\ announced 5000 (unread (long_reply (frame (17, [])))).
Proof.
  split; [vm_compute; reflexivity|]. split.
  - exists [], (firstn 5 (frame (11, long_notice))), (skipn 5 (unread (long_reply (frame (17, []))))). split; [vm_compute; reflexivity|]. split; reflexivity.
  - exists [(11, long_notice)], (firstn 5 (frame (11, long_row))), (skipn 4510 (unread (long_reply (frame (17, []))))). split; [vm_compute; reflexivity|]. split; reflexivity.
Qed.

Example long_reply_sent : exists rs c', conn_send false None (concat (map frame [(12, [1]); (12, [2])])) (long_reply (frame (17, []))) = Ok ((rs, None), c') /\ unread c' = [].
Proof. eexists _, _. split; vm_compute; reflexivity. Qed.

(* The same exchange, but the second reply announces a message that never comes. *)
Example long_reply_cut :
  send_makes false None (concat (map frame [(12, [1]); (12, [2])])) (long_reply [255; 255; 255; 255; 11; 1; 2]) = [[4500; 5000]; [4294967294]].
Proof. vm_compute. reflexivity. Qed.
