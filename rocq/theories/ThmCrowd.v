(* C112: a Sender may be used by many goroutines at once. *)
From Coq Require Import String List NArith Arith Bool Lia.
From Coq Require Import List.
From Verif Require Import Base SpecWire SpecUnit Conn SpecReply ReplyProofs Crowd SpecCrowd.
From Verif Require Import ThmConn ThmConnector.
Import ListNotations.
Open Scope list_scope.
Open Scope nat_scope.

Local Notation run := Crowd.run.

Lemma run_app w32 a : forall b s, run w32 (a ++ b) s = match run w32 a s with Some s' => run w32 b s' | None => None end.
Proof. induction a as [|i a IH]; intros b s; [reflexivity|]. cbn [app Crowd.run]. destruct (Crowd.step w32 i s); [apply IH|reflexivity]. Qed.

Lemma step_is w32 i s g c : advance w32 (stages s i) (line s) = Some (g, c) -> exists s', Crowd.step w32 i s = Some s' /\ line s' = c /\ stages s' i = g /\ forall j, j <> i -> stages s' j = stages s j.
Proof.
  intros H. unfold Crowd.step. rewrite H. eexists. split; [reflexivity|]. cbn [line stages]. rewrite Nat.eqb_refl. split; [reflexivity|]. split; [reflexivity|]. intros j Hj. destruct (Nat.eqb_spec j i); [contradiction|reflexivity].
Qed.

(* ---- alone ---- *)

Lemma reads_alone w32 : forall k rest rs s i r c', stages s i = Reading rest rs -> read_responses w32 k rest rs (line s) = Ok (r, c') ->
  exists n s', run w32 (repeat i n) s = Some s' /\ line s' = c' /\ stages s' i = Back (fst r) (snd r) /\ forall j, j <> i -> stages s' j = stages s j.
Proof.
  induction k as [|k IH]; intros rest rs s i r c' Hs H.
  - destruct rest as [|x rest]; [|discriminate]. cbn in H. injection H as <- <-. destruct (step_is w32 i s (Back rs None) (line s)) as (s' & S & L & G & O); [rewrite Hs; reflexivity|].
    exists 1, s'. cbn [repeat Crowd.run]. rewrite S. auto.
  - destruct rest as [|x rest].
    + cbn in H. injection H as <- <-. destruct (step_is w32 i s (Back rs None) (line s)) as (s' & S & L & G & O); [rewrite Hs; reflexivity|]. exists 1, s'. cbn [repeat Crowd.run]. rewrite S. auto.
    + cbn [read_responses] in H. destruct (nth_error (x :: rest) 4) as [ct|] eqn:N; [|discriminate]. destruct (c_read w32 ct (line s)) as [a c1] eqn:R. destruct (snd a) as [e|] eqn:Ea.
      * injection H as <- <-. destruct (step_is w32 i s (Back (rs ++ [fst a]) (Some e)) c1) as (s' & S & L & G & O); [rewrite Hs; unfold advance; rewrite N, R, Ea; reflexivity|].
        exists 1, s'. cbn [repeat Crowd.run]. rewrite S. auto.
      * edestruct (step_is w32 i s) as (s1 & S & L & G & O); [rewrite Hs; unfold advance; rewrite N, R, Ea; reflexivity|]. rewrite <- L in H.
        destruct (IH _ _ s1 i r c' G H) as (n & s' & A1 & A2 & A3 & A4). exists (1 + n), s'. cbn [Nat.add repeat Crowd.run]. rewrite S. split; [exact A1|]. split; [exact A2|]. split; [exact A3|].
        intros j Hj. rewrite (A4 j Hj). exact (O j Hj).
Qed.

(* A Send during which no other makes a step is the Send of Conn. *)
Theorem C112_alone_is_send : forall w32 i s deadline b r c', stages s i = Before deadline b -> conn_send w32 deadline b (line s) = Ok (r, c') ->
  exists n s', run w32 (repeat i n) s = Some s' /\ line s' = c' /\ stages s' i = Back (fst r) (snd r) /\ forall j, j <> i -> stages s' j = stages s j.
Proof.
  intros w32 i s d b r c' Hs H. unfold conn_send in H. destruct (set_deadline d (line s)) as [[e|] c1] eqn:D.
  - injection H as <- <-. edestruct (step_is w32 i s) as (s' & S & L & G & O); [rewrite Hs; cbn [advance]; rewrite D; reflexivity|]. exists 1, s'. cbn [repeat Crowd.run]. rewrite S. auto.
  - edestruct (step_is w32 i s) as (s1 & S1 & L1 & G1 & O1); [rewrite Hs; cbn [advance]; rewrite D; reflexivity|]. destruct (write b c1) as [[e|] c2] eqn:W.
    + injection H as <- <-. edestruct (step_is w32 i s1) as (s2 & S2 & L2 & G2 & O2); [rewrite G1, L1; cbn [advance]; rewrite W; reflexivity|]. exists 2, s2. cbn [repeat Crowd.run]. rewrite S1, S2.
      split; [reflexivity|]. split; [exact L2|]. split; [exact G2|]. intros j Hj. rewrite (O2 j Hj). exact (O1 j Hj).
    + edestruct (step_is w32 i s1) as (s2 & S2 & L2 & G2 & O2); [rewrite G1, L1; cbn [advance]; rewrite W; reflexivity|]. rewrite <- L2 in H.
      destruct (reads_alone w32 _ _ _ s2 i r c' G2 H) as (n & s' & A1 & A2 & A3 & A4). exists (2 + n), s'. cbn [Nat.add repeat Crowd.run]. rewrite S1, S2. split; [exact A1|]. split; [exact A2|]. split; [exact A3|].
      intros j Hj. rewrite (A4 j Hj), (O2 j Hj). exact (O1 j Hj).
Qed.

Lemma turns_ext (n m : nat -> nat) order : (forall i, In i order -> n i = m i) -> in_turn n order = in_turn m order.
Proof. intros H. unfold in_turn. f_equal. apply map_ext_in. intros i Hi. rewrite (H i Hi). reflexivity. Qed.

Lemma one_at_a_time w32 (sends : nat -> option N * list exchange) order : forall s rest,
  (forall i, In i order -> stages s i = send_of (sends i) /\ Forall (exchange_ok w32) (snd (sends i)) /\ Forall goes_on (snd (sends i))) -> NoDup order ->
  writable (line s) -> unread (line s) = concat (map (fun i => replies_bytes (snd (sends i))) order) ++ rest ->
  exists n s', run w32 (in_turn n order) s = Some s' /\ unread (line s') = rest /\ (forall i, In i order -> stages s' i = Back (map seen_as (snd (sends i))) None) /\
    forall j, ~ In j order -> stages s' j = stages s j.
Proof.
  induction order as [|i order IH]; intros s rest H ND Hw U.
  - exists (fun _ => 0), s. split; [reflexivity|]. split; [exact U|]. split; [intros i []|reflexivity].
  - inversion ND as [|? ? N1 N2]; subst. destruct (H i (or_introl eq_refl)) as (Hs & Ok1 & Go). cbn [map concat] in U. rewrite <- app_assoc in U.
    destruct (C27_one_response_per_request w32 (fst (sends i)) (snd (sends i)) _ (line s) Ok1 Go (proj1 (writable_can _ Hw)) U) as (c' & S & U').
    destruct (C112_alone_is_send w32 i s (fst (sends i)) _ _ c' Hs S) as (n & s1 & R & L & B & O). cbn [fst snd] in B.
    assert (Hw' : writable c').
    { rewrite requests_map in S. destruct (send_spec w32 (fst (sends i)) (map asked (snd (sends i))) (line s) (requests_fit _ _ Ok1) (proj1 (writable_can _ Hw))) as (c2 & A & _ & _ & _ & _ & D & W). cbn zeta in A. rewrite S in A. injection A as _ <-.
      destruct Hw as [W1 W2]. split; [rewrite D|rewrite W]; apply next_none; assumption. }
    destruct (IH s1 rest) as (m & s2 & R2 & U2 & B2 & O2).
    + intros j Hj. assert (Hn : j <> i) by congruence. rewrite (O j Hn). apply H. right. exact Hj.
    + exact N2.
    + rewrite L. exact Hw'.
    + rewrite L. exact U'.
    + exists (fun j => if Nat.eqb j i then n else m j), s2. split.
      { change (in_turn ?f (i :: order)) with (repeat i (f i) ++ in_turn f order). cbv beta. rewrite Nat.eqb_refl, run_app, R. rewrite <- R2. f_equal. apply turns_ext. intros j Hj. destruct (Nat.eqb_spec j i) as [->|]; [contradiction|reflexivity]. }
      split; [exact U2|]. split; [intros j [<-|Hj]; [rewrite (O2 i N1); exact B|exact (B2 j Hj)]|].
      intros j Hj. rewrite O2; [apply O; intros ->; apply Hj; left; reflexivity|intros X; apply Hj; right; exact X].
Qed.

(* Sends that come one after the other each return the responses to their own unit. *)
Theorem C112_one_at_a_time_partial : forall w32 (sends : nat -> option N * list exchange) order s rest,
  (forall i, In i order -> stages s i = send_of (sends i) /\ Forall (exchange_ok w32) (snd (sends i)) /\ Forall goes_on (snd (sends i))) -> NoDup order ->
  writable (line s) -> unread (line s) = concat (map (fun i => replies_bytes (snd (sends i))) order) ++ rest ->
  exists n s', run w32 (in_turn n order) s = Some s' /\ unread (line s') = rest /\ forall i, In i order -> stages s' i = Back (map seen_as (snd (sends i))) None.
Proof.
  intros w32 sends order s rest H ND Hw U. destruct (one_at_a_time w32 sends order s rest H ND Hw U) as (n & s' & A & B & C & _). eauto.
Qed.

(* ---- at the same time ---- *)

(* A Send that has written zs reads the replies ws, whose ever they are. *)
Lemma reads_others w32 : forall zs ws rs s i rest, length zs = length ws -> Forall (exchange_ok w32) zs -> Forall (exchange_ok w32) ws -> Forall usual zs -> Forall usual ws ->
  stages s i = Reading (request_bytes zs) rs -> unread (line s) = replies_bytes ws ++ rest ->
  exists s', run w32 (repeat i (S (length zs))) s = Some s' /\ unread (line s') = rest /\ stages s' i = Back (rs ++ map seen_as ws) None /\ log (line s') = log (line s) /\ forall j, j <> i -> stages s' j = stages s j.
Proof.
  induction zs as [|z zs IH]; intros [|w ws] rs s i rest Hl Hz Hw Uz Uw Hs U; try discriminate.
  - destruct (step_is w32 i s (Back rs None) (line s)) as (s' & S & L & G & O); [rewrite Hs; reflexivity|]. exists s'. cbn [length repeat Crowd.run map]. rewrite S, L, app_nil_r. auto.
  - inversion Hz as [|? ? [F1 _] Hz']; subst. inversion Hw as [|? ? [_ An] Hw']; subst. inversion Uz as [|? ? Z1 Uz']; subst. inversion Uw as [|? ? W1 Uw']; subst.
    unfold request_bytes, replies_bytes in *. cbn [map concat] in *. rewrite <- app_assoc in U.
    destruct (frame_head (asked z) (concat (map (fun x => frame (asked x)) zs)) F1) as (A & B & C & _ & D & E0).
    destruct (c_read_spec w32 (fst (asked z)) (line s)) as (c1 & R1 & R2 & R3 & R4 & R5 & R6 & R7). rewrite U in R1, R2. rewrite (aread_reply _ _ _ _ _ _ An) in R1, R2.
    assert (NS : ~ stops (fst (asked z)) (seen_as w)) by (unfold stops; destruct (seen_as w) as [e|] eqn:Ew; [|tauto]; destruct Z1 as [Z1 _]; destruct W1 as [_ W1]; rewrite Ew in W1; tauto).
    rewrite (outcome_go _ _ NS) in R1, R2. cbn [fst snd] in R1, R2.
    destruct (step_is w32 i s (Reading (concat (map (fun x => frame (asked x)) zs)) (rs ++ [seen_as w])) c1) as (s1 & S & L & G & O).
    { rewrite Hs. assert (Hc : exists x xs, frame (asked z) ++ concat (map (fun x => frame (asked x)) zs) = x :: xs) by (unfold frame; cbn [app]; eauto). destruct Hc as (x & xs & Hc). unfold advance.
      transitivity (match nth_error (frame (asked z) ++ concat (map (fun x => frame (asked x)) zs)) 4 with
        | None => Some (Crashed, line s)
        | Some ct => let (a, c) := c_read w32 ct (line s) in match snd a with Some e => Some (Back (rs ++ [fst a]) (Some e), c)
          | None => Some (Reading (skipN (4 + le (firstn 4 (frame (asked z) ++ concat (map (fun x => frame (asked x)) zs))))%N (frame (asked z) ++ concat (map (fun x => frame (asked x)) zs))) (rs ++ [fst a]), c) end end);
      [rewrite Hc; reflexivity|]. rewrite C, A, E0, R1. reflexivity. }
    destruct (IH ws (rs ++ [seen_as w]) s1 i rest) as (s' & T1 & T2 & T3 & T4 & T5); try assumption; [cbn in Hl; lia|rewrite L; exact R2|].
    exists s'. cbn [length]. cbn [repeat Crowd.run]. rewrite S. split; [exact T1|]. split; [exact T2|]. split; [rewrite T3, <- app_assoc; reflexivity|]. split; [rewrite T4, L, R7; reflexivity|].
    intros j Hj. rewrite (T5 j Hj). exact (O j Hj).
Qed.

(* For any two units there is an order of the steps in which the Send whose unit was written first returns the last responses of all and the other one the first: if they have as many
   messages, each the responses to the other's. Neither returns an error, the connection is in sync afterwards, and the first reads under the deadline of the second. *)
Theorem C112_crossed_refuted : forall w32 d e xs ys s rest, Forall (exchange_ok w32) (xs ++ ys) -> Forall usual (xs ++ ys) ->
  stages s 0 = send_of (d, xs) -> stages s 1 = send_of (e, ys) -> writable (line s) -> unread (line s) = replies_bytes (xs ++ ys) ++ rest ->
  exists l s', run w32 l s = Some s' /\
    stages s' 0 = Back (skipn (length ys) (map seen_as (xs ++ ys))) None /\ stages s' 1 = Back (firstn (length ys) (map seen_as (xs ++ ys))) None /\
    unread (line s') = rest /\ log (line s') = sent (ckind (line s)) e (request_bytes ys) ++ sent (ckind (line s)) d (request_bytes xs) ++ log (line s).
Proof.
  intros w32 d e xs ys s rest Hok Hus S0 S1 Hw U. apply Forall_app in Hok as [Ox Oy]. apply Forall_app in Hus as [Vx Vy].
  (* both write *)
  assert (Wr : forall i f zs s, stages s i = send_of (f, zs) -> writable (line s) -> exists s', run w32 [i; i] s = Some s' /\ stages s' i = Reading (request_bytes zs) [] /\
    unread (line s') = unread (line s) /\ writable (line s') /\ ckind (line s') = ckind (line s) /\ log (line s') = sent (ckind (line s)) f (request_bytes zs) ++ log (line s) /\ forall j, j <> i -> stages s' j = stages s j).
  { clear. intros i f zs s Hs [W1 W2]. destruct (next_none _ W1) as [D1 D2]. destruct (next_none _ W2) as [E1 E2]. destruct (next_result (deadlines (line s))) as [x l] eqn:Nd. destruct (next_result (writes (line s))) as [x' l'] eqn:Nw. cbn [fst snd] in *. subst x x'.
    edestruct (step_is w32 i s (Dated (request_bytes zs))) as (s1 & T1 & L1 & G1 & O1).
    { rewrite Hs. unfold send_of, advance, set_deadline. rewrite Nd. reflexivity. }
    edestruct (step_is w32 i s1 (Reading (request_bytes zs) [])) as (s2 & T2 & L2 & G2 & O2).
    { rewrite G1, L1. unfold advance, write. cbn [writes]. rewrite Nw. reflexivity. }
    exists s2. cbn [Crowd.run]. rewrite T1, T2. split; [reflexivity|]. split; [exact G2|]. rewrite L2. unfold unread. cbn [rd ckind log]. split; [reflexivity|].
    split; [split; assumption|]. split; [reflexivity|]. split; [reflexivity|]. intros j Hj. rewrite (O2 j Hj). exact (O1 j Hj). }
  destruct (Wr 0 d xs s S0 Hw) as (s1 & A1 & A2 & A3 & A4 & A5 & A6 & A7).
  destruct (Wr 1 e ys s1) as (s2 & B1 & B2 & B3 & B4 & B5 & B6 & B7); [rewrite A7 by lia; exact S1|exact A4|].
  (* the second reads, then the first *)
  set (all := xs ++ ys) in *. set (m := length ys).
  assert (Oa : Forall (exchange_ok w32) all) by (apply Forall_app; auto). assert (Va : Forall usual all) by (apply Forall_app; auto).
  rewrite <- (firstn_skipn m all) in Oa, Va. apply Forall_app in Oa as [Oa1 Oa2]. apply Forall_app in Va as [Va1 Va2].
  assert (Lall : length all = length xs + m) by (unfold all; apply app_length).
  destruct (reads_others w32 ys (firstn m all) [] s2 1 (replies_bytes (skipn m all) ++ rest)) as (s3 & C1 & C2 & C3 & C4 & C5); try assumption.
  { rewrite firstn_length. unfold m. lia. }
  { rewrite B3, A3, U. rewrite app_assoc. f_equal. rewrite <- (firstn_skipn m all) at 1. unfold replies_bytes. rewrite map_app, concat_app. reflexivity. }
  destruct (reads_others w32 xs (skipn m all) [] s3 0 rest) as (s4 & D1 & D2 & D3 & D4 & D5); try assumption.
  { rewrite skipn_length. lia. }
  { rewrite C5 by lia. rewrite B7 by lia. exact A2. }
  exists ([0; 0] ++ [1; 1] ++ repeat 1 (S (length ys)) ++ repeat 0 (S (length xs))), s4. split; [rewrite run_app, A1, run_app, B1, run_app, C1; exact D1|].
  split; [rewrite D3, skipn_map; reflexivity|]. split; [rewrite D5 by lia; rewrite C3, firstn_map; reflexivity|]. split; [exact D2|]. rewrite D4, C4, B6, A6, A5. reflexivity.
Qed.

(* ---- the hypotheses are met ---- *)

(* Two units of one statement each on one connection; the server refuses the first and executes the second. *)
Definition refused_x : exchange := mkx (12%N, []) (mkreply [] (1%N, error_bytes (mkse 0 1062 (s2b "23000") (s2b "Duplicate entry")))) (Some (mkse 0 1062 (s2b "23000") (s2b "Duplicate entry"))).
Definition accepted_x : exchange := mkx (12%N, []) (mkreply [] (17%N, [])) None.
Definition shared_line : conn := mkc Tcp (mkr [] [replies_bytes ([refused_x] ++ [accepted_x])] IoEOF) [] [] [].
Definition two_senders : crowd := mkcr shared_line (fun i => match i with 0 => send_of (Some 5%N, [refused_x]) | _ => send_of (None, [accepted_x]) end).
Example crowd_meets : Forall (exchange_ok false) ([refused_x] ++ [accepted_x]) /\ Forall usual ([refused_x] ++ [accepted_x]) /\ writable (line two_senders) /\
  unread (line two_senders) = replies_bytes ([refused_x] ++ [accepted_x]) ++ [] /\
  (exists s', run false [0; 0; 1; 1; 1; 1; 0; 0] two_senders = Some s' /\ stages s' 0 = Back [None] None /\ stages s' 1 = Back [seen_as refused_x] None) /\
  (exists s', run false [0; 0; 0; 0; 1; 1; 1; 1] two_senders = Some s' /\ stages s' 0 = Back [seen_as refused_x] None /\ stages s' 1 = Back [None] None).
Proof.
  split; [|split; [|split; [|split; [|split]]]].
  - assert (A : exchange_ok false refused_x).
    { split; [vm_compute; reflexivity|]. split; [constructor|]. split; [|repeat constructor; vm_compute; (reflexivity || discriminate)]. split; [reflexivity|]. apply error_bytes_message; try (vm_compute; reflexivity); repeat constructor. }
    assert (B : exchange_ok false accepted_x) by (split; [vm_compute; reflexivity|]; split; [constructor|]; split; [right; right; left; reflexivity|repeat constructor; vm_compute; (reflexivity || discriminate)]).
    constructor; [exact A|constructor; [exact B|constructor]].
  - repeat constructor; cbn; try (intros [X|[X|[X|[]]]]; discriminate X); discriminate.
  - split; constructor.
  - vm_compute. reflexivity.
  - eexists. split; [vm_compute; reflexivity|]. split; vm_compute; reflexivity.
  - eexists. split; [vm_compute; reflexivity|]. split; vm_compute; reflexivity.
Qed.

Print Assumptions C112_alone_is_send.
Print Assumptions C112_one_at_a_time_partial.
Print Assumptions C112_crossed_refuted.
