(* C100: whether Send and the server may wait for each other for ever, over a network that holds a bounded number of bytes. *)
From Coq Require Import String List NArith ZArith Arith Bool Lia ZifyN ZifyNat ZifyBool.
From Coq Require Import List.
From Verif Require Import Base GoSlice SliceProofs Varint VarintProofs SpecWire SpecMsg WireProofs Values AnyModel ExprModel MsgModel Builder
  SpecValue SpecProg SpecUnit SpecBig AnyProofs HeadProofs MsgProofs BuilderProofs UnitProofs ShapeProofs BigProofs Conn SpecReply ReplyProofs Flow SpecFlow FlowProofs ThmBig.
From Verif Require ThmBuilder.
Import ListNotations.
Open Scope list_scope.
Open Scope nat_scope.

(* What may happen next while Send writes the requests of xs, and reads what answers them. *)
Definition next (w32 : bool) (out_room in_room : nat) (answer : server) (xs : list exchange) : action -> state -> option state :=
  step w32 out_room in_room answer (request_bytes xs).
(* Send has returned the responses to xs. *)
Definition done (w32 : bool) (xs : list exchange) (s : state) : Prop :=
  towrite s = [] /\ returned w32 (request_bytes xs) (got s) = Some (map seen_as xs, None).

Lemma inevitably_reached : forall nx (P : state -> Prop) s, inevitably nx P s -> exists s', reaches nx s s' /\ P s'.
Proof.
  intros nx P s H. induction H as [s H|s (a & s1 & H1) _ IH]; [exists s; split; [constructor|exact H]|]. destruct (IH _ _ H1) as (s' & R & Hp). exists s'. split; [|exact Hp].
  exact (R_step _ _ _ _ _ H1 R).
Qed.

Section Jam.
Variables (w32 : bool) (out_room in_room : nat) (answer : server) (xs : list exchange).
Hypotheses (Ok : Forall (exchange_ok w32) xs) (On : Forall goes_on xs) (Sv : serves answer xs) (J : jams out_room in_room xs).

Lemma jam_both : inevitably (next w32 out_room in_room answer xs) (fun s => stuck (next w32 out_room in_room answer xs) s /\ towrite s <> [] /\ got s = []) (start (request_bytes xs)) /\
  forall s, reaches (next w32 out_room in_room answer xs) (start (request_bytes xs)) s -> towrite s <> [] /\ got s = [].
Proof.
  destruct J as (before & x & after & Hx & Hr & Hq).
  pose proof (inv_start w32 out_room in_room answer xs Ok On Sv) as I. pose proof (jammed_start w32 out_room in_room answer xs Ok On Sv before x after Hx Hr Hq) as K. split.
  - exact (jam_stuck w32 out_room in_room answer xs Ok Sv before x after Hx Hr Hq [] xs _ I K).
  - intros s R. exact (jam_reached w32 out_room in_room answer xs Ok Sv before x after Hx Hr Hq [] xs _ s I K R).
Qed.
End Jam.

(* However the network and the server schedule their steps, and into whatever pieces the reads and writes fall: Send returns the responses of the server
   exactly if at no point of the unit there are more bytes of replies than the network holds, with more bytes of requests to come than it holds. *)
Theorem C100_send_returns_unless_buffers_run_full : forall w32 out_room in_room answer xs, 1 <= out_room -> 1 <= in_room ->
  Forall (exchange_ok w32) xs -> Forall goes_on xs -> serves answer xs ->
  (inevitably (next w32 out_room in_room answer xs) (done w32 xs) (start (request_bytes xs)) <-> ~ jams out_room in_room xs).
Proof.
  intros w32 o i answer xs Ho Hi Ok On Sv. split.
  - intros H J. destruct (inevitably_reached _ _ _ H) as (s' & R & (T & _)). exact (proj1 (proj2 (jam_both w32 o i answer xs Ok On Sv J) s' R) T).
  - intros J. exact (no_jam_ends w32 o i answer xs Ok On Sv [] xs _ Ho Hi J (inv_start w32 o i answer xs Ok On Sv)).
Qed.

(* Otherwise it always comes to the state where neither side can do anything: Send has not written everything, and has read nothing. *)
Theorem C100_full_buffers_block_send : forall w32 out_room in_room answer xs,
  Forall (exchange_ok w32) xs -> Forall goes_on xs -> serves answer xs -> jams out_room in_room xs ->
  inevitably (next w32 out_room in_room answer xs) (fun s => stuck (next w32 out_room in_room answer xs) s /\ towrite s <> [] /\ got s = []) (start (request_bytes xs)) /\
  forall s, reaches (next w32 out_room in_room answer xs) (start (request_bytes xs)) s -> towrite s <> [] /\ got s = [].
Proof. exact jam_both. Qed.

Lemma request_bytes_app : forall a b, request_bytes (a ++ b) = request_bytes a ++ request_bytes b.
Proof. intros. unfold request_bytes. rewrite map_app, concat_app. reflexivity. Qed.
Lemma replies_bytes_app : forall a b, replies_bytes (a ++ b) = replies_bytes a ++ replies_bytes b.
Proof. intros. unfold replies_bytes. rewrite map_app, concat_app. reflexivity. Qed.

(* Units of one message return, of whatever size the message and its reply are; so do those that fit the network but for the first message,
   and those whose replies fit it but for the last one. *)
Theorem C100_units_that_always_return : forall w32 out_room in_room answer xs, 1 <= out_room -> 1 <= in_room ->
  Forall (exchange_ok w32) xs -> Forall goes_on xs -> serves answer xs ->
  (length xs <= 1 \/ length (request_bytes (tl xs)) <= out_room \/ length (replies_bytes (removelast xs)) <= in_room) ->
  inevitably (next w32 out_room in_room answer xs) (done w32 xs) (start (request_bytes xs)).
Proof.
  intros w32 o i answer xs Ho Hi Ok On Sv F. apply C100_send_returns_unless_buffers_run_full; try assumption. intros (before & x & after & -> & Hr & Hq).
  assert (Ha : after <> []) by (intros ->; cbn in Hq; lia).
  destruct F as [F|[F|F]].
  - rewrite app_length in F. cbn [length] in F. destruct after; [congruence|cbn [length] in F; lia].
  - assert (T : exists m, tl (before ++ x :: after) = m ++ after) by (destruct before as [|y before]; [exists []|exists (before ++ [x]); rewrite <- app_assoc]; reflexivity).
    destruct T as (m & T). rewrite T, request_bytes_app, app_length in F. lia.
  - rewrite (removelast_app before) in F by discriminate. destruct after as [|y after]; [congruence|]. change (removelast (x :: y :: after)) with ([x] ++ removelast (y :: after)) in F.
    rewrite app_assoc, replies_bytes_app, app_length in F. lia.
Qed.

Lemma stmt_size_most : forall (E : Env) p stmt q, (nlen stmt < 2 ^ 64)%N -> stmt_execute p stmt [] = Ok (q, None) -> len q <= len p + 16 + length stmt.
Proof.
  intros E p stmt q Hx H. unfold stmt_execute in H. cbv zeta in H. set (x := nlen stmt) in *.
  match type of H with bind (mask_truncate ?a _) _ = _ => set (p1 := a) in * end.
  match type of H with bind (mask_truncate _ ?i) _ = _ => set (n := i) in * end.
  assert (Hn : n <= len p + 16) by (subst n p1; rewrite len_append; cbn [length]; pose proof (size_small x Hx); lia).
  destruct (mask_truncate p1 n) as [p2|] eqn:Hp2; cbn [bind] in H; [|discriminate].
  unfold append_args in H. cbn [each bind] in H. unfold okm in H. destruct (patch_length _ _) as [p3|] eqn:Hp3; cbn [bind] in H; [|discriminate].
  assert (p3 = q) by congruence. subst p3. apply patch_len in Hp3. rewrite len_append in Hp3.
  assert (Hl : len p2 = n).
  { clear - Hp2. unfold mask_truncate in Hp2. destruct (upd _ _ _) as [p'|]; cbn [bind] in Hp2; [|discriminate]. unfold reslice in Hp2.
    destruct (Nat.leb_spec n (cap p')) as [Hc|]; [|discriminate]. injection Hp2 as <-. unfold len, cap in *. cbn [data]. rewrite firstn_length, app_length. lia. }
  lia.
Qed.

Lemma again_size_most : forall (E : Env) n s b b' out, (nlen s < 2 ^ 64)%N -> disabled b = false -> run (again n s) [b] = Ok ([b'], out) -> berr b = None -> berr b' = None ->
  len (buf b') <= len (buf b) + n * (16 + length s).
Proof.
  intros E. induction n as [|n IH]; intros s b b' out Hx Hd H He He'; cbn [again run] in H.
  - injection H as <- _. lia.
  - cbn [nth_error] in H. unfold exec_call, guarded in H. rewrite Hd, He in H. destruct (stmt_execute (buf b) s []) as [[q e]|] eqn:Hq; cbn [bind set_nth] in H; [|discriminate].
    destruct e as [e|].
    + exfalso. assert (Hi : inner_only (again n s)) by (clear; induction n; cbn [again inner_only]; auto).
      destruct (run_error (again n s) (mkb q (Some e) false) [] Hi eq_refl ltac:(discriminate)) as (o & Ho). rewrite Ho in H. injection H as <- _. discriminate.
    + specialize (IH s (mkb q None false) b' out Hx eq_refl H eq_refl He'). cbn [buf] in IH. apply (stmt_size_most _ _ _ _ Hx) in Hq. lia.
Qed.

(* n executions of s are delivered as a unit of n messages. *)
Lemma again_frames : forall (E : Env) b n s, empty b -> go_string s -> (nlen s < 2 ^ 20)%N -> (N.of_nat n < 2 ^ 41)%N ->
  exists bs fs, delivers b (again n s) bs /\ bs = concat (map frame fs) /\ Forall (fun f => (1 + nlen (snd f) < 2 ^ 32)%N) fs /\ length fs = n.
Proof.
  intros E b n s Hb Hg Hl Hn.
  assert (Hok : prog_ok word32 (again n s)) by (clear Hn; induction n; cbn [again prog_ok call_ok]; [constructor|]; split; [split; [exact Hg|constructor]|exact IHn]).
  assert (Hw : calls_below (2 ^ 31) (again n s)).
  { unfold calls_below. clear Hn Hok. induction n; cbn [again prog_all]; [constructor|]. split; [|exact IHn]. cbn [call_weight total_weight]. unfold name_weight. lia. }
  destruct (ThmBuilder.C08_accepted_programs_are_sent E b (again n s) Hb Hok) as (bs & Hd).
  - clear. induction n; cbn [again inner_only]; auto.
  - unfold prog_accepted. clear Hn Hok Hw. induction n; cbn [again prog_all]; [constructor|]. split; [|exact IHn]. cbn [call_accepted]. split; [constructor|].
    unfold call_fits. cbn [call_weight total_weight]. unfold name_weight. lia.
  - destruct Hd as (b' & out & Hr & Hs). pose proof Hb as (He & Hbe & Hdb).
    destruct (run_step (again n s) b [] _ out Hok (Forall_nil _) Hdb Hr) as (_ & b2 & Hb2 & S1 & _). assert (b2 = b') by congruence. subst b2.
    pose proof Hs as Hs'. unfold send in Hs'. rewrite S1 in Hs'. destruct (berr b') eqn:He'; [discriminate|]. assert (Hbs : data (buf b') = bs) by congruence.
    pose proof (again_size_most E n s b b' out ltac:(lia) Hdb Hr Hbe He') as Hsz. assert (H0 : len (buf b) = 0) by (unfold len; rewrite He; reflexivity). rewrite H0 in Hsz.
    assert (Hsm : (nlen bs < 2 ^ 63)%N).
    { unfold len in Hsz. rewrite Hbs in Hsz. unfold nlen in *. clear - Hsz Hl Hn. assert (N.of_nat n * (16 + N.of_nat (length s)) <= 2 ^ 41 * (16 + 2 ^ 20))%N by (apply N.mul_le_mono; lia). lia. }
    assert (Hd : delivers b (again n s) bs) by (exists b', out; auto).
    destruct (C46_units_of_any_size E b _ bs Hb Hok Hw Hd Hsm) as (fs & ms & ids & o & Hf & Hff & _ & Hlen & Hp & _). exists bs, fs. split; [exact Hd|]. split; [exact Hf|]. split; [exact Hff|].
    rewrite Hlen. clear - Hp. revert ms ids o Hp. induction n as [|n IH]; intros ms ids o Hp; cbn [again] in Hp; inversion Hp; subst; [reflexivity|]. cbn [length]. f_equal. eapply IH. eassumption.
Qed.

(* The replies of a server that executes every statement: StmtExecuteOk. *)
Definition executes (f : N * bytes) : exchange := mkx f (mkreply [] (17%N, [])) None.

(* Whatever the network holds, and whatever the statement is: executed often enough in one unit of work, Send never returns, although the server answers every
   statement with success. *)
Theorem C100_long_units_block_send_refuted : forall (E : Env) b s w32 out_room in_room, empty b -> go_string s -> (nlen s < 2 ^ 20)%N ->
  (N.of_nat out_room < 2 ^ 40)%N -> (N.of_nat in_room < 2 ^ 40)%N ->
  exists n bs fs, let xs := map executes fs in let answer := fun _ => frame (17%N, []) in
    delivers b (again n s) bs /\ bs = request_bytes xs /\ length xs = n /\ Forall (exchange_ok w32) xs /\ Forall goes_on xs /\ serves answer xs /\
    inevitably (next w32 out_room in_room answer xs) (stuck (next w32 out_room in_room answer xs)) (start bs) /\
    forall st, reaches (next w32 out_room in_room answer xs) (start bs) st -> ~ done w32 xs st.
Proof.
  intros E b s w32 o i Hb Hg Hs Ho Hi. set (k := S (i / 5)). set (m := S (o / 5)).
  assert (Hk : i < 5 * k /\ (N.of_nat k <= 2 ^ 40)%N) by (subst k; pose proof (Nat.div_mod_eq i 5); pose proof (Nat.mod_upper_bound i 5 ltac:(lia)); lia).
  assert (Hm : o < 5 * m /\ (N.of_nat m < 2 ^ 40)%N) by (subst m; pose proof (Nat.div_mod_eq o 5); pose proof (Nat.mod_upper_bound o 5 ltac:(lia)); lia). clearbody k m.
  destruct (again_frames E b (k + m) s Hb Hg Hs ltac:(lia)) as (bs & fs & Hd & Hf & Hff & Hl). exists (k + m), bs, fs. cbv zeta.
  assert (Hq : bs = request_bytes (map executes fs)) by (rewrite Hf; unfold request_bytes; rewrite map_map; reflexivity).
  assert (Ok : Forall (exchange_ok w32) (map executes fs)).
  { apply Forall_map. eapply Forall_impl; [|exact Hff]. intros f Hlt. split; [exact Hlt|]. split; [constructor|]. split; [cbn; auto|]. repeat constructor. unfold fits. destruct w32; reflexivity. }
  assert (On : Forall goes_on (map executes fs)) by (apply Forall_map, Forall_forall; intros f _ []).
  assert (Sv : serves (fun _ => frame (17%N, [])) (map executes fs)).
  { intros before x after Hx. assert (Hin : In x (map executes fs)) by (rewrite Hx; apply in_elt). apply in_map_iff in Hin. destruct Hin as (f & <- & _). unfold reply_bytes. cbn [executes replied interims final app map concat]. rewrite app_nil_r. reflexivity. }
  assert (Hrep : forall l, length (replies_bytes (map executes l)) = 5 * length l).
  { induction l as [|f l IH]; [reflexivity|]. unfold replies_bytes in *. cbn [map concat]. rewrite app_length, IH. cbn [length]. change (length (reply_bytes (replied (executes f)))) with 5. lia. }
  assert (Hreq : forall l, 5 * length l <= length (request_bytes (map executes l))).
  { induction l as [|f l IH]; [reflexivity|]. unfold request_bytes in *. cbn [map concat]. rewrite app_length, frame_length. cbn [length]. lia. }
  assert (J : jams o i (map executes fs)).
  { destruct k as [|k]; [lia|]. assert (Hn : exists f, nth_error fs k = Some f) by (destruct (nth_error fs k) eqn:Hn; [eauto|apply nth_error_None in Hn; lia]).
    destruct Hn as (f & Hn). apply nth_error_split in Hn. destruct Hn as (l1 & l2 & -> & L1). exists (map executes l1), (executes f), (map executes l2). split; [rewrite map_app; reflexivity|].
    rewrite app_length in Hl. cbn [length] in Hl. split.
    - change [executes f] with (map executes [f]). rewrite <- map_app, Hrep, app_length. cbn [length]. lia.
    - pose proof (Hreq l2). lia. }
  destruct (jam_both w32 o i _ _ Ok On Sv J) as (A & B). rewrite <- Hq in A, B.
  split; [exact Hd|]. split; [exact Hq|]. split; [rewrite map_length; exact Hl|]. split; [exact Ok|]. split; [exact On|]. split; [exact Sv|]. split.
  - clear - A. induction A as [st (A & _)|st A1 _ IH]; [apply In_now; exact A|apply In_later; [exact A1|exact IH]].
  - intros st R (T & _). exact (proj1 (B st R) T).
Qed.

(* The hypotheses are met: two empty statements with room for 5 bytes each way, in small pieces; four of them block where there is room for 6. *)
Definition ping : exchange := mkx (12%N, []) (mkreply [] (17%N, [])) None.
Definition pings (n : nat) : list exchange := repeat ping n.
Definition pong : server := fun _ => frame (17%N, []).

Lemma pings_meet : forall w32 n, Forall (exchange_ok w32) (pings n) /\ Forall goes_on (pings n) /\ serves pong (pings n).
Proof.
  intros w32 n. unfold pings. split; [|split].
  - apply Forall_forall. intros x Hx. apply repeat_spec in Hx. subst. split; [reflexivity|]. split; [constructor|]. split; [cbn; auto|]. repeat constructor. unfold fits. destruct w32; reflexivity.
  - apply Forall_forall. intros x Hx. apply repeat_spec in Hx. subst. intros [].
  - intros before x after Hx. assert (Hin : In x (repeat ping n)) by (rewrite Hx; apply in_elt). apply repeat_spec in Hin. subst. reflexivity.
Qed.

Fixpoint follow (nx : action -> state -> option state) (l : list action) (s : state) : option state :=
  match l with [] => Some s | a :: l => match nx a s with Some s' => follow nx l s' | None => None end end.

Example pings_return : ~ jams 5 5 (pings 2) /\
  exists s, follow (next false 5 5 pong (pings 2)) [Put 3; Take 2; Put 4; Take 2; Take 1; Reply 4; Put 3; Reply 1; Get 4; Take 4; Get 1; Take 1; Reply 5; Get 5] (start (request_bytes (pings 2))) = Some s /\
    done false (pings 2) s.
Proof.
  split; [|eexists; split; [vm_compute; reflexivity|split; vm_compute; reflexivity]].
  intros (before & x & after & Hx & Hr & Hq). change (pings 2) with [ping; ping] in Hx.
  destruct before as [|y [|z before]]; inversion Hx; subst; [vm_compute in Hq; lia|vm_compute in Hq; lia|destruct before; discriminate].
Qed.

Example pings_block : jams 6 6 (pings 4) /\
  exists s, follow (next false 6 6 pong (pings 4)) [Put 6; Take 4; Take 1; Put 5; Reply 5; Take 4; Take 1; Put 4; Reply 1; Put 1] (start (request_bytes (pings 4))) = Some s /\
    towrite s <> [] /\ stuck (next false 6 6 pong (pings 4)) s.
Proof.
  split; [exists [ping], ping, [ping; ping]; split; [reflexivity|]; vm_compute; lia|].
  eexists. split; [vm_compute; reflexivity|]. split; [discriminate|]. intros [n|n|n|n].
  - destruct n; [reflexivity|]. unfold next, step. cbn [towrite outward length]. destruct (_ && _) eqn:C; [|reflexivity]. exfalso. lia.
  - reflexivity.
  - destruct n; [reflexivity|]. unfold next, step. cbn [reply inward length]. destruct (_ && _) eqn:C; [|reflexivity]. exfalso. lia.
  - reflexivity.
Qed.

Print Assumptions C100_send_returns_unless_buffers_run_full.
Print Assumptions C100_full_buffers_block_send.
Print Assumptions C100_units_that_always_return.
Print Assumptions C100_long_units_block_send_refuted.
