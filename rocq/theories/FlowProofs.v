(* Proofs about Flow. *)
From Coq Require Import String List NArith ZArith Arith Bool Lia ZifyN ZifyNat ZifyBool.
From Coq Require Import List.
From Verif Require Import Base SpecWire Conn SpecUnit SpecReply ConnProofs ReplyProofs Flow SpecFlow.
From Verif Require ThmConn.
Import ListNotations.
Open Scope list_scope.
Open Scope nat_scope.

(* ---- what the reading code returns does not change when more arrives, unless it waits for more ---- *)

Lemma firstn4_app : forall (q rest : bytes), (5 <= nlen q)%N -> firstn 4 (q ++ rest) = firstn 4 q /\ firstn 5 (q ++ rest) = firstn 5 q /\ nth 4 (q ++ rest) 0%N = nth 4 q 0%N.
Proof. intros q rest H. destruct q as [|q1 [|q2 [|q3 [|q4 [|q5 q]]]]]; try (unfold nlen in H; cbn in H; lia). auto. Qed.

Lemma amessage_more : forall w32 fin q rest m r, fin <> IoEOF -> amessage w32 fin q = (m, r) -> m <> inr (CRead fin) ->
  exists r', amessage w32 fin (q ++ rest) = (m, r') /\ match m with inl (_, _, n) => (n <= nlen r)%N /\ r' = r ++ rest | inr _ => True end.
Proof.
  intros w32 fin q rest m r Hf H Hm. unfold amessage in *. destruct (N.ltb_spec (nlen q) 5) as [L|L]; [injection H as <- <-; congruence|].
  destruct (firstn4_app q rest L) as (F4 & F5 & F6). rewrite F4, F5, F6. destruct (N.ltb_spec (nlen (q ++ rest)) 5) as [L2|_]; [rewrite nlen_app in L2; lia|].
  rewrite (skipN_app1 5 q rest) by lia. set (x := skipN 5 q) in *. set (z := int_of_u32 w32 (le (firstn 4 q))) in *. cbn zeta in *.
  destruct (z <? 1)%Z; [injection H as <- <-; eauto|]. set (n := Z.to_N (z - 1)) in *. destruct (0 <? n)%N; [|injection H as <- <-; eexists; split; [reflexivity|]; split; [lia|reflexivity]].
  destruct (n <=? buf_size)%N.
  - destruct (N.leb_spec n (nlen x)) as [A|A]; [|injection H as <- <-; congruence]. injection H as <- <-.
    destruct (N.leb_spec n (nlen (x ++ rest))) as [_|B]; [|rewrite nlen_app in B; lia]. rewrite firstN_app1 by exact A. eexists. split; [reflexivity|]. split; [exact A|reflexivity].
  - destruct (N.leb_spec n (nlen x)) as [A|A].
    + injection H as <- <-. destruct (N.leb_spec n (nlen (x ++ rest))) as [_|B]; [|rewrite nlen_app in B; lia]. rewrite firstN_app1, skipN_app1 by exact A. eexists. split; [reflexivity|]. split; [lia|reflexivity].
    + injection H as <- <-. exfalso. apply Hm. do 2 f_equal. unfold eof_in_frame. destruct fin; [congruence| |]; reflexivity.
Qed.

Lemma aread_more : forall k w32 ct fin q rest a e q', length q <= k -> fin <> IoEOF -> aread w32 ct fin q = ((a, e), q') -> e <> Some (CRead fin) ->
  exists q'', aread w32 ct fin (q ++ rest) = ((a, e), q'') /\ (e = None -> q'' = q' ++ rest).
Proof.
  induction k as [|k IH]; intros w32 ct fin q rest a e q' Hk Hf H He; rewrite aread_eq in H |- *.
  - destruct q; [|cbn in Hk; lia]. cbn in H. injection H as <- <- <-. congruence.
  - destruct (amessage w32 fin q) as [m r] eqn:Em.
    assert (Hm : m <> inr (CRead fin)) by (intros ->; injection H as <- <- <-; congruence).
    destruct (amessage_more w32 fin q rest m r Hf Em Hm) as (r' & -> & R). destruct m as [[[st bb] n]|e0]; [|injection H as <- <- <-; eexists; split; [reflexivity|discriminate]].
    destruct R as [R1 ->]. destruct (dispatch ct st bb) as [[resp o]|] eqn:D.
    + assert (X : (resp, o) = (a, e)) by (destruct o as [[]|]; injection H as <- <- _; reflexivity). injection X as -> ->.
      destruct e as [ce|].
      * destruct ce; eexists; split; try reflexivity; discriminate.
      * injection H as <-. eexists. split; [reflexivity|]. intros _. apply skipN_app1. exact R1.
    + rewrite skipN_app1 by exact R1. eapply IH; [|exact Hf|exact H|exact He]. pose proof (amessage_consumes _ _ _ _ _ _ _ Em). lia.
Qed.

Lemma areads_more : forall w32 fin cts q rest x q', fin <> IoEOF -> areads w32 cts fin q = (x, q') -> snd x <> Some (CRead fin) -> exists q'', areads w32 cts fin (q ++ rest) = (x, q'').
Proof.
  intros w32 fin cts. induction cts as [|ct cts IH]; intros q rest x q' Hf H Hx; cbn [areads] in *; [injection H as <- <-; eauto|].
  destruct (aread w32 ct fin q) as [[a e] q1] eqn:Ea. cbn [fst snd] in H. destruct e as [e|].
  - injection H as <- <-. cbn [snd] in Hx. destruct (aread_more _ w32 ct fin q rest a (Some e) q1 (le_n _) Hf Ea Hx) as (q2 & -> & _). cbn [fst snd]. eauto.
  - destruct (aread_more _ w32 ct fin q rest a None q1 (le_n _) Hf Ea ltac:(discriminate)) as (q2 & -> & E2). rewrite (E2 eq_refl). cbn [fst snd].
    destruct (areads w32 cts fin q1) as [b q3] eqn:Eb. injection H as <- <-. cbn [snd] in Hx. destruct (IH q1 rest b q3 Hf Eb Hx) as (q4 & ->). eauto.
Qed.

Lemma request_bytes_frames : forall xs, request_bytes xs = concat (map frame (map asked xs)).
Proof. exact ThmConn.requests_map. Qed.

Lemma returned_spec : forall w32 xs g, Forall (exchange_ok w32) xs ->
  returned w32 (request_bytes xs) g = let x := fst (areads w32 (map (fun x => fst (asked x)) xs) nothing_yet g) in match snd x with Some (CRead (IoOther 1)) => None | _ => Some x end.
Proof.
  intros w32 xs g H. unfold returned. rewrite request_bytes_frames. set (c := mkc Tcp _ [] [] []).
  destruct (send_spec w32 None (map asked xs) c (ThmConn.requests_fit _ _ H)) as (c' & A & _); [split; reflexivity|]. cbn zeta in A. rewrite A.
  change (unread c) with (concat [g]). cbn [concat]. rewrite app_nil_r. rewrite map_map. cbn zeta.
  destruct (fst (areads w32 (map (fun x => fst (asked x)) xs) (ended (rd c)) g)) as [rs e] eqn:E. change (ended (rd c)) with nothing_yet in E. rewrite E. cbn [fst snd]. destruct e as [[]|]; try reflexivity.
Qed.

(* Send returns the right responses when it has got all replies, and not before. *)
Lemma returned_all : forall w32 xs, Forall (exchange_ok w32) xs -> Forall goes_on xs -> returned w32 (request_bytes xs) (replies_bytes xs) = Some (map seen_as xs, None).
Proof.
  intros w32 xs H1 H2. rewrite returned_spec by exact H1. pose proof (areads_go w32 nothing_yet xs [] [] H1 H2) as G. rewrite !app_nil_r in G. rewrite G. cbn. rewrite app_nil_r. reflexivity.
Qed.
Lemma returned_some : forall w32 xs g rest r, Forall (exchange_ok w32) xs -> Forall goes_on xs -> replies_bytes xs = g ++ rest -> returned w32 (request_bytes xs) g = Some r -> r = (map seen_as xs, None).
Proof.
  intros w32 xs g rest r H1 H2 Hg H. pose proof (returned_all w32 xs H1 H2) as A. rewrite returned_spec in H, A by exact H1. cbn zeta in *.
  destruct (areads w32 (map (fun x => fst (asked x)) xs) nothing_yet g) as [x q] eqn:E. cbn [fst] in H.
  assert (X : snd x <> Some (CRead nothing_yet)) by (intros X; rewrite X in H; discriminate). assert (Y : r = x) by (destruct (snd x) as [[]|]; try congruence; destruct e; try congruence; destruct n as [|[]]; congruence).
  destruct (areads_more w32 nothing_yet _ g rest x q ltac:(discriminate) E X) as (q2 & E2). rewrite <- Hg in E2. rewrite E2 in A. cbn [fst] in A. rewrite Y.
  destruct (snd x) as [[]|]; try congruence; destruct e; try congruence; destruct n as [|[]]; congruence.
Qed.

(* ---- the server reads messages ---- *)

Lemma frame_length : forall f, length (frame f) = 5 + length (snd f).
Proof. intros [t p]. unfold frame. cbn [fst snd app length]. lia. Qed.
Lemma prefix_head : forall f p r, (1 + nlen (snd f) < 2 ^ 32)%N -> frame f = p ++ r -> 4 <= length p -> 4 + N.to_nat (le (firstn 4 p)) = length (frame f).
Proof.
  intros f p r Hf E L. destruct (frame_head f [] Hf) as (A & _). rewrite app_nil_r in A. rewrite E in A. rewrite firstn_app in A. replace (4 - length p) with 0 in A by lia. rewrite firstn_O, app_nil_r in A.
  rewrite A, frame_length. unfold nlen. lia.
Qed.
Lemma wanted_prefix : forall f p r, (1 + nlen (snd f) < 2 ^ 32)%N -> frame f = p ++ r -> r <> [] -> 1 <= wanted p <= length r.
Proof.
  intros f p r Hf E Hr. pose proof (f_equal (@length N) E) as L. rewrite app_length, frame_length in L. assert (1 <= length r) by (destruct r; [congruence|cbn; lia]). unfold wanted.
  destruct (Nat.ltb_spec (length p) 4) as [A|A]; [lia|]. pose proof (prefix_head f p r Hf E A) as B. rewrite frame_length in B. lia.
Qed.
Lemma whole_prefix : forall f p r, (1 + nlen (snd f) < 2 ^ 32)%N -> frame f = p ++ r -> whole p = true <-> r = [].
Proof.
  intros f p r Hf E. pose proof (f_equal (@length N) E) as L. rewrite app_length, frame_length in L. unfold whole. destruct (Nat.leb_spec 4 (length p)) as [A|A]; cbn [andb].
  - pose proof (prefix_head f p r Hf E A) as B. rewrite frame_length in B. rewrite Nat.eqb_eq. split; intros X; [destruct r; [reflexivity|cbn [length] in L; lia]|subst r; cbn [length] in L; lia].
  - split; [discriminate|]. intros ->. cbn [length] in L. lia.
Qed.

Section Network.
Variable w32 : bool.
Variables out_room in_room : nat.
Variable answer : server.
Variable xs : list exchange.
Hypothesis xs_ok : Forall (exchange_ok w32) xs.
Hypothesis xs_on : Forall goes_on xs.
Hypothesis honest : serves answer xs.
Notation next := (step w32 out_room in_room answer (request_bytes xs)).

(* done: what the server has read, todo: what it has not. *)
Record inv (finished todo : list exchange) (s : state) : Prop := {
  i_split : xs = finished ++ todo;
  i_requests : requests s = map (fun y => frame (asked y)) finished;
  i_out : request_bytes todo = part s ++ outward s ++ towrite s;
  i_in : replies_bytes finished = got s ++ inward s ++ reply s;
  i_part : match todo with [] => part s = [] | x :: _ => length (part s) < length (frame (asked x)) end;
  i_writing : towrite s <> [] -> got s = [];
  i_replying : reply s <> [] -> part s = [];
  i_outward : length (outward s) <= out_room;
  i_inward : length (inward s) <= in_room }.

Lemma inv_start : inv [] xs (start (request_bytes xs)).
Proof.
  constructor; cbn [start requests part outward towrite got inward reply length map app]; try reflexivity; try lia; try congruence.
  destruct xs; [reflexivity|]. rewrite frame_length. lia.
Qed.

(* How much there is to do. *)
Definition work (todo : list exchange) (s : state) : nat :=
  2 * length (towrite s) + length (outward s) + 2 * length (replies_bytes todo) + 2 * length (reply s) + length (inward s).

(* What the server reads is the beginning of the next message. *)
Lemma head_prefix : forall finished x todo s, inv finished (x :: todo) s -> exists r, frame (asked x) = part s ++ r /\ r <> [] /\ r ++ request_bytes todo = outward s ++ towrite s /\ (1 + nlen (snd (asked x)) < 2 ^ 32)%N.
Proof.
  intros finished x todo s I. pose proof (i_out _ _ _ I) as O. assert (P : length (part s) < length (frame (asked x))) by exact (i_part _ _ _ I). change (request_bytes (x :: todo)) with (frame (asked x) ++ request_bytes todo) in O.
  exists (skipn (length (part s)) (frame (asked x))).
  assert (E : frame (asked x) = part s ++ skipn (length (part s)) (frame (asked x))).
  { apply (f_equal (firstn (length (part s)))) in O. rewrite firstn_app in O. replace (length (part s) - length (frame (asked x))) with 0 in O by lia. rewrite firstn_O, app_nil_r in O.
    rewrite firstn_app, Nat.sub_diag, firstn_all, firstn_O, app_nil_r in O. rewrite <- O at 1. symmetry. apply firstn_skipn. }
  split; [exact E|]. split; [|split].
  - intros X. apply (f_equal (@length N)) in X. rewrite skipn_length in X. cbn [length] in X. lia.
  - rewrite E in O. rewrite <- app_assoc in O. apply app_inv_head in O. exact O.
  - pose proof xs_ok as F. rewrite (i_split _ _ _ I) in F. apply Forall_app in F. destruct F as [_ F]. inversion F as [|? ? A _]; subst. apply A.
Qed.

Lemma app_split : forall (a b c d : bytes) n, a ++ b = c ++ d -> n <= length a -> n <= length c -> firstn n a = firstn n c /\ skipn n a ++ b = skipn n c ++ d.
Proof.
  intros a b c d n H A C. split.
  - apply (f_equal (firstn n)) in H. rewrite !firstn_app in H. replace (n - length a) with 0 in H by lia. replace (n - length c) with 0 in H by lia. rewrite !firstn_O, !app_nil_r in H. exact H.
  - apply (f_equal (skipn n)) in H. rewrite !skipn_app in H. replace (n - length a) with 0 in H by lia. replace (n - length c) with 0 in H by lia. exact H.
Qed.

Lemma inv_step : forall finished todo s a s', inv finished todo s -> next a s = Some s' ->
  exists finished' todo', inv finished' todo' s' /\ work todo' s' < work todo s /\
  (finished' = finished /\ todo' = todo \/ exists x n, a = Take n /\ finished' = finished ++ [x] /\ todo = x :: todo' /\ part s' = []).
Proof.
  intros finished todo s a s' I H. destruct a as [n|n|n|n]; cbn [step] in H.
  - destruct (_ && _)%bool eqn:C in H; [|discriminate]. injection H as <-. exists finished, todo. split; [|split; [|left; auto]].
    + destruct I. constructor; cbn [requests part outward towrite got inward reply]; try assumption.
      * rewrite i_out0. rewrite <- !app_assoc. do 2 f_equal. symmetry. apply firstn_skipn.
      * intros X. apply i_writing0. intros Y. rewrite Y in C. cbn [length] in C. lia.
      * rewrite app_length, firstn_length. lia.
    + unfold work. cbn [requests part outward towrite got inward reply]. rewrite app_length, firstn_length, skipn_length. lia.
  - destruct (reply s) as [|? ?] eqn:Er; [|discriminate]. destruct (_ && _)%bool eqn:C in H; [|discriminate]. cbn zeta in H.
    destruct todo as [|x todo].
    { exfalso. pose proof (i_out _ _ _ I) as O. cbn in O. destruct (part s); [|discriminate]. cbn in O. destruct (outward s); [cbn [length] in C; lia|discriminate]. }
    destruct (head_prefix _ _ _ _ I) as (r & E & Hr & O & Hf). pose proof (wanted_prefix _ _ _ Hf E Hr) as W.
    destruct (app_split r (request_bytes todo) (outward s) (towrite s) n O ltac:(lia) ltac:(lia)) as [O1 O2].
    assert (E2 : frame (asked x) = (part s ++ firstn n (outward s)) ++ skipn n r) by (rewrite <- O1, <- app_assoc, firstn_skipn; exact E).
    pose proof (whole_prefix _ _ _ Hf E2) as Wh. destruct (whole (part s ++ firstn n (outward s))) eqn:Ew.
    + injection H as <-. assert (Hn : skipn n r = []) by (apply Wh; reflexivity). rewrite Hn in E2, O2. rewrite app_nil_r in E2. cbn [app] in O2.
      exists (finished ++ [x]), todo. rewrite <- E2. destruct I.
      assert (A : answer (requests s ++ [frame (asked x)]) = reply_bytes (replied x)).
      { rewrite i_requests0. change [frame (asked x)] with (map (fun y => frame (asked y)) [x]). rewrite <- map_app. apply (honest finished x todo). exact i_split0. }
      split; [|split].
      * constructor; cbn [requests part outward towrite got inward reply]; try assumption.
        -- rewrite i_split0. rewrite <- app_assoc. reflexivity.
        -- rewrite i_requests0, map_app. reflexivity.
        -- match goal with |- context [answer ?z] => replace (answer z) with (reply_bytes (replied x)) by (symmetry; exact A) end. unfold replies_bytes in *. rewrite map_app, concat_app. cbn [map concat]. rewrite app_nil_r, i_in0, Er, app_nil_r, <- app_assoc. reflexivity.
        -- destruct todo; [reflexivity|]. rewrite frame_length. cbn. lia.
        -- trivial.
        -- rewrite skipn_length. lia.
      * unfold work. cbn [requests part outward towrite got inward reply]. match goal with |- context [answer ?z] => replace (answer z) with (reply_bytes (replied x)) by (symmetry; exact A) end. rewrite Er. unfold replies_bytes. cbn [map concat]. rewrite app_length, skipn_length. cbn [length]. lia.
      * right. exists x, n. auto.
    + injection H as <-. exists finished, (x :: todo). destruct I. split; [|split; [|left; auto]].
      * constructor; cbn [requests part outward towrite got inward reply]; try assumption.
        -- change (request_bytes (x :: todo)) with (frame (asked x) ++ request_bytes todo). rewrite E2. rewrite <- !app_assoc. do 2 f_equal. exact O2.
        -- rewrite <- Er. exact i_in0.
        -- assert (X : skipn n r <> []) by (intros X; apply Wh in X; discriminate). rewrite E2. rewrite !app_length. destruct (skipn n r); [congruence|]. cbn [length]. lia.
        -- congruence.
        -- rewrite skipn_length. lia.
      * unfold work. cbn [requests part outward towrite got inward reply]. rewrite Er. rewrite skipn_length. cbn [length]. lia.
  - destruct (_ && _)%bool eqn:C in H; [|discriminate]. injection H as <-. exists finished, todo. split; [|split; [|left; auto]].
    + destruct I. constructor; cbn [requests part outward towrite got inward reply]; try assumption.
      * rewrite i_in0. rewrite <- !app_assoc. do 2 f_equal. symmetry. apply firstn_skipn.
      * intros X. apply i_replying0. intros Y. rewrite Y in C. cbn [length] in C. lia.
      * rewrite app_length, firstn_length. lia.
    + unfold work. cbn [requests part outward towrite got inward reply]. rewrite app_length, firstn_length, skipn_length. lia.
  - destruct (towrite s) eqn:Et; [|discriminate]. destruct (returned _ _ _); [discriminate|]. destruct (_ && _)%bool eqn:C in H; [|discriminate]. injection H as <-.
    exists finished, todo. split; [|split; [|left; auto]].
    + destruct I. constructor; cbn [requests part outward towrite got inward reply]; try assumption.
      * rewrite i_out0, Et. reflexivity.
      * rewrite i_in0. rewrite <- !app_assoc. f_equal. rewrite app_assoc, firstn_skipn. reflexivity.
      * congruence.
      * rewrite skipn_length. lia.
    + unfold work. cbn [requests part outward towrite got inward reply]. rewrite Et, skipn_length. cbn [length]. lia.
Qed.

(* What one byte more would do. *)
Lemma cases : forall finished todo s, inv finished todo s ->
  (exists a s', next a s = Some s') \/
  stuck next s /\ (towrite s = [] \/ out_room <= length (outward s)) /\ (reply s <> [] -> in_room <= length (inward s)) /\ (reply s = [] -> outward s = []) /\
  (towrite s = [] -> returned w32 (request_bytes xs) (got s) = None -> inward s = []).
Proof.
  intros finished todo s I.
  assert (P : {towrite s <> [] /\ length (outward s) < out_room} + {towrite s = [] \/ out_room <= length (outward s)}).
  { destruct (towrite s); [right; auto|]. destruct (le_lt_dec out_room (length (outward s))); [right; auto|left; split; [discriminate|assumption]]. }
  destruct P as [[P1 P2]|P].
  { left. exists (Put 1). cbn [step]. destruct (towrite s) as [|y ys]; [congruence|]. cbn [length]. destruct (_ && _)%bool eqn:C; [eauto|]. exfalso. lia. }
  assert (R : {reply s <> [] /\ length (inward s) < in_room} + {reply s <> [] -> in_room <= length (inward s)}).
  { destruct (reply s); [right; congruence|]. destruct (le_lt_dec in_room (length (inward s))); [right; auto|left; split; [discriminate|assumption]]. }
  destruct R as [[R1 R2]|R].
  { left. exists (Reply 1). cbn [step]. destruct (reply s) as [|y ys]; [congruence|]. cbn [length]. destruct (_ && _)%bool eqn:C; [eauto|]. exfalso. lia. }
  assert (T : {reply s = [] /\ outward s <> []} + {reply s = [] -> outward s = []}).
  { destruct (reply s); [|right; congruence]. destruct (outward s); [right; auto|left; split; [reflexivity|discriminate]]. }
  destruct T as [[T1 T2]|T].
  { left. exists (Take 1). cbn [step]. rewrite T1. destruct todo as [|x todo].
    { exfalso. pose proof (i_out _ _ _ I) as O. cbn in O. destruct (part s); [|discriminate]. cbn in O. destruct (outward s); [congruence|discriminate]. }
    destruct (head_prefix _ _ _ _ I) as (r & E & Hr & O & Hf). pose proof (wanted_prefix _ _ _ Hf E Hr) as W. destruct (outward s) as [|y ys]; [congruence|]. cbn [length].
    destruct ((0 <? 1) && (1 <=? S (length ys)) && (1 <=? wanted (part s)))%bool eqn:C; [|exfalso; lia]. cbn zeta. destruct (whole _); eauto. }
  assert (G : {towrite s = [] /\ returned w32 (request_bytes xs) (got s) = None /\ inward s <> []} + {towrite s = [] -> returned w32 (request_bytes xs) (got s) = None -> inward s = []}).
  { destruct (towrite s); [|right; discriminate]. destruct (returned _ _ _); [right; discriminate|]. destruct (inward s); [right; auto|left; repeat split; discriminate]. }
  destruct G as [(G1 & G2 & G3)|G].
  { left. exists (Get 1). cbn [step]. rewrite G1, G2. destruct (inward s); [congruence|]. cbn [length]. destruct (_ && _)%bool eqn:C; [eauto|exfalso; lia]. }
  right. split; [|auto]. intros a. destruct a as [n|n|n|n]; cbn [step].
  - destruct (_ && _)%bool eqn:C; [|reflexivity]. exfalso. destruct P as [P|P]; [rewrite P in C; cbn [length] in C; lia|lia].
  - destruct (reply s) eqn:Er; [|reflexivity]. rewrite (T eq_refl). destruct (_ && _)%bool eqn:C; [|reflexivity]. exfalso. cbn [length] in C. lia.
  - destruct (_ && _)%bool eqn:C; [|reflexivity]. exfalso. destruct (reply s) eqn:Er; [cbn [length] in C; lia|]. specialize (R ltac:(discriminate)). lia.
  - destruct (towrite s); [|reflexivity]. destruct (returned _ _ _) eqn:E; [reflexivity|]. rewrite (G eq_refl eq_refl). destruct (_ && _)%bool eqn:C; [|reflexivity]. exfalso. cbn [length] in C. lia.
Qed.

Definition sent_and_answered (s : state) : Prop := towrite s = [] /\ returned w32 (request_bytes xs) (got s) = Some (map seen_as xs, None).

Lemma stuck_or_returned : forall finished todo s, 1 <= out_room -> 1 <= in_room -> ~ jams out_room in_room xs -> inv finished todo s -> sent_and_answered s \/ exists a s', next a s = Some s'.
Proof.
  intros finished todo s Ho Hi Hj I. destruct (cases _ _ _ I) as [A|(_ & A & B & C & D)]; [right; exact A|]. left.
  destruct (towrite s) as [|y ys] eqn:Et.
  - destruct (returned w32 (request_bytes xs) (got s)) as [r|] eqn:Er.
    + split; [exact Et|]. rewrite Er. f_equal. eapply (returned_some w32 xs (got s)); [exact xs_ok|exact xs_on| |exact Er]. rewrite (i_split _ _ _ I). unfold replies_bytes. rewrite map_app, concat_app.
      fold (replies_bytes finished). rewrite (i_in _ _ _ I), <- app_assoc. reflexivity.
    + specialize (D eq_refl eq_refl). destruct (reply s) as [|z zs] eqn:Ep; [|specialize (B ltac:(discriminate)); rewrite D in B; cbn in B; lia]. specialize (C eq_refl).
      destruct todo as [|x todo].
      * pose proof (i_split _ _ _ I) as S1. rewrite app_nil_r in S1. pose proof (i_in _ _ _ I) as S2. rewrite D, Ep in S2. cbn [app] in S2. rewrite app_nil_r in S2. rewrite <- S1 in S2. rewrite <- S2 in Er.
        rewrite (returned_all w32 xs xs_ok xs_on) in Er. discriminate.
      * exfalso. destruct (head_prefix _ _ _ _ I) as (r & E & Hr & O & Hf). rewrite C, Et in O. apply app_eq_nil in O. destruct O. contradiction.
  - exfalso. destruct A as [A|A]; [discriminate|]. destruct (reply s) as [|z zs] eqn:Ep; [rewrite (C eq_refl) in A; cbn in A; lia|]. specialize (B ltac:(discriminate)).
    pose proof (i_writing _ _ _ I) as G. rewrite Et in G. specialize (G ltac:(discriminate)). pose proof (i_in _ _ _ I) as S2. rewrite G, Ep in S2. cbn [app] in S2.
    pose proof (i_replying _ _ _ I) as P. rewrite Ep in P. specialize (P ltac:(discriminate)). pose proof (i_out _ _ _ I) as O. rewrite P, Et in O. cbn [app] in O.
    apply Hj. destruct (exists_last (l := finished)) as (before & x & Hl); [intros ->; cbn in S2; destruct (inward s); discriminate|].
    exists before, x, todo. split; [rewrite (i_split _ _ _ I), Hl, <- app_assoc; reflexivity|]. rewrite <- Hl, S2, O. rewrite !app_length. cbn [length]. lia.
Qed.

Lemma no_jam_ends : forall finished todo s, 1 <= out_room -> 1 <= in_room -> ~ jams out_room in_room xs -> inv finished todo s -> inevitably next sent_and_answered s.
Proof.
  intros finished todo s Ho Hi Hj. remember (work todo s) as k eqn:Ek. revert finished todo s Ek. induction k as [k IH] using (well_founded_induction lt_wf). intros finished todo s -> I.
  destruct (stuck_or_returned _ _ _ Ho Hi Hj I) as [A|A]; [apply In_now; exact A|]. apply In_later; [exact A|]. intros a s' H. destruct (inv_step _ _ _ _ _ I H) as (f' & t' & I' & L & _).
  exact (IH _ L f' t' s' eq_refl I').
Qed.

(* ---- a unit that jams ---- *)

Definition jammed (before : list exchange) (finished : list exchange) (s : state) : Prop :=
  got s = [] /\ towrite s <> [] /\ length finished <= S (length before) /\ (length finished = S (length before) -> part s = []).

Section Jam.
Variables (before : list exchange) (x : exchange) (after : list exchange).
Hypothesis xs_is : xs = before ++ x :: after.
Hypothesis replies_many : in_room < length (replies_bytes (before ++ [x])).
Hypothesis requests_many : out_room < length (request_bytes after).

Lemma same_length_prefix : forall (a b c d : list exchange), a ++ b = c ++ d -> length a = length c -> a = c /\ b = d.
Proof. induction a as [|y a IH]; intros b [|z c] d H L; try discriminate; [auto|]. cbn in *. injection H as -> H. destruct (IH b c d H ltac:(lia)) as [-> ->]. auto. Qed.

Lemma still_writing : forall finished todo s, inv finished todo s -> length finished <= S (length before) -> (length finished = S (length before) -> part s = []) -> towrite s <> [].
Proof.
  intros finished todo s I L P Hw. pose proof (i_out _ _ _ I) as O. rewrite Hw, app_nil_r in O. pose proof (i_outward _ _ _ I) as Lo. pose proof (i_split _ _ _ I) as S1. rewrite xs_is in S1.
  destruct (Nat.eq_dec (length finished) (S (length before))) as [E|E].
  - rewrite (P E) in O. cbn [app] in O. assert (T : todo = after).
    { change (before ++ x :: after) with (before ++ [x] ++ after) in S1. rewrite app_assoc in S1. destruct (same_length_prefix _ _ _ _ S1) as [_ X]; [rewrite app_length; cbn; lia|]. congruence. }
    subst todo. rewrite O in requests_many. lia.
  - (* x is still to be read *)
    destruct todo as [|y todo]; [apply (f_equal (@length exchange)) in S1; rewrite app_nil_r, app_length in S1; cbn in S1; lia|].
    assert (T : exists pre, y :: todo = pre ++ x :: after).
    { exists (skipn (length finished) before). apply (f_equal (skipn (length finished))) in S1. rewrite !skipn_app in S1. rewrite Nat.sub_diag, skipn_all in S1. cbn [app skipn] in S1.
      replace (length finished - length before) with 0 in S1 by lia. cbn [skipn] in S1. symmetry. exact S1. }
    destruct T as (pre & T). assert (T2 : exists pre', todo = pre' ++ after) by (destruct pre as [|z pre]; injection T as -> ->; [exists []; reflexivity|exists (pre ++ [x]); rewrite <- app_assoc; reflexivity]).
    destruct T2 as (pre' & ->). destruct (head_prefix _ _ _ _ I) as (r & E2 & Hr & O2 & Hf). rewrite Hw, app_nil_r in O2. apply (f_equal (@length N)) in O2. unfold request_bytes in *. rewrite map_app, concat_app, !app_length in O2.
    lia.
Qed.

Lemma jammed_step : forall finished todo s a s', inv finished todo s -> jammed before finished s -> next a s = Some s' ->
  exists finished' todo', inv finished' todo' s' /\ jammed before finished' s' /\ work todo' s' < work todo s.
Proof.
  intros finished todo s a s' I (J1 & J2 & J3 & J4) H. destruct (inv_step _ _ _ _ _ I H) as (f' & t' & I' & L & M). exists f', t'. split; [exact I'|]. split; [|exact L].
  assert (K : length f' <= S (length before) /\ (length f' = S (length before) -> part s' = [])).
  { (* once x has been answered the server does not read on *)
    assert (NT : forall n, a = Take n -> length finished <> S (length before)).
    { intros n -> E. cbn [step] in H. destruct (reply s) eqn:Er; [|discriminate]. pose proof (i_in _ _ _ I) as S2. rewrite J1, Er, app_nil_r in S2. cbn [app] in S2. pose proof (i_inward _ _ _ I).
      assert (F : finished = before ++ [x]).
      { pose proof (i_split _ _ _ I) as S1. rewrite xs_is in S1. change (before ++ x :: after) with (before ++ [x] ++ after) in S1. rewrite app_assoc in S1. destruct (same_length_prefix _ _ _ _ S1) as [X _]; [rewrite app_length; cbn; lia|congruence]. }
      rewrite F in S2. rewrite S2 in replies_many. lia. }
    destruct M as [[-> ->]|(y & n & Ha & -> & _ & Hp)].
    - split; [exact J3|]. intros E. specialize (J4 E). destruct a as [n|n|n|n]; cbn [step] in H.
      + destruct (_ && _)%bool in H; [|discriminate]. injection H as <-. exact J4.
      + destruct (NT n eq_refl E).
      + destruct (_ && _)%bool in H; [|discriminate]. injection H as <-. exact J4.
      + destruct (towrite s); [congruence|discriminate].
    - specialize (NT n Ha). rewrite app_length. cbn [length]. split; [lia|auto]. }
  destruct K as [K1 K2]. pose proof (still_writing _ _ _ I' K1 K2) as W. split; [|auto]. exact (i_writing _ _ _ I' W).
Qed.

Lemma jammed_start : jammed before [] (start (request_bytes xs)).
Proof. pose proof (still_writing [] xs _ inv_start) as W. specialize (W ltac:(cbn; lia) ltac:(cbn; lia)). split; [reflexivity|]. split; [exact W|]. cbn. split; [lia|lia]. Qed.

Lemma jam_stuck : forall finished todo s, inv finished todo s -> jammed before finished s -> inevitably next (fun s => stuck next s /\ towrite s <> [] /\ got s = []) s.
Proof.
  intros finished todo s. remember (work todo s) as k eqn:Ek. revert finished todo s Ek. induction k as [k IH] using (well_founded_induction lt_wf). intros finished todo s -> I J.
  destruct (cases _ _ _ I) as [A|(A & _)]; [|apply In_now; split; [exact A|split; apply J]]. apply In_later; [exact A|]. intros a s' H.
  destruct (jammed_step _ _ _ _ _ I J H) as (f' & t' & I' & J' & L). exact (IH _ L f' t' s' eq_refl I' J').
Qed.

Lemma jam_reached : forall finished todo s s', inv finished todo s -> jammed before finished s -> reaches next s s' -> towrite s' <> [] /\ got s' = [].
Proof.
  intros finished todo s s' I J R. revert finished todo I J. induction R as [s|s a s1 s2 H R IH]; intros finished todo I J; [split; apply J|].
  destruct (jammed_step _ _ _ _ _ I J H) as (f' & t' & I' & J' & _). exact (IH _ _ I' J').
Qed.
End Jam.
End Network.
