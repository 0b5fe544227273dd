(* C99: calls return by the deadline of their context, whatever the server does. *)
From Coq Require Import String List NArith ZArith Arith Bool Lia ZifyN ZifyNat ZifyBool.
From Coq Require Import List.
From Verif Require Import Base GoSlice SpecWire SpecMsg SpecProg SpecUnit MsgModel Conn AuthModel Connector SpecReply Timed SpecTime TimedProofs TimedRefine TimedSum.
From Verif Require ReplyProofs ThmBuilder.
Import ListNotations.
Open Scope N_scope.
Open Scope list_scope.

Lemma ends_in_over : forall A D s (x : outcome A), ends_in D s x -> x <> More /\ over_by (N.max (now s) D) x.
Proof. intros A D s [a s1|s1| |]; cbn; try contradiction; intros [H _]; (split; [discriminate|lia]). Qed.

Definition steps (D : N) (s : tconn) : nat := N.to_nat (mu D s + 3).
Lemma steps_enough : forall D s, enough D s (steps D s).
Proof. intros. unfold enough, steps. lia. Qed.

(* C99: a Send whose context has the deadline D is over by D, however long the server takes, whatever it sends and even if it never stops sending,
   and whatever deadline an earlier Send left behind. *)
Theorem C99_send_is_over_by_the_deadline : forall w32 w D cancelled b s,
  exists x, becomes (fun k => t_send w32 w k (mkctx (Some D) cancelled) b s) x /\ over_by (N.max (now s) D) x.
Proof.
  intros w32 w D c b s. destruct (ends_in_over _ _ _ _ (t_send_ends w32 w (steps D s) D c b s (steps_enough D s))) as [A B].
  eexists. split; [|exact B]. apply (stable_becomes _ (fun k => t_send w32 w k (mkctx (Some D) c) b s)); [apply t_send_stable|exact A].
Qed.
Print Assumptions C99_send_is_over_by_the_deadline.

Lemma responses_return : forall w32 w fs l k D rs s, Forall (fun f => 1 + nlen (snd f) < 2 ^ 32) fs -> (length (concat (map frame fs)) <= l)%nat -> due s = Some D -> enough D s k ->
  exists a s', t_read_responses w32 w l k (concat (map frame fs)) rs s = Back a s' /\ moved D s s'.
Proof.
  intros w32 w fs. induction fs as [|f fs IH]; intros l k D rs s Hf Hl Hd Hk; cbn [map concat] in *.
  - destruct l; (eexists; eexists; split; [reflexivity|apply moved_refl]).
  - inversion Hf as [|? ? F1 F2]; subst. destruct (ReplyProofs.frame_head f (concat (map frame fs)) F1) as (A & B & C & _ & D5 & E5).
    destruct (frame f ++ concat (map frame fs)) as [|x xs] eqn:Ef; [discriminate|]. destruct l as [|l]; [cbn in Hl; lia|]. cbn [t_read_responses]. rewrite C.
    destruct (t_read_ends w32 w k D (fst f) s Hd Hk) as (a & s1 & -> & M). cbn [tbind]. destruct (snd a); [eexists; eexists; split; [reflexivity|exact M]|]. rewrite A, E5.
    destruct (IH l k D (rs ++ [fst a]) s1 F2) as (a2 & s2 & -> & M2).
    + unfold nlen in D5. lia.
    + destruct M. congruence.
    + exact (enough_moved _ _ _ _ M Hk).
    + eexists; eexists; split; [reflexivity|]. eapply moved_trans; eassumption.
Qed.

(* C99: a Send of whole messages returns by then; it does not panic. *)
Theorem C99_send_returns_by_the_deadline : forall w32 w D cancelled fs s, Forall (fun f => 1 + nlen (snd f) < 2 ^ 32) fs ->
  exists x, becomes (fun k => t_send w32 w k (mkctx (Some D) cancelled) (concat (map frame fs)) s) x /\ returned_by (N.max (now s) D) x.
Proof.
  intros w32 w D c fs s Hf. destruct (ends_in_over _ _ _ _ (t_send_ends w32 w (steps D s) D c (concat (map frame fs)) s (steps_enough D s))) as [A B].
  eexists. split; [apply (stable_becomes _ (fun k => t_send w32 w k (mkctx (Some D) c) (concat (map frame fs)) s)); [apply t_send_stable|exact A]|].
  cbv beta. clear A. revert B. unfold t_send. cbn [ctx_deadline]. destruct (set_deadline_ends w D s) as (x & s1 & -> & N1 & B1 & D1). destruct x as [e|]; [trivial|]. specialize (D1 eq_refl).
  destruct (t_write_ends w D (concat (map frame fs)) s1 D1) as (x & s2 & -> & M & _). cbn [tbind]. destruct x as [e|]; [trivial|].
  destruct (responses_return w32 w fs (length (concat (map frame fs))) (steps D s) D [] s2 Hf (le_n _)) as (a & s3 & -> & _); [destruct M; congruence| |trivial].
  apply (enough_moved _ _ _ _ M). pose proof (steps_enough D s) as S. unfold enough in *. rewrite (mu_same D s s1 N1 B1). exact S.
Qed.
Print Assumptions C99_send_returns_by_the_deadline.

(* C99: the same for connecting, with the TLS handshake and both attempts to authenticate; if it fails, closing the connection comes on top. *)
Theorem C99_new_is_over_by_the_deadline : forall (E : Env) w D cancelled cfg t,
  exists x, becomes (fun k => t_new w k (mkctx (Some D) cancelled) cfg t) x /\ over_by (N.max t D + closings w) x /\ (forall s, x = Back None s -> now s <= N.max t D).
Proof.
  intros E w D c cfg t. destruct (t_new_ends w D c cfg t) as (k0 & H). specialize (H k0 (le_n _)). destruct H as [A B].
  exists (t_new w k0 (mkctx (Some D) c) cfg t). split; [|split].
  - apply (stable_becomes _ (fun k => t_new w k (mkctx (Some D) c) cfg t)); [apply t_new_stable|]. intros X. rewrite X in A. exact A.
  - destruct (t_new w k0 (mkctx (Some D) c) cfg t); exact A.
  - intros s Hs. apply (B s Hs).
Qed.
Print Assumptions C99_new_is_over_by_the_deadline.

(* C99: and for Send of the pool, whether it finds an idle connection, which may have any deadline, or dials. *)
Theorem C99_pool_send_is_over_by_the_deadline : forall (E : Env) w D cancelled cfg f room b t,
  exists x, becomes (fun k => t_pool_send w k (mkctx (Some D) cancelled) cfg f room b t) x /\ over_by (N.max t D + closings w) x.
Proof.
  intros E w D c cfg f room b t.
  assert (U : forall k s, enough D s k -> now s <= N.max t D -> match t_use w k (mkctx (Some D) c) room b s with Back _ s' | Panicked s' => now s' <= N.max t D + closings w | Waits | More => False end).
  { intros k s Hk Hn. unfold t_use. pose proof (t_send_ends word32 w k D c b s Hk) as A. destruct (t_send _ _ _ _ _ _) as [r s1|s1| |]; cbn [tbind ends_in] in *; try contradiction; [|lia].
    destruct (snd r); [cbn [t_close now]; lia|]. destruct room; cbn [t_close now]; lia. }
  assert (J : forall k, (match t_pool_send w k (mkctx (Some D) c) cfg f room b t with Back _ s' | Panicked s' => now s' <= N.max t D + closings w | Waits | More => False end) ->
    exists x, becomes (fun k => t_pool_send w k (mkctx (Some D) c) cfg f room b t) x /\ over_by (N.max t D + closings w) x).
  { intros k A. exists (t_pool_send w k (mkctx (Some D) c) cfg f room b t). split.
    - apply (stable_becomes _ (fun k => t_pool_send w k (mkctx (Some D) c) cfg f room b t)); [apply t_pool_send_stable|]. intros X. rewrite X in A. exact A.
    - destruct (t_pool_send w k (mkctx (Some D) c) cfg f room b t); exact A. }
  destruct f as [s| | |].
  - set (s1 := mkt (tkind s) t (due s) (buffered s) (kept s) (nreads s) (nwrites s) (nsets s) (got_so_far s) (broke s) (tlog s)). apply (J (steps D s1)). cbn [t_pool_send]. fold s1.
    apply U; [apply steps_enough|cbn [s1 now]; lia].
  - apply (J 0%nat). cbn [t_pool_send new_tconn now]. lia.
  - apply (J 0%nat). cbn [t_pool_send new_tconn now]. lia.
  - destruct (t_new_ends w D c cfg t) as (k0 & H). set (k := (k0 + N.to_nat ((D - t) * 4097 + 3))%nat). destruct (H k ltac:(lia)) as [A B]. apply (J k). cbn [t_pool_send].
    destruct (t_new w k (mkctx (Some D) c) cfg t) as [r s1|s1| |]; cbn [tbind]; try exact A. destruct r as [e|]; [exact A|]. destruct (B s1 eq_refl) as [B1 B2]. apply U; [|exact B1].
    unfold enough, k. lia.
Qed.
Print Assumptions C99_pool_send_is_over_by_the_deadline.

(* ---- what the calls return ---- *)

(* C99: what Send returns in time is what it returns (in Conn, about which the other properties are) on a connection that has
   - the bytes that were buffered, those that arrived until it returned and, if no Read failed, any others,
   - after them the error of the Read that failed, if one did: a timeout, say,
   and it does the same things to it. So the other properties of Send hold on a network that takes time. *)
Theorem C99_send_is_that_of_the_other_properties : forall w32 w k ctx b s r s', t_send w32 w k ctx b s = Back r s' -> broke s = None -> kept s = None ->
  exists arrived ds ws evs, got_so_far s' = got_so_far s ++ arrived /\ tlog s' = evs ++ tlog s /\
  forall c rest ds' ws', ckind c = tkind s -> unread c = buffered s ++ arrived ++ rest -> (forall e, broke s' = Some e -> rest = [] /\ ended (rd c) = e) ->
    deadlines c = ds ++ ds' -> writes c = ws ++ ws' ->
  exists c', conn_send w32 (ctx_deadline ctx) b c = Ok (r, c') /\ unread c' = buffered s' ++ rest /\ log c' = evs ++ log c.
Proof.
  intros w32 w k ctx b s r s' H Hb Hk. destruct (plays_send _ _ _ _ _ _ _ _ H Hb Hk) as [(n & ds & ws & ev & F1 & F2 & F3 & F4 & F5) _]. exists n, ds, ws, ev. split; [exact F1|]. split; [exact F2|].
  intros c rest ds' ws' H1 H2 H3 H4 H5. destruct (F5 c rest ds' ws' H1 H2 H3 H4 H5) as (c' & K1 & _ & K3 & _ & _ & _ & K7). exists c'. auto.
Qed.
Print Assumptions C99_send_is_that_of_the_other_properties.

(* C99: a connection whose Send returned no error can be used again in the same way. *)
Theorem C99_connection_can_be_used_again : forall w32 w k ctx b s rs s', t_send w32 w k ctx b s = Back (rs, None) s' -> broke s = None -> kept s = None -> broke s' = None /\ kept s' = None.
Proof.
  intros w32 w k ctx b s rs s' H Hb Hk. destruct (plays_send _ _ _ _ _ _ _ _ H Hb Hk) as [(n & ds & ws & ev & F1 & F2 & F3 & F4 & F5) B]. split; [|exact F4]. apply B. cbn. tauto.
Qed.
Print Assumptions C99_connection_can_be_used_again.

(* C99: what New returns in time is what Connector returns for some dialled connection and some handshake. *)
Theorem C99_new_is_that_of_the_other_properties : forall (E : Env) w k ctx cfg t r s', t_new w k ctx cfg t = Back r s' ->
  exists dial handshake o, connector_new (ctx_deadline ctx) cfg dial handshake = Ok (r, o) /\
  match o with
  | None => dial = None /\ r = Some NDial
  | Some c => ckind c = tkind s' /\ log c = tlog s' /\ (r <> Some NHandshake -> unread c = buffered s')
  end.
Proof. intros E w k ctx cfg t r s'. apply t_new_same. Qed.
Print Assumptions C99_new_is_that_of_the_other_properties.

(* C99: what the pool's Send returns in time is what Send of an idle connection returns, or New and then Send, or their errors; and the connection is
   closed at the end if its Send failed or there is no room for it, and otherwise not. *)
Definition closed_after {A} (e : option A) (room : bool) (k : kind) : list event := match e, room with None, true => [] | _, _ => [Close k] end.
Theorem C99_pool_send_is_that_of_the_other_properties : forall (E : Env) w k ctx cfg f room b t rs e s', t_pool_send w k ctx cfg f room b t = Back (rs, e) s' ->
  match f with
  | NoPool => rs = [] /\ e = Some PClosed
  | CtxDone => rs = [] /\ e = Some PContext
  | NothingIdle =>
      (exists dial handshake ne o, connector_new (ctx_deadline ctx) cfg dial handshake = Ok (Some ne, o) /\ rs = [] /\ e = Some (PNew ne) /\ forall c, o = Some c -> log c = tlog s')
      \/ (exists dial handshake c ce c', connector_new (ctx_deadline ctx) cfg dial handshake = Ok (None, Some c) /\ conn_send word32 (ctx_deadline ctx) b c = Ok ((rs, ce), c') /\
          e = option_map PConn ce /\ tlog s' = closed_after ce room (tkind s') ++ log c')
  | Idle s => broke s = None -> kept s = None ->
      exists arrived ds ws evs ce, got_so_far s' = got_so_far s ++ arrived /\ e = option_map PConn ce /\ tlog s' = closed_after ce room (tkind s) ++ evs ++ tlog s /\
      forall c rest ds' ws', ckind c = tkind s -> unread c = buffered s ++ arrived ++ rest -> (forall x, broke s' = Some x -> rest = [] /\ ended (rd c) = x) ->
        deadlines c = ds ++ ds' -> writes c = ws ++ ws' ->
      exists c', conn_send word32 (ctx_deadline ctx) b c = Ok ((rs, ce), c') /\ unread c' = buffered s' ++ rest /\ log c' = evs ++ log c
  end.
Proof.
  intros E w k ctx cfg f room b t rs e s' H.
  assert (U : forall s, t_use w k ctx room b s = Back (rs, e) s' -> exists ce s1, t_send word32 w k ctx b s = Back (rs, ce) s1 /\ e = option_map PConn ce /\ tlog s' = closed_after ce room (tkind s1) ++ tlog s1 /\
    tkind s' = tkind s1 /\ got_so_far s' = got_so_far s1 /\ broke s' = broke s1 /\ buffered s' = buffered s1).
  { intros s Hs. unfold t_use in Hs. destruct (t_send _ _ _ _ _ _) as [[rs1 ce] s1| | |]; try discriminate. cbn [tbind fst snd] in Hs. exists ce, s1. destruct ce as [ce|].
    - injection Hs as <- <- <-. repeat split.
    - injection Hs as <- <- <-. destruct room; repeat split. }
  destruct f as [s| | |]; cbn [t_pool_send] in H.
  - intros Hb Hk. destruct (U _ H) as (ce & s1 & T1 & T2 & T3 & T4 & T5 & T6 & T7). destruct (plays_send _ _ _ _ _ _ _ _ T1 Hb Hk) as [(n & ds & ws & ev & F1 & F2 & F3 & F4 & F5) _]. cbn [tkind got_so_far tlog buffered] in *.
    exists n, ds, ws, ev, ce. split; [congruence|]. split; [exact T2|]. split; [rewrite T3, F2, F3; reflexivity|]. intros c rest ds' ws' H1 H2 H3 H4 H5. rewrite T6 in H3.
    destruct (F5 c rest ds' ws' H1 H2 H3 H4 H5) as (c' & K1 & _ & K3 & _ & _ & _ & K7). exists c'. rewrite T7. auto.
  - injection H as <- <- <-. auto.
  - injection H as <- <- <-. auto.
  - destruct (t_new w k ctx cfg t) as [r s1| | |] eqn:E1; try discriminate. cbn [tbind] in H. destruct r as [ne|].
    + left. injection H as <- <- <-. destruct (t_new_same _ _ _ _ _ _ _ E1) as (dial & hs & o & A & B). exists dial, hs, ne, o. split; [exact A|]. split; [reflexivity|]. split; [reflexivity|].
      intros c ->. apply B.
    + right. destruct (t_new_then _ _ _ _ _ _ E1) as (B1 & K1 & G). destruct (U _ H) as (ce & s2 & T1 & T2 & T3 & T4 & T5 & T6 & T7). destruct (plays_send _ _ _ _ _ _ _ _ T1 B1 K1) as [P _].
      destruct (G _ _ _ _ P) as (dial & hs & c & c' & V1 & V2 & V3 & V4). exists dial, hs, c, ce, c'. split; [exact V1|]. split; [exact V2|]. split; [exact T2|]. rewrite T3, T4, V3. reflexivity.
Qed.
Print Assumptions C99_pool_send_is_that_of_the_other_properties.

(* ---- how long it takes ---- *)

(* C99: a Send that succeeds takes exactly as long as its one Write and its Reads: the client does not wait, retry or write again. *)
Theorem C99_send_takes_as_long_as_the_network : forall w32 w k ctx b s rs s', t_send w32 w k ctx b s = Back (rs, None) s' -> broke s = None -> kept s = None ->
  exists r, nreads s' = (nreads s + r)%nat /\ nwrites s' = S (nwrites s) /\
  now s' = now s + took (fun i => fst (writings w i)) (nwrites s) 1 + took (fun i => fst (reads w i)) (nreads s) r.
Proof.
  intros w32 w k ctx b s rs s' H Hb Hk. apply (send_takes _ _ _ _ _ _ _ _ H). exact (proj1 (C99_connection_can_be_used_again _ _ _ _ _ _ _ _ H Hb Hk)).
Qed.
Print Assumptions C99_send_takes_as_long_as_the_network.

(* C99: a context whose deadline has passed: Send fails at once, and nothing is written. *)
Theorem C99_expired_context_fails_at_once : forall w32 w D cancelled b s, D <= now s ->
  exists e s', becomes (fun k => t_send w32 w k (mkctx (Some D) cancelled) b s) (Back ([], Some e) s') /\ now s' = now s /\
    (e = CWrite io_timeout \/ exists x, e = CDeadline x) /\
    (forall k b x, In (Write k b x) (tlog s') -> In (Write k b x) (tlog s) \/ x = Some io_timeout).
Proof.
  intros w32 w D c b s L.
  assert (X : exists e s', (forall k, t_send w32 w k (mkctx (Some D) c) b s = Back ([], Some e) s') /\ now s' = now s /\ (e = CWrite io_timeout \/ exists x, e = CDeadline x) /\
    (forall k b x, In (Write k b x) (tlog s') -> In (Write k b x) (tlog s) \/ x = Some io_timeout)).
  { unfold t_send, t_set_deadline. cbn [ctx_deadline]. destruct (settings w (nsets s)) as [x|].
    - eexists; eexists; split; [reflexivity|]. cbn [now tlog]. split; [reflexivity|]. split; [eauto|]. intros k b1 x1 [H|H]; [discriminate|auto].
    - unfold t_write. cbn [nwrites due now]. destruct (writings w (nwrites s)) as [t y].
      assert (En : ends t (Some D) (now s) = Some (false, now s)) by (destruct t as [t|]; cbn [ends]; [destruct (N.ltb_spec (now s + 1 + t) D); [lia|]|]; do 2 f_equal; lia).
      rewrite En. cbn [tbind]. eexists; eexists; split; [reflexivity|]. cbn [now tlog]. split; [reflexivity|]. split; [auto|].
      intros k b1 x1 [H|[H|H]]; [injection H as <- <- <-; auto|discriminate|auto]. }
  destruct X as (e & s' & X1 & X2). exists e, s'. split; [|exact X2]. split; [discriminate|]. exists 0%nat. intros k _. apply X1.
Qed.
Print Assumptions C99_expired_context_fails_at_once.

(* C99: no call is over before it was made (a check of the model's clock). *)
Theorem C99_time_moves_on : forall (E : Env) w k ctx cfg f room b t s,
  (forall w32 s', (exists a, t_send w32 w k ctx b s = Back a s') \/ t_send w32 w k ctx b s = Panicked s' -> now s <= now s') /\
  (forall s', (exists a, t_new w k ctx cfg t = Back a s') \/ t_new w k ctx cfg t = Panicked s' -> t <= now s') /\
  (forall s', (exists a, t_pool_send w k ctx cfg f room b t = Back a s') \/ t_pool_send w k ctx cfg f room b t = Panicked s' -> t <= now s').
Proof.
  intros E w k ctx cfg f room b t s. split; [|split].
  - intros w32 s' H. pose proof (later_send w32 w (now s) k ctx b s (N.le_refl _)) as L. destruct H as [(a & H)|H]; rewrite H in L; exact L.
  - intros s' H. pose proof (later_new w k ctx cfg t) as L. destruct H as [(a & H)|H]; rewrite H in L; exact L.
  - intros s' H. pose proof (later_pool_send w k ctx cfg f room b t) as L. destruct H as [(a & H)|H]; rewrite H in L; exact L.
Qed.
Print Assumptions C99_time_moves_on.

(* ---- without a deadline ---- *)

(* A server that takes everything at once and never answers. *)
Definition silent : world := mkworld (fun _ => (None, inr IoEOF)) (fun _ => (Some 0, None)) (fun _ => None) 0 (Some 0, Some Unix) (Some 0, true).

(* C99: cancelling the context does not end a Send: it waits for ever for a server that does not answer, though its context was
   cancelled at any time, even before. *)
Theorem C99_cancelling_does_not_end_send_refuted : forall w32 cancelled b s, (5 <= length b)%nat -> buffered s = [] -> kept s = None ->
  becomes (fun k => t_send w32 silent k (mkctx None cancelled) b s) Waits.
Proof.
  intros w32 c b s Hb H1 H2. split; [discriminate|]. exists 1%nat. intros k Hk. destruct k as [|k]; [lia|]. unfold t_send, t_set_deadline. cbn [ctx_deadline silent settings].
  unfold t_write. cbn [silent writings nwrites due now ends tbind]. destruct b as [|b0 b]; [cbn in Hb; lia|]. cbn [length t_read_responses].
  destruct (nth_error (b0 :: b) 4) as [ct|] eqn:En; [|apply nth_error_None in En; lia].
  unfold t_read. cbn [t_read_k]. unfold t_message, t_peek. cbn [t_fill kept buffered]. rewrite H1, H2. reflexivity.
Qed.
Print Assumptions C99_cancelling_does_not_end_send_refuted.

(* C99: with a deadline, cancelling earlier does not make it return earlier either. *)
Theorem C99_cancelling_is_ignored_until_the_deadline_refuted : forall w32 cancelled b s D, (5 <= length b)%nat -> buffered s = [] -> kept s = None -> now s + 1 < D ->
  exists s', becomes (fun k => t_send w32 silent k (mkctx (Some D) cancelled) b s) (Back ([None], Some (CRead io_timeout)) s') /\ now s' = D.
Proof.
  intros w32 c b s D Hb H1 H2 Ht. destruct b as [|b0 b]; [cbn in Hb; lia|]. destruct (nth_error (b0 :: b) 4) as [ct|] eqn:En; [|apply nth_error_None in En; lia].
  assert (X : exists s', t_send w32 silent 1 (mkctx (Some D) c) (b0 :: b) s = Back ([None], Some (CRead io_timeout)) s' /\ now s' = D).
  { unfold t_send, t_set_deadline. cbn [ctx_deadline silent settings]. unfold t_write. cbn [silent writings nwrites due now ends]. rewrite N.add_0_r. destruct (N.ltb_spec (now s + 1) D) as [_|?]; [|lia].
    cbn [tbind length t_read_responses]. rewrite En. unfold t_read. cbn [t_read_k]. unfold t_message, t_peek. cbn [t_fill kept buffered]. rewrite H1, H2. eexists. split; [reflexivity|]. change (N.max (now s + 1) D = D). lia. }
  destruct X as (s' & X & Y). exists s'. split; [|exact Y]. rewrite <- X. apply (stable_becomes _ (fun k => t_send w32 silent k (mkctx (Some D) c) (b0 :: b) s)); [apply t_send_stable|rewrite X; discriminate].
Qed.
Print Assumptions C99_cancelling_is_ignored_until_the_deadline_refuted.

(* C99: nor does it end New. *)
Theorem C99_cancelling_does_not_end_new_refuted : forall (E : Env) cancelled cfg t m, start (authentication cfg) (credentials_of cfg) = Ok m -> (5 <= length m)%nat -> t + 1 < cancelled ->
  becomes (fun k => t_new silent k (mkctx None (Some cancelled)) cfg t) Waits.
Proof.
  intros E c cfg t m Hm Hl Ht. split; [discriminate|]. exists 1%nat. intros k Hk. destruct k as [|k]; [lia|]. unfold t_new. cbn [silent dialling fst snd ctx_deadline ctx_cancelled earlier ends]. rewrite N.add_0_r.
  destruct (N.ltb_spec (t + 1) c) as [_|?]; [|lia]. cbn [andb]. unfold t_authenticate_or_close, t_authenticate. rewrite Hm. unfold t_write_one, t_set_deadline. cbn [ctx_deadline settings].
  unfold t_write. cbn [silent new_tconn writings nwrites due now ends tbind]. destruct (nth_error m 4) as [ct|] eqn:En; [|apply nth_error_None in En; lia]. reflexivity.
Qed.
Print Assumptions C99_cancelling_does_not_end_new_refuted.

(* A server that sends nothing but notices, for ever. *)
Definition chatty : world := mkworld (fun _ => (Some 0, inl (1, [0; 0; 0; 11]))) (fun _ => (Some 0, None)) (fun _ => None) 0 (Some 0, Some Unix) (Some 0, true).

(* C99: without a deadline such a server keeps Send busy for ever. *)
Theorem C99_notices_without_end_refuted : forall w32 cancelled b s, (5 <= length b)%nat -> buffered s = [] -> kept s = None ->
  never_ends (fun k => t_send w32 chatty k (mkctx None cancelled) b s).
Proof.
  intros w32 c b s Hb H1 H2 k. unfold t_send, t_set_deadline. cbn [ctx_deadline chatty settings].
  unfold t_write. cbn [silent chatty writings nwrites due now ends tbind]. destruct b as [|b0 b]; [cbn in Hb; lia|]. cbn [length t_read_responses].
  destruct (nth_error (b0 :: b) 4) as [ct|] eqn:En; [|apply nth_error_None in En; lia]. rewrite H1, H2.
  assert (G : forall n i s, due s = None -> buffered s = [] -> kept s = None -> t_read_k w32 chatty n i ct s = More).
  { clear. induction n as [|n IH]; intros i s Hd Hb Hk; [reflexivity|]. cbn [t_read_k]. destruct i as [|i].
    - unfold t_message, t_peek. cbn [t_fill]. rewrite Hk, Hb. reflexivity.
    - assert (M : exists s', t_message w32 chatty (S i) s = Back (inl (11, [1; 0; 0; 0; 11], 0)) s' /\ due s' = None /\ buffered s' = [] /\ kept s' = None).
      { destruct s as [kd nw du bf kp nr nwr ns gs br tl]. cbn [due buffered kept] in Hd, Hb, Hk. subst. destruct i; destruct w32; (eexists; split; [vm_compute; reflexivity|]); repeat split. }
      destruct M as (s' & -> & M1 & M2 & M3). cbn [tbind]. change (dispatch ct 11 [1; 0; 0; 0; 11]) with (@None (response * option cerr)). apply IH; [exact M1|cbn [t_discard with_buffer buffered]; rewrite M2; reflexivity|exact M3]. }
  unfold t_read. rewrite G; reflexivity.
Qed.
Print Assumptions C99_notices_without_end_refuted.

(* ---- examples ---- *)

#[local] Existing Instance ThmBuilder.plain.

(* The same server and a deadline: Send returns at the deadline; 39 notices were read. *)
Example chatty_with_deadline : exists s', t_send false chatty 300 (mkctx (Some 50) None) (frame (1, [])) (new_tconn Unix 9) = Back ([None], Some (CRead io_timeout)) s' /\ now s' = 50 /\ length (got_so_far s') = 195%nat.
Proof. eexists. split; [vm_compute; reflexivity|]. split; reflexivity. Qed.

(* A server that answers after 7 ticks, and a deadline that an earlier Send left behind and has passed: it does not matter. *)
Definition slow : world := mkworld (fun _ => (Some 6, inl (1, [0; 0; 0; 0]))) (fun _ => (Some 0, None)) (fun _ => None) 0 (Some 0, Some Unix) (Some 0, true).
Example slow_with_deadline : exists s', t_send false slow 300 (mkctx (Some 50) None) (frame (1, [])) (mkt Unix 20 (Some 3) [] None 0 0 0 [] None []) = Back ([None], None) s' /\ now s' = 28.
Proof. eexists. split; [vm_compute; reflexivity|]. reflexivity. Qed.

(* Connecting: the server says yes to everything but never does the TLS handshake. The deadline set for the message before ends it. *)
Definition no_handshake : world := mkworld (fun _ => (Some 0, inl (1, [0; 0; 0; 0]))) (fun _ => (Some 0, None)) (fun _ => None) 2 (Some 4, Some Tcp) (None, true).
Example no_handshake_with_deadline : exists s', t_new no_handshake 300 (mkctx (Some 30) None) {| with_tls := true; authentication := AuthModel.plain; credentials_of := {| user_name := s2b "u"; password := s2b "p"; database := s2b "d" |} |} 1 =
  Back (Some NHandshake) s' /\ now s' = 32.
Proof. eexists. split; [vm_compute; reflexivity|]. reflexivity. Qed.
Example without_deadline : t_new no_handshake 300 (mkctx None (Some 30)) {| with_tls := true; authentication := AuthModel.plain; credentials_of := {| user_name := s2b "u"; password := s2b "p"; database := s2b "d" |} |} 1 = Waits.
Proof. vm_compute. reflexivity. Qed.

(* A server that accepts everything: New and the pool's Send with it. *)
Definition kind_server : world := mkworld (fun _ => (Some 3, inl (1, [0; 0; 0; 4]))) (fun _ => (Some 0, None)) (fun _ => None) 2 (Some 4, Some Unix) (None, true).
Example kind_new : exists s', t_new kind_server 300 (mkctx (Some 30) None) {| with_tls := true; authentication := AuthModel.plain; credentials_of := {| user_name := s2b "u"; password := s2b "p"; database := s2b "d" |} |} 1 =
  Back None s' /\ now s' = 11.
Proof. eexists. split; [vm_compute; reflexivity|]. reflexivity. Qed.
Example kind_pool_send : exists s', t_pool_send kind_server 300 (mkctx (Some 30) None) {| with_tls := true; authentication := AuthModel.plain; credentials_of := {| user_name := s2b "u"; password := s2b "p"; database := s2b "d" |} |}
  NothingIdle true (frame (12, []) ++ frame (12, [])) 1 = Back ([None; None], None) s' /\ now s' = 20.
Proof. eexists. split; [vm_compute; reflexivity|]. reflexivity. Qed.

(* How long it takes: one Write and two Reads, with a deadline and without. *)
Example kind_takes : exists s', t_send false kind_server 300 (mkctx None None) (frame (12, []) ++ frame (12, [])) (new_tconn Unix 9) = Back ([None; None], None) s' /\ now s' = 18 /\ nreads s' = 2%nat.
Proof. eexists. split; [vm_compute; reflexivity|]. split; reflexivity. Qed.
Example kind_expired : exists s', t_send false kind_server 300 (mkctx (Some 9) None) (frame (12, [])) (new_tconn Unix 9) = Back ([], Some (CWrite io_timeout)) s' /\ now s' = 9.
Proof. eexists. split; [vm_compute; reflexivity|]. reflexivity. Qed.
