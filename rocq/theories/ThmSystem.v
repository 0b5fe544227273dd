(* A pool whose connections talk to a server: C61, C62. Every statement is about every interleaving of
   any number of concurrent Send and Close calls, any segmentation of what the server sends, any failure
   of a deadline, a write or a read, and a server that may stop at any point of a reply. *)
From Coq Require Import String List NArith ZArith Arith Bool Lia.
From Coq Require Import List.
From Verif Require Import Base GoSlice SpecWire SpecMsg SpecValue Builder SpecProg SpecUnit Conn SpecReply System SpecSystem ReplyProofs SystemProofs.
From Verif Require Pool SpecPool PoolProofs ThmPool ThmConn ThmBuilder MsgProofs ShapeProofs.
Import ListNotations.
Open Scope list_scope.

(* ---- C61: the responses a Send returns are those to its own unit ---- *)

Theorem C61_own_responses : forall w32 n acts s said i rs e,
  run w32 acts (new_system n) = Some s -> sends said s -> Forall (serves w32 said) acts -> got s i rs e ->
  (e = None -> rs = map seen_as (said i)) /\ (e <> None -> responses_to_first (said i) rs).
Proof. intros w32 n acts s said i rs e H Hs Hv Hg. exact (i_got _ _ _ (sinv_run n said w32 acts _ s (sinv_new n said) H Hs Hv) i rs e Hg). Qed.

(* What a Send returns is what that exchange gave, and there was only one. *)
Lemma uses_in : forall h i ok, In (i, ok) (uses h) <-> exists c, In (Pool.Used i c ok) h.
Proof.
  intros h i ok. unfold uses. rewrite in_flat_map. split.
  - intros (e & He & Hi). destruct e; cbn in Hi; try contradiction. destruct Hi as [[= <- <-]|[]]. eauto.
  - intros (c & Hc). exists (Pool.Used i c ok). split; [exact Hc|left; reflexivity].
Qed.
Lemma exchanges_in : forall h i c ok, In (c, ok) (SpecPool.exchanges i h) <-> In (Pool.Used i c ok) h.
Proof.
  intros h i c ok. unfold SpecPool.exchanges. rewrite in_flat_map. split.
  - intros (e & He & Hi). destruct e; cbn in Hi; try contradiction. destruct (Nat.eqb_spec i i0) as [<-|]; [|destruct Hi]. destruct Hi as [[= <- <-]|[]]. exact He.
  - intros Hc. exists (Pool.Used i c ok). split; [exact Hc|]. rewrite Nat.eqb_refl. left. reflexivity.
Qed.

Lemma results_count : forall h i, length (filter (fun x => Nat.eqb i (fst x)) (uses h)) = length (SpecPool.exchanges i h).
Proof.
  intros h i. induction h as [|e h IH]; [reflexivity|]. cbn [uses SpecPool.exchanges flat_map]. fold (uses h). fold (SpecPool.exchanges i h).
  rewrite filter_app, !app_length, IH. destruct e; try reflexivity. cbn. destruct (Nat.eqb i i0); reflexivity.
Qed.
Lemma uses_rev : forall h i, length (filter (fun x => Nat.eqb i (fst x)) (uses (rev h))) = length (filter (fun x => Nat.eqb i (fst x)) (uses h)).
Proof.
  intros h i. induction h as [|e h IH]; [reflexivity|]. cbn [rev]. unfold uses in *. rewrite flat_map_app, filter_app, app_length, IH. cbn [flat_map]. rewrite !filter_app, !app_length. cbn [filter length]. lia.
Qed.

Theorem C61_send_returns_what_it_got : forall w32 n acts s said i o b,
  run w32 acts (new_system n) = Some s -> sends said s -> Forall (serves w32 said) acts ->
  nth_error (Pool.calls (pool s)) i = Some (Pool.Returned o, b) ->
  match o with
  | Pool.Responses => got s i (map seen_as (said i)) None
  | Pool.SendError => exists rs e, got s i rs (Some e) /\ responses_to_first (said i) rs
  | _ => forall rs e, ~ got s i rs e
  end /\
  (forall rs e rs' e', got s i rs e -> got s i rs' e' -> rs = rs' /\ e = e').
Proof.
  intros w32 n acts s said i o b H Hs Hv Hi. pose proof (sinv_run n said w32 acts _ s (sinv_new n said) H Hs Hv) as I.
  pose proof (ThmPool.C59_outcome_is_what_happened n (pool s) i o b (i_pool _ _ _ I) Hi) as O.
  assert (G : forall ok, (exists rs e, got s i rs e /\ is_none e = ok) <-> exists c, In (c, ok) (SpecPool.exchanges i (SpecPool.history (pool s)))).
  { intros ok. split.
    - intros (rs & e & Hg & He). assert (In (i, ok) (uses (Pool.log (pool s)))) as Hu by (rewrite <- (i_uses _ _ _ I); apply in_map_iff; exists (i, (rs, e)); split; [cbn; congruence|exact Hg]).
      apply uses_in in Hu. destruct Hu as (c & Hc). exists c. apply exchanges_in. unfold SpecPool.history. rewrite <- in_rev. exact Hc.
    - intros (c & Hc). apply exchanges_in, in_rev in Hc. assert (Hu : In (i, ok) (uses (Pool.log (pool s)))) by (apply uses_in; exists c; exact Hc).
      rewrite <- (i_uses _ _ _ I) in Hu. apply in_map_iff in Hu. destruct Hu as ((j & rs & e) & E & Hin). cbn in E. injection E as -> E. exists rs, e. split; [exact Hin|exact E]. }
  split.
  - assert (N : SpecPool.exchanges i (SpecPool.history (pool s)) = [] -> forall rs e, ~ got s i rs e).
    { intros E rs e Hg. destruct (proj1 (G (is_none e))) as (c & Hc); [eauto|]. rewrite E in Hc. destruct Hc. }
    destruct o; try (apply N; (exact O || exact (proj1 O))).
    + destruct O as (c & O & _). destruct (proj2 (G true)) as (rs & e & Hg & He); [exists c; rewrite O; left; reflexivity|]. destruct e; [discriminate|].
      rewrite <- (proj1 (i_got _ _ _ I i rs None Hg) eq_refl). exact Hg.
    + destruct O as (c & O & _). destruct (proj2 (G false)) as (rs & e & Hg & He); [exists c; rewrite O; left; reflexivity|]. destruct e as [e|]; [|discriminate].
      exists rs, e. split; [exact Hg|]. apply (proj2 (i_got _ _ _ I i rs _ Hg)). discriminate.
  - pose proof (ThmPool.C59_at_most_once n (pool s) i (i_pool _ _ _ I)) as L. rewrite <- results_count in L. unfold SpecPool.history in L. rewrite uses_rev in L. rewrite <- (i_uses _ _ _ I) in L.
    intros rs e rs' e' G1 G2. unfold got in *.
    assert (K : forall l : list (nat * (list response * option cerr)), (length (filter (fun x => Nat.eqb i (fst x)) (map (fun r => (fst r, is_none (snd (snd r)))) l)) <= 1)%nat ->
      In (i, (rs, e)) l -> In (i, (rs', e')) l -> (rs, e) = (rs', e')).
    { clear. intros l. induction l as [|[j r] l IH]; intros L H1 H2; [destruct H1|]. cbn [map filter fst snd] in L.
      assert (Z : forall x, In (i, x) l -> (1 <= length (filter (fun x => Nat.eqb i (fst x)) (map (fun r => (fst r, is_none (snd (snd r)))) l)))%nat).
      { intros x Hx. assert (In (i, is_none (snd x)) (filter (fun x => Nat.eqb i (fst x)) (map (fun r => (fst r, is_none (snd (snd r)))) l))) as Q.
        { apply filter_In. split; [|cbn; apply Nat.eqb_refl]. apply in_map_iff. exists (i, x). split; [reflexivity|exact Hx]. }
        destruct (filter _ _); [destruct Q|cbn; lia]. }
      destruct H1 as [H1|H1], H2 as [H2|H2].
      - congruence.
      - injection H1 as -> ->. rewrite Nat.eqb_refl in L. cbn in L. specialize (Z _ H2). lia.
      - injection H2 as -> ->. rewrite Nat.eqb_refl in L. cbn in L. specialize (Z _ H1). lia.
      - apply IH; auto. destruct (Nat.eqb i j); cbn in L; lia. }
    specialize (K _ L G1 G2). injection K as -> ->. auto.
Qed.

(* Whatever is proved of every pool holds of this one: its connections' Sends never panic. *)
Theorem C61_pool_inside : forall w32 n acts s said,
  run w32 acts (new_system n) = Some s -> sends said s -> Forall (serves w32 said) acts -> SpecPool.reachable n (pool s).
Proof. intros w32 n acts s said H Hs Hv. exact (i_pool _ _ _ (sinv_run n said w32 acts _ s (sinv_new n said) H Hs Hv)). Qed.

(* ---- C62: each server reads whole units, in order ---- *)

(* What is written on a connection, after what connector.New wrote, are the units of the Sends that used it with
   success, in that order, each in one Write; the unit of a Send that failed may follow, as the last Write. *)
Theorem C62_units_whole_and_in_order : forall w32 n acts s said k c c0,
  run w32 acts (new_system n) = Some s -> sends said s -> Forall (serves w32 said) acts ->
  nth_error (conns s) k = Some c -> nth_error (started s) k = Some c0 ->
  exists us last, attempts c = attempts c0 ++ map (fun u => (u, None)) us ++ last /\
    Forall2 (unit_is s) (users k (SpecPool.history (pool s))) us /\
    (last = [] \/ exists i b o, last = [(b, o)] /\ unit_is s i b /\ In (Pool.Used i k false) (SpecPool.history (pool s))).
Proof. intros w32 n acts s said k c c0 H Hs Hv. exact (i_writes _ _ _ (sinv_run n said w32 acts _ s (sinv_new n said) H Hs Hv) k c c0). Qed.

(* If every unit was built by a program, the server of each connection reads the messages of those programs,
   unit by unit, never mixed. *)
Theorem C62_server_reads_programs : forall (E : Env) n acts s said k c c0,
  run word32 acts (new_system n) = Some s -> sends said s -> Forall (serves word32 said) acts ->
  (forall i u, unit_is s i u -> exists b pr, empty b /\ prog_ok word32 pr /\ delivers b pr u /\ (nlen u < 2 ^ 32)%N) ->
  nth_error (conns s) k = Some c -> nth_error (started s) k = Some c0 ->
  exists us last mss, attempts c = attempts c0 ++ map (fun u => (u, None)) us ++ last /\ (length last <= 1)%nat /\
    dstream (concat us) = Some (concat mss) /\
    Forall2 (fun i ms => exists u b pr ids out, unit_is s i u /\ empty b /\ prog_ok word32 pr /\ delivers b pr u /\ prog_msgs pr ms ids out)
      (users k (SpecPool.history (pool s))) mss.
Proof.
  intros E n acts s said k c c0 H Hs Hv Hp Hk Hk0. destruct (C62_units_whole_and_in_order word32 n acts s said k c c0 H Hs Hv Hk Hk0) as (us & l & A & B & C).
  assert (M : exists mss, MsgProofs.says (concat us) (concat mss) /\
    Forall2 (fun i ms => exists u b pr ids out, unit_is s i u /\ empty b /\ prog_ok word32 pr /\ delivers b pr u /\ prog_msgs pr ms ids out) (users k (SpecPool.history (pool s))) mss).
  { clear - Hp B. induction B as [|i u is us Hu B IH]; [exists []; split; [apply MsgProofs.says_nil|constructor]|].
    destruct IH as (mss & S1 & S2). destruct (Hp i u Hu) as (b & pr & P1 & P2 & P3 & P4).
    destruct (ShapeProofs.delivers_step E b pr u P1 P2 P3 P4) as (b' & out & ms & ids & _ & _ & _ & _ & Hsay & Hpm & _).
    exists (ms :: mss). cbn [concat]. split; [apply MsgProofs.says_app; assumption|]. constructor; [|exact S2]. exists u, b, pr, ids, out. auto. }
  destruct M as (mss & M1 & M2). exists us, l, mss. split; [exact A|]. split; [destruct C as [->|(i & b & o & -> & _)]; cbn; lia|]. split; [exact (MsgProofs.says_dstream _ _ M1)|exact M2].
Qed.

(* ---- a concrete run ---- *)

(* A pool of one. Sends 0 and 1 dial at once; the server of connection 0 breaks off in the middle of a reply, and
   Send 0 fails; Send 1 gets an error and a success, in pieces of two bytes; Send 2 reuses connection 1, whose Write fails. *)
Definition dup : server_error := ThmConn.dup.
Definition unit0 : list exchange := [mkx (12, s2b "abc") (mkreply [(11, [8; 4])] (17, [])) None; mkx (18, s2b "x") (mkreply [] (0, [])) None]%N.
Definition unit1 : list exchange := [mkx (18, s2b "one") (mkreply [] (1, error_bytes dup)) (Some dup); mkx (25, []) (mkreply [(11, [])] (0, [])) None]%N.
Definition unit2 : list exchange := [mkx (19, s2b "two") (mkreply [] (17, [])) None]%N.
Definition story_said (i : nat) : list exchange := match i with O => unit0 | S O => unit1 | _ => unit2 end.
Definition story : list action :=
  [CallSend (Some 5%N) (request_bytes unit0); CallSend None (request_bytes unit1); Step (Pool.Default 0); Step (Pool.Default 1);
   Connected 1 (mkc Tls (mkr [] [] IoEOF) [] [None; Some (IoOther 32)] [Write Tcp [1] None]); Connected 0 (mkc Tcp (mkr [] [] IoEOF) [] [] []);
   Exchange 0 [firstn 16 (replies_bytes unit0)]; Exchange 1 (ThmConn.pieces 40 2 (replies_bytes unit1)); Step (Pool.Return 1); Step (Pool.CloseConn 0);
   CallSend None (request_bytes unit2); Step (Pool.Receive 2); Exchange 2 []; Step (Pool.CloseConn 2)].
Example story_runs : exists s, run false story (new_system 1) = Some s /\ sends story_said s /\
  map fst (Pool.calls (pool s)) = [Pool.Returned Pool.SendError; Pool.Returned Pool.Responses; Pool.Returned Pool.SendError] /\
  results s = [(2%nat, ([], Some (CWrite (IoOther 32)))); (1%nat, ([Some dup; None], None)); (0%nat, ([None; None], Some (CRead IoEOF)))] /\
  map attempts (conns s) = [[([1%N], None); (request_bytes unit1, None); (request_bytes unit2, Some (IoOther 32))]; [(request_bytes unit0, None)]] /\
  map (fun k => users k (SpecPool.history (pool s))) [0; 1]%nat = [[1%nat]; []].
Proof.
  eexists. split; [vm_compute; reflexivity|]. split; [|repeat split; vm_compute; reflexivity].
  intros i d b. cbn [units]. destruct i as [|[|[|i]]]; cbn [nth_error]; [intros [= _ <-]; vm_compute; reflexivity..|destruct i; discriminate].
Qed.
Example story_served : Forall (serves false story_said) story.
Proof.
  assert (P : forall k n bs, concat (ThmConn.pieces k n bs) = bs).
  { induction k as [|k IH]; intros n bs; cbn [ThmConn.pieces concat]; [apply app_nil_r|]. rewrite IH. apply firstn_skipn. }
  assert (K : forall f ns ty, (1 + nlen (snd f) < 2 ^ 32)%N -> Forall (fun x => fst x = 11%N /\ (1 + nlen (snd x) < 2 ^ 32)%N) ns -> In ty [0; 4; 17]%N -> exchange_ok false (mkx f (mkreply ns (ty, [])) None)).
  { intros f ns ty Hf Hn Ht. split; [exact Hf|]. split; [eapply Forall_impl; [|exact Hn]; intros x [E _]; split; rewrite E; cbn; [intuition lia|lia]|]. split; [exact Ht|].
    apply Forall_app. split; [eapply Forall_impl; [|exact Hn]; intros x [_ E]; exact E|]. constructor; [vm_compute; reflexivity|constructor]. }
  unfold story. repeat (apply Forall_cons; [cbn [serves story_said]; try exact I; try reflexivity|]); [..|apply Forall_nil].
  - split; [|exists (skipn 16 (replies_bytes unit0)); cbn [concat]; rewrite app_nil_r; apply firstn_skipn].
    constructor; [apply K; [vm_compute; reflexivity|repeat constructor|cbn; tauto]|]. constructor; [apply K; [vm_compute; reflexivity|constructor|cbn; tauto]|constructor].
  - split; [|exists []; rewrite P; apply app_nil_r]. constructor; [|constructor; [apply K; [vm_compute; reflexivity|repeat constructor|cbn; tauto]|constructor]].
    split; [vm_compute; reflexivity|]. split; [constructor|]. split; [|repeat constructor; vm_compute; reflexivity].
    split; [reflexivity|]. apply ThmConn.error_bytes_message; try (vm_compute; reflexivity); vm_compute; repeat constructor.
  - split; [|exists (replies_bytes unit2); reflexivity]. constructor; [apply K; [vm_compute; reflexivity|constructor|cbn; tauto]|constructor].
Qed.

Print Assumptions C61_own_responses.
Print Assumptions C61_send_returns_what_it_got.
Print Assumptions C61_pool_inside.
Print Assumptions C62_units_whole_and_in_order.
Print Assumptions C62_server_reads_programs.
