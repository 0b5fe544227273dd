(* Connections from dialling on: C80 (a new connection is in sync), C81 (TLS is for everything). *)
From Coq Require Import String List NArith ZArith Arith Bool Lia.
From Coq Require Import List.
From Verif Require Import Base GoSlice SpecWire SpecMsg SpecUnit Conn AuthModel Connector SpecReply SpecAuth System SpecSystem SpecStart ConnProofs ReplyProofs SystemProofs ThmConn ThmAuth ThmConnector ThmSystem ThmSession.
From Verif Require Pool SpecPool ThmBuilder UnmarshalProofs.
Import ListNotations.
Open Scope N_scope.
Open Scope list_scope.

Definition asks (c : conn) : nat := requests_on (ckind c) (log c).
Definition stream (ps : list reply) : bytes := concat (map reply_bytes ps).

Lemma kind_self : forall k, same_kind k k = true.
Proof. intros []; reflexivity. Qed.

(* One request: unless the connection fails, one reply is used up. *)
Lemma write_one_proper w32 d ct q c a c' ps : 1 + nlen q < 2 ^ 32 -> write_one w32 d (frame (ct, q)) c = Ok (a, c') ->
  unread c = stream ps -> Forall (proper w32) ps ->
  (exists e, snd a = Some e /\ (forall m, e <> CServer m) /\ (forall x, e <> CChallenge x)) \/
  (ckind c' = ckind c /\ asks c' = S (asks c) /\ exists p ps', ps = p :: ps' /\ unread c' = stream ps').
Proof.
  intros Hq H Hu Hp. destruct (fst (next_result (deadlines c))) as [e|] eqn:D.
  { left. unfold write_one, set_deadline in H. destruct (next_result (deadlines c)) as [x l]. cbn [fst] in D. subst x. injection H as <- <-. exists (CDeadline e). repeat split; discriminate. }
  destruct (fst (next_result (writes c))) as [e|] eqn:W.
  { left. unfold write_one, set_deadline, write in H. destruct (next_result (deadlines c)) as [x l]. cbn [fst] in D. subst x. cbn [writes] in H.
    destruct (next_result (writes c)) as [x l']. cbn [fst] in W. subst x. injection H as <- <-. exists (CWrite e). repeat split; discriminate. }
  destruct (write_one_spec w32 d ct q c (conj D W) Hq) as (c1 & A & B & _ & K & L & _). rewrite A in H. injection H as <- <-. destruct ps as [|p ps].
  - left. rewrite Hu. exists (CRead (ended (rd c))). rewrite aread_eq. split; [reflexivity|]. split; discriminate.
  - right. split; [exact K|]. split.
    + unfold asks, requests_on. rewrite K, L. cbn [app filter]. rewrite kind_self. reflexivity.
    + exists p, ps. split; [reflexivity|]. rewrite B, Hu. unfold stream. cbn [map concat]. inversion Hp as [|? ? P1 P2]; subst. destruct P1 as [[r P1]|[x P1]].
      * rewrite (aread_reply _ _ _ _ _ _ P1). reflexivity.
      * rewrite (aread_challenge _ _ _ _ _ _ P1). reflexivity.
Qed.

Lemma authenticate_proper w32 d creds m c r c' ps : mechanism_ok m creds -> authenticate w32 d creds m c = Ok (r, c') -> unread c = stream ps -> Forall (proper w32) ps ->
  r = None \/ (exists e, r = Some (CServer e)) ->
  ckind c' = ckind c /\ exists k, (asks c' = k + asks c)%nat /\ unread c' = stream (skipn k ps) /\ Forall (proper w32) (skipn k ps).
Proof.
  intros [(q & S1 & S2) Hk] H Hu Hp Hr. unfold authenticate in H. rewrite S1 in H. cbn [bind] in H. destruct (write_one w32 d (frame (4, q)) c) as [[a c1]|] eqn:W; cbn [bind] in H; [|discriminate].
  destruct (write_one_proper _ _ _ _ _ _ _ _ S2 W Hu Hp) as [(e & He & N1 & N2)|(K1 & A1 & p & ps' & -> & U1)].
  - rewrite He in H. exfalso. destruct e; try (destruct (N2 _ eq_refl)); try (destruct (N1 _ eq_refl)); injection H as <- <-; destruct Hr as [Hr|[x Hr]]; discriminate.
  - assert (Hp' : Forall (proper w32) ps') by (inversion Hp; assumption).
    assert (D : ckind c1 = ckind c /\ exists k, (asks c1 = k + asks c)%nat /\ unread c1 = stream (skipn k (p :: ps')) /\ Forall (proper w32) (skipn k (p :: ps'))).
    { split; [exact K1|]. exists 1%nat. cbn [skipn]. auto. }
    destruct (snd a) as [e|]; [|injection H as <- <-; exact D]. destruct e; try (injection H as <- <-; exact D). destruct (continue m) as [k|] eqn:Ek; [|injection H as <- <-; exact D].
    destruct (Hk k data eq_refl) as (q2 & E2 & S3). rewrite E2 in H. cbn [bind] in H. destruct (write_one w32 d (frame (5, q2)) c1) as [[a2 c2]|] eqn:W2; cbn [bind] in H; [|discriminate]. injection H as <- <-.
    destruct (write_one_proper _ _ _ _ _ _ _ _ S3 W2 U1 Hp') as [(e & He & N1 & N2)|(K2 & A2 & p2 & ps2 & -> & U2)].
    + exfalso. rewrite He in Hr. destruct Hr as [Hr|[x Hr]]; [discriminate|]. injection Hr as ->. destruct (N1 _ eq_refl).
    + split; [congruence|]. exists 2%nat. cbn [skipn]. inversion Hp'; subst. split; [lia|]. auto.
Qed.

Lemma skipn_skipn {A} k j (l : list A) : skipn j (skipn k l) = skipn (j + k) l.
Proof. revert l. induction k as [|k IH]; intros l; [rewrite Nat.add_0_r; reflexivity|]. rewrite Nat.add_succ_r. destruct l; [rewrite !skipn_nil; reflexivity|]. cbn [skipn]. apply IH. Qed.

Lemma auth_or_close_proper (E : Env) d cfg c c' ps : mechanism_ok (authentication cfg) (credentials_of cfg) -> creds_ok (credentials_of cfg) ->
  authenticate_or_close d cfg c = Ok (None, c') -> unread c = stream ps -> Forall (proper word32) ps ->
  ckind c' = ckind c /\ exists k, (asks c' = k + asks c)%nat /\ unread c' = stream (skipn k ps).
Proof.
  intros Hm Hc H Hu Hp. pose proof (plain_ok E _ Hc) as Hpl. destruct (auth_or_close_cases _ _ _ _ _ _ H) as (r1 & c2 & evs2 & A1 & K2 & L2 & F2 & C).
  destruct C as [(-> & _ & ->)|[(e & -> & X & ->)|(m & r2 & c3 & evs3 & -> & Cm & Sc & A3 & L3 & F3 & C)]]; [|discriminate|].
  - destruct (authenticate_proper _ _ _ _ _ _ _ _ Hm A1 Hu Hp (or_introl eq_refl)) as (K & k & B1 & B2 & _). eauto.
  - destruct C as [(-> & _ & ->)|(e & _ & X & ->)]; [|discriminate].
    destruct (authenticate_proper _ _ _ _ _ _ _ _ Hm A1 Hu Hp (or_intror (ex_intro _ _ eq_refl))) as (K & k & B1 & B2 & B3).
    destruct (authenticate_proper _ _ _ _ _ _ _ _ Hpl A3 B2 B3 (or_introl eq_refl)) as (K' & k' & B1' & B2' & _). split; [congruence|]. exists (k' + k)%nat. rewrite skipn_skipn in B2'. split; [lia|exact B2'].
Qed.

(* ---- C80: a new connection is in sync ---- *)

(* The server sends one complete reply for each request. When New succeeds, exactly the replies to the requests it
   made have been read. *)
Theorem C80_new_reads_one_reply_per_request : forall (E : Env) deadline cfg c0 handshake c ps,
  log c0 = [] -> mechanism_ok (authentication cfg) (credentials_of cfg) -> creds_ok (credentials_of cfg) ->
  connector_new deadline cfg (Some c0) handshake = Ok (None, Some c) ->
  server_sends cfg c0 handshake = concat (map reply_bytes ps) -> Forall (proper word32) ps ->
  unread c = concat (map reply_bytes (skipn (requests_on (ckind c) (log c)) ps)).
Proof.
  intros E d cfg c0 hs c ps L0 Hm Hc H Hu Hp. destruct (new_cases _ _ _ _ _ _ _ H) as (c' & [= <-] & [[T A]|(T & rs & e1 & c1 & evs & S & L & F & C)]).
  - assert (Hu' : unread c0 = stream ps). { unfold stream. rewrite <- Hu. unfold server_sends, tls_wanted in *. destruct hs as [[[r ds] ws]|], (ckind c0), (with_tls cfg); try discriminate; reflexivity. }
    destruct (auth_or_close_proper _ _ _ _ _ _ Hm Hc A Hu' Hp) as (K & k & B1 & B2). unfold asks in B1 at 2. rewrite L0 in B1. cbn [requests_on filter List.length] in B1. rewrite Nat.add_0_r in B1.
    rewrite B2, <- B1. reflexivity.
  - destruct C as [(e' & _ & X & _)|[(_ & _ & X & _)|(rd & ds & ws & _ & Eh & A)]]; try discriminate. subst hs.
    assert (Hu' : unread (conn_reset c1 rd ds ws) = stream ps). { unfold stream. rewrite <- Hu. unfold server_sends, tls_wanted in *. destruct (ckind c0), (with_tls cfg); try discriminate; reflexivity. }
    destruct (auth_or_close_proper _ _ _ _ _ _ Hm Hc A Hu' Hp) as (K & k & B1 & B2). rewrite B2. unfold asks in B1. replace k with (requests_on (ckind c) (log c)); [reflexivity|].
    assert (Z : requests_on (ckind (conn_reset c1 rd ds ws)) (log (conn_reset c1 rd ds ws)) = 0%nat); [|lia]. unfold conn_reset. cbn [ckind log]. rewrite L, L0, app_nil_r. clear - F. induction F as [|e es He F IH]; [reflexivity|].
    unfold requests_on in *. cbn [filter]. destruct e as [| k b o|]; cbn [writing] in He; try exact IH. destruct He as [-> _]. destruct o; exact IH.
Qed.

(* So if it has sent nothing else, nothing is left. *)
Theorem C80_nothing_left_over : forall (E : Env) deadline cfg c0 handshake c ps,
  log c0 = [] -> mechanism_ok (authentication cfg) (credentials_of cfg) -> creds_ok (credentials_of cfg) ->
  connector_new deadline cfg (Some c0) handshake = Ok (None, Some c) ->
  server_sends cfg c0 handshake = concat (map reply_bytes ps) -> Forall (proper word32) ps ->
  (List.length ps <= requests_on (ckind c) (log c))%nat -> unread c = [].
Proof. intros E d cfg c0 hs c ps L0 Hm Hc H Hu Hp Hn. rewrite (C80_new_reads_one_reply_per_request _ _ _ _ _ _ _ L0 Hm Hc H Hu Hp), skipn_all2 by exact Hn. reflexivity. Qed.

Lemma in_sync w32 c : started_in_sync w32 c -> unread c = [].
Proof.
  intros (E & d & cfg & c0 & hs & ps & <- & L0 & H & Hu & Hp & Hn & M1 & M2 & Hc). exact (C80_nothing_left_over E d cfg c0 hs c ps L0 (conj M1 M2) Hc H Hu Hp Hn). Qed.

Lemma serves_start w32 said acts : Forall (serves_from_start w32 said) acts -> Forall (serves w32 said) acts.
Proof. apply Forall_impl. intros [a|d b|i c|i ch] H; cbn in *; auto. exact (in_sync _ _ H). Qed.

(* From dialling to the responses: C61 and C62 for a pool whose connections come from Connector.New. *)
Theorem C80_own_responses_from_the_start : forall w32 n acts s said i rs e,
  run w32 acts (new_system n) = Some s -> sends said s -> Forall (serves_from_start w32 said) acts -> got s i rs e ->
  (e = None -> rs = map seen_as (said i)) /\ (e <> None -> responses_to_first (said i) rs).
Proof. intros w32 n acts s said i rs e H Hs Hv Hg. exact (C61_own_responses w32 n acts s said i rs e H Hs (serves_start _ _ _ Hv) Hg). Qed.

(* ---- C81: a TLS configuration is for everything ---- *)

Definition inside (c : conn) : Prop := ckind c = Tls /\ forall k b o, In (Write k b o) (log c) -> k = Tls \/ (k = Tcp /\ one_message b 2 (MCapabilitiesSet [(s2b "tls", SBool true)])).

Lemma auth_or_close_kind (E : Env) d cfg c r c' : authenticate_or_close d cfg c = Ok (r, c') -> ckind c' = ckind c.
Proof.
  intros H. destruct (auth_or_close_cases _ _ _ _ _ _ H) as (r1 & c2 & evs2 & A1 & K2 & L2 & F2 & C).
  destruct C as [(-> & _ & ->)|[(e & -> & X & ->)|(m & r2 & c3 & evs3 & -> & Cm & Sc & A3 & L3 & F3 & C)]]; [exact K2|exact K2|].
  destruct (authenticate_log _ _ _ _ _ _ _ A3) as (K & _). destruct C as [(-> & _ & ->)|(e & _ & X & ->)]; cbn [close ckind]; congruence.
Qed.

Lemma tls_inside c : wants_tls c -> inside c.
Proof.
  intros (E & d & cfg & c0 & hs & L0 & T & K & H). split.
  - destruct (new_cases _ _ _ _ _ _ _ H) as (c' & [= <-] & [[T' A]|(T' & rs & e1 & c1 & evs & S & L & F & C)]); [unfold tls_wanted in T'; rewrite K, T in T'; discriminate|].
    destruct C as [(e' & _ & X & _)|[(_ & _ & X & _)|(rd & ds & ws & _ & Eh & A)]]; try discriminate. rewrite (auth_or_close_kind _ _ _ _ _ _ A). reflexivity.
  - intros k b o I. destruct (C35_nothing_before_tls E d cfg c0 hs None c k b o L0 T K H I) as [?|[? _]]; auto.
Qed.

Lemma read_responses_kind : forall w32 k rest rs c r c', read_responses w32 k rest rs c = Ok (r, c') -> ckind c' = ckind c.
Proof.
  intros w32 k. induction k as [|k IH]; intros rest rs c r c' H; cbn [read_responses] in H; destruct rest as [|x rest]; try discriminate; try (injection H as <- <-; reflexivity).
  destruct (nth_error (x :: rest) 4) as [ct|]; [|discriminate]. destruct (c_read_spec w32 ct c) as (c1 & E & _ & _ & K & _). rewrite E in H. destruct (snd (fst (aread w32 ct (ended (rd c)) (unread c)))); [injection H as <- <-; exact K|].
  rewrite (IH _ _ _ _ _ H). exact K.
Qed.

Lemma send_inside w32 d b c r c' : conn_send w32 d b c = Ok (r, c') -> inside c -> inside c'.
Proof.
  intros H [K I]. destruct (send_log _ _ _ _ _ _ H) as (evs & L & F). split.
  - revert H. unfold conn_send, set_deadline, write. destruct (next_result (deadlines c)) as [[e1|] l]; [intros [= _ <-]; exact K|]. cbn [writes].
    destruct (next_result (writes c)) as [[e2|] l']; [intros [= _ <-]; exact K|]. intros H. apply read_responses_kind in H. rewrite H. exact K.
  - intros k b' o J. rewrite L in J. apply in_app_or in J. destruct J as [J|J]; [|exact (I k b' o J)]. left. rewrite Forall_forall in F. specialize (F _ J). cbn in F. destruct F as [-> _]. exact K.
Qed.

Lemma inside_arrive chunks c : inside c -> inside (arrive chunks c).
Proof. intros H. exact H. Qed.

(* However the pool is used: outside TLS nothing is ever written but the request for TLS. *)
Theorem C81_nothing_outside_tls : forall w32 n acts s k c,
  run w32 acts (new_system n) = Some s -> (forall i c, In (Connected i c) acts -> wants_tls c) -> nth_error (conns s) k = Some c ->
  ckind c = Tls /\
  forall kd b o, In (Write kd b o) (log c) -> kd = Tls \/ (kd = Tcp /\ one_message b 2 (MCapabilitiesSet [(s2b "tls", SBool true)])).
Proof.
  intros w32 n acts s k c H Hc Hk.
  assert (G : forall acts s0 s, Forall inside (conns s0) -> (forall i c, In (Connected i c) acts -> wants_tls c) -> run w32 acts s0 = Some s -> Forall inside (conns s)).
  { clear. induction acts as [|a acts IH]; intros s0 s F Hc H; cbn [run] in H; [injection H as <-; exact F|]. destruct (step w32 a s0) as [s1|] eqn:S; [|discriminate].
    refine (IH s1 s _ (fun i c I => Hc i c (or_intror I)) H). clear IH H. destruct a as [a|d b|i c|i ch]; cbn [step] in S.
    - assert (conns s1 = conns s0) as ->; [|exact F]. destruct a as [| | | | | |? []| | | |]; try discriminate; (destruct (Pool.step _ (pool s0)); [|discriminate]); injection S as <-; reflexivity.
    - destruct (Pool.step _ (pool s0)); [|discriminate]. injection S as <-. exact F.
    - destruct (Pool.step _ (pool s0)); [|discriminate]. injection S as <-. cbn [conns]. apply Forall_app. split; [exact F|]. apply Forall_cons; [apply tls_inside, (Hc i c); left; reflexivity|apply Forall_nil].
    - destruct (nth_error (Pool.calls (pool s0)) i) as [[[]?]|]; try discriminate. destruct (nth_error (units s0) i) as [[[d u]|]|]; try discriminate.
      destruct (nth_error (conns s0) c) as [x|] eqn:Ex; [|discriminate]. destruct (conn_send w32 d u (arrive ch x)) as [[r x']|] eqn:Es.
      + destruct (Pool.step _ (pool s0)); [|discriminate]. injection S as <-. cbn [conns]. assert (X : inside x'). { apply (send_inside _ _ _ _ _ _ Es). apply inside_arrive. rewrite Forall_forall in F. apply F. exact (nth_error_In _ _ Ex). }
        clear - F X. revert c. induction F as [|y l Y F IH]; intros [|c]; cbn [Pool.set_nth]; auto.
      + injection S as <-. exact F. }
  specialize (G acts (new_system n) s (Forall_nil _) Hc H). rewrite Forall_forall in G. exact (G c (nth_error_In _ _ Hk)).
Qed.

Print Assumptions C80_new_reads_one_reply_per_request.
Print Assumptions C80_nothing_left_over.
Print Assumptions C80_own_responses_from_the_start.
Print Assumptions C81_nothing_outside_tls.

(* ---- a concrete run: dial with TLS, authenticate, and send a unit ---- *)

Definition first_conn : conn :=
  match connector_new (E := ThmBuilder.plain) None run_config (Some (mkc Tcp (mkr [] [frame (0, [])] IoEOF) [] [] []))
    (Some (mkr [] [frame (3, 10 :: 5 :: s2b "nonce"); frame (4, [])] IoEOF, [], [])) with
  | Ok (_, Some c) => c
  | _ => mkc Tcp (mkr [] [] IoEOF) [] [] []
  end.
Definition nonce_reply : reply := mkreply [] (3, 10 :: 5 :: s2b "nonce").
Definition ok_reply : reply := mkreply [] (4, []).

Lemma nonce_ok : Forall (proper false) [nonce_reply; ok_reply].
Proof.
  apply Forall_cons; [right; exists (s2b "nonce")|apply Forall_cons; [left; exists None|apply Forall_nil]].
  - split; [constructor|]. split; [split; [reflexivity|]|apply Forall_cons; [reflexivity|apply Forall_nil]]. eexists. split; [apply UnmarshalProofs.wire_dfields; vm_compute; reflexivity|]. exists [], []. split; [reflexivity|]. intros w [].
  - split; [constructor|]. split; [unfold reports, success; cbn; auto|apply Forall_cons; [reflexivity|apply Forall_nil]].
Qed.

Lemma run_mechanism : mechanism_ok (authentication run_config) (credentials_of run_config).
Proof. exact (mysql41_ok ThmBuilder.plain (toy 20) [] me (toy_digests 20) me_ok). Qed.

Example first_conn_in_sync : started_in_sync false first_conn.
Proof.
  destruct run_mechanism as [M1 M2]. exists ThmBuilder.plain, None, run_config, (mkc Tcp (mkr [] [frame (0, [])] IoEOF) [] [] []), (Some (mkr [] [frame (3, 10 :: 5 :: s2b "nonce"); frame (4, [])] IoEOF, [], [])), [nonce_reply; ok_reply].
  split; [reflexivity|]. split; [reflexivity|]. split; [vm_compute; reflexivity|]. split; [vm_compute; reflexivity|]. split; [exact nonce_ok|]. split; [vm_compute; apply le_n|]. split; [exact M1|]. split; [exact M2|]. exact me_ok.
Qed.
Example first_conn_wants_tls : wants_tls first_conn.
Proof.
  exists ThmBuilder.plain, None, run_config, (mkc Tcp (mkr [] [frame (0, [])] IoEOF) [] [] []), (Some (mkr [] [frame (3, 10 :: 5 :: s2b "nonce"); frame (4, [])] IoEOF, [], [])).
  split; [reflexivity|]. split; [reflexivity|]. split; [reflexivity|]. vm_compute. reflexivity.
Qed.
Definition first_story : list action :=
  [CallSend None (request_bytes unit1); Step (Pool.Default 0); Connected 0 first_conn; Exchange 0 (ThmConn.pieces 40 2 (replies_bytes unit1)); Step (Pool.Return 0)].
Example first_story_runs : exists s, run false first_story (new_system 1) = Some s /\ results s = [(0%nat, ([Some dup; None], None))] /\
  Forall (serves_from_start false (fun _ => unit1)) first_story /\ List.length (log (nth 0 (conns s) first_conn)) = 8%nat.
Proof.
  eexists. split; [vm_compute; reflexivity|]. split; [reflexivity|]. split; [|vm_compute; reflexivity].
  pose proof story_served as S. unfold story in S. rewrite Forall_forall in S. specialize (S _ ltac:(do 7 right; left; reflexivity)).
  repeat apply Forall_cons; try exact I; [exact first_conn_in_sync|exact S|apply Forall_nil].
Qed.
