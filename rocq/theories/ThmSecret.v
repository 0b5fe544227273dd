(* C111: the password does not cross a connection that others may observe. *)
From Coq Require Import String List NArith Arith Bool Lia.
From Coq Require Import List.
From Verif Require Import Base GoSlice SpecWire SpecMsg SpecValue MsgModel SpecProg SpecUnit Conn SpecReply SpecAuth AuthModel Connector SpecSecret ReplyProofs ThmConn ThmSession ThmAuth ThmConnector.
Import ListNotations.
Open Scope N_scope.
Open Scope list_scope.

Lemma same_names c c' p o : same_account c c' -> put_names c p o = put_names c' p o.
Proof. intros [U D]. unfold put_names. rewrite U, D. reflexivity. Qed.

Lemma mysql41_same `{E : Env} sha1 c c' buf d : same_account c c' -> sha1 (password c) = sha1 (password c') -> (password c = [] <-> password c' = []) ->
  mysql41_continue sha1 buf c d = mysql41_continue sha1 buf c' d.
Proof.
  intros A P Z. unfold mysql41_continue. destruct A as [U D]. rewrite U, D, P.
  assert (H : (0 <? List.length (password c))%nat = (0 <? List.length (password c'))%nat) by (destruct (password c), (password c'); cbn; try reflexivity; [discriminate (proj1 Z eq_refl)|discriminate (proj2 Z eq_refl)]).
  rewrite H. cbv zeta. destruct (allocate _ _) as [p o]. rewrite (same_names c c' p o (conj U D)). reflexivity.
Qed.
Lemma sha256_same `{E : Env} sha256 c c' buf d : same_account c c' -> sha256 (password c) = sha256 (password c') -> sha256_continue sha256 buf c d = sha256_continue sha256 buf c' d.
Proof.
  intros A P. unfold sha256_continue. destruct A as [U D]. rewrite U, D, P. cbv zeta. destruct (allocate _ _) as [p o]. rewrite (same_names c c' p o (conj U D)). reflexivity.
Qed.

(* A mechanism that builds the same messages for both. *)
Definition alike (m : mechanism) (c c' : credentials) : Prop := start m c = start m c' /\ forall k, continue m = Some k -> forall d, k c d = k c' d.
Lemma authenticate_alike w32 d m c c' x : alike m c c' -> authenticate w32 d c m x = authenticate w32 d c' m x.
Proof.
  intros [S K]. unfold authenticate. rewrite S. destruct (start m c') as [b|]; [|reflexivity]. cbn [bind]. destruct (write_one w32 d b x) as [[a y]|]; [|reflexivity]. cbn [bind].
  destruct (snd a) as [[| | | | | | |dd| | |]|]; try reflexivity. destruct (continue m) as [k|]; [|reflexivity]. rewrite (K k eq_refl). reflexivity.
Qed.
Lemma new_alike (E : Env) d tls m c c' c0 h : alike m c c' -> is_secure c0 = false -> (ckind c0 = Tcp -> tls = false) ->
  connector_new d {| with_tls := tls; authentication := m; credentials_of := c |} (Some c0) h = connector_new d {| with_tls := tls; authentication := m; credentials_of := c' |} (Some c0) h.
Proof.
  intros A S T. unfold connector_new. cbn [with_tls].
  assert ((match ckind c0 with Tcp => true | _ => false end && tls)%bool = false) as -> by (destruct (ckind c0); try reflexivity; rewrite T; reflexivity).
  unfold authenticate_or_close. cbn [credentials_of authentication]. rewrite (authenticate_alike word32 d m c c' c0 A).
  destruct (authenticate word32 d c' m c0) as [[r c1]|] eqn:Au; [|reflexivity]. cbn [bind]. destruct r as [e|]; [|reflexivity].
  destruct (authenticate_log _ _ _ _ _ _ _ Au) as (K & _). unfold is_secure in *. rewrite K, S, andb_false_r. reflexivity.
Qed.

(* MYSQL41, the default: whatever the server says, all that happens on the connection and the result are the same for two passwords of which SHA-1 is the same. So nothing about the
   password shows that does not show in its SHA-1, and that it is empty. *)
Theorem C111_mysql41_shows_the_digest_only : forall (E : Env) sha1 left deadline tls creds creds' c0 handshake,
  same_account creds creds' -> sha1 (password creds) = sha1 (password creds') -> (password creds = [] <-> password creds' = []) ->
  let cfg c := {| with_tls := tls; authentication := mysql41 sha1 left; credentials_of := c |} in
  unprotected (cfg creds) c0 ->
  connector_new deadline (cfg creds) (Some c0) handshake = connector_new deadline (cfg creds') (Some c0) handshake.
Proof.
  intros E sha1 left deadline tls c c' c0 h A P Z cfg [S T]. unfold cfg in *. cbn [with_tls] in T. apply new_alike; [|exact S|exact T].
  split; [reflexivity|]. intros k Hk d. cbn in Hk. injection Hk as <-. apply mysql41_same; assumption.
Qed.
(* SHA256_MEMORY: for two passwords of which SHA-256 is the same. *)
Theorem C111_sha256_shows_the_digest_only : forall (E : Env) sha256 left deadline tls creds creds' c0 handshake,
  same_account creds creds' -> sha256 (password creds) = sha256 (password creds') ->
  let cfg c := {| with_tls := tls; authentication := sha256_memory sha256 left; credentials_of := c |} in
  unprotected (cfg creds) c0 ->
  connector_new deadline (cfg creds) (Some c0) handshake = connector_new deadline (cfg creds') (Some c0) handshake.
Proof.
  intros E sha256 left deadline tls c c' c0 h A P cfg [S T]. unfold cfg in *. cbn [with_tls] in T. apply new_alike; [|exact S|exact T].
  split; [reflexivity|]. intros k Hk d. cbn in Hk. injection Hk as <-. apply sha256_same; assumption.
Qed.

(* With a TLS configuration, on TCP: what happens outside TLS is the same for all accounts, with all mechanisms. *)
Lemma inside_unseen (E : Env) d cfg c r c' : ckind c = Tls -> authenticate_or_close d cfg c = Ok (r, c') -> seen_outside c' = seen_outside c.
Proof.
  intros K H. destruct (auth_or_close_cases E d cfg c r c' H) as (r1 & c1 & evs & A & K1 & L & F & C).
  assert (G : forall P evs l, Forall (writing Tls P) evs -> filter in_clear (evs ++ l) = filter in_clear l).
  { intros P es l Fe. induction Fe as [|e es He Fe IH]; [reflexivity|]. cbn [app filter]. destruct e as [k x y|k b o|k]; cbn in He; [subst k; exact IH|destruct He as [-> _]; exact IH|destruct He]. }
  assert (Cl : forall x, ckind x = Tls -> seen_outside (close x) = seen_outside x) by (intros x Kx; unfold close, seen_outside; cbn [log]; rewrite Kx; reflexivity).
  rewrite K in *. assert (S1 : seen_outside c1 = seen_outside c) by (unfold seen_outside; rewrite L; exact (G _ _ _ F)).
  destruct C as [(_ & _ & ->)|[(e & _ & _ & ->)|(m & r2 & c2 & evs2 & _ & _ & _ & A2 & L2 & F2 & C)]]; [exact S1|rewrite Cl; [exact S1|exact K1]|].
  assert (S2 : seen_outside c2 = seen_outside c) by (rewrite <- S1; unfold seen_outside; rewrite L2; exact (G _ _ _ F2)). destruct (authenticate_log _ _ _ _ _ _ _ A2) as (K2 & _).
  destruct C as [(_ & _ & ->)|(e & _ & _ & ->)]; [exact S2|rewrite Cl; [exact S2|congruence]].
Qed.
Theorem C111_nothing_of_the_account_outside_tls : forall (E : Env) deadline cfg cfg' c0 handshake r c r' c',
  with_tls cfg = true -> with_tls cfg' = true -> ckind c0 = Tcp ->
  connector_new deadline cfg (Some c0) handshake = Ok (r, Some c) -> connector_new deadline cfg' (Some c0) handshake = Ok (r', Some c') ->
  seen_outside c = seen_outside c'.
Proof.
  intros E d cfg cfg' c0 h r c r' c' W W' K H H'. assert (T : tls_wanted cfg c0 = true) by (unfold tls_wanted; rewrite K, W; reflexivity). assert (T' : tls_wanted cfg' c0 = true) by (unfold tls_wanted; rewrite K, W'; reflexivity).
  assert (G : forall cfg r c, tls_wanted cfg c0 = true -> connector_new d cfg (Some c0) h = Ok (r, Some c) -> exists rs e1 c1, conn_send word32 d (capability_set (s2b "tls") true) c0 = Ok ((rs, e1), c1) /\ seen_outside c = seen_outside c1).
  { clear. intros cfg r c T H. destruct (new_cases E d cfg c0 h r _ H) as (x & Hx & [[X _]|(_ & rs & e1 & c1 & evs & S & _ & _ & C)]); [congruence|]. injection Hx as <-. exists rs, e1, c1. split; [exact S|].
    destruct C as [(e & _ & _ & ->)|[(_ & _ & _ & L)|(rd & ds & ws & _ & _ & A)]]; [reflexivity|unfold seen_outside; rewrite L; reflexivity|].
    rewrite (inside_unseen E d cfg (conn_reset c1 rd ds ws) r c eq_refl A). reflexivity. }
  destruct (G cfg r c T H) as (rs & e1 & c1 & S & ->). destruct (G cfg' r' c' T' H') as (rs' & e1' & c1' & S' & ->). rewrite S in S'. injection S' as _ _ <-. reflexivity.
Qed.

(* A caller who chooses PLAIN sends the password, protected or not. *)
Theorem C111_plain_sends_the_password : forall (E : Env) deadline tls creds c0 handshake r c,
  let cfg := {| with_tls := tls; authentication := plain; credentials_of := creds |} in
  creds_ok creds -> unprotected cfg c0 -> can_write c0 -> connector_new deadline cfg (Some c0) handshake = Ok (r, Some c) ->
  exists b, In (Write (ckind c0) b None) (log c) /\ one_message b 4 (MAuthStart (s2b "PLAIN") (Some (database creds ++ [0] ++ user_name creds ++ [0] ++ password creds))).
Proof.
  intros E d tls creds c0 h r c cfg Hc [S T] [W1 W2] H. unfold cfg in *. clear cfg. cbn [with_tls] in T.
  assert (Tw : tls_wanted {| with_tls := tls; authentication := plain; credentials_of := creds |} c0 = false) by (unfold tls_wanted; cbn [with_tls]; destruct (ckind c0); try reflexivity; rewrite T; reflexivity).
  destruct (new_cases E d _ c0 h r _ H) as (x & Hx & [[_ A]|[X _]]); [|congruence]. injection Hx as <-.
  destruct (auth_or_close_cases E d _ c0 r c A) as (r1 & c1 & evs & Au & K1 & L & F & C). cbn [authentication credentials_of] in Au.
  destruct (C34_plain_start E (mk [] (repeat 0 128)) creds Hc) as (b & B1 & B2). exists b. split; [|exact B2].
  assert (I : In (Write (ckind c0) b None) (log c1)).
  { unfold authenticate in Au. cbn [start plain] in Au. rewrite B1 in Au. cbn [bind] in Au. unfold write_one, set_deadline in Au. destruct (next_result (deadlines c0)) as [x l]. cbn [fst] in W1. subst x.
    unfold write in Au. cbn [writes rd ckind deadlines log] in Au. destruct (next_result (writes c0)) as [x l']. cbn [fst] in W2. subst x.
    destruct (nth_error b 4) as [ct|]; [|discriminate Au].
    match type of Au with context [c_read word32 ct ?y] => destruct (c_read_spec word32 ct y) as (c2 & R & _ & _ & _ & _ & _ & L2); rewrite R in Au end. cbn [bind snd] in Au. cbn [log] in L2.
    assert (c1 = c2) as ->. { destruct (snd _) as [[| | | | | | |dd| | |]|] in Au; cbn [continue plain] in Au; injection Au as _ <-; reflexivity. }
    rewrite L2. left. reflexivity. }
  destruct C as [(_ & _ & ->)|[(e & _ & _ & ->)|(m & r2 & c2 & evs2 & _ & _ & X & _)]]; [exact I|right; exact I|congruence].
Qed.

(* ---- the hypotheses are met ---- *)

(* Two passwords with the same digest, a server on TCP without TLS that sends a challenge and denies access: both accounts write the same two messages, and the connection is closed. *)
Definition one_of_two (last : string) : credentials := {| user_name := s2b "me"; password := s2b "correct horse battery " ++ s2b last; database := s2b "test" |}.
Definition open_connection : conn := mkc Tcp (mkr [] [frame (3, 10 :: 5 :: s2b "nonce"); frame (1, error_bytes denied)] IoEOF) [] [] [].
Example secret_meets : let cfg c := {| with_tls := false; authentication := mysql41 (E := ThmBuilder.plain) (toy 20) []; credentials_of := c |} in
  same_account (one_of_two "staple") (one_of_two "stable") /\ toy 20 (password (one_of_two "staple")) = toy 20 (password (one_of_two "stable")) /\ unprotected (cfg (one_of_two "staple")) open_connection /\
  exists c, connector_new (E := ThmBuilder.plain) None (cfg (one_of_two "staple")) (Some open_connection) None = Ok (Some (NConn (CServer denied)), Some c) /\ List.length (log c) = 5%nat /\ seen_outside c = log c.
Proof. cbn zeta. split; [split; reflexivity|]. split; [vm_compute; reflexivity|]. split; [split; reflexivity|]. eexists. split; [vm_compute; reflexivity|]. split; reflexivity. Qed.
(* PLAIN on the same connection. *)
Example plain_meets : let cfg := {| with_tls := false; authentication := plain (E := ThmBuilder.plain); credentials_of := me |} in
  creds_ok me /\ unprotected cfg open_connection /\ can_write open_connection /\
  exists r c, connector_new (E := ThmBuilder.plain) None cfg (Some open_connection) None = Ok (r, Some c).
Proof. cbn zeta. split; [exact me_ok|]. split; [split; reflexivity|]. split; [split; reflexivity|]. do 2 eexists. vm_compute. reflexivity. Qed.
(* Inside TLS: run_succeeds and run_falls_back of ThmConnector. *)

Print Assumptions C111_mysql41_shows_the_digest_only.
Print Assumptions C111_sha256_shows_the_digest_only.
Print Assumptions C111_nothing_of_the_account_outside_tls.
Print Assumptions C111_plain_sends_the_password.
