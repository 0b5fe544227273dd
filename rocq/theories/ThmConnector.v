(* Establishing a connection: C35, C36, C55, C56. *)
From Coq Require Import String List NArith ZArith Arith Bool Lia ZifyN ZifyNat ZifyBool.
From Coq Require Import List.
From Verif Require Import Base GoSlice SpecWire SpecMsg Varint VarintProofs WireProofs SpecValue MsgModel SpecProg SpecUnit Conn SpecReply SpecAuth AuthModel Connector ReplyProofs ThmConn ThmSession ThmAuth.
From Verif Require ConnProofs SessionProofs ShapeProofs.
Import ListNotations.
Open Scope N_scope.
Open Scope list_scope.
Ltac Zify.zify_post_hook ::= Z.div_mod_to_equations.

(* ---- what happens to a connection ---- *)

(* The message is one of those the mechanism builds. *)
Definition built_by (m : mechanism) (creds : credentials) (b : bytes) : Prop :=
  start m creds = Ok b \/ exists k d, continue m = Some k /\ k creds d = Ok b.

(* The events of writing messages that satisfy P to a connection of kind k. *)
Definition writing (k : kind) (P : bytes -> Prop) (e : event) : Prop :=
  match e with
  | SetDeadline k' _ _ => k' = k
  | Write k' b _ => k' = k /\ P b
  | Close _ => False
  end.

Lemma write_one_log : forall w32 d b c r c', write_one w32 d b c = Ok (r, c') ->
  ckind c' = ckind c /\ exists evs, log c' = evs ++ log c /\ Forall (writing (ckind c) (eq b)) evs.
Proof.
  intros w32 d b c r c' H. unfold write_one, set_deadline in H. destruct (next_result (deadlines c)) as [[e|] l].
  - injection H as <- <-. cbn [ckind log]. split; [reflexivity|]. eexists [_]. split; [reflexivity|]. repeat constructor.
  - unfold write in H. cbn [writes rd ckind deadlines log] in H. destruct (next_result (writes c)) as [[e|] l'].
    + injection H as <- <-. cbn [ckind log]. split; [reflexivity|]. eexists [_; _]. split; [reflexivity|]. repeat constructor.
    + destruct (nth_error b 4) as [ct|]; [|discriminate].
      match type of H with Ok (c_read w32 ct ?c1) = _ => destruct (c_read_spec w32 ct c1) as (c2 & A & _ & _ & K & _ & _ & L); rewrite A in H end.
      injection H as <- <-. cbn [ckind log] in *. rewrite K, L. split; [reflexivity|]. eexists [_; _]. split; [reflexivity|]. repeat constructor.
Qed.

Lemma writing_impl : forall k (P Q : bytes -> Prop) evs, (forall b, P b -> Q b) -> Forall (writing k P) evs -> Forall (writing k Q) evs.
Proof. intros k P Q evs H. apply Forall_impl. intros [k' d x|k' b x|k']; cbn; [trivial|intros [A B]; auto|trivial]. Qed.

Lemma authenticate_log : forall w32 d creds m c r c', authenticate w32 d creds m c = Ok (r, c') ->
  ckind c' = ckind c /\ exists evs, log c' = evs ++ log c /\ Forall (writing (ckind c) (built_by m creds)) evs.
Proof.
  intros w32 d creds m c r c' H. unfold authenticate in H. destruct (start m creds) as [b|] eqn:Hs; [|discriminate]. cbn [bind] in H.
  destruct (write_one w32 d b c) as [[a c1]|] eqn:W; [|discriminate]. cbn [bind] in H. destruct (write_one_log _ _ _ _ _ _ W) as (K & evs & L & F).
  assert (F' : Forall (writing (ckind c) (built_by m creds)) evs) by (eapply writing_impl; [|exact F]; intros b' <-; left; exact Hs).
  assert (D : forall x, Ok (x, c1) = Ok (r, c') -> ckind c' = ckind c /\ exists evs, log c' = evs ++ log c /\ Forall (writing (ckind c) (built_by m creds)) evs).
  { intros x Hx. injection Hx as _ <-. split; [exact K|]. exists evs. auto. }
  destruct (snd a) as [e|]; [|exact (D _ H)]. destruct e as [| | | | | | |dd| | |]; try exact (D _ H).
  destruct (continue m) as [k|] eqn:Ek; [|exact (D _ H)].
  destruct (k creds dd) as [b2|] eqn:E2; [|discriminate]. cbn [bind] in H. destruct (write_one w32 d b2 c1) as [[a2 c2]|] eqn:W2; [|discriminate]. cbn [bind] in H.
  injection H as _ <-. destruct (write_one_log _ _ _ _ _ _ W2) as (K2 & evs2 & L2 & F2). rewrite K in *. split; [exact K2|]. exists (evs2 ++ evs). rewrite L2, L, app_assoc. split; [reflexivity|].
  apply Forall_app. split; [|exact F']. eapply writing_impl; [|exact F2]. intros b' <-. right. exists k, dd. auto.
Qed.

Lemma send_log : forall w32 d bs c r c', conn_send w32 d bs c = Ok (r, c') -> exists evs, log c' = evs ++ log c /\ Forall (writing (ckind c) (eq bs)) evs.
Proof.
  intros w32 d bs c r c' H. destruct (C48_one_write_after_deadline _ _ _ _ _ _ H) as [(e & L & _)|(o & L & _)]; rewrite L.
  - eexists [_]. split; [reflexivity|]. repeat constructor.
  - eexists [_; _]. split; [reflexivity|]. repeat constructor.
Qed.

(* Authenticate, fallback, Close: everything that can happen. *)
Lemma auth_or_close_cases : forall (E : Env) d cfg c r c',
  authenticate_or_close d cfg c = Ok (r, c') ->
  exists r1 c1 evs1, authenticate word32 d (credentials_of cfg) (authentication cfg) c = Ok (r1, c1) /\ ckind c1 = ckind c /\
    log c1 = evs1 ++ log c /\ Forall (writing (ckind c) (built_by (authentication cfg) (credentials_of cfg))) evs1 /\
    ((r1 = None /\ r = None /\ c' = c1) \/
     (exists e, r1 = Some e /\ r = Some (NConn e) /\ c' = close c1) \/
     (exists m r2 c2 evs2, r1 = Some (CServer m) /\ code m = 1045 /\ is_secure c = true /\
        authenticate word32 d (credentials_of cfg) plain c1 = Ok (r2, c2) /\
        log c2 = evs2 ++ log c1 /\ Forall (writing (ckind c) (built_by plain (credentials_of cfg))) evs2 /\
        ((r2 = None /\ r = None /\ c' = c2) \/ (exists e, r2 = Some e /\ r = Some (NConn (CServer m)) /\ c' = close c2)))).
Proof.
  intros E d cfg c r c' H. unfold authenticate_or_close in H. destruct (authenticate word32 d (credentials_of cfg) (authentication cfg) c) as [[r1 c1]|] eqn:A; [|discriminate]. cbn [bind] in H.
  destruct (authenticate_log _ _ _ _ _ _ _ A) as (K & evs & L & F). exists r1, c1, evs. split; [reflexivity|]. split; [exact K|]. split; [exact L|]. split; [exact F|].
  destruct r1 as [e|]; [|injection H as <- <-; left; auto]. cbv zeta in H.
  destruct (andb _ (is_secure c1)) eqn:S; [|injection H as <- <-; right; left; exists e; auto]. apply andb_prop in S. destruct S as [S1 S2].
  destruct e as [| | | | | |m| | | |]; try discriminate. apply N.eqb_eq in S1. right. right. destruct (authenticate word32 d (credentials_of cfg) plain c1) as [[r2 c2]|] eqn:A2; [|discriminate]. cbn [bind] in H.
  destruct (authenticate_log _ _ _ _ _ _ _ A2) as (K2 & evs2 & L2 & F2). exists m, r2, c2, evs2. rewrite K in F2. split; [reflexivity|]. split; [exact S1|].
  split; [unfold is_secure in *; rewrite <- K; exact S2|]. split; [reflexivity|]. split; [exact L2|]. split; [exact F2|].
  destruct r2 as [e|]; injection H as <- <-; [right; exists e; auto|left; auto].
Qed.

(* New: everything that can happen to the dialled connection. *)
Definition tls_wanted (cfg : config) (c : conn) : bool := andb (match ckind c with Tcp => true | _ => false end) (with_tls cfg).
Lemma new_cases : forall (E : Env) d cfg c0 hs r co,
  connector_new d cfg (Some c0) hs = Ok (r, co) -> exists c, co = Some c /\
    ((tls_wanted cfg c0 = false /\ authenticate_or_close d cfg c0 = Ok (r, c)) \/
     (tls_wanted cfg c0 = true /\ exists rs e1 c1 evs, conn_send word32 d (capability_set (s2b "tls") true) c0 = Ok ((rs, e1), c1) /\
        log c1 = evs ++ log c0 /\ Forall (writing Tcp (eq (capability_set (s2b "tls") true))) evs /\
        ((exists e, e1 = Some e /\ r = Some (NConn e) /\ c = c1) \/
         (e1 = None /\ hs = None /\ r = Some NHandshake /\ log c = Close Tls :: log c1) \/
         (exists rd ds ws, e1 = None /\ hs = Some (rd, ds, ws) /\ authenticate_or_close d cfg (conn_reset c1 rd ds ws) = Ok (r, c))))).
Proof.
  intros E d cfg c0 hs r co H. unfold connector_new in H. fold (tls_wanted cfg c0) in H. destruct (tls_wanted cfg c0) eqn:T.
  - assert (Kt : ckind c0 = Tcp) by (unfold tls_wanted in T; destruct (ckind c0); try discriminate; reflexivity).
    destruct (conn_send word32 d (capability_set (s2b "tls") true) c0) as [[[rs e1] c1]|] eqn:S; [|discriminate]. cbn [bind snd] in H.
    destruct (send_log _ _ _ _ _ _ S) as (evs & L & F). rewrite Kt in F. destruct e1 as [e|].
    + injection H as <- <-. exists c1. split; [reflexivity|]. right. split; [reflexivity|]. exists rs, (Some e), c1, evs. split; [reflexivity|]. split; [exact L|]. split; [exact F|]. left. eauto.
    + destruct hs as [[[rd ds] ws]|].
      * destruct (authenticate_or_close d cfg (conn_reset c1 rd ds ws)) as [[r2 c2]|] eqn:A; [|discriminate]. cbn [bind] in H. injection H as <- <-. exists c2. split; [reflexivity|]. right. split; [reflexivity|].
        exists rs, None, c1, evs. split; [reflexivity|]. split; [exact L|]. split; [exact F|]. right. right. eauto 10.
      * injection H as <- <-. eexists. split; [reflexivity|]. right. split; [reflexivity|]. exists rs, None, c1, evs. split; [reflexivity|]. split; [exact L|]. split; [exact F|]. right. left. auto.
  - destruct (authenticate_or_close d cfg c0) as [[r2 c2]|]; [|discriminate]. cbn [bind] in H. injection H as <- <-. exists c2. auto.
Qed.

(* ---- C35: the password in clear text ---- *)

(* b is a PLAIN message: it carries the password itself. *)
Definition plain_message (b : bytes) : Prop := exists payload data, b = frame (4, payload) /\ dmsg 4 payload = Some (MAuthStart (s2b "PLAIN") data).

Lemma writing_in : forall k P evs k' b o, Forall (writing k P) evs -> In (Write k' b o) evs -> k' = k /\ P b.
Proof. intros k P evs k' b o F I. rewrite Forall_forall in F. exact (F _ I). Qed.
Lemma writing_open : forall k P evs k', Forall (writing k P) evs -> ~ In (Close k') evs.
Proof. intros k P evs k' F I. rewrite Forall_forall in F. exact (F _ I). Qed.

Lemma secure_kind : forall c, is_secure c = true -> ckind c = Tls \/ ckind c = Unix.
Proof. intros c H. unfold is_secure in H. destruct (ckind c); try discriminate; auto. Qed.

(* Where authentication starts: on the dialled connection, or inside TLS on top of it. *)
Definition at_start (cfg : config) (c0 : conn) (handshake : tls_session) (c1 : conn) : Prop :=
  if tls_wanted cfg c0
  then exists r ds ws, handshake = Some (r, ds, ws) /\ ckind c1 = Tls /\ rd c1 = r /\ deadlines c1 = ds /\ writes c1 = ws
  else c1 = c0.
Lemma fallback_only : forall (E : Env) d cfg c r c' k b o,
  (forall b, built_by (authentication cfg) (credentials_of cfg) b -> ~ plain_message b) ->
  authenticate_or_close d cfg c = Ok (r, c') -> In (Write k b o) (log c') -> plain_message b ->
  In (Write k b o) (log c) \/
  (k = Tls \/ k = Unix) /\ exists m c2 later, authenticate word32 d (credentials_of cfg) (authentication cfg) c = Ok (Some (CServer m), c2) /\ code m = 1045 /\
    log c' = later ++ log c2 /\ In (Write k b o) later.
Proof.
  intros E d cfg c r c' k b o Hm H I P. destruct (auth_or_close_cases _ _ _ _ _ _ H) as (r1 & c1 & evs & A & K & L & F & C).
  assert (N1 : In (Write k b o) (log c1) -> In (Write k b o) (log c)).
  { intros J. rewrite L in J. apply in_app_or in J. destruct J as [J|J]; [|exact J]. destruct (writing_in _ _ _ _ _ _ F J) as [_ B]. destruct (Hm b B P). }
  destruct C as [(-> & -> & ->)|[(e & -> & -> & ->)|(m & r2 & c2 & evs2 & -> & Cm & Sc & A2 & L2 & F2 & C)]].
  - left. auto.
  - left. cbn [close log] in I. destruct I as [I|I]; [discriminate|auto].
  - assert (I2 : In (Write k b o) (log c2)) by (destruct C as [(_ & _ & ->)|(e & _ & _ & ->)]; [exact I|cbn [close log] in I; destruct I as [I|I]; [discriminate|exact I]]).
    rewrite L2 in I2. apply in_app_or in I2. destruct I2 as [I2|I2]; [|left; auto]. right. destruct (writing_in _ _ _ _ _ _ F2 I2) as [-> _]. split; [apply secure_kind; exact Sc|].
    destruct C as [(_ & _ & ->)|(e & _ & _ & ->)]; [exists m, c1, evs2|exists m, c1, (Close (ckind c2) :: evs2)]; (split; [exact A|]; split; [exact Cm|]); [auto|].
    cbn [close log]. rewrite L2. split; [reflexivity|]. right. exact I2.
Qed.

(* Unless the configured mechanism itself sends PLAIN messages, a PLAIN message goes over TLS or a unix
   socket only, and only after the server refused the configured mechanism with error 1045. *)
Theorem C35_plain_only_as_fallback : forall (E : Env) deadline cfg c0 handshake r c k b o,
  log c0 = [] -> (forall b, built_by (authentication cfg) (credentials_of cfg) b -> ~ plain_message b) ->
  connector_new deadline cfg (Some c0) handshake = Ok (r, Some c) ->
  In (Write k b o) (log c) -> plain_message b ->
  (k = Tls \/ k = Unix) /\
  exists c1 e c2 later, at_start cfg c0 handshake c1 /\ authenticate word32 deadline (credentials_of cfg) (authentication cfg) c1 = Ok (Some (CServer e), c2) /\ code e = 1045 /\
    log c = later ++ log c2 /\ In (Write k b o) later.
Proof.
  intros E d cfg c0 hs r c k b o L0 Hm H I P. destruct (new_cases _ _ _ _ _ _ _ H) as (c' & [= <-] & [[T A]|(T & rs & e1 & c1 & evs & S & L & F & C)]).
  - destruct (fallback_only _ _ _ _ _ _ _ _ _ Hm A I P) as [J|[K (m & c2 & later & A1 & A2)]]; [rewrite L0 in J; destruct J|]. split; [exact K|]. exists c0, m, c2, later. unfold at_start. rewrite T. auto.
  - assert (N1 : ~ In (Write k b o) (log c1)).
    { intros J. rewrite L, L0, app_nil_r in J. destruct (writing_in _ _ _ _ _ _ F J) as [_ <-]. destruct P as (pl & dt & P1 & P2).
      apply (f_equal (fun l => nth 4 l 0)) in P1. discriminate P1. }
    destruct C as [(e & _ & _ & ->)|[(_ & _ & _ & Lc)|(rd & ds & ws & _ & Eh & A)]].
    + contradiction.
    + rewrite Lc in I. destruct I as [I|I]; [discriminate|contradiction].
    + destruct (fallback_only _ _ _ _ _ _ _ _ _ Hm A I P) as [J|[K (m & c2 & later & A1 & A2)]]; [contradiction|]. split; [exact K|]. eexists _, m, c2, later. split; [|split; [exact A1|exact A2]]. unfold at_start. rewrite T. exists rd, ds, ws. repeat split; auto.
Qed.

(* The two challenge-response mechanisms never send it themselves. *)
Lemma message_type : forall bs ty m ty' payload, one_message bs ty m -> bs = frame (ty', payload) -> ty' = ty /\ dmsg ty payload = Some m.
Proof.
  intros bs ty m ty' pl' (pl & A & B & C) D. rewrite A in D.
  assert (D1 : [ty] ++ pl = [ty'] ++ pl') by (exact (f_equal (skipn 4) D)). injection D1 as <- <-. auto.
Qed.
Lemma not_plain : forall bs ty m, one_message bs ty m -> (forall d, m <> MAuthStart (s2b "PLAIN") d) -> ~ plain_message bs.
Proof. intros bs ty m H N (pl & dt & P1 & P2). destruct (message_type _ _ _ _ _ H P1) as [<- D]. rewrite D in P2. injection P2 as P2. exact (N dt P2). Qed.

Theorem C35_challenge_response_never_plain : forall (E : Env) sha1 sha256 left c, digests sha1 20 -> digests sha256 32 -> creds_ok c ->
  (forall b, built_by (mysql41 sha1 left) c b -> ~ plain_message b) /\
  (forall b, built_by (sha256_memory sha256 left) c b -> ~ plain_message b).
Proof.
  intros E sha1 sha256 left c H1 H2 Hc. split; intros b [H|(k & ch & Hk & H)]; cbn [start continue mysql41 sha256_memory] in *.
  - destruct (C32_mysql41_start E (mk [] (repeat 0 128)) c) as (bs & A & B). rewrite A in H. injection H as <-. apply (not_plain _ _ _ B). intros d. discriminate.
  - injection Hk as <-. destruct (C32_mysql41_response E sha1 (mk [] left) c ch H1 Hc) as (bs & A & B). rewrite A in H. injection H as <-. apply (not_plain _ _ _ B). intros d. discriminate.
  - destruct (C33_sha256_start E (mk [] (repeat 0 128)) c) as (bs & A & B). rewrite A in H. injection H as <-. apply (not_plain _ _ _ B). intros d. discriminate.
  - injection Hk as <-. destruct (C33_sha256_response E sha256 (mk [] left) c ch H2 Hc) as (bs & A & B). rewrite A in H. injection H as <-. apply (not_plain _ _ _ B). intros d. discriminate.
Qed.

(* With a TLS configuration, on TCP: outside TLS only the request for TLS is written, whatever the
   mechanism; nothing is written inside TLS unless the handshake succeeded. *)
Theorem C35_nothing_before_tls : forall (E : Env) deadline cfg c0 handshake r c k b o,
  log c0 = [] -> with_tls cfg = true -> ckind c0 = Tcp ->
  connector_new deadline cfg (Some c0) handshake = Ok (r, Some c) -> In (Write k b o) (log c) ->
  (k = Tcp /\ one_message b 2 (MCapabilitiesSet [(s2b "tls", SBool true)])) \/ (k = Tls /\ handshake <> None).
Proof.
  intros E d cfg c0 hs r c k b o L0 Ht Hk H I.
  destruct (new_cases _ _ _ _ _ _ _ H) as (c' & [= <-] & [[T A]|(T & rs & e1 & c1 & evs & S & L & F & C)]); [unfold tls_wanted in T; rewrite Hk, Ht in T; discriminate|].
  assert (N1 : In (Write k b o) (log c1) -> k = Tcp /\ one_message b 2 (MCapabilitiesSet [(s2b "tls", SBool true)])).
  { intros J. rewrite L, L0, app_nil_r in J. destruct (writing_in _ _ _ _ _ _ F J) as [-> <-]. split; [reflexivity|]. apply C50_capability_set; [split; [repeat constructor|reflexivity]|reflexivity]. }
  destruct C as [(e & _ & _ & ->)|[(_ & _ & _ & Lc)|(rd & ds & ws & _ & -> & A)]].
  - left. auto.
  - rewrite Lc in I. destruct I as [I|I]; [discriminate|left; auto].
  - destruct (auth_or_close_cases _ _ _ _ _ _ A) as (r1 & c2 & evs2 & A1 & K2 & L2 & F2 & C).
    assert (N2 : In (Write k b o) (log c2) -> (k = Tcp /\ one_message b 2 (MCapabilitiesSet [(s2b "tls", SBool true)])) \/ (k = Tls /\ Some (rd, ds, ws) <> None)).
    { intros J. rewrite L2 in J. apply in_app_or in J. destruct J as [J|J]; [|left; auto]. right. destruct (writing_in _ _ _ _ _ _ F2 J) as [-> _]. split; [reflexivity|discriminate]. }
    destruct C as [(-> & -> & ->)|[(e & -> & -> & ->)|(m & r2 & c3 & evs3 & -> & Cm & Sc & A3 & L3 & F3 & C)]].
    + auto.
    + destruct I as [I|I]; [discriminate|auto].
    + assert (I3 : In (Write k b o) (log c3)) by (destruct C as [(_ & _ & ->)|(e & _ & _ & ->)]; [exact I|destruct I as [I|I]; [discriminate|exact I]]).
      rewrite L3 in I3. apply in_app_or in I3. destruct I3 as [J|J]; [|auto]. right. destruct (writing_in _ _ _ _ _ _ F3 J) as [-> _]. split; [reflexivity|discriminate].
Qed.

(* ---- C36: the dialled connection is closed or returned ---- *)

Definition closes (c : conn) : nat := List.length (filter (fun e => match e with Close _ => true | _ => false end) (log c)).

Lemma closes_writing : forall k P evs, Forall (writing k P) evs -> filter (fun e => match e with Close _ => true | _ => false end) evs = [].
Proof. intros k P evs F. induction F as [|[k' d x|k' b x|k'] evs He F IH]; cbn; [reflexivity|exact IH|exact IH|destruct He]. Qed.
Lemma closes_app : forall k P evs c c', log c' = evs ++ log c -> Forall (writing k P) evs -> closes c' = closes c.
Proof. intros k P evs c c' L F. unfold closes. rewrite L, filter_app, (closes_writing _ _ _ F). reflexivity. Qed.

Lemma auth_closes : forall (E : Env) d cfg c r c', authenticate_or_close d cfg c = Ok (r, c') ->
  (r = None -> closes c' = closes c) /\ (r <> None -> closes c' = S (closes c)).
Proof.
  intros E d cfg c r c' A. destruct (auth_or_close_cases _ _ _ _ _ _ A) as (r1 & c2 & evs2 & A1 & K2 & L2 & F2 & C). pose proof (closes_app _ _ _ _ _ L2 F2) as E2.
  destruct C as [(-> & -> & ->)|[(e & -> & -> & ->)|(m & r2 & c3 & evs3 & -> & Cm & Sc & A3 & L3 & F3 & C)]].
  - split; [auto|contradiction].
  - split; [discriminate|]. intros _. rewrite <- E2. reflexivity.
  - pose proof (closes_app _ _ _ _ _ L3 F3) as E3. destruct C as [(_ & -> & ->)|(e & _ & -> & ->)].
    + split; [congruence|contradiction].
    + split; [discriminate|]. intros _. rewrite <- E2, <- E3. reflexivity.
Qed.

(* What is missing: when the exchange that asks for TLS fails, New returns without closing (C36_leak_refuted). *)
Theorem C36_failure_closes_partial : forall (E : Env) deadline cfg c0 handshake e c,
  log c0 = [] -> connector_new deadline cfg (Some c0) handshake = Ok (Some e, Some c) ->
  (forall rs e1 c1, conn_send word32 deadline (capability_set (s2b "tls") true) c0 <> Ok ((rs, Some e1), c1)) \/ with_tls cfg = false \/ ckind c0 <> Tcp ->
  closes c = 1%nat.
Proof.
  intros E d cfg c0 hs e c L0 H X. assert (Z : closes c0 = 0%nat) by (unfold closes; rewrite L0; reflexivity).
  destruct (new_cases _ _ _ _ _ _ _ H) as (c' & [= <-] & [[T A]|(T & rs & e1 & c1 & evs & S & L & F & C)]).
  - rewrite (proj2 (auth_closes _ _ _ _ _ _ A)) by discriminate. rewrite Z. reflexivity.
  - pose proof (closes_app _ _ _ _ _ L F) as E1. destruct C as [(e' & -> & _ & _)|[(_ & _ & _ & Lc)|(rd & ds & ws & _ & _ & A)]].
    + destruct X as [X|[X|X]]; [destruct (X _ _ _ S)| |]; unfold tls_wanted in T; [rewrite X, andb_false_r in T; discriminate|destruct (ckind c0); try discriminate; contradiction].
    + unfold closes. rewrite Lc. cbn [filter List.length]. fold (closes c1). rewrite E1, Z. reflexivity.
    + rewrite (proj2 (auth_closes _ _ _ _ _ _ A)) by discriminate. change (closes (conn_reset c1 rd ds ws)) with (closes c1). rewrite E1, Z. reflexivity.
Qed.

(* A connection that is returned was never closed, and the server accepted the configured mechanism on it,
   or refused that with error 1045 on a secure connection and accepted PLAIN. *)
Theorem C36_success_open_and_authenticated : forall (E : Env) deadline cfg c0 handshake c,
  log c0 = [] -> connector_new deadline cfg (Some c0) handshake = Ok (None, Some c) ->
  closes c = 0%nat /\ exists c1, at_start cfg c0 handshake c1 /\
    (authenticate word32 deadline (credentials_of cfg) (authentication cfg) c1 = Ok (None, c) \/
     exists e c2, authenticate word32 deadline (credentials_of cfg) (authentication cfg) c1 = Ok (Some (CServer e), c2) /\ code e = 1045 /\
       (ckind c1 = Tls \/ ckind c1 = Unix) /\ authenticate word32 deadline (credentials_of cfg) plain c2 = Ok (None, c)).
Proof.
  intros E d cfg c0 hs c L0 H. assert (Z : closes c0 = 0%nat) by (unfold closes; rewrite L0; reflexivity).
  assert (K : forall c1, closes c1 = 0%nat -> at_start cfg c0 hs c1 -> authenticate_or_close d cfg c1 = Ok (None, c) ->
    closes c = 0%nat /\ exists c1, at_start cfg c0 hs c1 /\
    (authenticate word32 d (credentials_of cfg) (authentication cfg) c1 = Ok (None, c) \/
     exists e c2, authenticate word32 d (credentials_of cfg) (authentication cfg) c1 = Ok (Some (CServer e), c2) /\ code e = 1045 /\
       (ckind c1 = Tls \/ ckind c1 = Unix) /\ authenticate word32 d (credentials_of cfg) plain c2 = Ok (None, c))).
  { intros c1 Hc Hs A. split; [rewrite (proj1 (auth_closes _ _ _ _ _ _ A)) by reflexivity; exact Hc|]. exists c1. split; [exact Hs|].
    destruct (auth_or_close_cases _ _ _ _ _ _ A) as (r1 & c2 & evs2 & A1 & K2 & L2 & F2 & C).
    destruct C as [(-> & _ & ->)|[(e & -> & X & ->)|(m & r2 & c3 & evs3 & -> & Cm & Sc & A3 & L3 & F3 & C)]]; [auto|discriminate|].
    destruct C as [(-> & _ & ->)|(e & _ & X & ->)]; [|discriminate]. right. exists m, c2. pose proof (secure_kind _ Sc). auto. }
  destruct (new_cases _ _ _ _ _ _ _ H) as (c' & [= <-] & [[T A]|(T & rs & e1 & c1 & evs & S & L & F & C)]); [apply (K c0 Z); [unfold at_start; rewrite T; reflexivity|exact A]|].
  pose proof (closes_app _ _ _ _ _ L F) as E1. destruct C as [(e' & _ & X & _)|[(_ & _ & X & _)|(rd & ds & ws & _ & Eh & A)]]; try discriminate.
  refine (K _ _ _ A); [change (closes (conn_reset c1 rd ds ws)) with (closes c1); lia|]. unfold at_start. rewrite T. exists rd, ds, ws. repeat split; auto.
Qed.

Lemma authenticate_reads : forall w32 d creds m c r c', mechanism_ok m creds -> is_bytes (unread c) -> authenticate w32 d creds m c = Ok (r, c') ->
  exists u, unread c = u ++ unread c'.
Proof.
  intros w32 d creds m c r c' [(q & S1 & S2) Hk] Hb H. unfold authenticate in H. rewrite S1 in H. cbn [bind] in H.
  destruct (write_one w32 d (frame (4, q)) c) as [[a c1]|] eqn:W; cbn [bind] in H; [|discriminate].
  destruct (write_one_back _ _ _ _ _ _ _ Hb W) as (u & U1 & _).
  assert (D : forall x, Ok (x, c1) = Ok (r, c') -> exists u, unread c = u ++ unread c') by (intros x Hx; injection Hx as _ <-; eauto).
  destruct (snd a) as [e|] eqn:Ea; [|exact (D _ H)]. destruct e as [| | | | | | |dd| | |]; try exact (D _ H).
  destruct (continue m) as [k|] eqn:Ek; [|exact (D _ H)]. destruct (Hk k dd eq_refl) as (q2 & K1 & K2). rewrite K1 in H. cbn [bind] in H.
  destruct (write_one w32 d (frame (5, q2)) c1) as [[a2 c2]|] eqn:W2; cbn [bind] in H; [|discriminate]. injection H as _ <-.
  assert (Hb1 : is_bytes (unread c1)) by (rewrite U1 in Hb; apply Forall_app in Hb; apply Hb).
  destruct (write_one_back _ _ _ _ _ _ _ Hb1 W2) as (u2 & U2 & _). exists (u ++ u2). rewrite U1, U2, app_assoc. reflexivity.
Qed.

(* All mechanisms of the package build well-formed messages. *)
Lemma mysql41_ok : forall (E : Env) sha1 left c, digests sha1 20 -> creds_ok c -> mechanism_ok (mysql41 sha1 left) c.
Proof.
  intros E sha1 left c H Hc. split; cbn [start continue mysql41].
  - destruct (C32_mysql41_start E (mk [] (repeat 0 128)) c) as (bs & A & (pl & B & _ & C)). rewrite A, B. eauto.
  - intros k d [= <-]. destruct (C32_mysql41_response E sha1 (mk [] left) c d H Hc) as (bs & A & (pl & B & _ & C)). rewrite A, B. eauto.
Qed.
Lemma sha256_ok : forall (E : Env) sha256 left c, digests sha256 32 -> creds_ok c -> mechanism_ok (sha256_memory sha256 left) c.
Proof.
  intros E sha1 left c H Hc. split; cbn [start continue sha256_memory].
  - destruct (C33_sha256_start E (mk [] (repeat 0 128)) c) as (bs & A & (pl & B & _ & C)). rewrite A, B. eauto.
  - intros k d [= <-]. destruct (C33_sha256_response E sha1 (mk [] left) c d H Hc) as (bs & A & (pl & B & _ & C)). rewrite A, B. eauto.
Qed.
Lemma plain_ok : forall (E : Env) c, creds_ok c -> mechanism_ok plain c.
Proof.
  intros E c Hc. split; cbn [start continue plain]; [|discriminate]. destruct (C34_plain_start E (mk [] (repeat 0 128)) c Hc) as (bs & A & (pl & B & _ & C)). rewrite A, B. eauto.
Qed.

(* The server confirmed it: its last reply was a success. The replies are those on the plain text side
   of TLS if TLS is used. *)
Definition received (cfg : config) (c0 : conn) (handshake : tls_session) : bytes :=
  match handshake with
  | Some (r, _, _) => if tls_wanted cfg c0 then held r ++ concat (inbound r) else unread c0
  | None => unread c0
  end.
Theorem C36_success_confirmed_by_server : forall (E : Env) deadline cfg c0 handshake c,
  log c0 = [] -> mechanism_ok (authentication cfg) (credentials_of cfg) -> creds_ok (credentials_of cfg) ->
  is_bytes (received cfg c0 handshake) ->
  connector_new deadline cfg (Some c0) handshake = Ok (None, Some c) ->
  exists before p, received cfg c0 handshake = before ++ reply_bytes p ++ unread c /\ answers word32 p None.
Proof.
  intros E d cfg c0 hs c L0 Hm Hc Hb H. pose proof (plain_ok E _ Hc) as Hp.
  assert (K : forall c1, is_bytes (unread c1) -> authenticate_or_close d cfg c1 = Ok (None, c) -> exists before p, unread c1 = before ++ reply_bytes p ++ unread c /\ answers word32 p None).
  { intros c1 Hb1 A. destruct (auth_or_close_cases _ _ _ _ _ _ A) as (r1 & c2 & evs2 & A1 & K2 & L2 & F2 & C).
    destruct C as [(-> & _ & ->)|[(e & -> & X & ->)|(m & r2 & c3 & evs3 & -> & Cm & Sc & A3 & L3 & F3 & C)]]; [exact (C49_success_means_ok _ _ _ _ _ _ Hm Hb1 A1)|discriminate|].
    destruct C as [(-> & _ & ->)|(e & _ & X & ->)]; [|discriminate]. destruct (authenticate_reads _ _ _ _ _ _ _ Hm Hb1 A1) as (u & U).
    assert (Hb2 : is_bytes (unread c2)) by (rewrite U in Hb1; apply Forall_app in Hb1; apply Hb1).
    destruct (C49_success_means_ok _ _ _ _ _ _ Hp Hb2 A3) as (before & p & P1 & P2). exists (u ++ before), p. rewrite U, P1, app_assoc. auto. }
  destruct (new_cases _ _ _ _ _ _ _ H) as (c' & [= <-] & [[T A]|(T & rs & e1 & c1 & evs & S & L & F & C)]).
  - assert (R : received cfg c0 hs = unread c0) by (unfold received; rewrite T; destruct hs as [[[? ?] ?]|]; reflexivity).
    rewrite R in Hb |- *. exact (K c0 Hb A).
  - destruct C as [(e' & _ & X & _)|[(_ & _ & X & _)|(rd & ds & ws & _ & -> & A)]]; try discriminate.
    assert (R : received cfg c0 (Some (rd, ds, ws)) = unread (conn_reset c1 rd ds ws)) by (unfold received; rewrite T; reflexivity).
    rewrite R in Hb |- *. exact (K _ Hb A).
Qed.

(* The leak: TLS is wanted, the write of the request for it fails, and the connection stays open. *)
Definition no_hash (n : nat) (_ : bytes) : bytes := repeat 0 n.
Theorem C36_leak_refuted : exists (E : Env) deadline cfg c0 handshake e c,
  log c0 = [] /\ connector_new deadline cfg (Some c0) handshake = Ok (Some e, Some c) /\ closes c = 0%nat.
Proof.
  exists ThmBuilder.plain, None, {| with_tls := true; authentication := mysql41 (E := ThmBuilder.plain) (no_hash 20) []; credentials_of := me |},
    (mkc Tcp (mkr [] [] IoEOF) [] [Some (IoOther 1)] []), None.
  eexists _, _. split; [reflexivity|]. split; [vm_compute; reflexivity|]. reflexivity.
Qed.

(* Every such failure leaks, whatever its cause, also when the server answers the request for TLS with a fatal error. *)
Theorem C36_leaks_whenever_tls_request_fails : forall (E : Env) deadline cfg c0 handshake rs e c1,
  log c0 = [] -> with_tls cfg = true -> ckind c0 = Tcp ->
  conn_send word32 deadline (capability_set (s2b "tls") true) c0 = Ok ((rs, Some e), c1) ->
  connector_new deadline cfg (Some c0) handshake = Ok (Some (NConn e), Some c1) /\ closes c1 = 0%nat.
Proof.
  intros E d cfg c0 hs rs e c1 L0 Ht Hk S. unfold connector_new. rewrite Hk, Ht. cbn [andb]. rewrite S. cbn [bind snd]. split; [reflexivity|].
  destruct (send_log _ _ _ _ _ _ S) as (evs & L & F). rewrite (closes_app _ _ _ _ _ L F). unfold closes. rewrite L0. reflexivity.
Qed.

(* ---- C55: what was received before TLS is not used inside ---- *)

(* Whatever follows the reply to the request for TLS in the clear, and however it was segmented,
   the result and the connection are the same. *)
Theorem C55_plaintext_not_carried_into_tls : forall (E : Env) deadline cfg a b p r rest1 rest2 handshake,
  with_tls cfg = true -> ckind a = Tcp -> ckind b = Tcp -> can_write a -> can_write b -> log a = log b ->
  answers word32 p r -> ~ stops 2 r -> handshake <> None ->
  unread a = reply_bytes p ++ rest1 -> unread b = reply_bytes p ++ rest2 ->
  connector_new deadline cfg (Some a) handshake = connector_new deadline cfg (Some b) handshake.
Proof.
  intros E d cfg a b p r rest1 rest2 hs Ht Ka Kb Wa Wb Hl Ha Hs Hh Ua Ub.
  assert (G : forall c rest, ckind c = Tcp -> can_write c -> unread c = reply_bytes p ++ rest -> exists c',
    conn_send word32 d (capability_set (s2b "tls") true) c = Ok (([r], None), c') /\ log c' = sent Tcp d (capability_set (s2b "tls") true) ++ log c).
  { intros c rest K W U. destruct (C50_capability_set (s2b "tls") true) as (pl & P1 & _ & P3); [split; [repeat constructor|reflexivity]|reflexivity|].
    destruct (send_spec word32 d [(2, pl)] c) as (c' & S1 & _ & _ & _ & S5 & _); [constructor; [exact P3|constructor]|exact W|]. cbn zeta in S1.
    cbn [map concat fst] in S1, S5. rewrite app_nil_r, <- P1, K in S5. rewrite app_nil_r, <- P1 in S1. exists c'. split; [|exact S5].
    rewrite S1, U. cbn [areads]. rewrite (aread_reply _ _ _ _ _ _ Ha). cbn [snd fst].
    assert (O : outcome 2 r = None) by (destruct r as [e|]; [cbn [outcome]; destruct (stops_dec 2 (Some e)); [contradiction|reflexivity]|reflexivity]). rewrite O. reflexivity. }
  destruct (G a rest1 Ka Wa Ua) as (a' & A1 & A2). destruct (G b rest2 Kb Wb Ub) as (b' & B1 & B2).
  unfold connector_new. rewrite Ka, Kb, Ht. cbn [andb]. rewrite A1, B1. cbn [bind snd]. destruct hs as [[[rd ds] ws]|]; [|contradiction].
  unfold conn_reset. rewrite A2, B2, Hl. reflexivity.
Qed.

(* ---- C56: connecting, end to end ---- *)

(* TCP with TLS and MYSQL41: the server agrees to TLS, sends a challenge, and accepts. *)
Theorem C56_connects_over_tls : forall (E : Env) sha1 left deadline creds c0 pt rt rest0 r ds ws pc challenge pok rest,
  digests sha1 20 -> creds_ok creds ->
  ckind c0 = Tcp -> log c0 = [] -> can_write c0 -> answers word32 pt rt -> ~ stops 2 rt -> unread c0 = reply_bytes pt ++ rest0 ->
  let inside := mkc Tls r ds ws [] in
  can_write_twice inside -> challenges word32 pc challenge -> answers word32 pok None ->
  unread inside = reply_bytes pc ++ reply_bytes pok ++ rest ->
  exists c b1 b2, connector_new deadline {| with_tls := true; authentication := mysql41 sha1 left; credentials_of := creds |} (Some c0) (Some (r, ds, ws)) = Ok (None, Some c) /\
    unread c = rest /\ ckind c = Tls /\
    log c = sent Tls deadline b2 ++ sent Tls deadline b1 ++ sent Tcp deadline (capability_set (s2b "tls") true) /\
    one_message b1 4 (MAuthStart (s2b "MYSQL41") None) /\
    one_message b2 5 (MAuthContinue (database creds ++ [0] ++ user_name creds ++ [0] ++ mysql41_proof sha1 (password creds) challenge)).
Proof.
  intros E sha1 left d creds c0 pt rt rest0 r ds ws pc ch pok rest Hd Hc K0 L0 W0 At St U0 inside Wi Ac Ao Ui.
  destruct (C50_capability_set (s2b "tls") true) as (pl & P1 & _ & P3); [split; [repeat constructor|reflexivity]|reflexivity|].
  destruct (send_spec word32 d [(2, pl)] c0) as (c' & S1 & _ & _ & _ & S5 & _); [constructor; [exact P3|constructor]|exact W0|]. cbn zeta in S1.
  cbn [map concat fst] in S1, S5. rewrite app_nil_r, <- P1, K0, L0 in S5. rewrite app_nil_r, <- P1 in S1.
  rewrite U0 in S1. cbn [areads] in S1. rewrite (aread_reply _ _ _ _ _ _ At) in S1. cbn [snd fst] in S1.
  assert (O : outcome 2 rt = None) by (destruct rt as [e|]; [cbn [outcome]; destruct (stops_dec 2 (Some e)); [contradiction|reflexivity]|reflexivity]). rewrite O in S1. cbn [fst snd] in S1.
  pose proof (mysql41_ok E sha1 left creds Hd Hc) as Hm.
  destruct (C32_mysql41_start E (mk [] (repeat 0 128)) creds) as (b1 & B1 & B2). destruct (C32_mysql41_response E sha1 (mk [] left) creds ch Hd Hc) as (b2 & B3 & B4).
  destruct (C49_challenged word32 d creds (mysql41 sha1 left) _ (conn_reset c' r ds ws) b1 b2 pc ch pok None rest Hm B1 eq_refl B3 Wi Ac Ao Ui) as (c & A1 & A2 & A3).
  exists c, b1, b2. unfold connector_new. cbn [with_tls]. rewrite K0. cbn [andb]. rewrite S1. cbn [bind snd]. unfold authenticate_or_close. cbn [credentials_of authentication].
  rewrite A1. cbn [bind]. split; [reflexivity|]. split; [exact A3|]. split; [exact (proj1 (authenticate_log _ _ _ _ _ _ _ A1))|]. split; [|auto].
  rewrite A2. cbn [conn_reset ckind log]. rewrite S5, app_nil_r. reflexivity.
Qed.

(* All writes and deadlines succeed. *)
Definition writable (c : conn) : Prop := Forall (eq None) (deadlines c) /\ Forall (eq None) (writes c).
Lemma next_none : forall l, Forall (eq None) l -> fst (next_result l) = None /\ Forall (eq None) (snd (next_result l)).
Proof. intros l H. destruct H; cbn; auto. Qed.
Lemma writable_can : forall c, writable c -> can_write_twice c.
Proof.
  intros c [H1 H2]. destruct (next_none _ H1) as [A1 A2]. destruct (next_none _ H2) as [B1 B2]. repeat split; auto; [apply (next_none _ A2)|apply (next_none _ B2)]. Qed.
Lemma write_one_writable : forall w32 d b c r c', write_one w32 d b c = Ok (r, c') -> writable c -> writable c'.
Proof.
  intros w32 d b c r c' H [H1 H2]. unfold write_one, set_deadline in H. destruct (next_none _ H1) as [A1 A2]. destruct (next_none _ H2) as [B1 B2].
  destruct (next_result (deadlines c)) as [x l]. cbn [fst snd] in *. subst x. unfold write in H. cbn [writes rd ckind deadlines log] in H.
  destruct (next_result (writes c)) as [x l']. cbn [fst snd] in *. subst x. destruct (nth_error b 4) as [ct|]; [|discriminate].
  match type of H with Ok (c_read w32 ct ?c1) = _ => destruct (c_read_spec w32 ct c1) as (c2 & A & _ & _ & K & D & W & L); rewrite A in H end.
  injection H as <- <-. cbn [deadlines writes] in *. unfold writable. rewrite D, W. auto.
Qed.
Lemma authenticate_writable : forall w32 d creds m c r c', authenticate w32 d creds m c = Ok (r, c') -> writable c -> writable c'.
Proof.
  intros w32 d creds m c r c' H Hw. unfold authenticate in H. destruct (start m creds) as [b|] eqn:Hs; [|discriminate]. cbn [bind] in H.
  destruct (write_one w32 d b c) as [[a c1]|] eqn:W; [|discriminate]. cbn [bind] in H. pose proof (write_one_writable _ _ _ _ _ _ W Hw) as Hw1.
  assert (D : forall x, Ok (x, c1) = Ok (r, c') -> writable c') by (intros x Hx; injection Hx as _ <-; exact Hw1).
  destruct (snd a) as [e|]; [|exact (D _ H)]. destruct e as [| | | | | | |dd| | |]; try exact (D _ H).
  destruct (continue m) as [k|] eqn:Ek; [|exact (D _ H)].
  destruct (k creds dd) as [b2|] eqn:E2; [|discriminate]. cbn [bind] in H. destruct (write_one w32 d b2 c1) as [[a2 c2]|] eqn:W2; [|discriminate]. cbn [bind] in H.
  injection H as _ <-. exact (write_one_writable _ _ _ _ _ _ W2 Hw1).
Qed.

(* A unix socket and SHA256_MEMORY: the server has the password's hash in its cache and accepts; or it has not,
   denies access, and accepts the password sent as PLAIN. *)
Theorem C56_connects_over_unix_socket : forall (E : Env) sha256 left deadline creds c0 pc challenge pok rest,
  digests sha256 32 -> creds_ok creds -> ckind c0 = Unix -> log c0 = [] -> writable c0 ->
  challenges word32 pc challenge -> answers word32 pok None -> unread c0 = reply_bytes pc ++ reply_bytes pok ++ rest ->
  forall tls handshake, exists c b1 b2,
    connector_new deadline {| with_tls := tls; authentication := sha256_memory sha256 left; credentials_of := creds |} (Some c0) handshake = Ok (None, Some c) /\
    unread c = rest /\ ckind c = Unix /\ log c = sent Unix deadline b2 ++ sent Unix deadline b1 /\
    one_message b1 4 (MAuthStart (s2b "SHA256_MEMORY") None) /\
    one_message b2 5 (MAuthContinue (database creds ++ [0] ++ user_name creds ++ [0] ++ sha256_proof sha256 (password creds) challenge)).
Proof.
  intros E sha left d creds c0 pc ch pok rest Hd Hc K0 L0 W0 Ac Ao Ui tls hs. pose proof (sha256_ok E sha left creds Hd Hc) as Hm.
  destruct (C33_sha256_start E (mk [] (repeat 0 128)) creds) as (b1 & B1 & B2). destruct (C33_sha256_response E sha (mk [] left) creds ch Hd Hc) as (b2 & B3 & B4).
  destruct (C49_challenged word32 d creds (sha256_memory sha left) _ c0 b1 b2 pc ch pok None rest Hm B1 eq_refl B3 (writable_can _ W0) Ac Ao Ui) as (c & A1 & A2 & A3).
  exists c, b1, b2. unfold connector_new. rewrite K0. cbn [andb]. unfold authenticate_or_close. cbn [credentials_of authentication]. rewrite A1. cbn [bind].
  split; [reflexivity|]. split; [exact A3|]. split; [rewrite (proj1 (authenticate_log _ _ _ _ _ _ _ A1)); exact K0|]. split; [|auto]. rewrite A2, L0, K0, app_nil_r. reflexivity.
Qed.

Theorem C56_falls_back_over_unix_socket : forall (E : Env) sha256 left deadline creds c0 pc challenge pe e pok rest,
  digests sha256 32 -> creds_ok creds -> ckind c0 = Unix -> log c0 = [] -> writable c0 ->
  challenges word32 pc challenge -> answers word32 pe (Some e) -> code e = 1045 -> answers word32 pok None ->
  unread c0 = reply_bytes pc ++ reply_bytes pe ++ reply_bytes pok ++ rest ->
  forall tls handshake, exists c b1 b2 b3,
    connector_new deadline {| with_tls := tls; authentication := sha256_memory sha256 left; credentials_of := creds |} (Some c0) handshake = Ok (None, Some c) /\
    unread c = rest /\ log c = sent Unix deadline b3 ++ sent Unix deadline b2 ++ sent Unix deadline b1 /\
    one_message b1 4 (MAuthStart (s2b "SHA256_MEMORY") None) /\
    one_message b2 5 (MAuthContinue (database creds ++ [0] ++ user_name creds ++ [0] ++ sha256_proof sha256 (password creds) challenge)) /\
    one_message b3 4 (MAuthStart (s2b "PLAIN") (Some (database creds ++ [0] ++ user_name creds ++ [0] ++ password creds))).
Proof.
  intros E sha left d creds c0 pc ch pe e pok rest Hd Hc K0 L0 W0 Ac Ae Ce Ao Ui tls hs. pose proof (sha256_ok E sha left creds Hd Hc) as Hm.
  destruct (C33_sha256_start E (mk [] (repeat 0 128)) creds) as (b1 & B1 & B2). destruct (C33_sha256_response E sha (mk [] left) creds ch Hd Hc) as (b2 & B3 & B4).
  destruct (C49_challenged word32 d creds (sha256_memory sha left) _ c0 b1 b2 pc ch pe (Some e) (reply_bytes pok ++ rest) Hm B1 eq_refl B3 (writable_can _ W0) Ac Ae Ui) as (c1 & A1 & A2 & A3).
  pose proof (authenticate_writable _ _ _ _ _ _ _ A1 W0) as W1. pose proof (proj1 (authenticate_log _ _ _ _ _ _ _ A1)) as K1. rewrite K0 in K1.
  destruct (C34_plain_start E (mk [] (repeat 0 128)) creds Hc) as (b3 & B5 & B6).
  destruct (C49_unchallenged word32 d creds plain c1 b3 pok None rest (plain_ok E creds Hc) B5 (proj1 (writable_can _ W1)) Ao A3) as (c & A4 & A5 & A6).
  exists c, b1, b2, b3. unfold connector_new. rewrite K0. cbn [andb]. unfold authenticate_or_close. cbn [credentials_of authentication]. rewrite A1. cbn [bind].
  replace (code e =? ErAccessDeniedError) with true by (rewrite Ce; reflexivity). replace (is_secure c1) with true by (unfold is_secure; rewrite K1; reflexivity). cbn [andb].
  rewrite A4. cbn [bind]. split; [reflexivity|]. split; [exact A6|]. split; [|auto]. rewrite A5, A2, L0, K0, K1, app_nil_r. reflexivity.
Qed.

(* On TCP without TLS the same denial is returned as the error: the password is not sent, and the connection is closed. *)
Theorem C56_no_fallback_in_the_clear : forall (E : Env) sha256 left deadline creds c0 pc challenge pe e rest handshake,
  digests sha256 32 -> creds_ok creds -> ckind c0 = Tcp -> log c0 = [] -> writable c0 ->
  challenges word32 pc challenge -> answers word32 pe (Some e) -> unread c0 = reply_bytes pc ++ reply_bytes pe ++ rest ->
  exists c b1 b2,
    connector_new deadline {| with_tls := false; authentication := sha256_memory sha256 left; credentials_of := creds |} (Some c0) handshake = Ok (Some (NConn (CServer e)), Some c) /\
    log c = Close Tcp :: sent Tcp deadline b2 ++ sent Tcp deadline b1 /\
    one_message b1 4 (MAuthStart (s2b "SHA256_MEMORY") None) /\
    one_message b2 5 (MAuthContinue (database creds ++ [0] ++ user_name creds ++ [0] ++ sha256_proof sha256 (password creds) challenge)).
Proof.
  intros E sha left d creds c0 pc ch pe e rest hs Hd Hc K0 L0 W0 Ac Ae Ui. pose proof (sha256_ok E sha left creds Hd Hc) as Hm.
  destruct (C33_sha256_start E (mk [] (repeat 0 128)) creds) as (b1 & B1 & B2). destruct (C33_sha256_response E sha (mk [] left) creds ch Hd Hc) as (b2 & B3 & B4).
  destruct (C49_challenged word32 d creds (sha256_memory sha left) _ c0 b1 b2 pc ch pe (Some e) rest Hm B1 eq_refl B3 (writable_can _ W0) Ac Ae Ui) as (c1 & A1 & A2 & A3).
  pose proof (proj1 (authenticate_log _ _ _ _ _ _ _ A1)) as K1. rewrite K0 in K1.
  exists (close c1), b1, b2. unfold connector_new. rewrite K0. cbn [andb with_tls]. unfold authenticate_or_close. cbn [credentials_of authentication]. rewrite A1. cbn [bind].
  replace (is_secure c1) with false by (unfold is_secure; rewrite K1; reflexivity). rewrite Bool.andb_false_r. cbn [bind]. split; [reflexivity|].
  split; [|auto]. unfold close. cbn [log]. rewrite A2, L0, K0, K1, app_nil_r. reflexivity.
Qed.

(* ---- C48, while connecting: every write directly follows setting the context's deadline ---- *)

Inductive paced (deadline : option N) : list event -> Prop :=
| P_none : paced deadline []
| P_refused k e l : paced deadline l -> paced deadline (SetDeadline k deadline (Some e) :: l)
| P_write k b o l : paced deadline l -> paced deadline (Write k b o :: SetDeadline k deadline None :: l)
| P_close k l : paced deadline l -> paced deadline (Close k :: l).

Lemma write_one_paced : forall w32 d b c r c', write_one w32 d b c = Ok (r, c') -> paced d (log c) -> paced d (log c').
Proof.
  intros w32 d b c r c' H P. unfold write_one, set_deadline in H. destruct (next_result (deadlines c)) as [[e|] l].
  - injection H as <- <-. constructor. exact P.
  - unfold write in H. cbn [writes rd ckind deadlines log] in H. destruct (next_result (writes c)) as [[e|] l'].
    + injection H as <- <-. constructor. exact P.
    + destruct (nth_error b 4) as [ct|]; [|discriminate].
      match type of H with Ok (c_read w32 ct ?c1) = _ => destruct (c_read_spec w32 ct c1) as (c2 & A & _ & _ & _ & _ & _ & L); rewrite A in H end.
      injection H as <- <-. cbn [log] in L. rewrite L. constructor. exact P.
Qed.
Lemma authenticate_paced : forall w32 d creds m c r c', authenticate w32 d creds m c = Ok (r, c') -> paced d (log c) -> paced d (log c').
Proof.
  intros w32 d creds m c r c' H Hw. unfold authenticate in H. destruct (start m creds) as [b|] eqn:Hs; [|discriminate]. cbn [bind] in H.
  destruct (write_one w32 d b c) as [[a c1]|] eqn:W; [|discriminate]. cbn [bind] in H. pose proof (write_one_paced _ _ _ _ _ _ W Hw) as Hw1.
  assert (D : forall x, Ok (x, c1) = Ok (r, c') -> paced d (log c')) by (intros x Hx; injection Hx as _ <-; exact Hw1).
  destruct (snd a) as [e|]; [|exact (D _ H)]. destruct e as [| | | | | | |dd| | |]; try exact (D _ H).
  destruct (continue m) as [k|] eqn:Ek; [|exact (D _ H)].
  destruct (k creds dd) as [b2|] eqn:E2; [|discriminate]. cbn [bind] in H. destruct (write_one w32 d b2 c1) as [[a2 c2]|] eqn:W2; [|discriminate]. cbn [bind] in H.
  injection H as _ <-. exact (write_one_paced _ _ _ _ _ _ W2 Hw1).
Qed.
Lemma auth_or_close_paced : forall (E : Env) d cfg c r c', authenticate_or_close d cfg c = Ok (r, c') -> paced d (log c) -> paced d (log c').
Proof.
  intros E d cfg c r c' H P. destruct (auth_or_close_cases _ _ _ _ _ _ H) as (r1 & c1 & evs & A & _ & _ & _ & C). pose proof (authenticate_paced _ _ _ _ _ _ _ A P) as P1.
  destruct C as [(_ & _ & ->)|[(e & _ & _ & ->)|(m & r2 & c2 & evs2 & _ & _ & _ & A2 & _ & _ & C)]]; [exact P1|constructor; exact P1|].
  pose proof (authenticate_paced _ _ _ _ _ _ _ A2 P1) as P2. destruct C as [(_ & _ & ->)|(e & _ & _ & ->)]; [exact P2|constructor; exact P2].
Qed.

Theorem C48_deadline_while_connecting : forall (E : Env) deadline cfg c0 handshake r c,
  log c0 = [] -> connector_new deadline cfg (Some c0) handshake = Ok (r, Some c) -> paced deadline (log c).
Proof.
  intros E d cfg c0 hs r c L0 H. assert (P0 : paced d (log c0)) by (rewrite L0; constructor).
  destruct (new_cases _ _ _ _ _ _ _ H) as (c' & [= <-] & [[T A]|(T & rs & e1 & c1 & evs & S & _ & _ & C)]); [exact (auth_or_close_paced _ _ _ _ _ _ A P0)|].
  assert (P1 : paced d (log c1)).
  { destruct (C48_one_write_after_deadline _ _ _ _ _ _ S) as [(e & -> & _)|(o & -> & _)]; constructor; exact P0. }
  destruct C as [(e & _ & _ & ->)|[(_ & _ & _ & ->)|(rd & ds & ws & _ & _ & A)]]; [exact P1|constructor; exact P1|].
  exact (auth_or_close_paced _ _ _ _ _ _ A P1).
Qed.

(* A concrete run: a server that agrees to TLS, challenges with "nonce", and accepts. *)
Definition run_config : config := {| with_tls := true; authentication := mysql41 (E := ThmBuilder.plain) (toy 20) []; credentials_of := me |}.
Example run_succeeds : exists c, connector_new (E := ThmBuilder.plain) None run_config (Some (mkc Tcp (mkr [] [frame (0, [])] IoEOF) [] [] []))
    (Some (mkr [] [frame (3, 10 :: 5 :: s2b "nonce"); frame (4, [])] IoEOF, [], [])) = Ok (None, Some c) /\ ckind c = Tls /\ List.length (log c) = 6%nat.
Proof. eexists. split; [vm_compute; reflexivity|]. split; reflexivity. Qed.
(* Access denied over TLS: the fallback is used. *)
Definition denied : server_error := mkse 0 1045 (s2b "28000") (s2b "Access denied").
Example run_falls_back : exists c, connector_new (E := ThmBuilder.plain) None run_config (Some (mkc Tcp (mkr [] [frame (0, [])] IoEOF) [] [] []))
    (Some (mkr [] [frame (3, 10 :: 5 :: s2b "nonce"); frame (1, error_bytes denied); frame (4, [])] IoEOF, [], [])) = Ok (None, Some c) /\ List.length (log c) = 8%nat /\
  exists b, In (Write Tls b None) (log c) /\ dstream b = Some [MAuthStart (s2b "PLAIN") (Some (s2b "test" ++ [0] ++ s2b "me" ++ [0] ++ s2b "pw"))].
Proof. eexists. split; [vm_compute; reflexivity|]. split; [reflexivity|]. eexists. split; [left; reflexivity|]. vm_compute. reflexivity. Qed.
(* The same on a unix socket. *)
Definition unix_config : config := {| with_tls := true; authentication := sha256_memory (E := ThmBuilder.plain) (toy 32) []; credentials_of := me |}.
Example run_unix : exists c, connector_new (E := ThmBuilder.plain) (Some 3) unix_config
    (Some (mkc Unix (mkr [] [frame (3, 10 :: 5 :: s2b "nonce"); frame (1, error_bytes denied); frame (4, [])] IoEOF) [] [] [])) None = Ok (None, Some c) /\ List.length (log c) = 6%nat /\ paced (Some 3) (log c).
Proof. eexists. split; [vm_compute; reflexivity|]. split; [reflexivity|]. repeat constructor. Qed.
(* Without TLS it is not, and the connection is closed. *)
Example run_fails : exists c, connector_new (E := ThmBuilder.plain) None {| with_tls := false; authentication := authentication run_config; credentials_of := me |}
    (Some (mkc Tcp (mkr [] [frame (3, 10 :: 5 :: s2b "nonce"); frame (1, error_bytes denied); frame (4, [])] IoEOF) [] [] [])) None = Ok (Some (NConn (CServer denied)), Some c) /\ closes c = 1%nat /\ List.length (log c) = 5%nat.
Proof. eexists. split; [vm_compute; reflexivity|]. split; reflexivity. Qed.

Print Assumptions C35_plain_only_as_fallback.
Print Assumptions C35_challenge_response_never_plain.
Print Assumptions C35_nothing_before_tls.
Print Assumptions C36_failure_closes_partial.
Print Assumptions C36_success_open_and_authenticated.
Print Assumptions C36_success_confirmed_by_server.
Print Assumptions C36_leak_refuted.
Print Assumptions C36_leaks_whenever_tls_request_fails.
Print Assumptions C55_plaintext_not_carried_into_tls.
Print Assumptions C56_connects_over_tls.
Print Assumptions C56_connects_over_unix_socket.
Print Assumptions C56_falls_back_over_unix_socket.
Print Assumptions C56_no_fallback_in_the_clear.
Print Assumptions C48_deadline_while_connecting.
