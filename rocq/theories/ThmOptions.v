(* C69: the options of a connector. C70: the text of an error. *)
From Coq Require Import String List NArith ZArith Arith Bool Lia ZifyN ZifyNat ZifyBool.
From Coq Require Import List.
From Verif Require Import Base GoSlice Text SpecValue TextProofs Conn AuthModel Connector Options.
From Verif Require SpecMsg ThmSession ThmConnector ThmBuilder.
Import ListNotations.
Open Scope N_scope.
Open Scope list_scope.

(* ---- C69 ---- *)

Section C69.
Context {T E : Type}.

(* The last thing the options say about something, or else d. *)
Definition last_of {A} (says : opt T E -> option A) (os : list (opt T E)) (d : A) : A :=
  match flat_map (fun o => match says o with Some a => [a] | None => [] end) os with
  | [] => d
  | l => last l d
  end.

Definition database_of (o : opt T E) := match o with WithDatabase d => Some d | _ => None end.
Definition mechanism_of (o : opt T E) := match o with WithAuthentication a => Some a | _ => None end.
Definition account_of (o : opt T E) := match o with WithUserPassword u p => Some (u, p) | _ => None end.
Definition tls_of (o : opt T E) := match o with WithTLSConfig t => Some t | _ => None end.
Definition error_of (o : opt T E) := match o with Other (Some e) => Some e | _ => None end.

Lemma last_of_cons : forall A (says : opt T E -> option A) o os d, last_of says (o :: os) d = last_of says os (match says o with Some a => a | None => d end).
Proof.
  intros A says o os d. unfold last_of. cbn [flat_map]. destruct (says o) as [a|]; [|reflexivity]. cbn [app].
  destruct (flat_map _ os) as [|x l]; [reflexivity|]. cbn [last]. clear. revert x. induction l as [|y l IH]; intros x; [reflexivity|]. exact (IH y).
Qed.

Lemma apply_all_spec : forall os (c : connector T), (forall o, In o os -> error_of o = None) ->
  @apply_all T E os c = inl (mkcn (c_network c) (c_address c) (last_of tls_of os (c_tls c)) (last_of mechanism_of os (c_auth c))
    (fst (last_of account_of os (c_user c, c_password c))) (snd (last_of account_of os (c_user c, c_password c))) (last_of database_of os (c_database c))).
Proof.
  induction os as [|o os IH]; intros c Ho; [destruct c; reflexivity|]. cbn [apply_all]. rewrite !last_of_cons.
  assert (Ho' : forall o, In o os -> error_of o = None) by (intros; apply Ho; right; assumption). pose proof (Ho o (or_introl eq_refl)) as He.
  destruct o as [d|a|u p|t|[e|]]; cbn [apply]; try (rewrite (IH _ Ho'); reflexivity). discriminate He.
Qed.

(* C69: what the connector uses is what the last option of each kind says, else the defaults: no TLS, MYSQL41, and empty
   names. In particular the user name and the password are those of one and the same option. *)
Theorem C69_last_option_counts : forall mysql41 network address (os : list (opt T E)),
  (forall o, In o os -> error_of o = None) ->
  exists c, new_connector mysql41 network address os = inl c /\ c_network c = network /\ c_address c = address /\
    c_tls c = last_of tls_of os None /\ c_auth c = last_of mechanism_of os mysql41 /\
    (c_user c, c_password c) = last_of account_of os ([], []) /\ c_database c = last_of database_of os [].
Proof.
  intros m n a os Ho. unfold new_connector. rewrite (apply_all_spec os _ Ho). eexists. split; [reflexivity|]. cbn [c_network c_address c_tls c_auth c_user c_password c_database].
  rewrite <- surjective_pairing. repeat split.
Qed.

(* C69: the order of options of different kinds does not matter. *)
Definition kind_of (o : opt T E) : nat :=
  match o with WithDatabase _ => 0%nat | WithAuthentication _ => 1%nat | WithUserPassword _ _ => 2%nat | WithTLSConfig _ => 3%nat | Other _ => 4%nat end.
Theorem C69_order_of_kinds_is_free : forall mysql41 network address (before after : list (opt T E)) o1 o2, kind_of o1 <> kind_of o2 ->
  new_connector mysql41 network address (before ++ o1 :: o2 :: after) = new_connector mysql41 network address (before ++ o2 :: o1 :: after).
Proof.
  intros m n a before after o1 o2 Hk. unfold new_connector. generalize (mkcn (tls_config := T) n a None m [] [] []). induction before as [|o before IH]; intros c.
  - cbn [app apply_all]. destruct o1 as [| | | |[|]], o2 as [| | | |[|]]; cbn in Hk; try (exfalso; lia); reflexivity.
  - cbn [app apply_all]. destruct (apply o c) as [c'|]; [apply IH|reflexivity].
Qed.

(* C69: New fails exactly if an option fails, with the error of the first that does. *)
Theorem C69_first_failure_is_returned : forall mysql41 network address (os : list (opt T E)) e,
  new_connector mysql41 network address os = inr e <->
  exists before after, os = before ++ Other (Some e) :: after /\ forall o, In o before -> error_of o = None.
Proof.
  intros m n a os e. unfold new_connector. generalize (mkcn (tls_config := T) n a None m [] [] []). induction os as [|o os IH]; intros c; cbn [apply_all].
  - split; [discriminate|]. intros ([|? ?] & ? & H & _); discriminate.
  - split.
    + intros H. destruct (error_of o) as [e'|] eqn:He.
      * destruct o as [| | | |[x|]]; try discriminate. cbn in H, He. injection He as ->. injection H as ->. exists [], os. split; [reflexivity|intros ? []].
      * assert (Hx : exists c', apply o c = inl c') by (destruct o as [| | | |[|]]; try discriminate; cbn; eauto). destruct Hx as [c' Hx]. rewrite Hx in H.
        destruct (proj1 (IH c') H) as (before & after & -> & Hb). exists (o :: before), after. split; [reflexivity|]. intros o' [<-|Hin]; auto.
    + intros ([|b before] & after & Hos & Hb); cbn in Hos.
      * injection Hos as -> ->. reflexivity.
      * injection Hos as -> ->. pose proof (Hb b (or_introl eq_refl)) as He.
        assert (Hx : exists c', apply b c = inl c') by (destruct b as [| | | |[|]]; try discriminate; cbn; eauto). destruct Hx as [c' ->].
        apply (IH c'). exists before, after. split; [reflexivity|]. intros; apply Hb; right; assumption.
Qed.
End C69.

Lemma connector_options_ok : forall {T E} m n a (os : list (opt T E)) cn, new_connector m n a os = inl cn -> forall o, In o os -> error_of o = None.
Proof.
  intros T E m n a os cn Hn x Hx. destruct (error_of x) as [e|] eqn:He; [|reflexivity]. exfalso.
  assert (Hf : forall l (c : connector T), In x l -> exists e, @apply_all T E l c = inr e).
  { induction l as [|y l IH]; intros cc Hy; [contradiction|]. cbn [apply_all]. destruct (apply y cc) as [c'|e'] eqn:Ha; [|eauto].
    destruct Hy as [->|Hy]; [|apply IH; exact Hy]. destruct x as [| | | |[|]]; try discriminate. }
  destruct (Hf os (mkcn n a None m [] [] []) Hx) as [e' He']. unfold new_connector in Hn. congruence.
Qed.

(* C69: everything that is written while connecting is the request for TLS or is built from the account, database and
   mechanism the options say (or by PLAIN from that account). *)
Theorem C69_connects_with_the_given_account : forall (Env0 : Env) T E mysql41 network address (os : list (opt T E)) cn deadline c0 handshake r c k b o,
  new_connector mysql41 network address os = inl cn -> log c0 = [] ->
  connector_new deadline (config_of cn) (Some c0) handshake = Ok (r, Some c) -> In (Write k b o) (log c) ->
  let account := last_of account_of os ([], []) in
  let creds := {| user_name := fst account; password := snd account; database := last_of database_of os [] |} in
  b = MsgModel.capability_set (s2b "tls") true \/
  ThmConnector.built_by (last_of mechanism_of os mysql41) creds b \/ ThmConnector.built_by plain creds b.
Proof.
  intros Env0 T E m n a os cn d c0 hs r c k b o Hn Hl Hc Hin account creds.
  pose proof (connector_options_ok _ _ _ _ _ Hn) as Hok.
  destruct (C69_last_option_counts m n a os Hok) as (cn' & Hn' & _ & _ & _ & Ha & Hu & Hd). assert (cn' = cn) by congruence. subst cn'.
  assert (Hcr : credentials_of (config_of cn) = creds).
  { unfold config_of, creds, account. cbn [credentials_of]. rewrite <- Hu, <- Hd. reflexivity. }
  assert (Hau : authentication (config_of cn) = last_of mechanism_of os m) by exact Ha.
  rewrite <- Hcr, <- Hau. clear Hcr Hau. generalize dependent (config_of cn). intros cfg Hc.
  destruct (ThmConnector.new_cases Env0 d cfg c0 hs r (Some c) Hc) as (c' & Hcc & Hcase). assert (c' = c) by congruence. subst c'.
  assert (Hauth : forall c1 r1 c2, authenticate_or_close d cfg c1 = Ok (r1, c2) -> In (Write k b o) (log c2) ->
    In (Write k b o) (log c1) \/ ThmConnector.built_by (authentication cfg) (credentials_of cfg) b \/ ThmConnector.built_by plain (credentials_of cfg) b).
  { intros c1 r1 c2 H1 H2. destruct (ThmConnector.auth_or_close_cases Env0 d cfg c1 r1 c2 H1) as (r3 & c3 & evs1 & _ & _ & L3 & F3 & Hx).
    assert (H3 : In (Write k b o) (log c3) -> In (Write k b o) (log c1) \/ ThmConnector.built_by (authentication cfg) (credentials_of cfg) b).
    { rewrite L3. intros H. apply in_app_or in H. destruct H as [H|H]; [right; apply (ThmConnector.writing_in _ _ _ _ _ _ F3 H)|left; exact H]. }
    destruct Hx as [(_ & _ & ->)|[(e & _ & _ & ->)|(mm & r2 & c4 & evs2 & _ & _ & _ & _ & L4 & F4 & Hx)]].
    - destruct (H3 H2); auto.
    - cbn in H2. destruct H2 as [H2|H2]; [discriminate|]. destruct (H3 H2); auto.
    - assert (H4 : In (Write k b o) (log c4)).
      { destruct Hx as [(_ & _ & ->)|(e & _ & _ & ->)]; [exact H2|]. cbn in H2. destruct H2 as [H2|H2]; [discriminate|exact H2]. }
      rewrite L4 in H4. apply in_app_or in H4. destruct H4 as [H4|H4]; [right; right; apply (ThmConnector.writing_in _ _ _ _ _ _ F4 H4)|]. destruct (H3 H4); auto. }
  destruct Hcase as [(_ & H1)|(_ & rs & e1 & c1 & evs & _ & L1 & F1 & Hx)].
  - destruct (Hauth _ _ _ H1 Hin) as [H|H]; [rewrite Hl in H; contradiction|auto].
  - assert (Ht : In (Write k b o) (log c1) -> b = MsgModel.capability_set (s2b "tls") true).
    { rewrite L1, Hl, app_nil_r. intros H. symmetry. apply (ThmConnector.writing_in _ _ _ _ _ _ F1 H). }
    destruct Hx as [(e & _ & _ & ->)|[(_ & _ & _ & L2)|(rd & ds & ws & _ & _ & H2)]].
    + left. exact (Ht Hin).
    + rewrite L2 in Hin. destruct Hin as [Hin|Hin]; [discriminate|]. left. exact (Ht Hin).
    + destruct (Hauth _ _ _ H2 Hin) as [H|H]; [left; exact (Ht H)|auto].
Qed.

(* C69: if the last WithTLSConfig gives a configuration, nothing but the request for TLS is written outside of it. *)
Theorem C69_tls_option_protects : forall (Env0 : Env) T E mysql41 network address (os : list (opt T E)) cn deadline c0 handshake r c k b o t,
  new_connector mysql41 network address os = inl cn -> last_of tls_of os None = Some t -> log c0 = [] -> ckind c0 = Tcp ->
  connector_new deadline (config_of cn) (Some c0) handshake = Ok (r, Some c) -> In (Write k b o) (log c) ->
  (k = Tcp /\ ThmSession.one_message b 2 (SpecMsg.MCapabilitiesSet [(s2b "tls", SpecMsg.SBool true)])) \/ (k = Tls /\ handshake <> None).
Proof.
  intros Env0 T E m n a os cn d c0 hs r c k b o t Hn Ht Hl Hk Hc Hin. pose proof (connector_options_ok _ _ _ _ _ Hn) as Hok.
  destruct (C69_last_option_counts m n a os Hok) as (cn' & Hn' & _ & _ & Htls & _). assert (cn' = cn) by congruence. subst cn'.
  apply (ThmConnector.C35_nothing_before_tls Env0 d (config_of cn) c0 hs r c k b o); try assumption. unfold config_of. cbn [with_tls]. rewrite Htls, Ht. reflexivity.
Qed.

(* C69: if it gives none, or there is no such option, TLS is not asked for: the connection stays the one that was dialled, and all that is
   written is authentication. *)
Theorem C69_no_tls_unless_asked_for : forall (Env0 : Env) T E mysql41 network address (os : list (opt T E)) cn deadline c0 handshake r c k b o,
  new_connector mysql41 network address os = inl cn -> last_of tls_of os None = None -> log c0 = [] ->
  connector_new deadline (config_of cn) (Some c0) handshake = Ok (r, Some c) -> In (Write k b o) (log c) ->
  k = ckind c0 /\ exists creds, ThmConnector.built_by (last_of mechanism_of os mysql41) creds b \/ ThmConnector.built_by plain creds b.
Proof.
  intros Env0 T E m n a os cn d c0 hs r c k b o Hn Ht Hl Hc Hin. pose proof (connector_options_ok _ _ _ _ _ Hn) as Hok.
  destruct (C69_last_option_counts m n a os Hok) as (cn' & Hn' & _ & _ & Htls & Ha & _). assert (cn' = cn) by congruence. subst cn'.
  assert (Hw : with_tls (config_of cn) = false) by (unfold config_of; cbn [with_tls]; rewrite Htls, Ht; reflexivity).
  assert (Hau : authentication (config_of cn) = last_of mechanism_of os m) by exact Ha. rewrite <- Hau. clear Hau.
  destruct (ThmConnector.new_cases Env0 d _ c0 hs r (Some c) Hc) as (c' & Hcc & Hcase). assert (c' = c) by congruence. subst c'.
  destruct Hcase as [(_ & H1)|(Hx & _)]; [|unfold ThmConnector.tls_wanted in Hx; rewrite Hw, andb_false_r in Hx; discriminate].
  destruct (ThmConnector.auth_or_close_cases Env0 d _ c0 r c H1) as (r3 & c3 & evs1 & _ & _ & L3 & F3 & Hx). rewrite Hl, app_nil_r in L3.
  assert (H3 : In (Write k b o) (log c3) -> k = ckind c0 /\ ThmConnector.built_by (authentication (config_of cn)) (credentials_of (config_of cn)) b).
  { rewrite L3. apply (ThmConnector.writing_in _ _ _ _ _ _ F3). }
  destruct Hx as [(_ & _ & ->)|[(e & _ & _ & ->)|(mm & r2 & c4 & evs2 & _ & _ & _ & _ & L4 & F4 & Hx)]].
  - destruct (H3 Hin). eauto.
  - cbn in Hin. destruct Hin as [Hin|Hin]; [discriminate|]. destruct (H3 Hin). eauto.
  - assert (H4 : In (Write k b o) (log c4)).
    { destruct Hx as [(_ & _ & ->)|(e & _ & _ & ->)]; [exact Hin|]. cbn in Hin. destruct Hin as [Hin|Hin]; [discriminate|exact Hin]. }
    rewrite L4 in H4. apply in_app_or in H4. destruct H4 as [H4|H4]; [destruct (ThmConnector.writing_in _ _ _ _ _ _ F4 H4); eauto|]. destruct (H3 H4). eauto.
Qed.

(* ---- C70 ---- *)

(* Splitting at the first occurrence of a byte. *)
Lemma split_first : forall (x : N) a b a' b', ~ In x a -> ~ In x a' -> a ++ x :: b = a' ++ x :: b' -> a = a' /\ b = b'.
Proof.
  intros x a. induction a as [|y a IH]; intros b [|y' a'] b' Ha Ha' H; cbn in *.
  - split; congruence.
  - exfalso. apply Ha'. left. congruence.
  - exfalso. apply Ha. left. congruence.
  - injection H as -> H. destruct (IH b a' b') as [-> ->]; auto.
Qed.

Lemma digit_not : forall x n, (x < 48 \/ 57 < x) -> ~ In x (dec n).
Proof.
  intros x n Hx Hin. assert (Hd : forall l a m, digits a l = Some m -> In x l -> False).
  { induction l as [|y l IH]; intros a m H Hi; [contradiction|]. cbn in H. destruct ((48 <=? y) && (y <=? 57)) eqn:Hy; [|discriminate].
    destruct Hi as [->|Hi]; [lia|]. exact (IH _ _ H Hi). }
  pose proof (decimal_dec n) as H. unfold decimal in H. destruct (dec n) as [|y l] eqn:Hdn; [contradiction|]. exact (Hd _ _ _ H Hin).
Qed.

Lemma dec_inj : forall a b, dec a = dec b -> a = b.
Proof. intros a b H. pose proof (decimal_dec a) as Ha. rewrite H, decimal_dec in Ha. congruence. Qed.

Lemma severity_text_ok : forall s, ~ In 32 (severity_text s).
Proof.
  intros s. unfold severity_text. destruct (s =? 0); [vm_compute; intuition discriminate|]. destruct (s =? 1); [vm_compute; intuition discriminate|].
  destruct (s <? 2 ^ 31); [apply digit_not; lia|]. intros H. apply in_app_or in H. destruct H as [H|H]; [vm_compute in H; intuition discriminate|].
  revert H. apply digit_not. lia.
Qed.
Lemma severity_text_inj : forall s t, s < 2 ^ 32 -> t < 2 ^ 32 -> severity_text s = severity_text t -> s = t.
Proof.
  assert (Hhd : forall n, exists x l, dec n = x :: l /\ 48 <= x <= 57).
  { intros n. pose proof (dec_nonempty n) as Hn. destruct (dec n) as [|x l] eqn:Hd; [contradiction|]. exists x, l. split; [reflexivity|].
    destruct (N.lt_ge_cases x 48) as [L|L]; [exfalso; apply (digit_not x n (or_introl L)); rewrite Hd; left; reflexivity|].
    destruct (N.lt_ge_cases 57 x) as [M|M]; [exfalso; apply (digit_not x n (or_intror M)); rewrite Hd; left; reflexivity|]. lia. }
  assert (Hfirst : forall s, s < 2 ^ 32 -> exists x l, severity_text s = x :: l /\
    ((s = 0 /\ x = 69) \/ (s = 1 /\ x = 70) \/ (48 <= x <= 57 /\ severity_text s = dec s) \/ (x = 45 /\ 2 ^ 31 <= s /\ l = dec (2 ^ 32 - s)))).
  { intros s Hs. unfold severity_text. destruct (s =? 0) eqn:H0; [do 2 eexists; split; [reflexivity|left; split; [lia|reflexivity]]|].
    destruct (s =? 1) eqn:H1; [do 2 eexists; split; [reflexivity|right; left; split; [lia|reflexivity]]|].
    destruct (s <? 2 ^ 31) eqn:H2.
    - destruct (Hhd s) as (x & l & Hx & Hr). exists x, l. split; [exact Hx|]. right. right. left. auto.
    - do 2 eexists. split; [reflexivity|]. right. right. right. split; [reflexivity|]. split; [lia|reflexivity]. }
  intros s t Hs Ht H. destruct (Hfirst s Hs) as (x & l & Es & Cs). destruct (Hfirst t Ht) as (y & l' & Et & Ct). rewrite Es, Et in H. injection H as -> ->.
  destruct Cs as [[-> Hx]|[[-> Hx]|[[Hx Ds]|(Hx & Hls & Dl)]]], Ct as [[-> Hy]|[[-> Hy]|[[Hy Dt]|(Hy & Hlt & Dl')]]]; try lia; try reflexivity.
  - apply dec_inj. rewrite <- Ds, <- Dt, Es, Et. reflexivity.
  - rewrite Dl in Dl'. apply dec_inj in Dl'. lia.
Qed.

(* C70: the text of an error says everything the server said, for states without a closing bracket (MySQL's have five letters and
   digits): different errors have different texts. *)
Theorem C70_error_text_tells_all : forall e1 e2, severity e1 < 2 ^ 32 -> severity e2 < 2 ^ 32 -> ~ In 41 (sql_state e1) -> ~ In 41 (sql_state e2) ->
  error_text e1 = error_text e2 -> e1 = e2.
Proof.
  intros [s1 c1 q1 t1] [s2 c2 q2 t2] H1 H2 Hq1 Hq2 H. unfold error_text in H. cbn [severity code sql_state text] in *.
  change (s2b " ") with [32] in H. change (s2b " (") with [32; 40] in H. change (s2b "): ") with [41; 58; 32] in H. cbn [app] in H.
  apply split_first in H; [|apply severity_text_ok|apply severity_text_ok]. destruct H as [Hs H]. apply severity_text_inj in Hs; [|assumption..]. subst s2.
  apply split_first in H; [|apply digit_not; lia|apply digit_not; lia]. destruct H as [Hc H]. apply dec_inj in Hc. subst c2. injection H as H.
  apply split_first in H; [|assumption|assumption]. destruct H as [-> H]. injection H as ->. reflexivity.
Qed.

(* ---- examples ---- *)

Definition some_options : list (opt nat nat) :=
  [WithUserPassword (s2b "a") (s2b "1"); WithTLSConfig (Some 7%nat); WithDatabase (s2b "x"); Other None; WithUserPassword (s2b "b") (s2b "2"); WithTLSConfig None].
Example options_meet : (forall o, In o some_options -> error_of o = None) /\
  exists c, new_connector (@plain ThmBuilder.plain) (s2b "tcp") (s2b "localhost:33060") some_options = inl c /\ c_user c = s2b "b" /\ c_password c = s2b "2" /\ c_database c = s2b "x" /\ c_tls c = None.
Proof.
  split; [intros o Hin; unfold some_options in Hin; cbn [In] in Hin; intuition (subst; reflexivity)|]. exists (mkcn (s2b "tcp") (s2b "localhost:33060") None (@plain ThmBuilder.plain) (s2b "b") (s2b "2") (s2b "x")).
  split; [reflexivity|]. cbn [c_user c_password c_database c_tls]. auto.
Qed.
Example options_fail : new_connector (@plain ThmBuilder.plain) (s2b "tcp") (s2b "h") [WithDatabase (s2b "x"); Other (Some 3%nat); Other (Some 4%nat)] = inr (A := connector nat) 3%nat.
Proof. reflexivity. Qed.
Example access_denied : error_text (mkse 1 1045 (s2b "HY000") (s2b "Invalid user or password")) = s2b "FATAL 1045 (HY000): Invalid user or password".
Proof. vm_compute. reflexivity. Qed.

Print Assumptions C69_last_option_counts.
Print Assumptions C69_order_of_kinds_is_free.
Print Assumptions C69_first_failure_is_returned.
Print Assumptions C69_connects_with_the_given_account.
Print Assumptions C69_tls_option_protects.
Print Assumptions C69_no_tls_unless_asked_for.
Print Assumptions C70_error_text_tells_all.
