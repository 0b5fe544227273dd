(* C75, C76: what is sent and received, read with the .proto files. *)
From Coq Require Import String List NArith ZArith Arith Bool Lia ZifyN ZifyNat ZifyBool.
From Coq Require Import List.
From Verif Require Import Base GoSlice SpecWire SpecMsg Values SpecValue MsgModel Builder SpecProg SpecUnit Conn SpecReply AuthModel SpecSchema Unmarshal UnmarshalProofs SpecProto SpecNames SpecReplyNames ProtoProofs
  ReplyProofs SpecAuth ThmBuilder ThmSession ThmAuth ThmConn.
Import ListNotations.
Open Scope string_scope.
Open Scope list_scope.
Open Scope N_scope.

(* ---- C75 ---- *)

(* C75: a server that reads with the .proto files reads one message per call of the program, with the names and values it says. *)
Theorem C75_a_server_reads_what_was_written : forall (E : Env) b pr bs, empty b -> prog_ok word32 pr -> delivers b pr bs -> nlen bs < 2 ^ 32 ->
  exists ms ids out, prog_msgs pr ms ids out /\ server_reads bs = Some (map name_msg ms).
Proof.
  intros E b pr bs He Hok Hd Hl. destruct (C08_sent_is_what_was_written E b pr bs He Hok Hd Hl) as (ms & ids & out & Hm & Hp).
  exists ms, ids, out. split; [exact Hp|exact (reads_stream bs ms Hm)].
Qed.

(* C75: bs is one frame, with the message of this name, which the server reads as v. *)
Definition is_message (bs : bytes) (name : string) (v : pval) : Prop :=
  exists ty payload, bs = frame (ty, payload) /\ 1 + nlen payload < 2 ^ 32 /\ message_name ty client_messages = Some name /\ decode false name payload = Some v.

Lemma one_message_named bs ty m : one_message bs ty m -> is_message bs (fst (name_msg m)) (snd (name_msg m)).
Proof.
  intros (p & Hb & Hm & Hl). destruct (read_msg false ty p m Hm) as [Hn Hr]. exists ty, p. auto.
Qed.

Theorem C75_reset : forall (E : Env) p keepOpen,
  exists bs, data (msg_reset p keepOpen) = data p ++ bs /\
    is_message bs "Mysqlx.Session.Reset" (PMessage (if keepOpen then [("keep_open", PBool true)] else [])).
Proof. intros E p k. destruct (C50_reset E p k) as (bs & Hd & Hm). exists bs. split; [exact Hd|exact (one_message_named _ _ _ Hm)]. Qed.

Theorem C75_authenticate_start : forall (E : Env) p mechanism authData,
  go_string mechanism -> go_string authData -> nlen mechanism + nlen authData < 2 ^ 31 ->
  exists q, authenticate_start p mechanism authData = Ok q /\
    is_message (data q) "Mysqlx.Session.AuthenticateStart"
      (PMessage (("mech_name", PBytes mechanism) :: match authData with [] => [] | _ => [("auth_data", PBytes authData)] end)).
Proof.
  intros E p m a Hm Ha Hl. destruct (C50_authenticate_start E p m a Hm Ha Hl) as (q & Hq & H). exists q. split; [exact Hq|].
  apply one_message_named in H. destruct a; exact H.
Qed.

Theorem C75_authenticate_continue : forall (E : Env) p authData,
  go_string authData -> nlen authData < 2 ^ 31 ->
  exists q, authenticate_continue p authData = Ok q /\ is_message (data q) "Mysqlx.Session.AuthenticateContinue" (PMessage [("auth_data", PBytes authData)]).
Proof.
  intros E p a Ha Hl. destruct (C50_authenticate_continue E p a Ha Hl) as (q & Hq & H). exists q. split; [exact Hq|exact (one_message_named _ _ _ H)].
Qed.

Theorem C75_capability_set : forall name enable, go_string name -> nlen name < 2 ^ 31 ->
  is_message (capability_set name enable) "Mysqlx.Connection.CapabilitiesSet"
    (PMessage [("capabilities", PMessage [("capabilities", PMessage [("name", PBytes name);
       ("value", PMessage [("type", PEnum "SCALAR"); ("scalar", PMessage [("type", PEnum "V_BOOL"); ("v_bool", PBool enable)])])])])]).
Proof. intros n e Hn Hl. exact (one_message_named _ _ _ (C50_capability_set n e Hn Hl)). Qed.

(* C75: the messages of the authentication mechanisms. *)
Theorem C75_mysql41 : forall (E : Env) sha1 buf c challenge, digests sha1 20 -> creds_ok c -> exists bs1 bs2,
  mysql41_start buf c = Ok bs1 /\ is_message bs1 "Mysqlx.Session.AuthenticateStart" (PMessage [("mech_name", PBytes (s2b "MYSQL41"))]) /\
  mysql41_continue sha1 buf c challenge = Ok bs2 /\ is_message bs2 "Mysqlx.Session.AuthenticateContinue"
    (PMessage [("auth_data", PBytes (database c ++ [0] ++ user_name c ++ [0] ++ mysql41_proof sha1 (password c) challenge))]).
Proof.
  intros E h buf c ch Hd Hc. destruct (C32_mysql41_start E buf c) as (b1 & A1 & A2), (C32_mysql41_response E h buf c ch Hd Hc) as (b2 & B1 & B2).
  exists b1, b2. split; [exact A1|]. split; [exact (one_message_named _ _ _ A2)|]. split; [exact B1|exact (one_message_named _ _ _ B2)].
Qed.
Theorem C75_sha256 : forall (E : Env) sha256 buf c challenge, digests sha256 32 -> creds_ok c -> exists bs1 bs2,
  sha256_start buf c = Ok bs1 /\ is_message bs1 "Mysqlx.Session.AuthenticateStart" (PMessage [("mech_name", PBytes (s2b "SHA256_MEMORY"))]) /\
  sha256_continue sha256 buf c challenge = Ok bs2 /\ is_message bs2 "Mysqlx.Session.AuthenticateContinue"
    (PMessage [("auth_data", PBytes (database c ++ [0] ++ user_name c ++ [0] ++ sha256_proof sha256 (password c) challenge))]).
Proof.
  intros E h buf c ch Hd Hc. destruct (C33_sha256_start E buf c) as (b1 & A1 & A2), (C33_sha256_response E h buf c ch Hd Hc) as (b2 & B1 & B2).
  exists b1, b2. split; [exact A1|]. split; [exact (one_message_named _ _ _ A2)|]. split; [exact B1|exact (one_message_named _ _ _ B2)].
Qed.
Theorem C75_plain : forall (E : Env) buf c, creds_ok c -> exists bs,
  plain_start buf c = Ok bs /\ is_message bs "Mysqlx.Session.AuthenticateStart"
    (PMessage [("mech_name", PBytes (s2b "PLAIN")); ("auth_data", PBytes (database c ++ [0] ++ user_name c ++ [0] ++ password c))]).
Proof.
  intros E buf c Hc. destruct (C34_plain_start E buf c Hc) as (b & A1 & A2). exists b. split; [exact A1|exact (one_message_named _ _ _ A2)].
Qed.

Example C75_sample : exists bs, @delivers ThmBuilder.plain (new_pipe 0) ThmBuilder.sample bs /\ nlen bs < 2 ^ 32 /\ empty (new_pipe 0) /\ prog_ok (@word32 ThmBuilder.plain) ThmBuilder.sample /\
  match server_reads bs with
  | Some (open :: _ :: _ :: ("Mysqlx.Crud.Insert", PMessage (("collection", PMessage [("name", PBytes t)]) :: ("data_model", PEnum "TABLE") :: _)) :: _ :: _ :: upd :: del :: _) =>
      open = ("Mysqlx.Expect.Open", PMessage [("op", PEnum "EXPECT_CTX_EMPTY");
        ("cond", PMessage [("condition_key", PInt 1); ("condition_value", PBytes (s2b "1"))])]) /\
      t = s2b "orders" /\ del = ("Mysqlx.Crud.Delete", PMessage [("collection", PMessage [("name", PBytes (s2b "carts"))])])
  | _ => False
  end.
Proof.
  eexists. split; [eexists _, _; split; vm_compute; reflexivity|]. split; [vm_compute; reflexivity|]. split; [repeat split|]. split; [apply ThmBuilder.sample_ok|].
  vm_compute. auto.
Qed.

(* A reader of the .proto files is not bound to the encoder's choices: fields in another order, twice, unknown ones. *)
Example C75_lenient : decode false "Mysqlx.Session.AuthenticateStart" [18; 1; 98; 10; 1; 97; 80; 7; 10; 1; 99] =
  Some (PMessage [("mech_name", PBytes [99]); ("auth_data", PBytes [98])]) /\
  decode false "Mysqlx.Session.AuthenticateStart" [18; 1; 98] = None.
Proof. split; vm_compute; reflexivity. Qed.

(* ---- C76 ---- *)

Lemma last_one_cons {A} (a : A) l : last_one (a :: l) = match last_one l with [] => [a] | x => x end.
Proof.
  revert a. induction l as [|b l IH]; intros a; [reflexivity|]. change (last_one (a :: b :: l)) with (last_one (b :: l)). rewrite (IH b).
  destruct (last_one l); reflexivity.
Qed.

(* The last value of field n that f accepts. *)
Lemma last_value {B} (f : wval -> option B) n fs :
  match last_one (collect f (all_of n fs)) with
  | [] => forall w, In (n, w) fs -> f w = None
  | b :: r => r = [] /\ exists before w after, fs = before ++ (n, w) :: after /\ f w = Some b /\ forall w', In (n, w') after -> f w' = None
  end.
Proof.
  induction fs as [|[m w] fs IH]; [intros w []|]. unfold all_of in *. cbn [filter fst]. destruct (m =? n) eqn:Em.
  - apply N.eqb_eq in Em. subst m. cbn [map snd collect]. destruct (f w) as [b|] eqn:Hf.
    + rewrite last_one_cons. destruct (last_one (collect f (map snd (filter (fun g => fst g =? n) fs)))) as [|c r].
      * split; [reflexivity|]. exists [], w, fs. auto.
      * destruct IH as [-> (be & w' & af & -> & H1 & H2)]. split; [reflexivity|]. exists ((n, w) :: be), w', af. auto.
    + destruct (last_one (collect f (map snd (filter (fun g => fst g =? n) fs)))) as [|c r].
      * intros w' [[= ->]|Hin]; [exact Hf|exact (IH _ Hin)].
      * destruct IH as [-> (be & w' & af & -> & H1 & H2)]. split; [reflexivity|]. exists ((n, w) :: be), w', af. auto.
  - destruct (last_one (collect f (map snd (filter (fun g => fst g =? n) fs)))) as [|c r].
    + intros w' [[= -> ->]|Hin]; [rewrite N.eqb_refl in Em; discriminate|exact (IH _ Hin)].
    + destruct IH as [-> (be & w' & af & -> & H1 & H2)]. split; [reflexivity|]. exists ((m, w) :: be), w', af. auto.
Qed.

(* Two ways to split at the last accepted one agree. *)
Lemma last_split {B} (f : wval -> option B) n fs b before w after :
  fs = before ++ (n, w) :: after -> f w = Some b -> (forall w', In (n, w') after -> f w' = None) ->
  last_one (collect f (all_of n fs)) = [b].
Proof.
  intros -> Hw Ha. unfold all_of. rewrite filter_app. cbn [filter fst]. rewrite N.eqb_refl, map_app. cbn [map snd].
  assert (C : forall l, (forall w', In (n, w') l -> f w' = None) -> collect f (map snd (filter (fun g => fst g =? n) l)) = []).
  { clear. induction l as [|[m w] l IH]; intros H; [reflexivity|]. cbn [filter fst]. destruct (m =? n) eqn:Em.
    - apply N.eqb_eq in Em. subst m. cbn [map snd collect]. rewrite (H w (or_introl eq_refl)). apply IH. intros w' Hw'. apply H. right. exact Hw'.
    - apply IH. intros w' Hw'. apply H. right. exact Hw'. }
  generalize (map snd (filter (fun g => fst g =? n) before)) as l. induction l as [|x l IH].
  - cbn [app collect]. rewrite Hw, (C _ Ha). reflexivity.
  - cbn [app collect]. destruct (f x); [rewrite last_one_cons, IH; reflexivity|exact IH].
Qed.

Lemma blob_last o t n fs v : t = Text \/ t = Blob -> last_one (collect (scalar_value o t) (all_of n fs)) = [PBytes v] <-> bytes_field n fs v.
Proof.
  intros Ht. split.
  - intros H. pose proof (last_value (scalar_value o t) n fs) as L. rewrite H in L. destruct L as [_ (be & w & af & -> & Hw & Ha)].
    assert (w = WLen v) by (destruct Ht as [-> | ->]; destruct w; try discriminate Hw; injection Hw as ->; reflexivity). subst w.
    exists be, af. split; [reflexivity|]. intros w Hin. specialize (Ha _ Hin). destruct Ht as [-> | ->]; discriminate.
  - intros (be & af & -> & Ha). apply (last_split _ n _ _ be (WLen v) af eq_refl); [destruct Ht as [-> | ->]; reflexivity|].
    intros w Hin. destruct Ht as [-> | ->]; destruct w; try reflexivity; exfalso; exact (Ha _ Hin).
Qed.

Lemma blob_some o t n fs : t = Text \/ t = Blob -> last_one (collect (scalar_value o t) (all_of n fs)) = [] \/
  exists v, last_one (collect (scalar_value o t) (all_of n fs)) = [PBytes v].
Proof.
  intros Ht. pose proof (last_value (scalar_value o t) n fs) as L. destruct (last_one _) as [|x r]; [auto|]. right.
  destruct L as [-> (be & w & af & _ & Hw & _)]. destruct Ht as [-> | ->]; destruct w; try discriminate Hw; injection Hw as <-; eauto.
Qed.

Lemma uint_last o n fs v : last_one (collect (scalar_value o Uint32) (all_of n fs)) = [number v] <-> exists c, number_field n fs c /\ v = c mod 2 ^ 32.
Proof.
  split.
  - intros H. pose proof (last_value (scalar_value o Uint32) n fs) as L. rewrite H in L. destruct L as [_ (be & w & af & -> & Hw & Ha)].
    destruct w as [c| | |]; try discriminate Hw. injection Hw as Hw. exists c. split; [|lia].
    exists be, af. split; [reflexivity|]. intros w Hin. specialize (Ha _ Hin). discriminate.
  - intros (c & (be & af & -> & Ha) & ->). apply (last_split _ n _ _ be (WVarint c) af eq_refl); [reflexivity|].
    intros w Hin. destruct w; try reflexivity. exfalso. exact (Ha _ Hin).
Qed.

Lemma uint_some o n fs : last_one (collect (scalar_value o Uint32) (all_of n fs)) = [] \/
  exists v, last_one (collect (scalar_value o Uint32) (all_of n fs)) = [number v].
Proof.
  pose proof (last_value (scalar_value o Uint32) n fs) as L. destruct (last_one _) as [|x r]; [auto|]. right.
  destruct L as [-> (be & w & af & _ & Hw & _)]. destruct w; try discriminate Hw. injection Hw as <-. unfold number. eauto.
Qed.

(* Whether a frame's type is that of the message m. *)
Lemma holds_iff f m n : message_name n server_messages = Some m -> (forall k, message_name k server_messages = Some m -> k = n) -> holds f m <-> fst f = n.
Proof. intros H1 H2. unfold holds. split; [apply H2|intros ->; exact H1]. Qed.
Ltac unique := let k := fresh in let H := fresh in
  intros k H; cbv [message_name server_messages] in H;
  repeat match type of H with (if ?x =? ?y then _ else _) = _ => let E := fresh in destruct (N.eqb_spec x y) as [E|E]; [first [discriminate H|symmetry; exact E]|] end; discriminate H.
Lemma holds_error f : holds f "Mysqlx.Error" <-> fst f = 1.
Proof. apply holds_iff; [reflexivity|unique]. Qed.
Lemma holds_ok f : holds f "Mysqlx.Ok" <-> fst f = 0.
Proof. apply holds_iff; [reflexivity|unique]. Qed.
Lemma holds_auth_ok f : holds f "Mysqlx.Session.AuthenticateOk" <-> fst f = 4.
Proof. apply holds_iff; [reflexivity|unique]. Qed.
Lemma holds_auth_continue f : holds f "Mysqlx.Session.AuthenticateContinue" <-> fst f = 3.
Proof. apply holds_iff; [reflexivity|unique]. Qed.
Lemma holds_stmt_ok f : holds f "Mysqlx.Sql.StmtExecuteOk" <-> fst f = 17.
Proof. apply holds_iff; [reflexivity|unique]. Qed.
Lemma holds_meta f : holds f "Mysqlx.Resultset.ColumnMetaData" <-> fst f = 12.
Proof. apply holds_iff; [reflexivity|unique]. Qed.

(* The severity, which Go reads as an open enumeration. *)
Definition severity_value (n : N) : pval := match n with 0 => PEnum "ERROR" | 1 => PEnum "FATAL" | _ => PUnknownEnum n end.
Lemma severity_scalar n : scalar_value true (Enum "Mysqlx.Error.Severity") (WVarint n) = Some (severity_value (n mod 2 ^ 32)).
Proof.
  unfold scalar_value. change (lookup "Mysqlx.Error.Severity" enums) with (Some [("ERROR", 0); ("FATAL", 1)]). cbn [obind enum_name].
  destruct (n mod 2 ^ 32) as [|[q|q|]]; reflexivity.
Qed.
Lemma severity_named given n : (given = [] /\ n = 0 \/ given = [("severity", PEnum "ERROR")] /\ n = 0 \/
  given = [("severity", PEnum "FATAL")] /\ n = 1 \/ given = [("severity", PUnknownEnum n)] /\ 2 <= n) <-> given = [] /\ n = 0 \/ given = [("severity", severity_value n)].
Proof.
  split.
  - intros [[-> ->]|[[-> ->]|[[-> ->]|[-> H]]]]; auto. right. destruct n as [|[q|q|]]; try lia; reflexivity.
  - intros [[-> ->]|H]; [auto|]. subst given. right. destruct n as [|[q|q|]]; cbn; auto; right; right; split; try reflexivity; lia.
Qed.

Lemma severity_last fs :
  ((forall w, ~ In (1, WVarint w) fs) /\ last_one (collect (scalar_value true (Enum "Mysqlx.Error.Severity")) (all_of 1 fs)) = []) \/
  exists s, number_field 1 fs s /\ last_one (collect (scalar_value true (Enum "Mysqlx.Error.Severity")) (all_of 1 fs)) = [severity_value (s mod 2 ^ 32)].
Proof.
  pose proof (last_value (scalar_value true (Enum "Mysqlx.Error.Severity")) 1 fs) as L. destruct (last_one _) as [|x r].
  - left. split; [|reflexivity]. intros w Hin. specialize (L _ Hin). rewrite severity_scalar in L. discriminate.
  - right. destruct L as [-> (be & w & af & -> & Hw & Ha)]. destruct w as [s| | |]; try discriminate Hw. rewrite severity_scalar in Hw. injection Hw as <-.
    exists s. split; [|reflexivity]. exists be, af. split; [reflexivity|]. intros w Hin. specialize (Ha _ Hin). rewrite severity_scalar in Ha. discriminate.
Qed.

Lemma severity_value_inj a b : severity_value a = severity_value b -> a = b.
Proof.
  destruct a as [|[q|q|]], b as [|[r|r|]]; cbn; intros H; try discriminate H; try reflexivity; injection H as ->; reflexivity.
Qed.

Lemma number_inj a b : number a = number b -> a = b.
Proof. unfold number. intros [= H]. lia. Qed.

Lemma numbers_agree n fs a b : number_field n fs a -> number_field n fs b -> a = b.
Proof.
  intros (be & af & E1 & H1) (be' & af' & E2 & H2).
  assert (L1 : last_one (collect (scalar_value true Uint64) (all_of n fs)) = [PInt (Z.of_N a)]).
  { apply (last_split _ n _ _ be (WVarint a) af E1); [reflexivity|]. intros w Hin. destruct w; try reflexivity. exfalso. exact (H1 _ Hin). }
  assert (L2 : last_one (collect (scalar_value true Uint64) (all_of n fs)) = [PInt (Z.of_N b)]).
  { apply (last_split _ n _ _ be' (WVarint b) af' E2); [reflexivity|]. intros w Hin. destruct w; try reflexivity. exfalso. exact (H2 _ Hin). }
  rewrite L1 in L2. injection L2 as H. lia.
Qed.

Lemma tails {A} (l l' t t' : list A) : l ++ t = l' ++ t' -> List.length t = List.length t' -> l = l' /\ t = t'.
Proof.
  intros H L. assert (E : List.length l = List.length l') by (apply (f_equal (@List.length A)) in H; rewrite !app_length in H; lia).
  clear L. revert l' H E. induction l as [|x l IH]; intros [|y l'] H E; try discriminate E; [auto|].
  injection H as -> H. injection E as E. destruct (IH l' H E) as [-> ->]. auto.
Qed.

(* What a decoder generated from the .proto files makes of an error. *)
Lemma decode_error p : decode true "Mysqlx.Error" p =
  let? fs := ufields p in
  match last_one (collect (scalar_value true Uint32) (all_of 2 fs)), last_one (collect (scalar_value true Text) (all_of 4 fs)),
        last_one (collect (scalar_value true Text) (all_of 3 fs)) with
  | c :: cs, s :: ss, t :: ts => Some (PMessage (map (pair "severity") (last_one (collect (scalar_value true (Enum "Mysqlx.Error.Severity")) (all_of 1 fs))) ++
      map (pair "code") (c :: cs) ++ map (pair "sql_state") (s :: ss) ++ map (pair "msg") (t :: ts)))
  | _, _, _ => None
  end.
Proof.
  unfold decode. cbn [decode_k]. change (lookup "Mysqlx.Error" messages) with (Some [
     mkfield Optional (Enum "Mysqlx.Error.Severity") "severity" 1; mkfield Required Uint32 "code" 2; mkfield Required Text "sql_state" 4; mkfield Required Text "msg" 3]).
  cbn [obind]. destruct (ufields p) as [fs|]; [|reflexivity]. cbn [obind omap]. unfold values. cbn [ftype flabel fnumber fname obind].
  destruct (last_one (collect (scalar_value true Uint32) (all_of 2 fs))) as [|c cs]; [reflexivity|]. cbn [obind].
  destruct (last_one (collect (scalar_value true Text) (all_of 4 fs))) as [|s ss]; [reflexivity|]. cbn [obind].
  destruct (last_one (collect (scalar_value true Text) (all_of 3 fs))) as [|t ts]; [reflexivity|]. cbn [obind concat]. rewrite app_nil_r. reflexivity.
Qed.

(* C76: an error is what a decoder generated from mysqlx.proto takes for one with these contents. *)
Theorem C76_error_by_name : forall p e, error_message p e <-> exists v, decode true "Mysqlx.Error" p = Some v /\ error_fields v e.
Proof.
  intros p e. rewrite decode_error. split.
  - intros (fs & c & Hf & Hs & Hc & Hce & Ht & Hq). apply ufields_wire in Hf. rewrite Hf. cbn [obind].
    rewrite (proj2 (uint_last true 2 fs (code e)) (ex_intro _ c (conj Hc Hce))), (proj2 (blob_last true Text 4 fs (sql_state e) (or_introl eq_refl)) Hq),
      (proj2 (blob_last true Text 3 fs (text e) (or_introl eq_refl)) Ht). eexists. split; [reflexivity|].
    eexists. split; [reflexivity|]. rewrite severity_named. destruct (severity_last fs) as [[N L]|(s & N & L)]; rewrite L.
    + left. split; [reflexivity|]. destruct Hs as [[_ H]|(s & (be & af & -> & _) & _)]; [exact H|]. exfalso. exact (N s (in_elt _ _ _)).
    + right. destruct Hs as [[H _]|(s' & H' & ->)]; [destruct N as (be & af & -> & _); exfalso; exact (H s (in_elt _ _ _))|].
      rewrite (numbers_agree _ _ _ _ N H'). reflexivity.
  - intros (v & Hv & (given & -> & Hg)). rewrite severity_named in Hg. destruct (ufields p) as [fs|] eqn:Hf; [|discriminate Hv]. apply ufields_wire in Hf. cbn [obind] in Hv.
    destruct (uint_some true 2 fs) as [U|[c U]]; [rewrite U in Hv; discriminate Hv|].
    destruct (blob_some true Text 4 fs (or_introl eq_refl)) as [Q|[q Q]]; [rewrite U, Q in Hv; discriminate Hv|].
    destruct (blob_some true Text 3 fs (or_introl eq_refl)) as [T|[t T]]; [rewrite U, Q, T in Hv; discriminate Hv|].
    rewrite U, Q, T in Hv. injection Hv as Hv. cbn [map app] in Hv.
    apply tails in Hv; [|reflexivity]. destruct Hv as [Hg' Hv]. injection Hv as H1 H2 H3. apply uint_last in U. destruct U as (c' & U1 & U2).
    apply blob_last in Q; [|auto]. apply blob_last in T; [|auto]. exists fs, c'. split; [exact Hf|]. split.
    + destruct (severity_last fs) as [[N L]|(s & N & L)]; rewrite L in Hg'; subst given; cbn [map] in Hg.
      * left. split; [exact N|]. destruct Hg as [[_ H]|H]; [exact H|discriminate H].
      * right. exists s. split; [exact N|]. destruct Hg as [[H _]|H]; [discriminate H|]. injection H as H. symmetry. exact (severity_value_inj _ _ H).
    + split; [exact U1|]. split; [lia|]. rewrite <- H2, <- H3. auto.
Qed.

Lemma decode_meta p : (exists v, decode true "Mysqlx.Resultset.ColumnMetaData" p = Some v) <-> column_meta p.
Proof.
  unfold column_meta, decode. cbn [decode_k].
  let t := eval vm_compute in (lookup "Mysqlx.Resultset.ColumnMetaData" messages) in change (lookup "Mysqlx.Resultset.ColumnMetaData" messages) with t.
  cbn [obind]. destruct (ufields p) as [fs|] eqn:Hf; [|split; [intros [v H]; discriminate H|intros (fs & t & H & _); apply ufields_wire in H; congruence]].
  cbn [obind omap]. unfold values. cbn [ftype flabel fnumber fname obind].
  pose proof (last_value (scalar_value true (Enum "Mysqlx.Resultset.ColumnMetaData.FieldType")) 1 fs) as L.
  assert (T : forall n, scalar_value true (Enum "Mysqlx.Resultset.ColumnMetaData.FieldType") (WVarint n) <> None).
  { intros n. unfold scalar_value. destruct (obind _ _); discriminate. }
  destruct (last_one (collect (scalar_value true (Enum "Mysqlx.Resultset.ColumnMetaData.FieldType")) (all_of 1 fs))) as [|x r].
  - cbn [obind]. split; [intros [v H]; discriminate H|]. intros (fs' & t & H & (be & af & -> & _)). apply ufields_wire in H. rewrite H in Hf. injection Hf as <-. exfalso. exact (T t (L _ (in_elt _ _ _))).
  - destruct L as [_ (be & w & af & -> & Hw & Ha)]. cbn [obind]. split; [|eauto]. intros _. destruct w as [n| | |]; try discriminate Hw.
    eexists _, n. split; [apply ufields_wire; exact Hf|]. exists be, af. split; [reflexivity|]. intros w Hin. exact (T w (Ha _ Hin)).
Qed.

(* C76: column meta data has what the .proto file requires of it. *)
Theorem C76_column_meta_by_name : forall p, column_meta p <-> exists v, decode true "Mysqlx.Resultset.ColumnMetaData" p = Some v.
Proof. intros p. symmetry. apply decode_meta. Qed.

(* C76: a challenge is what the .proto files take for one with this data. *)
Theorem C76_challenge_by_name : forall f d, challenge f d <-> challenge_named f d.
Proof.
  intros f d. unfold challenge, challenge_named. rewrite holds_auth_continue. unfold decode. cbn [decode_k].
  change (lookup "Mysqlx.Session.AuthenticateContinue" messages) with (Some [mkfield Required Blob "auth_data" 1]). cbn [obind].
  destruct (ufields (snd f)) as [fs|] eqn:Hf; [|split; [intros (_ & fs & H & _); apply ufields_wire in H; congruence|intros (_ & H); discriminate H]].
  cbn [obind omap]. unfold values. cbn [ftype flabel fnumber fname obind]. split.
  - intros (H1 & fs' & H0 & H). apply ufields_wire in H0. rewrite H0 in Hf. injection Hf as ->. split; [exact H1|]. rewrite (proj2 (blob_last true Blob 1 fs d (or_intror eq_refl)) H). reflexivity.
  - intros (H1 & H). split; [exact H1|]. exists fs. split; [apply ufields_wire; exact Hf|]. apply (blob_last true Blob); [auto|].
    destruct (blob_some true Blob 1 fs (or_intror eq_refl)) as [Q|[q Q]]; rewrite Q in H |- *; [discriminate H|]. injection H as ->. reflexivity.
Qed.

Lemma reports_by_name f r : reports f r <-> reports_named f r.
Proof.
  destruct r as [e|]; cbn [reports reports_named].
  - unfold failure. rewrite holds_error, C76_error_by_name. reflexivity.
  - unfold success. cbn [In]. split.
    + intros [H|[H|[H|[]]]]; symmetry in H.
      * exists "Mysqlx.Ok". split; [apply holds_ok; exact H|auto].
      * exists "Mysqlx.Session.AuthenticateOk". split; [apply holds_auth_ok; exact H|auto].
      * exists "Mysqlx.Sql.StmtExecuteOk". split; [apply holds_stmt_ok; exact H|auto].
    + intros (m & Hm & [<-|[<-|[<-|[]]]]); [apply holds_ok in Hm|apply holds_auth_ok in Hm|apply holds_stmt_ok in Hm]; auto.
Qed.

Lemma interim_by_name f : interim f <-> interim_named f.
Proof.
  unfold interim, interim_named. rewrite holds_meta, C76_column_meta_by_name. split; intros [H1 H2]; (split; [|exact H2]).
  - intros m Hm Hin. apply H1. unfold final_types. cbn [In] in *.
    destruct Hin as [<-|[<-|[<-|[<-|[<-|[]]]]]]; [apply holds_ok in Hm|apply holds_error in Hm|apply holds_auth_ok in Hm|apply holds_auth_continue in Hm|apply holds_stmt_ok in Hm]; auto 6.
  - intros Hin. unfold final_types in Hin. cbn [In] in Hin.
    destruct Hin as [E|[E|[E|[E|[E|[]]]]]]; symmetry in E.
    + apply (H1 "Mysqlx.Ok"); [apply holds_ok; exact E|cbn; auto 6].
    + apply (H1 "Mysqlx.Error"); [apply holds_error; exact E|cbn; auto 6].
    + apply (H1 "Mysqlx.Session.AuthenticateContinue"); [apply holds_auth_continue; exact E|cbn; auto 6].
    + apply (H1 "Mysqlx.Session.AuthenticateOk"); [apply holds_auth_ok; exact E|cbn; auto 6].
    + apply (H1 "Mysqlx.Sql.StmtExecuteOk"); [apply holds_stmt_ok; exact E|cbn; auto 6].
Qed.

Lemma interims_by_name l : Forall interim l <-> Forall interim_named l.
Proof. split; apply Forall_impl; intros f; apply interim_by_name. Qed.

(* C76: complete replies. *)
Theorem C76_replies_by_name : forall w32 p r, answers w32 p r <-> answers_named w32 p r.
Proof. intros w p r. unfold answers, answers_named. rewrite interims_by_name, reports_by_name. reflexivity. Qed.
Theorem C76_challenges_by_name : forall w32 p d, challenges w32 p d <-> challenges_named w32 p d.
Proof. intros w p d. unfold challenges, challenges_named. rewrite interims_by_name, C76_challenge_by_name. reflexivity. Qed.

(* C76: Send returns, for each request, what its reply says when it is read with the .proto files. *)
Theorem C76_one_response_per_request : forall w32 deadline xs rest c,
  Forall (fun x => 1 + nlen (snd (asked x)) < 2 ^ 32 /\ answers_named w32 (replied x) (seen_as x)) xs -> Forall goes_on xs -> can_write c ->
  unread c = replies_bytes xs ++ rest ->
  exists c', conn_send w32 deadline (request_bytes xs) c = Ok ((map seen_as xs, None), c') /\ unread c' = rest.
Proof.
  intros w d xs rest c Hx. apply C27_one_response_per_request. apply Forall_forall. intros x Hin.
  destruct (proj1 (Forall_forall _ _) Hx x Hin) as [H1 H2]. split; [exact H1|]. apply C76_replies_by_name. exact H2.
Qed.

(* C76: and only when there is such a reply for each. *)
Theorem C76_success_means_complete_replies : forall w32 deadline requests c rs c',
  Forall (fun f => 1 + nlen (snd f) < 2 ^ 32) requests -> can_write c -> is_bytes (unread c) ->
  conn_send w32 deadline (concat (map frame requests)) c = Ok ((rs, None), c') ->
  exists replies, unread c = concat (map reply_bytes replies) ++ unread c' /\
    List.length replies = List.length requests /\ Forall2 (answers_named w32) replies rs.
Proof.
  intros w d reqs c rs c' H1 H2 H3 H4. destruct (C28_success_means_complete_replies _ _ _ _ _ _ H1 H2 H3 H4) as (ps & A & B & C & _).
  exists ps. split; [exact A|]. split; [exact B|]. clear - C. induction C as [|p r ps rs H _ IH]; constructor; [apply C76_replies_by_name; exact H|exact IH].
Qed.

(* C76: the code, SQL state and message of a server error reach the caller. *)
Theorem C76_server_errors_faithful : forall (w32 : bool) deadline request p v e before rest c,
  decode true "Mysqlx.Error" p = Some v -> error_fields v e -> 1 + nlen p < (if w32 then 2 ^ 31 else 2 ^ 32) -> 1 + nlen (snd request) < 2 ^ 32 ->
  Forall interim_named before -> Forall (fits w32) before -> can_write c ->
  unread c = concat (map frame before) ++ frame (1, p) ++ rest ->
  exists c' o, conn_send w32 deadline (frame request) c = Ok (([Some e], o), c') /\ unread c' = rest /\
    (stops (fst request) (Some e) /\ o = Some (CServer e) \/ ~ stops (fst request) (Some e) /\ o = None).
Proof.
  intros w d req p v e before rest c Hd He Hp Hr Hi. apply C31_server_errors_faithful; try assumption.
  - apply C76_error_by_name. eauto.
  - apply interims_by_name. exact Hi.
Qed.

(* C76: authentication goes on exactly with the data of the challenge. *)
Theorem C76_challenged : forall w32 deadline creds m k c b b2 p d p2 r rest,
  mechanism_ok m creds -> start m creds = Ok b -> continue m = Some k -> k creds d = Ok b2 -> can_write_twice c ->
  challenges_named w32 p d -> answers_named w32 p2 r -> unread c = reply_bytes p ++ reply_bytes p2 ++ rest ->
  exists c', authenticate w32 deadline creds m c = Ok (match r with None => None | Some e => Some (CServer e) end, c') /\
    log c' = sent (ckind c) deadline b2 ++ sent (ckind c) deadline b ++ log c /\ unread c' = rest.
Proof.
  intros w dl creds m k c b b2 p d p2 r rest H1 H2 H3 H4 H5 H6 H7 H8.
  apply (C49_challenged w dl creds m k c b b2 p d p2 r rest); try assumption; [apply C76_challenges_by_name|apply C76_replies_by_name]; assumption.
Qed.

Example C76_sample : Forall (fun x => 1 + nlen (snd (asked x)) < 2 ^ 32 /\ answers_named true (replied x) (seen_as x)) sample_exchanges.
Proof.
  eapply Forall_impl; [|exact (proj1 sample_exchanges_ok)]. intros x [H1 H2]. split; [exact H1|]. apply C76_replies_by_name. exact H2.
Qed.
(* Fields in another order, an unknown one, and the code twice. *)
Example C76_odd_error : exists v, decode true "Mysqlx.Error" [34; 1; 72; 16; 9; 122; 0; 26; 2; 111; 104; 16; 149; 8] = Some v /\ error_fields v (mkse 0 1045 [72] [111; 104]).
Proof. eexists. split; [vm_compute; reflexivity|]. exists []. split; [reflexivity|]. left. auto. Qed.
Example C76_challenge_sample : challenges_named true (mkreply [(11, [])] (3, [10; 3; 1; 2; 3])) [1; 2; 3] /\ mechanism_ok toy toy_creds.
Proof. split; [apply C76_challenges_by_name|]; apply toy_ok. Qed.

Print Assumptions C75_a_server_reads_what_was_written.
Print Assumptions C75_reset.
Print Assumptions C75_authenticate_start.
Print Assumptions C75_authenticate_continue.
Print Assumptions C75_capability_set.
Print Assumptions C75_mysql41.
Print Assumptions C75_sha256.
Print Assumptions C75_plain.
Print Assumptions C76_error_by_name.
Print Assumptions C76_column_meta_by_name.
Print Assumptions C76_challenge_by_name.
Print Assumptions C76_replies_by_name.
Print Assumptions C76_challenges_by_name.
Print Assumptions C76_one_response_per_request.
Print Assumptions C76_success_means_complete_replies.
Print Assumptions C76_server_errors_faithful.
Print Assumptions C76_challenged.
