(* C77: the error of Send says what went wrong. *)
From Coq Require Import String List NArith ZArith Arith Bool Lia ZifyN ZifyNat ZifyBool.
From Coq Require Import List.
From Verif Require Import Base SpecWire SpecUnit Conn SpecReply SpecBroken Unmarshal UnmarshalProofs ConnProofs ReplyProofs ThmConn.
Import ListNotations.
Open Scope N_scope.
Open Scope list_scope.
Ltac Zify.zify_post_hook ::= Z.div_mod_to_equations.

Lemma header_parts bs : 5 <= nlen bs -> bs = firstN 5 bs ++ skipN 5 bs /\ nlen (firstN 5 bs) = 5 /\ firstn 4 (firstN 5 bs) = firstn 4 bs.
Proof. intros H. rewrite firstN_skipN. split; [reflexivity|]. split; [rewrite nlen_firstN; lia|apply firstn_5_4]. Qed.

Lemma with_header header rest : nlen header = 5 -> firstn 4 (header ++ rest) = firstn 4 header /\ skipN 5 (header ++ rest) = rest /\ nlen (header ++ rest) = 5 + nlen rest.
Proof.
  intros H. destruct header as [|a [|b [|c [|d [|e [|f h]]]]]]; unfold nlen in H; cbn [length] in H; try lia. cbn [app]. split; [reflexivity|]. split; [reflexivity|].
  unfold nlen. cbn [length]. lia.
Qed.

Lemma u32_bound bs : is_bytes bs -> 5 <= nlen bs -> le (firstn 4 bs) < 2 ^ 32.
Proof.
  intros Hb L. destruct bs as [|a [|b' [|c [|d [|t q]]]]]; try (unfold nlen in L; cbn in L; lia). cbn [firstn le].
  inversion Hb as [|? ? Ba Hb1]; subst. inversion Hb1 as [|? ? Bb Hb2]; subst. inversion Hb2 as [|? ? Bc Hb3]; subst. inversion Hb3 as [|? ? Bd Hb4]; subst. unfold is_byte in *. lia.
Qed.

Lemma eof_eq fin bs : eof_in_frame fin bs = if 0 <? nlen bs then match fin with IoEOF => IoUnexpectedEOF | e => e end else fin.
Proof. unfold eof_in_frame. destruct (N.eqb_spec (nlen bs) 0), (N.ltb_spec 0 (nlen bs)); try lia; destruct fin; reflexivity. Qed.

(* A message that cannot be read. *)
Lemma amessage_failed w32 fin bs e q ct : is_bytes bs -> amessage w32 fin bs = (inr e, q) -> defect w32 ct fin bs e.
Proof.
  intros Hb H. unfold amessage in H. destruct (N.ltb_spec (nlen bs) 5) as [L|L]; [injection H as <- <-; apply Cut_header; exact L|].
  destruct (header_parts bs L) as (E & H5 & H4). pose proof (u32_bound bs Hb L) as U. set (u := le (firstn 4 bs)) in *. rewrite E.
  assert (D : le (firstn 4 (firstN 5 bs)) = u) by (rewrite H4; reflexivity).
  destruct (Z.ltb_spec (int_of_u32 w32 u) 1) as [P|P].
  - injection H as <- <-. unfold int_of_u32 in *. destruct w32; cbn [andb] in *.
    + destruct (N.leb_spec (2 ^ 31) u) as [G|G]; [|replace u with 0 by lia; apply No_type; [exact H5|lia]].
      rewrite <- D. apply Too_long; [reflexivity|exact H5|lia].
    + replace u with 0 by lia. apply No_type; [exact H5|lia].
  - assert (I : int_of_u32 w32 u = Z.of_N u /\ u < (if w32 then 2 ^ 31 else 2 ^ 32)).
    { unfold int_of_u32 in *. destruct w32; cbn [andb] in *; [|auto]. destruct (N.leb_spec (2 ^ 31) u); [lia|auto]. }
    destruct I as [I1 I2]. rewrite I1 in *. set (m := Z.to_N (Z.of_N u - 1)) in *. assert (M : 1 + m = u) by (unfold m; lia).
    destruct (N.ltb_spec 0 m) as [Z|Z]; [|discriminate].
    pose proof (Cut_payload w32 ct fin (firstN 5 bs) (skipN 5 bs) m H5 ltac:(lia) ltac:(lia)) as C.
    change buf_size with 4096 in H. destruct (N.leb_spec m 4096) as [B|B].
    + destruct (N.leb_spec m (nlen (skipN 5 bs))) as [G|G]; [discriminate|]. injection H as <- <-. specialize (C G).
      destruct (N.ltb_spec 4096 m) as [X|X]; [lia|]. exact C.
    + destruct (N.leb_spec m (nlen (skipN 5 bs))) as [G|G]; [discriminate|]. injection H as <- <-. specialize (C G).
      destruct (N.ltb_spec 4096 m) as [X|X]; [|lia]. rewrite eof_eq. exact C.
Qed.

(* One reply, whatever arrives: complete, or broken. *)
Lemma aread_total : forall k bs, (List.length bs <= k)%nat -> forall w32 ct fin r o rest, is_bytes bs -> aread w32 ct fin bs = ((r, o), rest) ->
  (exists p, bs = reply_bytes p ++ rest /\ answers w32 p r /\ o = outcome ct r) \/
  (exists e, r = None /\ o = Some e /\ breaks w32 ct fin bs e).
Proof.
  induction k as [|k IH]; intros bs Hk w32 ct fin r o rest Hb H; rewrite aread_eq in H.
  - destruct bs; [|cbn in Hk; lia]. cbn in H. injection H as <- <- <-. right. exists (CRead fin). split; [reflexivity|]. split; [reflexivity|].
    exists [], []. split; [reflexivity|]. split; [constructor|]. split; [constructor|]. apply Cut_header. reflexivity.
  - destruct (amessage w32 fin bs) as [[[[st b] n]|e] q] eqn:E.
    + pose proof (amessage_consumes _ _ _ _ _ _ _ E) as C. destruct (amessage_back _ _ _ _ _ _ _ Hb E) as (p & E1 & -> & Hf).
      assert (B : forall e, defect w32 ct fin bs e -> breaks w32 ct fin bs e) by (intros e D; exists [], bs; auto).
      destruct (dispatch ct st (seen (st, p))) as [[resp o']|] eqn:D.
      * assert (Hx : resp = r /\ o' = o) by (destruct o' as [[]|]; injection H as -> -> _; auto). destruct Hx as [-> ->].
        assert (Hfin : o <> Some CBadMeta -> rest = skipN n q) by (intros N; destruct o as [[]|]; try congruence; injection H as <-; reflexivity).
        assert (Done : reports (st, p) r -> o = outcome ct r -> o <> Some CBadMeta -> (exists p0, bs = reply_bytes p0 ++ rest /\ answers w32 p0 r /\ o = outcome ct r)).
        { intros R O N. exists (mkreply [] (st, p)). unfold reply_bytes. cbn [interims final app map concat]. rewrite app_nil_r, (Hfin N). split; [exact E1|].
          split; [|exact O]. split; [constructor|]. split; [exact R|]. constructor; [exact Hf|constructor]. }
        clear H Hfin. unfold dispatch, srvOK, srvAUTH_OK, srvSTMT_EXECUTE_OK, srvCOLUMN_META, srvERROR, srvAUTH_CONTINUE in D.
        destruct (N.eqb_spec st 0) as [->|]; [cbn [orb] in D; injection D as <- <-; left; apply Done; [cbn; auto|reflexivity|discriminate]|].
        destruct (N.eqb_spec st 4) as [->|]; [cbn [orb] in D; injection D as <- <-; left; apply Done; [cbn; auto|reflexivity|discriminate]|].
        destruct (N.eqb_spec st 17) as [->|]; [cbn [orb] in D; injection D as <- <-; left; apply Done; [cbn; auto|reflexivity|discriminate]|]. cbn [orb] in D.
        destruct (N.eqb_spec st 12) as [->|].
        { destruct (unmarshal_meta_ok (seen (12, p))) eqn:U; [discriminate|]. injection D as <- <-. right. exists CBadMeta. split; [reflexivity|]. split; [reflexivity|]. apply B. rewrite E1.
          apply Bad_meta; [exact Hf|]. intros M. destruct (meta_ok p M) as [M1 M2]. unfold seen in U. cbn [snd] in U. destruct p; congruence. }
        destruct (N.eqb_spec st 1) as [->|].
        { destruct (unmarshal_error (seen (1, p))) as [e|] eqn:U.
          - rewrite answer_error_eq in D. injection D as <- <-. left. apply Done.
            + split; [reflexivity|]. apply error_unmarshal. destruct p; [discriminate U|exact U].
            + reflexivity.
            + destruct (stops_dec ct (Some e)); discriminate.
          - injection D as <- <-. right. exists CBadError. split; [reflexivity|]. split; [reflexivity|]. apply B. rewrite E1. apply Bad_error; [exact Hf|].
            intros e M. destruct p as [|x p]; [exact (error_not_empty e M)|]. apply error_unmarshal in M. unfold seen in U. cbn [snd] in U. congruence. }
        destruct (N.eqb_spec st 3) as [->|]; [|discriminate]. unfold cliAUTH_START in D. destruct (N.eqb_spec ct 4) as [->|Hct]; cbn [negb] in D.
        -- destruct (unmarshal_continue (seen (3, p))) as [d|] eqn:U; injection D as <- <-; right; eexists; (split; [reflexivity|]); (split; [reflexivity|]); apply B; rewrite E1.
           ++ apply Asked; [exact Hf|reflexivity|]. split; [reflexivity|]. assert (S : seen (3, p) = p) by (destruct p; [discriminate U|reflexivity]). rewrite S in U.
              unfold unmarshal_continue in U. cbn [snd]. destruct (ufields p) as [fs|] eqn:Uf; [|discriminate]. cbn [obind] in U. exists fs. split; [apply ufields_wire; exact Uf|]. apply bytes_last. exact U.
           ++ apply Bad_challenge; [exact Hf|reflexivity|]. intros d M. destruct (challenge_not_empty _ _ M) as [M1 M2]. rewrite M1 in U. congruence.
        -- injection D as <- <-. right. eexists. split; [reflexivity|]. split; [reflexivity|]. apply B. rewrite E1. apply Unasked; assumption.
      * assert (Hb' : is_bytes (skipN n q)). { rewrite E1 in Hb. apply Forall_app in Hb. apply Hb. }
        pose proof (dispatch_none _ _ _ D) as Hi.
        destruct (IH (skipN n q) ltac:(lia) _ _ _ _ _ _ Hb' H) as [([is f] & P1 & (P2 & P3 & P4) & P5)|(e & -> & -> & (be & af & P1 & P2 & P3 & P4))].
        -- left. exists (mkreply ((st, p) :: is) f). unfold reply_bytes in *. cbn [interims final app map concat] in *. split; [rewrite <- app_assoc, <- P1; exact E1|].
           split; [|exact P5]. split; [constructor; assumption|]. split; [exact P3|constructor; [exact Hf|exact P4]].
        -- right. exists e. split; [reflexivity|]. split; [reflexivity|]. exists ((st, p) :: be), af. cbn [map concat]. rewrite <- app_assoc, <- P1. split; [exact E1|].
           split; [constructor; assumption|]. split; [constructor; assumption|exact P4].
    + injection H as <- <- <-. right. exists e. split; [reflexivity|]. split; [reflexivity|]. exists [], bs. split; [reflexivity|]. split; [constructor|]. split; [constructor|].
      exact (amessage_failed _ _ _ _ _ _ Hb E).
Qed.

(* ... and the other way round. *)
Lemma amessage_short w32 fin header rest : nlen header = 5 -> (int_of_u32 w32 (le (firstn 4 header)) < 1)%Z ->
  amessage w32 fin (header ++ rest) = (inr (CShort (int_of_u32 w32 (le (firstn 4 header)))), rest).
Proof.
  intros H5 H. destruct (with_header header rest H5) as (A & B & C). unfold amessage. rewrite A, B, C.
  destruct (N.ltb_spec (5 + nlen rest) 5); [lia|]. destruct (Z.ltb_spec (int_of_u32 w32 (le (firstn 4 header))) 1); [reflexivity|lia].
Qed.

Lemma dispatch_three ct b : dispatch ct 3 b = if negb (ct =? 4) then Some (None, Some CUnexpectedContinue) else match unmarshal_continue b with None => Some (@None server_error, Some CBadContinue) | Some d => Some (None, Some (CChallenge d)) end.
Proof. reflexivity. Qed.
Lemma continue_challenge p d : unmarshal_continue (seen (3, p)) = Some d -> challenge (3, p) d.
Proof.
  intros U. split; [reflexivity|]. assert (S : seen (3, p) = p) by (destruct p; [discriminate U|reflexivity]). rewrite S in U.
  unfold unmarshal_continue in U. cbn [snd]. destruct (ufields p) as [fs|] eqn:Uf; [|discriminate]. cbn [obind] in U. exists fs. split; [apply ufields_wire; exact Uf|]. apply bytes_last. exact U.
Qed.

Lemma defect_aread w32 ct fin bs e : defect w32 ct fin bs e -> fst (aread w32 ct fin bs) = (None, Some e).
Proof.
  intros D. rewrite aread_eq. destruct D as [bs L|header p n H5 Hn Hf Hp|header rest H5 Hn|header rest Hw H5 Hn|p rest Hf Hp|p rest Hf Hp|p rest Hf Hct|p rest Hf Hct Hp|p d rest Hf Hct Hp].
  - unfold amessage. destruct (N.ltb_spec (nlen bs) 5); [reflexivity|lia].
  - destruct (with_header header p H5) as (A & B & C). unfold amessage. rewrite A, B, C, Hn. destruct (N.ltb_spec (5 + nlen p) 5); [lia|].
    assert (E : int_of_u32 w32 (1 + n) = Z.of_N (1 + n)).
    { unfold int_of_u32. destruct w32; cbn [andb]; [|reflexivity]. destruct (N.leb_spec (2 ^ 31) (1 + n)); [lia|reflexivity]. }
    rewrite E. destruct (Z.ltb_spec (Z.of_N (1 + n)) 1); [lia|]. replace (Z.to_N (Z.of_N (1 + n) - 1)) with n by lia.
    destruct (N.ltb_spec 0 n); [|lia]. change buf_size with 4096. destruct (N.leb_spec n (nlen p)); [lia|].
    destruct (N.leb_spec n 4096), (N.ltb_spec 4096 n); try lia; [reflexivity|]. cbn [fst andb]. rewrite eof_eq. reflexivity.
  - rewrite amessage_short; rewrite ?Hn; [|exact H5|unfold int_of_u32; destruct w32; reflexivity]. unfold int_of_u32. destruct w32; reflexivity.
  - subst w32. assert (E : int_of_u32 true (le (firstn 4 header)) = (Z.of_N (le (firstn 4 header)) - 2 ^ 32)%Z).
    { unfold int_of_u32. cbn [andb]. destruct (N.leb_spec (2 ^ 31) (le (firstn 4 header))); [reflexivity|lia]. }
    rewrite amessage_short by (assumption || lia). cbn [fst]. rewrite E. reflexivity.
  - destruct (amessage_frame w32 fin (1, p) rest Hf) as (n & q & -> & <-). cbn [fst].
    change (dispatch ct 1 (seen (1, p))) with (match unmarshal_error (seen (1, p)) with None => Some (None, Some CBadError) | Some e => Some (answer_error ct e) end).
    destruct (unmarshal_error (seen (1, p))) as [e|] eqn:U; [|reflexivity]. destruct p as [|x p]; [discriminate U|]. apply error_unmarshal in U. destruct (Hp e U).
  - destruct (amessage_frame w32 fin (12, p) rest Hf) as (n & q & -> & <-). cbn [fst].
    change (dispatch ct 12 (seen (12, p))) with (if unmarshal_meta_ok (seen (12, p)) then @None (response * option cerr) else Some (None, Some CBadMeta)).
    destruct (unmarshal_meta_ok (seen (12, p))) eqn:U; [|reflexivity]. exfalso. apply Hp.
    assert (H : interim (12, p)).
    { apply (dispatch_none ct). change (dispatch ct 12 (seen (12, p))) with (if unmarshal_meta_ok (seen (12, p)) then @None (response * option cerr) else Some (None, Some CBadMeta)). rewrite U. reflexivity. }
    apply H. reflexivity.
  - destruct (amessage_frame w32 fin (3, p) rest Hf) as (n & q & -> & <-). cbn [fst]. rewrite dispatch_three. destruct (N.eqb_spec ct 4); [contradiction|reflexivity].
  - destruct (amessage_frame w32 fin (3, p) rest Hf) as (n & q & -> & <-). cbn [fst]. rewrite dispatch_three. subst ct. cbn [N.eqb Pos.eqb negb].
    destruct (unmarshal_continue (seen (3, p))) as [d|] eqn:U; [|reflexivity]. exfalso. apply (Hp d). exact (continue_challenge p d U).
  - destruct (amessage_frame w32 fin (3, p) rest Hf) as (n & q & -> & <-). cbn [fst]. rewrite dispatch_three. subst ct. cbn [N.eqb Pos.eqb negb].
    destruct (challenge_not_empty _ _ Hp) as [M1 M2]. cbn [snd] in M1, M2. rewrite M1, M2. reflexivity.
Qed.

Lemma breaks_aread w32 ct fin bs e : breaks w32 ct fin bs e -> fst (aread w32 ct fin bs) = (None, Some e).
Proof.
  intros (be & af & -> & Hi & Hf & D). induction be as [|i be IH]; [exact (defect_aread _ _ _ _ _ D)|]. cbn [map concat]. rewrite <- app_assoc, aread_eq.
  inversion Hi as [|? ? I1 I2]; subst. inversion Hf as [|? ? F1 F2]; subst.
  destruct (amessage_frame w32 fin i (concat (map frame be) ++ af) F1) as (n & q & -> & E). rewrite (dispatch_interim ct i I1), E. apply IH; assumption.
Qed.

(* ---- the theorems ---- *)

(* C77: whatever arrives, the result of Send is explained by it. *)
Theorem C77_error_says_what_went_wrong : forall w32 deadline requests c,
  Forall (fun f => 1 + nlen (snd f) < 2 ^ 32) requests -> can_write c -> is_bytes (unread c) ->
  exists rs e c', conn_send w32 deadline (concat (map frame requests)) c = Ok ((rs, e), c') /\
    result w32 (ended (rd c)) requests (unread c) rs e (unread c').
Proof.
  intros w32 d requests c Hf Hw Hb. destruct (send_spec w32 d requests c Hf Hw) as (c' & A & B & _). cbn zeta in A, B.
  destruct (areads w32 (map fst requests) (ended (rd c)) (unread c)) as [[rs e] rest] eqn:E. cbn [fst snd] in A, B. exists rs, e, c'. split; [exact A|]. rewrite B. clear A B.
  generalize dependent (unread c). generalize (ended (rd c)). clear - requests. intros fin. revert rs e rest.
  induction requests as [|f fs IH]; intros rs e rest bs Hb E; cbn [map areads] in E; [injection E as <- <- <-; constructor|].
  destruct (aread w32 (fst f) fin bs) as [[r o] q] eqn:R. cbn [fst snd] in E.
  destruct (aread_total _ bs (le_n _) _ _ _ _ _ _ Hb R) as [(p & -> & Hp & ->)|(x & -> & -> & Hx)].
  - destruct (stops_dec (fst f) r) as [S|S].
    + destruct r as [s|]; [|destruct S]. rewrite (outcome_stop _ _ S) in E. injection E as <- <- <-. apply Stops; assumption.
    + rewrite (outcome_go _ _ S) in E. destruct (areads w32 (map fst fs) fin q) as [[rs' e'] q'] eqn:E'. cbn [fst snd] in E. injection E as <- <- <-.
      apply Answered; [exact Hp|exact S|]. apply IH; [|exact E']. apply Forall_app in Hb. apply Hb.
  - injection E as <- <- <-. apply Breaks; [exact Hx|]. destruct (aread_suffix _ bs (le_n _) _ _ _ _ _ R) as (u & ->). eauto.
Qed.

Lemma result_areads w32 fin requests bs rs e rest : result w32 fin requests bs rs e rest -> fst (areads w32 (map fst requests) fin bs) = (rs, e).
Proof.
  induction 1 as [bs|f fs p r bs rs e rest Hp Hs _ IH|f fs p s rest Hp Hs|f fs bs e rest Hb _]; cbn [map areads]; [reflexivity| | |].
  - rewrite (aread_reply _ _ _ _ _ _ Hp), (outcome_go _ _ Hs). cbn [fst snd]. destruct (areads w32 (map fst fs) fin bs) as [[a b] q]. cbn [fst snd] in *. injection IH as -> ->. reflexivity.
  - rewrite (aread_reply _ _ _ _ _ _ Hp), (outcome_stop _ _ Hs). reflexivity.
  - pose proof (breaks_aread _ _ _ _ _ Hb) as A. destruct (aread w32 (fst f) fin bs) as [a q]. cbn [fst] in A. subst a. reflexivity.
Qed.

(* C77: a stream with such an explanation gives that result, however it arrives. *)
Theorem C77_each_defect_is_reported : forall w32 deadline requests c rs e rest,
  Forall (fun f => 1 + nlen (snd f) < 2 ^ 32) requests -> can_write c ->
  result w32 (ended (rd c)) requests (unread c) rs e rest ->
  exists c', conn_send w32 deadline (concat (map frame requests)) c = Ok ((rs, e), c').
Proof.
  intros w32 d requests c rs e rest Hf Hw R. destruct (send_spec w32 d requests c Hf Hw) as (c' & A & _). cbn zeta in A. rewrite (result_areads _ _ _ _ _ _ _ R) in A. eauto.
Qed.

(* C77: there is one explanation only: different defects of the same stream would be reported differently. *)
Theorem C77_one_explanation : forall w32 fin requests bs rs e rest rs' e' rest',
  result w32 fin requests bs rs e rest -> result w32 fin requests bs rs' e' rest' -> rs = rs' /\ e = e'.
Proof.
  intros w32 fin requests bs rs e rest rs' e' rest' H H'. apply result_areads in H. apply result_areads in H'. rewrite H in H'. injection H' as <- <-. auto.
Qed.

(* C77: what the errors mean for a caller: io.EOF, or another error of the connection, only when the replies are not all there;
   and a cut reply is never taken for a defective one. *)
Theorem C77_read_errors_are_the_connection_s : forall w32 deadline requests c rs e c',
  Forall (fun f => 1 + nlen (snd f) < 2 ^ 32) requests -> can_write c -> is_bytes (unread c) ->
  conn_send w32 deadline (concat (map frame requests)) c = Ok ((rs, Some (CRead e)), c') ->
  e = ended (rd c) \/ e = IoUnexpectedEOF /\ ended (rd c) = IoEOF.
Proof.
  intros w32 d requests c rs e c' Hf Hw Hb H. destruct (C77_error_says_what_went_wrong w32 d requests c Hf Hw Hb) as (rs' & o & c1 & A & R). rewrite H in A. injection A as <- <- <-.
  remember (Some (CRead e)) as o eqn:Eo. generalize dependent (ended (rd c)). intros fin R. clear - R Eo.
  induction R as [bs|f fs p r bs rs o rest Hp Hs _ IH|f fs p s rest Hp Hs|f fs bs o rest (be & af & _ & _ & _ & D) _]; try discriminate; [exact (IH Eo)|].
  injection Eo as ->. inversion D as [? L|? ? n ? ? ? ?| | | | | | |]; subst; [auto|]. destruct ((4096 <? n) && (0 <? nlen payload))%bool; [|auto]. destruct fin; auto.
Qed.

(* The hypotheses are met: two requests (a statement, then ...) on a connection that has answered the first one and, for the
   second, gives a notice and then one of these. *)
Definition requests : list (N * bytes) := [(12, [18; 1; 97]); (12, [18; 1; 98])].
Definition answered : reply := mkreply [(11, [8; 4])] (17, []).
Definition conn_with (after : bytes) (fin : ioerr) : conn := mkc Tcp (mkr [] [firstn 7 (reply_bytes answered); skipn 7 (reply_bytes answered) ++ frame (11, [8; 4]) ++ after] fin) [] [] [].
Example answered_ok w32 : answers w32 answered None.
Proof.
  split; [|split; [cbn; auto|]].
  - constructor; [|constructor]. split; [cbn; intuition lia|cbn; lia].
  - destruct w32; repeat constructor; vm_compute; reflexivity.
Qed.
Lemma conn_with_result w32 after fin e : defect w32 12 fin after e -> result w32 fin requests (unread (conn_with after fin)) [None; None] (Some e) [].
Proof.
  intros D. replace (unread (conn_with after fin)) with (reply_bytes answered ++ frame (11, [8; 4]) ++ after)
    by (unfold unread, conn_with; cbn [rd held inbound concat]; rewrite (app_nil_r (skipn _ _ ++ _)), <- (firstn_skipn 7 (reply_bytes answered)), <- app_assoc; reflexivity).
  apply Answered; [apply answered_ok|cbn; tauto|]. apply Breaks; [|eexists; rewrite app_nil_r; reflexivity].
  exists [(11, [8; 4])], after. cbn [map concat]. rewrite app_nil_r. split; [reflexivity|]. split; [|split; [|exact D]].
  - constructor; [|constructor]. split; [cbn; intuition lia|cbn; lia].
  - destruct w32; repeat constructor; vm_compute; reflexivity.
Qed.
Example defects_meet :
  (* nothing more; a timeout inside of a header; the end inside of a message; inside of a long one *)
  defect false 12 IoEOF [] (CRead IoEOF) /\
  defect true 12 (IoOther 7) [5; 0; 0] (CRead (IoOther 7)) /\
  defect false 12 IoEOF [5; 0; 0; 0; 1; 8; 0] (CRead IoEOF) /\
  defect false 12 IoEOF [1; 32; 0; 0; 13; 8; 0] (CRead IoUnexpectedEOF) /\
  (* no type; 4 GiB on a 32 bit platform; an error without a code; column meta data without a type; a challenge *)
  defect true 12 IoEOF [0; 0; 0; 0; 0; 1; 2] (CShort 0) /\
  defect true 12 IoEOF [254; 255; 255; 255; 13; 1; 2] (CShort (-2)) /\
  defect false 12 IoEOF (frame (1, [26; 1; 97; 34; 1; 98])) CBadError /\
  defect false 12 IoEOF (frame (12, [18; 1; 97])) CBadMeta /\
  defect false 12 IoEOF (frame (3, [10; 1; 97])) CUnexpectedContinue /\
  defect false 4 IoEOF (frame (3, [18; 1; 97])) CBadContinue /\
  defect false 4 IoEOF (frame (3, [10; 1; 97])) (CChallenge [97]).
Proof.
  split; [apply Cut_header; reflexivity|]. split; [apply Cut_header; reflexivity|].
  split; [exact (Cut_payload false 12 IoEOF [5; 0; 0; 0; 1] [8; 0] 4 eq_refl eq_refl eq_refl eq_refl)|].
  split; [exact (Cut_payload false 12 IoEOF [1; 32; 0; 0; 13] [8; 0] 8192 eq_refl eq_refl eq_refl eq_refl)|].
  split; [exact (No_type true 12 IoEOF [0; 0; 0; 0; 0] [1; 2] eq_refl eq_refl)|].
  split; [refine (Too_long true 12 IoEOF [254; 255; 255; 255; 13] [1; 2] eq_refl eq_refl _); vm_compute; split; [discriminate|reflexivity]|].
  split; [rewrite <- (app_nil_r (frame _)); apply Bad_error; [vm_compute; reflexivity|intros e H; apply error_unmarshal in H; discriminate H]|].
  split; [rewrite <- (app_nil_r (frame _)); apply Bad_meta; [vm_compute; reflexivity|intros H; apply meta_ok in H; destruct H as [H _]; discriminate H]|].
  split; [rewrite <- (app_nil_r (frame _)); apply Unasked; [vm_compute; reflexivity|discriminate]|].
  split; [rewrite <- (app_nil_r (frame _)); apply Bad_challenge; [vm_compute; reflexivity|reflexivity|intros d H; apply challenge_not_empty in H; destruct H as [_ H]; discriminate H]|].
  rewrite <- (app_nil_r (frame _)). apply Asked; [vm_compute; reflexivity|reflexivity|]. split; [reflexivity|]. eexists. split; [apply wire_dfields; vm_compute; reflexivity|]. exists [], []. split; [reflexivity|intros w []].
Qed.
Example C77_sample : can_write (conn_with [5; 0; 0; 0; 1; 8; 0] IoEOF) /\ is_bytes (unread (conn_with [5; 0; 0; 0; 1; 8; 0] IoEOF)) /\ Forall (fun f => 1 + nlen (snd f) < 2 ^ 32) requests /\
  match conn_send false None (concat (map frame requests)) (conn_with [5; 0; 0; 0; 1; 8; 0] IoEOF) with Ok (x, _) => x = ([None; None], Some (CRead IoEOF)) | Panic => False end.
Proof. split; [split; reflexivity|]. split; [vm_compute; repeat constructor|]. split; [repeat constructor; vm_compute; reflexivity|]. vm_compute. reflexivity. Qed.

Print Assumptions C77_error_says_what_went_wrong.
Print Assumptions C77_each_defect_is_reported.
Print Assumptions C77_one_explanation.
Print Assumptions C77_read_errors_are_the_connection_s.
