(* Proofs about netx/connection: whole replies. *)
From Coq Require Import List NArith ZArith Arith Bool Lia ZifyN ZifyNat ZifyBool.
From Verif Require Import Base SpecWire SpecGroups Unmarshal UnmarshalProofs SpecUnit Conn SpecReply ConnProofs.
Import ListNotations.
Open Scope N_scope.
Ltac Zify.zify_post_hook ::= Z.div_mod_to_equations.

Lemma frame_head : forall f rest, 1 + nlen (snd f) < 2 ^ 32 ->
  le (firstn 4 (frame f ++ rest)) = 1 + nlen (snd f) /\ nth 4 (frame f ++ rest) 0 = fst f /\ nth_error (frame f ++ rest) 4 = Some (fst f) /\
  skipN 5 (frame f ++ rest) = snd f ++ rest /\ nlen (frame f ++ rest) = 5 + nlen (snd f) + nlen rest /\
  skipN (4 + (1 + nlen (snd f))) (frame f ++ rest) = rest.
Proof.
  intros [ty p] rest H. cbn [snd fst] in *. unfold frame. cbn [fst snd]. set (n := 1 + nlen p) in *.
  split; [cbn [app firstn le]; lia|]. split; [reflexivity|]. split; [reflexivity|]. split; [reflexivity|].
  split; [unfold nlen; cbn [app length]; rewrite app_length; lia|].
  replace (4 + n) with (5 + nlen p) by (unfold n; lia). rewrite <- skipN_add. cbn [app]. change (skipN 5 (_ :: _ :: _ :: _ :: ty :: p ++ rest)) with (p ++ rest).
  rewrite skipN_app2 by lia. rewrite N.sub_diag. reflexivity.
Qed.

Definition seen (f : N * bytes) : bytes := match snd f with [] => frame f | p => p end.

Lemma amessage_frame : forall w32 fin f rest, fits w32 f ->
  exists n r, amessage w32 fin (frame f ++ rest) = (inl (fst f, seen f, n), r) /\ skipN n r = rest.
Proof.
  intros w32 fin f rest H. assert (H32 : 1 + nlen (snd f) < 2 ^ 32) by (unfold fits in H; destruct w32; lia).
  destruct (frame_head f rest H32) as (A & B & _ & C & D & _). unfold amessage. rewrite A, B, C.
  destruct (N.ltb_spec (nlen (frame f ++ rest)) 5); [lia|].
  assert (E : int_of_u32 w32 (1 + nlen (snd f)) = Z.of_N (1 + nlen (snd f))).
  { unfold int_of_u32, fits in *. destruct w32; cbn [andb]; [|reflexivity]. destruct (N.leb_spec (2 ^ 31) (1 + nlen (snd f))); [lia|reflexivity]. }
  rewrite E. destruct (Z.ltb_spec (Z.of_N (1 + nlen (snd f))) 1); [lia|].
  replace (Z.to_N (Z.of_N (1 + nlen (snd f)) - 1)) with (nlen (snd f)) by lia.
  destruct (N.ltb_spec 0 (nlen (snd f))) as [P|P].
  - assert (S : seen f = snd f) by (unfold seen; destruct (snd f); [unfold nlen in P; cbn in P; lia|reflexivity]).
    rewrite S, nlen_app. destruct (N.leb_spec (nlen (snd f)) (nlen (snd f) + nlen rest)); [|lia].
    rewrite firstN_app1 by lia. assert (F : firstN (nlen (snd f)) (snd f) = snd f).
    { unfold firstN, nlen. rewrite Nnat.Nat2N.id. apply firstn_all. }
    rewrite F. assert (G : skipN (nlen (snd f)) (snd f ++ rest) = rest) by (rewrite skipN_app2, N.sub_diag by lia; reflexivity).
    destruct (nlen (snd f) <=? buf_size); eexists _, _; (split; [reflexivity|]); [exact G|]. rewrite G. reflexivity.
  - assert (S : snd f = []) by (destruct (snd f); [reflexivity|unfold nlen in P; cbn in P; lia]).
    unfold seen. rewrite S. eexists 0, _. split; [|reflexivity]. cbn [app]. do 2 f_equal. f_equal. f_equal. unfold frame. rewrite S. reflexivity.
Qed.

(* ---- fields ---- *)

Lemma number_last : forall n fs v, number_field n fs v <-> last_varint n fs = Some v.
Proof.
  intros n fs v. split.
  - intros (a & b & -> & H). assert (B : last_varint n b = None).
    { induction b as [|[m w] b IH]; [reflexivity|]. cbn [last_varint]. rewrite IH by (intros x X; apply (H x); right; exact X). destruct (N.eqb_spec m n) as [->|]; [|reflexivity].
      destruct w as [x|x|x|x]; try reflexivity. destruct (H x). left. reflexivity. }
    induction a as [|[m w] a IH]; cbn [app last_varint]; [rewrite B, N.eqb_refl; reflexivity|]. rewrite IH. reflexivity.
  - induction fs as [|[m w] fs IH]; cbn [last_varint]; [discriminate|]. destruct (last_varint n fs) as [x|] eqn:E.
    + intros H. injection H as ->. destruct (IH eq_refl) as (a & b & -> & H). exists ((m, w) :: a), b. auto.
    + destruct (N.eqb_spec m n) as [->|]; [|discriminate]. destruct w as [x|x|x|x]; try discriminate. cbn. intros H. injection H as ->. exists [], fs. split; [reflexivity|].
      intros x X. clear IH. induction fs as [|[m w] fs IH]; [destruct X|]. cbn [last_varint] in E. destruct (last_varint n fs) eqn:E'; [discriminate|]. destruct X as [X|X]; [|exact (IH eq_refl X)].
      injection X as -> ->. rewrite N.eqb_refl in E. discriminate.
Qed.
Lemma number_none : forall n fs, (forall w, ~ In (n, WVarint w) fs) <-> last_varint n fs = None.
Proof.
  intros n fs. split.
  - induction fs as [|[m w] fs IH]; intros H; cbn [last_varint]; [reflexivity|]. rewrite IH by (intros x X; apply (H x); right; exact X). destruct (N.eqb_spec m n) as [->|]; [|reflexivity].
    destruct w as [x|x|x|x]; try reflexivity. destruct (H x). left. reflexivity.
  - intros E x X. induction fs as [|[m w] fs IH]; [destruct X|]. cbn [last_varint] in E. destruct (last_varint n fs) eqn:E'; [discriminate|]. destruct X as [X|X]; [|exact (IH eq_refl X)].
    injection X as -> ->. rewrite N.eqb_refl in E. discriminate.
Qed.
Lemma bytes_last : forall n fs v, bytes_field n fs v <-> last_len n fs = Some v.
Proof.
  intros n fs v. split.
  - intros (a & b & -> & H). assert (B : last_len n b = None).
    { induction b as [|[m w] b IH]; [reflexivity|]. cbn [last_len]. rewrite IH by (intros x X; apply (H x); right; exact X). destruct (N.eqb_spec m n) as [->|]; [|reflexivity].
      destruct w as [x|x|x|x]; try reflexivity. destruct (H x). left. reflexivity. }
    induction a as [|[m w] a IH]; cbn [app last_len]; [rewrite B, N.eqb_refl; reflexivity|]. rewrite IH. reflexivity.
  - induction fs as [|[m w] fs IH]; cbn [last_len]; [discriminate|]. destruct (last_len n fs) as [x|] eqn:E.
    + intros H. injection H as ->. destruct (IH eq_refl) as (a & b & -> & H). exists ((m, w) :: a), b. auto.
    + destruct (N.eqb_spec m n) as [->|]; [|discriminate]. destruct w as [x|x|x|x]; try discriminate. cbn. intros H. injection H as ->. exists [], fs. split; [reflexivity|].
      intros x X. clear IH. induction fs as [|[m w] fs IH]; [destruct X|]. cbn [last_len] in E. destruct (last_len n fs) eqn:E'; [discriminate|]. destruct X as [X|X]; [|exact (IH eq_refl X)].
      injection X as -> ->. rewrite N.eqb_refl in E. discriminate.
Qed.

Lemma error_unmarshal : forall p e, error_message p e <-> unmarshal_error p = Some e.
Proof.
  intros p [sev c st tx]. unfold unmarshal_error, error_message. cbn [severity code text sql_state]. split.
  - intros (fs & c' & Hf & Hs & Hc & -> & Ht & Hq). apply ufields_wire in Hf. rewrite Hf. cbn [obind]. apply number_last in Hc. apply bytes_last in Ht. apply bytes_last in Hq. rewrite Hc. cbn [obind]. rewrite Ht. cbn [obind]. rewrite Hq. cbn [obind].
    destruct Hs as [(Hs & ->)|(s & Hs & ->)]; [apply number_none in Hs|apply number_last in Hs]; rewrite Hs; reflexivity.
  - intros H. destruct (ufields p) as [fs|] eqn:Hf; [|discriminate]. apply ufields_wire in Hf. cbn [obind] in H. destruct (last_varint 2 fs) as [c'|] eqn:Hc; [|discriminate]. cbn [obind] in H. destruct (last_len 3 fs) as [m|] eqn:Ht; [|discriminate]. cbn [obind] in H.
    destruct (last_len 4 fs) as [q|] eqn:Hq; [|discriminate]. cbn [obind] in H. injection H as <- <- <- <-. exists fs, c'. split; [exact Hf|]. split.
    + destruct (last_varint 1 fs) as [s|] eqn:Hs; [right; exists s; split; [apply number_last; exact Hs|reflexivity]|left; split; [apply number_none; exact Hs|reflexivity]].
    + split; [apply number_last; exact Hc|]. split; [reflexivity|]. split; apply bytes_last; assumption.
Qed.
Lemma error_not_empty : forall e, ~ error_message [] e.
Proof. intros e H. apply error_unmarshal in H. discriminate H. Qed.
Lemma meta_ok : forall p, column_meta p -> unmarshal_meta_ok p = true /\ p <> [].
Proof.
  intros p (fs & t & H1 & H2). apply ufields_wire in H1. unfold unmarshal_meta_ok. rewrite H1. cbn [obind]. apply number_last in H2. rewrite H2. split; [reflexivity|].
  intros ->. cbn in H1. injection H1 as <-. discriminate H2.
Qed.

Lemma dispatch_interim : forall ct f, interim f -> dispatch ct (fst f) (seen f) = None.
Proof.
  intros ct [ty p] [H1 H2]. cbn [fst snd] in *. unfold dispatch, srvOK, srvAUTH_OK, srvSTMT_EXECUTE_OK, srvCOLUMN_META, srvERROR, srvAUTH_CONTINUE.
  assert (N0 : ty <> 0) by (intros ->; apply H1; cbn; auto). assert (N1 : ty <> 1) by (intros ->; apply H1; cbn; auto).
  assert (N3 : ty <> 3) by (intros ->; apply H1; cbn; auto). assert (N4 : ty <> 4) by (intros ->; apply H1; cbn; auto).
  assert (N17 : ty <> 17) by (intros ->; apply H1; cbn; auto 6).
  destruct (N.eqb_spec ty 0); [congruence|]. destruct (N.eqb_spec ty 4); [congruence|]. destruct (N.eqb_spec ty 17); [congruence|].
  cbn [orb]. destruct (N.eqb_spec ty 12) as [E|].
  - destruct (meta_ok p (H2 E)) as [M1 M2]. unfold seen. cbn [snd]. destruct p; [congruence|]. rewrite M1. reflexivity.
  - destruct (N.eqb_spec ty 1); [congruence|]. destruct (N.eqb_spec ty 3); [congruence|]. reflexivity.
Qed.

Lemma stops_dec : forall ct r, {stops ct r} + {~ stops ct r}.
Proof.
  intros ct [e|]; cbn [stops]; [|right; tauto]. destruct (N.eq_dec (severity e) 1); [left; auto|]. unfold session_request.
  destruct (in_dec N.eq_dec ct [4; 5; 6]); [left; auto|right; tauto].
Qed.

Lemma answer_error_eq : forall ct e, answer_error ct e = (Some e, if stops_dec ct (Some e) then Some (CServer e) else None).
Proof.
  intros ct e. unfold answer_error, is_fatal, cliRESET, cliAUTH_START, cliAUTH_CONTINUE. destruct (stops_dec ct (Some e)) as [S|S]; cbn [stops] in S; unfold session_request in S; cbn [In] in S.
  - destruct (N.eqb_spec (severity e) 1); [reflexivity|]. destruct (N.eqb_spec ct 6); [reflexivity|]. destruct (N.eqb_spec ct 4); [reflexivity|].
    destruct (N.eqb_spec ct 5); [reflexivity|]. exfalso. destruct S as [S|[S|[S|[S|S]]]]; congruence || contradiction.
  - destruct (N.eqb_spec (severity e) 1); [tauto|]. destruct (N.eqb_spec ct 6) as [->|]; [exfalso; apply S; auto|]. destruct (N.eqb_spec ct 4) as [->|]; [exfalso; apply S; auto|].
    destruct (N.eqb_spec ct 5) as [->|]; [exfalso; apply S; auto|]. reflexivity.
Qed.

Definition outcome (ct : N) (r : response) : option cerr :=
  match r with Some e => if stops_dec ct (Some e) then Some (CServer e) else None | None => None end.

Lemma dispatch_final : forall ct f r, reports f r -> dispatch ct (fst f) (seen f) = Some (r, outcome ct r).
Proof.
  intros ct [ty p] [e|] H; unfold reports, failure, success in H; cbn [fst snd] in *.
  - destruct H as [-> H]. change (dispatch ct 1 (seen (1, p))) with (match unmarshal_error (seen (1, p)) with None => Some (None, Some CBadError) | Some e => Some (answer_error ct e) end).
    unfold seen. cbn [snd]. destruct p as [|x p]; [destruct (error_not_empty e H)|]. rewrite (proj1 (error_unmarshal _ _) H), answer_error_eq. reflexivity.
  - destruct H as [<-|[<-|[<-|[]]]]; reflexivity.
Qed.

Lemma outcome_cases : forall ct r, outcome ct r <> Some CBadMeta.
Proof. intros ct [e|]; cbn; [destruct (stops_dec ct (Some e))|]; discriminate. Qed.

Lemma aread_reply : forall w32 ct fin p r rest, answers w32 p r ->
  aread w32 ct fin (reply_bytes p ++ rest) = ((r, outcome ct r), rest).
Proof.
  intros w32 ct fin [is f] r rest (H1 & H2 & H3). unfold reply_bytes. cbn [interims final] in *. induction is as [|i is IH].
  - cbn [app map concat]. rewrite app_nil_r, aread_eq. inversion H3 as [|? ? Hf _]; subst. destruct (amessage_frame w32 fin f rest Hf) as (n & q & -> & <-).
    rewrite (dispatch_final ct f r H2). pose proof (outcome_cases ct r) as HO. destruct (outcome ct r) as [[]|]; try congruence; reflexivity.
  - cbn [app map concat]. rewrite <- app_assoc, aread_eq. inversion H3 as [|? ? Hf H3']; subst. inversion H1 as [|? ? Hi H1']; subst.
    destruct (amessage_frame w32 fin i (concat (map frame (is ++ [f])) ++ rest) Hf) as (n & q & -> & E). rewrite (dispatch_interim ct i Hi), E. apply IH; assumption.
Qed.

(* ---- what was read, from the fact that reading succeeded ---- *)

Lemma frame_back : forall bs n, is_bytes bs -> 5 <= nlen bs -> 1 + n = le (firstn 4 bs) -> n <= nlen (skipN 5 bs) ->
  bs = frame (nth 4 bs 0, firstN n (skipN 5 bs)) ++ skipN n (skipN 5 bs) /\ nlen (firstN n (skipN 5 bs)) = n.
Proof.
  intros bs n Hb H5 Hn Hl. assert (L : nlen (firstN n (skipN 5 bs)) = n) by (rewrite nlen_firstN; lia). split; [|exact L].
  unfold frame. cbn [fst snd]. rewrite L. destruct bs as [|a [|b [|c [|d [|t r]]]]]; try (unfold nlen in H5; cbn in H5; lia).
  change (skipN 5 (a :: b :: c :: d :: t :: r)) with r in *. cbn [firstn le nth] in *.
  inversion Hb as [|? ? Ba Hb1]; subst. inversion Hb1 as [|? ? Bb Hb2]; subst. inversion Hb2 as [|? ? Bc Hb3]; subst. inversion Hb3 as [|? ? Bd Hb4]; subst.
  unfold is_byte in *. cbn [app]. rewrite firstN_skipN. repeat f_equal; lia.
Qed.

Lemma is_bytes_skipN : forall n bs, is_bytes bs -> is_bytes (skipN n bs).
Proof. intros n bs H. unfold is_bytes. rewrite <- (firstN_skipN n bs) in H. apply Forall_app in H. apply H. Qed.

Lemma amessage_back : forall w32 fin bs st b n r, is_bytes bs -> amessage w32 fin bs = (inl (st, b, n), r) ->
  exists p, bs = frame (st, p) ++ skipN n r /\ b = seen (st, p) /\ fits w32 (st, p).
Proof.
  intros w32 fin bs st b n r Hb H. unfold amessage in H. destruct (N.ltb_spec (nlen bs) 5) as [L|L]; [discriminate|].
  set (u := le (firstn 4 bs)) in *. assert (U : u < 2 ^ 32).
  { unfold u. destruct bs as [|a [|b' [|c [|d [|t q]]]]]; try (unfold nlen in L; cbn in L; lia). cbn [firstn le].
    inversion Hb as [|? ? Ba Hb1]; subst. inversion Hb1 as [|? ? Bb Hb2]; subst. inversion Hb2 as [|? ? Bc Hb3]; subst. inversion Hb3 as [|? ? Bd Hb4]; subst. unfold is_byte in *. lia. }
  destruct (Z.ltb_spec (int_of_u32 w32 u) 1) as [P|P]; [discriminate|].
  assert (I : int_of_u32 w32 u = Z.of_N u /\ u < (if w32 then 2 ^ 31 else 2 ^ 32)).
  { unfold int_of_u32 in *. destruct w32; cbn [andb] in *; [|auto]. destruct (N.leb_spec (2 ^ 31) u); [lia|auto]. }
  destruct I as [I1 I2]. rewrite I1 in *. set (m := Z.to_N (Z.of_N u - 1)) in *. assert (M : 1 + m = u) by (unfold m; lia).
  destruct (N.ltb_spec 0 m) as [Z|Z].
  - assert (K : m <= nlen (skipN 5 bs) -> b = firstN m (skipN 5 bs) -> skipN n r = skipN m (skipN 5 bs) -> st = nth 4 bs 0 ->
      exists p, bs = frame (st, p) ++ skipN n r /\ b = seen (st, p) /\ fits w32 (st, p)).
    { intros K1 -> -> ->. destruct (frame_back bs m Hb L M K1) as [F1 F2]. eexists. split; [exact F1|]. unfold seen, fits. cbn [snd].
      rewrite F2. split; [|lia]. destruct (firstN m (skipN 5 bs)) eqn:E; [unfold nlen in F2; cbn in F2; lia|reflexivity]. }
    destruct (m <=? buf_size).
    + destruct (N.leb_spec m (nlen (skipN 5 bs))) as [G|G]; [|discriminate].
      apply pair_equal_spec in H. destruct H as [H <-]. assert (H' : (nth 4 bs 0, firstN m (skipN 5 bs), m) = (st, b, n)) by congruence.
      apply pair_equal_spec in H'. destruct H' as [H' <-]. apply pair_equal_spec in H'. destruct H' as [<- <-]. apply K; auto.
    + destruct (N.leb_spec m (nlen (skipN 5 bs))) as [G|G]; [|discriminate].
      apply pair_equal_spec in H. destruct H as [H <-]. assert (H' : (nth 4 bs 0, firstN m (skipN 5 bs), 0) = (st, b, n)) by congruence.
      apply pair_equal_spec in H'. destruct H' as [H' <-]. apply pair_equal_spec in H'. destruct H' as [<- <-]. apply K; auto.
  - assert (M0 : m = 0) by lia. apply pair_equal_spec in H. destruct H as [H <-]. assert (H' : (nth 4 bs 0, firstn 5 bs, 0) = (st, b, n)) by congruence.
    apply pair_equal_spec in H'. destruct H' as [H' <-]. apply pair_equal_spec in H'. destruct H' as [<- <-].
    destruct (frame_back bs 0 Hb L ltac:(lia) ltac:(lia)) as [F1 F2]. exists []. change (firstN 0 (skipN 5 bs)) with (@nil N) in F1. split; [exact F1|]. split.
    + unfold seen. cbn [snd]. rewrite F1 at 1. reflexivity.
    + unfold fits. cbn. destruct w32; lia.
Qed.

Lemma dispatch_none : forall ct st p, dispatch ct st (seen (st, p)) = None -> interim (st, p).
Proof.
  intros ct st p H. set (b := seen (st, p)) in *. split; cbn [fst snd].
  2: { intros ->. change (dispatch ct 12 b) with (if unmarshal_meta_ok b then @None (response * option cerr) else Some (None, Some CBadMeta)) in H. destruct (unmarshal_meta_ok b) eqn:M; [|discriminate].
       assert (b = p) as E by (destruct p; [discriminate M|reflexivity]). rewrite E in M. unfold unmarshal_meta_ok in M. destruct (ufields p) as [fs|] eqn:Ef; [|discriminate]. apply ufields_wire in Ef. cbn [obind] in M.
       destruct (last_varint 1 fs) as [t|] eqn:L; [|discriminate]. exists fs, t. split; [exact Ef|]. apply number_last. exact L. }
  clearbody b. intros F. cbn [In final_types] in F. destruct F as [<-|[<-|[<-|[<-|[<-|[]]]]]].
  - discriminate.
  - change (dispatch ct 1 b) with (match unmarshal_error b with None => Some (None, Some CBadError) | Some e => Some (answer_error ct e) end) in H. destruct (unmarshal_error b); discriminate.
  - change (dispatch ct 3 b) with (if negb (ct =? cliAUTH_START) then Some (None, Some CUnexpectedContinue) else match unmarshal_continue b with None => Some (@None server_error, Some CBadContinue) | Some d => Some (None, Some (CChallenge d)) end) in H.
    destruct (negb _); [discriminate|]. destruct (unmarshal_continue b); discriminate.
  - discriminate.
  - discriminate.
Qed.
Lemma dispatch_ok : forall ct st b r, dispatch ct st b = Some (r, None) ->
  match r with None => In st [0; 4; 17] | Some e => st = 1 /\ unmarshal_error b = Some e /\ ~ stops ct (Some e) end.
Proof.
  intros ct st b r H. unfold dispatch, srvOK, srvAUTH_OK, srvSTMT_EXECUTE_OK, srvCOLUMN_META, srvERROR, srvAUTH_CONTINUE in H.
  destruct (N.eqb_spec st 0) as [->|]; [cbn in H; injection H as <-; cbn; auto|]. destruct (N.eqb_spec st 4) as [->|]; [cbn in H; injection H as <-; cbn; auto|].
  destruct (N.eqb_spec st 17) as [->|]; [cbn in H; injection H as <-; cbn; auto|]. cbn [orb] in H.
  destruct (st =? 12); [destruct (unmarshal_meta_ok b); discriminate|]. destruct (N.eqb_spec st 1) as [->|].
  - destruct (unmarshal_error b) as [e|]; [|discriminate]. rewrite answer_error_eq in H. destruct (stops_dec ct (Some e)); [discriminate|]. injection H as <-. auto.
  - destruct (st =? 3); [|discriminate]. destruct (negb _); [discriminate|]. destruct (unmarshal_continue b); discriminate.
Qed.

Lemma aread_back : forall k bs, (length bs <= k)%nat -> forall w32 ct fin r rest, is_bytes bs -> aread w32 ct fin bs = ((r, None), rest) ->
  exists p, bs = reply_bytes p ++ rest /\ answers w32 p r /\ ~ stops ct r.
Proof.
  induction k as [|k IH]; intros bs Hk w32 ct fin r rest Hb H; rewrite aread_eq in H.
  - destruct bs; [|cbn in Hk; lia]. cbn in H. discriminate.
  - destruct (amessage w32 fin bs) as [[[[st b] n]|e] q] eqn:E; [|discriminate]. pose proof (amessage_consumes _ _ _ _ _ _ _ E) as C.
    destruct (amessage_back _ _ _ _ _ _ _ Hb E) as (p & E1 & -> & Hf). destruct (dispatch ct st (seen (st, p))) as [[resp o]|] eqn:D.
    + assert (o = None /\ resp = r /\ skipN n q = rest) as (-> & -> & <-). { destruct o as [[]|]; try discriminate. injection H as -> ->. auto. }
      exists (mkreply [] (st, p)). unfold reply_bytes. cbn [interims final app map concat]. rewrite app_nil_r. split; [exact E1|]. apply dispatch_ok in D.
      split; [|destruct r; [apply D|cbn; tauto]]. split; [constructor|]. split; [|constructor; [exact Hf|constructor]]. cbn [final reports success failure fst snd]. destruct r as [e|]; [|exact D].
      destruct D as (-> & D & _). split; [reflexivity|]. apply error_unmarshal. destruct p; [discriminate D|exact D].
    + assert (Hb' : is_bytes (skipN n q)). { rewrite E1 in Hb. apply Forall_app in Hb. apply Hb. }
      destruct (IH (skipN n q) ltac:(lia) _ _ _ _ _ Hb' H) as ([is f] & P1 & (P2 & P3 & P4) & P5). exists (mkreply ((st, p) :: is) f).
      unfold reply_bytes in *. cbn [interims final app map concat] in *. split; [rewrite <- app_assoc, <- P1; exact E1|].
      split; [|exact P5]. split; [constructor; [exact (dispatch_none _ _ _ D)|exact P2]|]. split; [exact P3|constructor; [exact Hf|exact P4]].
Qed.

(* ---- several replies ---- *)

Fixpoint areads (w32 : bool) (cts : list N) (fin : ioerr) (bs : bytes) : (list response * option cerr) * bytes :=
  match cts with
  | [] => (([], None), bs)
  | ct :: cts =>
      let (a, bs) := aread w32 ct fin bs in
      match snd a with
      | Some e => (([fst a], Some e), bs)
      | None => let (b, bs) := areads w32 cts fin bs in ((fst a :: fst b, snd b), bs)
      end
  end.

Lemma c_read_spec : forall w32 ct c, exists c', c_read w32 ct c = (fst (aread w32 ct (ended (rd c)) (unread c)), c') /\
  unread c' = snd (aread w32 ct (ended (rd c)) (unread c)) /\ ended (rd c') = ended (rd c) /\
  ckind c' = ckind c /\ deadlines c' = deadlines c /\ writes c' = writes c /\ log c' = log c.
Proof.
  intros w32 ct c. unfold c_read. destruct (conn_read_spec w32 ct (rd c)) as (r' & -> & A & B). eexists. split; [reflexivity|]. unfold unread. cbn. auto 10.
Qed.

Lemma read_responses_spec : forall w32 requests k rs c, Forall (fun f => 1 + nlen (snd f) < 2 ^ 32) requests ->
  (length (concat (map frame requests)) <= k)%nat -> exists c',
  let A := areads w32 (map fst requests) (ended (rd c)) (unread c) in
  read_responses w32 k (concat (map frame requests)) rs c = Ok ((rs ++ fst (fst A), snd (fst A)), c') /\
  unread c' = snd A /\ ended (rd c') = ended (rd c) /\ ckind c' = ckind c /\ deadlines c' = deadlines c /\ writes c' = writes c /\ log c' = log c.
Proof.
  intros w32 requests. induction requests as [|f fs IH]; intros k rs c Hf Hk; cbn [map concat areads].
  - exists c. cbn. rewrite app_nil_r. destruct k; auto 10.
  - inversion Hf as [|? ? F1 F2]; subst. destruct (frame_head f (concat (map frame fs)) F1) as (A & B & C & _ & D & E).
    assert (Hl : exists x xs, frame f ++ concat (map frame fs) = x :: xs) by (unfold frame; cbn [app]; eauto). 
    cbn [map concat] in Hk. unfold nlen in D. destruct k as [|k]; [lia|]. 
    assert (R : forall X Y, match frame f ++ concat (map frame fs) with [] => X | _ => Y end = Y :> res ((list response * option cerr) * conn)) by (intros; destruct Hl as (x & xs & ->); reflexivity).
    cbn [read_responses]. rewrite C. clear R. destruct Hl as (x & xs & Hl).
    destruct (c_read_spec w32 (fst f) c) as (c1 & R1 & R2 & R3 & R4 & R5 & R6 & R7).
    assert (G : read_responses w32 (S k) (frame f ++ concat (map frame fs)) rs c =
      match snd (fst (aread w32 (fst f) (ended (rd c)) (unread c))) with
      | Some e => Ok ((rs ++ [fst (fst (aread w32 (fst f) (ended (rd c)) (unread c)))], Some e), c1)
      | None => read_responses w32 k (concat (map frame fs)) (rs ++ [fst (fst (aread w32 (fst f) (ended (rd c)) (unread c)))]) c1
      end).
    { cbn [read_responses]. rewrite C, A, E, R1. rewrite Hl. reflexivity. }
    cbn [read_responses] in G. rewrite C in G. rewrite G. clear G.
    destruct (aread w32 (fst f) (ended (rd c)) (unread c)) as [a bs] eqn:EA. cbn [fst snd] in *. destruct (snd a) as [e|].
    + exists c1. cbn. auto 10.
    + destruct (IH k (rs ++ [fst a]) c1 F2 ltac:(lia)) as (c' & S1 & S2 & S3 & S4 & S5 & S6 & S7). rewrite R2, R3 in *. cbn [snd] in S1, S2.
      exists c'. destruct (areads w32 (map fst fs) (ended (rd c)) bs) as [b bs'] eqn:EB. cbn [fst snd] in *. rewrite S1. rewrite <- app_assoc. cbn [app].
      split; [reflexivity|]. repeat split; congruence.
Qed.

Lemma send_spec : forall w32 d requests c, Forall (fun f => 1 + nlen (snd f) < 2 ^ 32) requests -> can_write c -> exists c',
  let A := areads w32 (map fst requests) (ended (rd c)) (unread c) in
  conn_send w32 d (concat (map frame requests)) c = Ok (fst A, c') /\
  unread c' = snd A /\ ended (rd c') = ended (rd c) /\ ckind c' = ckind c /\
  log c' = [Write (ckind c) (concat (map frame requests)) None; SetDeadline (ckind c) d None] ++ log c /\
  deadlines c' = snd (next_result (deadlines c)) /\ writes c' = snd (next_result (writes c)).
Proof.
  intros w32 d requests c Hf [W1 W2]. unfold conn_send, set_deadline, write. destruct (next_result (deadlines c)) as [x l] eqn:E1. cbn [fst] in W1. subst x. cbn [writes].
  destruct (next_result (writes c)) as [x l'] eqn:E2. cbn [fst] in W2. subst x. cbn [ckind rd deadlines log snd].
  destruct (read_responses_spec w32 requests (length (concat (map frame requests))) [] (mkc (ckind c) (rd c) l l' (Write (ckind c) (concat (map frame requests)) None :: SetDeadline (ckind c) d None :: log c)) Hf (le_n _))
    as (c' & R1 & R2 & R3 & R4 & R5 & R6 & R7). cbn [rd ckind log deadlines writes] in *.
  change (unread (mkc _ (rd c) _ _ _)) with (unread c) in R1, R2. exists c'. cbn zeta in *. rewrite R1. cbn [app].
  destruct (areads w32 (map fst requests) (ended (rd c)) (unread c)) as [[a1 a2] bs]. cbn [fst snd] in *. auto 10.
Qed.

Lemma outcome_go : forall ct r, ~ stops ct r -> outcome ct r = None.
Proof. intros ct [e|] H; cbn; [|reflexivity]. destruct (stops_dec ct (Some e)); [contradiction|reflexivity]. Qed.
Lemma outcome_stop : forall ct e, stops ct (Some e) -> outcome ct (Some e) = Some (CServer e).
Proof. intros ct e H. cbn. destruct (stops_dec ct (Some e)); [reflexivity|contradiction]. Qed.

Lemma areads_go : forall w32 fin xs cts rest, Forall (exchange_ok w32) xs -> Forall goes_on xs ->
  areads w32 (map (fun x => fst (asked x)) xs ++ cts) fin (replies_bytes xs ++ rest) =
  let (b, bs) := areads w32 cts fin rest in ((map seen_as xs ++ fst b, snd b), bs).
Proof.
  intros w32 fin xs. induction xs as [|x xs IH]; intros cts rest H1 H2; cbn [map app replies_bytes concat].
  - destruct (areads w32 cts fin rest) as [[a b] c]. reflexivity.
  - inversion H1 as [|? ? [_ A] H1']; subst. inversion H2 as [|? ? G H2']; subst. cbn [areads]. unfold replies_bytes in *. cbn [map concat]. rewrite <- app_assoc.
    rewrite (aread_reply _ _ _ _ _ _ A), (outcome_go _ _ G). cbn [snd fst]. rewrite (IH cts rest H1' H2'). destruct (areads w32 cts fin rest) as [[a b] c]. reflexivity.
Qed.

Lemma areads_back : forall w32 fin cts bs rs rest, is_bytes bs -> areads w32 cts fin bs = ((rs, None), rest) ->
  exists ps, bs = concat (map reply_bytes ps) ++ rest /\ Forall2 (answers w32) ps rs /\ Forall2 (fun ct r => ~ stops ct r) cts rs.
Proof.
  intros w32 fin cts. induction cts as [|ct cts IH]; intros bs rs rest Hb H; cbn [areads] in H.
  - injection H as <- <-. exists []. split; [reflexivity|]. split; constructor.
  - destruct (aread w32 ct fin bs) as [[r o] q] eqn:E. cbn [fst snd] in H. destruct o as [e|]; [discriminate|].
    destruct (aread_back _ bs (le_n _) _ _ _ _ _ Hb E) as (p & E1 & P1 & P2). destruct (areads w32 cts fin q) as [[rs' o'] q'] eqn:E'. cbn [fst snd] in H. injection H as <- -> <-.
    assert (Hb' : is_bytes q) by (rewrite E1 in Hb; apply Forall_app in Hb; apply Hb).
    destruct (IH q rs' q' Hb' E') as (ps & Q1 & Q2 & Q3). exists (p :: ps). cbn [map concat]. rewrite <- app_assoc, <- Q1. split; [exact E1|]. split; constructor; assumption.
Qed.

Lemma challenge_not_empty : forall f d, challenge f d -> seen f = snd f /\ unmarshal_continue (snd f) = Some d.
Proof.
  intros [ty p] d (H1 & fs & H2 & H3). cbn [fst snd] in *. unfold seen, unmarshal_continue. cbn [snd]. apply ufields_wire in H2. rewrite H2. cbn [obind]. apply bytes_last in H3. rewrite H3. split; [|reflexivity].
  destruct p; [|reflexivity]. cbn in H2. injection H2 as <-. discriminate H3.
Qed.

Lemma aread_challenge : forall w32 ct fin p d rest, challenges w32 p d ->
  aread w32 ct fin (reply_bytes p ++ rest) = ((None, Some (if ct =? 4 then CChallenge d else CUnexpectedContinue)), rest).
Proof.
  intros w32 ct fin [is f] d rest (H1 & H2 & H3). unfold reply_bytes. cbn [interims final] in *. induction is as [|i is IH].
  - cbn [app map concat]. rewrite app_nil_r, aread_eq. inversion H3 as [|? ? Hf _]; subst. destruct (amessage_frame w32 fin f rest Hf) as (n & q & -> & <-).
    destruct (challenge_not_empty f d H2) as [S U]. destruct H2 as [T _]. rewrite T, S.
    change (dispatch ct 3 (snd f)) with (if negb (ct =? cliAUTH_START) then Some (None, Some CUnexpectedContinue) else match unmarshal_continue (snd f) with None => Some (@None server_error, Some CBadContinue) | Some d => Some (None, Some (CChallenge d)) end).
    rewrite U. unfold cliAUTH_START. destruct (ct =? 4); reflexivity.
  - cbn [app map concat]. rewrite <- app_assoc, aread_eq. inversion H3 as [|? ? Hf H3']; subst. inversion H1 as [|? ? Hi H1']; subst.
    destruct (amessage_frame w32 fin i (concat (map frame (is ++ [f])) ++ rest) Hf) as (n & q & -> & E). rewrite (dispatch_interim ct i Hi), E. apply IH; assumption.
Qed.

(* ---- segmentation ---- *)

Lemma c_read_same : forall w32 ct a b, same_stream a b ->
  fst (c_read w32 ct a) = fst (c_read w32 ct b) /\ same_stream (snd (c_read w32 ct a)) (snd (c_read w32 ct b)).
Proof.
  intros w32 ct a b (H1 & H2 & H3 & H4 & H5 & H6). destruct (c_read_spec w32 ct a) as (a' & -> & A2 & A3 & A4 & A5 & A6 & A7).
  destruct (c_read_spec w32 ct b) as (b' & -> & B2 & B3 & B4 & B5 & B6 & B7). cbn [fst snd]. rewrite H1, H2 in *. split; [reflexivity|].
  repeat split; congruence.
Qed.

Lemma read_responses_same : forall w32 k rest rs a b, same_stream a b -> same_result (read_responses w32 k rest rs a) (read_responses w32 k rest rs b).
Proof.
  intros w32 k. induction k as [|k IH]; intros rest rs a b H; cbn [read_responses]; destruct rest as [|x rest]; cbn [same_result]; auto.
  destruct (nth_error (x :: rest) 4) as [ct|]; [|exact I]. destruct (c_read_same w32 ct a b H) as [E1 E2].
  destruct (c_read w32 ct a) as [ra a']. destruct (c_read w32 ct b) as [rb b']. cbn [fst snd] in *. subst rb. destruct (snd ra); [split; auto|]. apply IH. exact E2.
Qed.

Lemma set_deadline_same : forall d a b, same_stream a b -> fst (set_deadline d a) = fst (set_deadline d b) /\ same_stream (snd (set_deadline d a)) (snd (set_deadline d b)).
Proof.
  intros d a b (H1 & H2 & H3 & H4 & H5 & H6). unfold set_deadline. rewrite H4. destruct (next_result (deadlines b)) as [x l]. split; [reflexivity|].
  unfold same_stream. cbn. rewrite H3, H5, H6. auto 10.
Qed.
Lemma write_same : forall d a b, same_stream a b -> fst (write d a) = fst (write d b) /\ same_stream (snd (write d a)) (snd (write d b)).
Proof.
  intros d a b (H1 & H2 & H3 & H4 & H5 & H6). unfold write. rewrite H5. destruct (next_result (writes b)) as [x l]. split; [reflexivity|].
  unfold same_stream. cbn. rewrite H3, H4, H6. auto 10.
Qed.

Lemma conn_send_same : forall w32 d bs a b, same_stream a b -> same_result (conn_send w32 d bs a) (conn_send w32 d bs b).
Proof.
  intros w32 d bs a b H. unfold conn_send. destruct (set_deadline_same d a b H) as [E1 E2]. destruct (set_deadline d a) as [x a1]. destruct (set_deadline d b) as [y b1]. cbn [fst snd] in *. subst y.
  destruct x; [split; auto|]. destruct (write_same bs a1 b1 E2) as [F1 F2]. destruct (write bs a1) as [x a2]. destruct (write bs b1) as [y b2]. cbn [fst snd] in *. subst y.
  destruct x; [split; auto|]. apply read_responses_same. exact F2.
Qed.
Lemma write_one_same : forall w32 d bs a b, same_stream a b -> same_result (write_one w32 d bs a) (write_one w32 d bs b).
Proof.
  intros w32 d bs a b H. unfold write_one. destruct (set_deadline_same d a b H) as [E1 E2]. destruct (set_deadline d a) as [x a1]. destruct (set_deadline d b) as [y b1]. cbn [fst snd] in *. subst y.
  destruct x; [split; auto|]. destruct (write_same bs a1 b1 E2) as [F1 F2]. destruct (write bs a1) as [x a2]. destruct (write bs b1) as [y b2]. cbn [fst snd] in *. subst y.
  destruct x; [split; auto|]. destruct (nth_error bs 4) as [ct|]; [|exact I]. destruct (c_read_same w32 ct a2 b2 F2) as [G1 G2].
  destruct (c_read w32 ct a2), (c_read w32 ct b2). cbn in *. auto.
Qed.
Lemma authenticate_same : forall w32 d cr m a b, same_stream a b -> same_result (authenticate w32 d cr m a) (authenticate w32 d cr m b).
Proof.
  intros w32 d cr m a b H. unfold authenticate. destruct (start m cr) as [s|]; cbn [bind]; [|exact I]. pose proof (write_one_same w32 d s a b H) as W.
  destruct (write_one w32 d s a) as [[ra a1]|], (write_one w32 d s b) as [[rb b1]|]; cbn [bind same_result] in *; try contradiction; [|exact I]. destruct W as [<- W].
  destruct (snd ra) as [e|]; [|split; auto]. destruct e; try (split; [reflexivity|assumption]). destruct (continue m) as [k|]; [|split; auto]. destruct (k cr data) as [s2|]; cbn [bind]; [|exact I].
  pose proof (write_one_same w32 d s2 a1 b1 W) as W2. destruct (write_one w32 d s2 a1) as [[rc a2]|], (write_one w32 d s2 b1) as [[rd' b2]|]; cbn [bind same_result] in *; try contradiction; [|exact I].
  destruct W2 as [<- W2]. auto.
Qed.

Lemma read_responses_log : forall w32 k rest rs c r c', read_responses w32 k rest rs c = Ok (r, c') -> log c' = log c.
Proof.
  intros w32 k. induction k as [|k IH]; intros rest rs c r c' H; cbn [read_responses] in H; destruct rest as [|x rest]; try discriminate; try (injection H as <- <-; reflexivity).
  destruct (nth_error (x :: rest) 4) as [ct|]; [|discriminate]. destruct (c_read_spec w32 ct c) as (c1 & E & _ & _ & _ & _ & _ & L). rewrite E in H. destruct (snd (fst (aread w32 ct (ended (rd c)) (unread c)))); [injection H as <- <-; exact L|].
  rewrite (IH _ _ _ _ _ H). exact L.
Qed.

Lemma write_one_spec : forall w32 d ct p c, can_write c -> 1 + nlen p < 2 ^ 32 -> exists c',
  write_one w32 d (frame (ct, p)) c = Ok (fst (aread w32 ct (ended (rd c)) (unread c)), c') /\
  unread c' = snd (aread w32 ct (ended (rd c)) (unread c)) /\ ended (rd c') = ended (rd c) /\ ckind c' = ckind c /\
  log c' = [Write (ckind c) (frame (ct, p)) None; SetDeadline (ckind c) d None] ++ log c /\
  deadlines c' = snd (next_result (deadlines c)) /\ writes c' = snd (next_result (writes c)).
Proof.
  intros w32 d ct p c [W1 W2] Hp. unfold write_one, set_deadline, write. destruct (next_result (deadlines c)) as [x l] eqn:E1. cbn [fst] in W1. subst x. cbn [writes].
  destruct (next_result (writes c)) as [x l'] eqn:E2. cbn [fst] in W2. subst x. cbn [ckind rd deadlines log snd].
  change (nth_error (frame (ct, p)) 4) with (Some ct). cbv beta iota.
  match goal with |- context [c_read w32 ct ?c1] => destruct (c_read_spec w32 ct c1) as (c' & -> & R2 & R3 & R4 & R5 & R6 & R7) end.
  cbn [rd ckind log deadlines writes] in *. change (unread (mkc _ (rd c) _ _ _)) with (unread c) in *. exists c'. auto 10.
Qed.

(* Reading consumes a prefix of the stream; a successful read consumes a complete reply. *)
Lemma amessage_suffix : forall w32 fin bs x r, amessage w32 fin bs = (x, r) -> exists u, bs = u ++ r.
Proof.
  intros w32 fin bs x r H. assert (K : forall n l, exists u, l = u ++ skipN n l) by (intros n l; exists (firstN n l); symmetry; apply firstN_skipN).
  unfold amessage in H. destruct (nlen bs <? 5); [injection H as _ <-; exists []; reflexivity|]. destruct (_ <? 1)%Z; [apply pair_equal_spec in H; destruct H as [_ <-]; apply K|].
  destruct (0 <? _); [|apply pair_equal_spec in H; destruct H as [_ <-]; apply K].
  destruct (_ <=? buf_size); (destruct (_ <=? nlen (skipN 5 bs))); apply pair_equal_spec in H; destruct H as [_ <-]; try apply K.
  - rewrite skipN_add. apply K.
  - exists bs. rewrite app_nil_r. reflexivity.
Qed.
Lemma aread_suffix : forall k bs, (length bs <= k)%nat -> forall w32 ct fin x r, aread w32 ct fin bs = (x, r) -> exists u, bs = u ++ r.
Proof.
  assert (K : forall n l, exists u, l = u ++ skipN n l) by (intros n l; exists (firstN n l); symmetry; apply firstN_skipN).
  induction k as [|k IH]; intros bs Hk w32 ct fin x r H; rewrite aread_eq in H.
  - destruct bs; [|cbn in Hk; lia]. cbn in H. injection H as <- <-. exists []. reflexivity.
  - destruct (amessage w32 fin bs) as [[[[st b] n]|e] q] eqn:E.
    + pose proof (amessage_consumes _ _ _ _ _ _ _ E) as C. destruct (amessage_suffix _ _ _ _ _ E) as (u & U). destruct (K n q) as (v & V).
      assert (T : exists w, bs = w ++ skipN n q) by (exists (u ++ v); rewrite <- app_assoc, <- V; exact U).
      destruct (dispatch ct st b) as [[resp o]|].
      * assert (r = q \/ r = skipN n q) as [->| ->]; [|eauto|exact T]. destruct o as [[]|]; injection H as _ <-; auto.
      * destruct (IH (skipN n q) ltac:(lia) _ _ _ _ _ H) as (w & W). destruct T as (t & T). exists (t ++ w). rewrite <- app_assoc, <- W. exact T.
    + injection H as _ <-. apply (amessage_suffix _ _ _ _ _ E).
Qed.

Lemma write_one_back : forall w32 d ct p c a c', is_bytes (unread c) -> write_one w32 d (frame (ct, p)) c = Ok (a, c') ->
  exists u, unread c = u ++ unread c' /\
    (snd a = None -> exists q, u = reply_bytes q /\ answers w32 q (fst a) /\ ~ stops ct (fst a)).
Proof.
  intros w32 d ct p c a c' Hb H. unfold write_one, set_deadline, write in H. destruct (next_result (deadlines c)) as [[e|] l].
  { injection H as <- <-. exists []. split; [reflexivity|discriminate]. }
  cbn [writes] in H. destruct (next_result (writes c)) as [[e|] l'].
  { injection H as <- <-. exists []. split; [reflexivity|discriminate]. }
  change (nth_error (frame (ct, p)) 4) with (Some ct) in H. cbv beta iota in H. cbn [ckind rd deadlines log] in H.
  match type of H with context [c_read w32 ct ?c1] => destruct (c_read_spec w32 ct c1) as (c2 & E & R2 & _); rewrite E in H end.
  cbn [rd ckind log deadlines writes] in *. change (unread (mkc _ (rd c) _ _ _)) with (unread c) in *. destruct (aread w32 ct (ended (rd c)) (unread c)) as [x q] eqn:A. cbn [fst snd] in *.
  injection H as <- <-. destruct (aread_suffix _ _ (le_n _) _ _ _ _ _ A) as (u & U). exists u. rewrite R2. split; [exact U|]. intros Hx. destruct x as [r o]. cbn [fst snd] in *. subst o.
  destruct (aread_back _ _ (le_n _) _ _ _ _ _ Hb A) as (pp & P1 & P2 & P3). exists pp. split; [|auto]. rewrite U in P1. apply app_inv_tail in P1. exact P1.
Qed.
