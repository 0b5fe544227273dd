(* Proofs about session messages, expectation conditions and slice helpers. *)
From Coq Require Import List NArith ZArith Arith Bool Lia ZifyN ZifyNat ZifyBool.
From Verif Require Import Base GoSlice SliceProofs SpecWire SpecMsg Varint VarintProofs WireProofs Chunks Pure AnyModel AnyProofs SpecValue MsgModel HeadProofs MsgProofs SpecProg SpecUnit.
Import ListNotations.
Open Scope N_scope.
Ltac Zify.zify_post_hook ::= Z.div_mod_to_equations.

Lemma frame_lebytes : forall ty pl, 1 + nlen pl < 2 ^ 32 -> lebytes 4 (1 + nlen pl) ++ ty :: pl = frame (ty, pl).
Proof.
  intros ty pl H. unfold frame. cbn [fst snd lebytes app]. cbv zeta. set (n := 1 + nlen pl) in *. rewrite !N.div_div by lia.
  change (256 * 256) with 65536. change (256 * 65536) with 16777216. change (65536 * 256) with 16777216. do 3 f_equal. f_equal. apply N.mod_small. lia.
Qed.

Section WithEnv.
Context `{E : Env}.

Lemma put_front : forall h b sp, length h = 4%nat -> put (mk (h ++ b) sp) 0 (le32 (N.of_nat (length (h ++ b) - 4))) = Ok (mk (lebytes 4 (nlen b) ++ b) sp).
Proof.
  intros h b sp Hh. pose proof (patch_ok [] h b sp 0%nat eq_refl Hh) as H. unfold patch_length, len in H. cbn [app data] in H. rewrite Nat.sub_0_r in H. exact H.
Qed.

Lemma wire_bytes_plen : forall p tag v, 0 < tag < 16 -> nlen v < 2 ^ 62 -> exists sp, append_wire_bytes p tag v = Ok (mk (data p ++ plen tag v) sp).
Proof.
  intros p tag v Ht Hv. destruct (append_wire_bytes_spec p tag v ltac:(lia)) as [sp ->]. exists sp. unfold plen. rewrite hdr_eq by lia. reflexivity.
Qed.

Definition pstart (mech auth : bytes) : bytes := plen 1 mech ++ match auth with [] => [] | _ => plen 2 auth end.

Lemma auth_start_ok : forall p mech auth, nlen mech < 2 ^ 62 -> nlen auth < 2 ^ 62 -> exists sp,
  authenticate_start p mech auth = Ok (mk (lebytes 4 (1 + nlen (pstart mech auth)) ++ 4 :: pstart mech auth) sp).
Proof.
  intros p mech auth Hm Ha. unfold authenticate_start. destruct (append_spec (mk [] (spare p)) [0; 0; 0; 0; SESS_AUTHENTICATE_START]) as [s0 ->]. cbn [data app].
  destruct (wire_bytes_plen (mk [0; 0; 0; 0; SESS_AUTHENTICATE_START] s0) 1 mech ltac:(lia) Hm) as [s1 H1].
  change tagAuthenticateStartMechName with 1. rewrite H1. cbn [bind data].
  assert (K : exists s2, (if (0 <? length auth)%nat then append_wire_bytes (mk ([0; 0; 0; 0; SESS_AUTHENTICATE_START] ++ plen 1 mech) s1) tagAuthenticateStartAuthData auth
     else Ok (mk ([0; 0; 0; 0; SESS_AUTHENTICATE_START] ++ plen 1 mech) s1)) = Ok (mk ([0; 0; 0; 0] ++ 4 :: pstart mech auth) s2)).
  { unfold pstart. destruct auth as [|x auth].
    - exists s1. rewrite app_nil_r. reflexivity.
    - destruct (wire_bytes_plen (mk ([0; 0; 0; 0; SESS_AUTHENTICATE_START] ++ plen 1 mech) s1) 2 (x :: auth) ltac:(lia) Ha) as [s2 H2]. exists s2.
      change (0 <? length (x :: auth))%nat with true. cbv iota. change tagAuthenticateStartAuthData with 2. rewrite H2. cbn [data]. rewrite <- app_assoc. reflexivity. }
  destruct K as [s2 ->]. cbn [bind]. unfold len. cbn [data]. rewrite put_front by reflexivity. exists s2. rewrite nlen_cons. reflexivity.
Qed.

Lemma auth_continue_ok : forall p auth, nlen auth < 2 ^ 62 -> exists sp,
  authenticate_continue p auth = Ok (mk (lebytes 4 (1 + nlen (plen 1 auth)) ++ 5 :: plen 1 auth) sp).
Proof.
  intros p auth Ha. unfold authenticate_continue. destruct (append_spec (mk [] (spare p)) [0; 0; 0; 0; SESS_AUTHENTICATE_CONTINUE]) as [s0 ->]. cbn [data app].
  destruct (wire_bytes_plen (mk [0; 0; 0; 0; SESS_AUTHENTICATE_CONTINUE] s0) 1 auth ltac:(lia) Ha) as [s1 H1].
  change tagAuthenticateContinueAuthData with 1. rewrite H1. cbn [bind data]. unfold len. cbn [data].
  change ([0; 0; 0; 0; SESS_AUTHENTICATE_CONTINUE] ++ plen 1 auth) with ([0; 0; 0; 0] ++ 5 :: plen 1 auth). rewrite put_front by reflexivity. exists s1. rewrite nlen_cons. reflexivity.
Qed.

Lemma decode_auth_start : forall mech auth, go_string mech -> go_string auth ->
  dmsg 4 (pstart mech auth) = Some (MAuthStart mech (match auth with [] => None | _ => Some auth end)).
Proof.
  intros mech auth [M1 M2] [A1 A2]. cbn [dmsg]. unfold dauth_start, pstart. destruct (reads_plen 1 mech ltac:(lia) ltac:(lia) M1) as [R1 R2].
  destruct auth as [|x auth].
  - rewrite app_nil_r, R2. reflexivity.
  - destruct (reads_app _ _ _ _ (conj R1 R2) (reads_plen 2 (x :: auth) ltac:(lia) ltac:(lia) A1)) as [_ R]. rewrite R. reflexivity.
Qed.
Lemma decode_auth_continue : forall auth, go_string auth -> dmsg 5 (plen 1 auth) = Some (MAuthContinue auth).
Proof. intros auth H. cbn [dmsg]. unfold dauth_continue. rewrite dname_plen by (lia || assumption). reflexivity. Qed.

Lemma auth_start_sent : forall p mech auth, go_string mech -> go_string auth -> nlen mech + nlen auth < 2 ^ 31 -> exists q,
  authenticate_start p mech auth = Ok q /\ data q = frame (4, pstart mech auth) /\ 1 + nlen (pstart mech auth) < 2 ^ 32 /\
  dmsg 4 (pstart mech auth) = Some (MAuthStart mech (match auth with [] => None | _ => Some auth end)).
Proof.
  intros p mech auth Hm Ha Hl. destruct (auth_start_ok p mech auth ltac:(lia) ltac:(lia)) as [sp ->]. eexists. split; [reflexivity|]. cbn [data].
  assert (L : 1 + nlen (pstart mech auth) < 2 ^ 32).
  { unfold pstart. pose proof (nlen_plen 1 mech ltac:(lia)). pose proof (nlen_plen 2 auth ltac:(lia)). rewrite nlen_app. destruct auth; [rewrite nlen_nil|]; lia. }
  split; [apply frame_lebytes; exact L|]. split; [exact L|]. apply decode_auth_start; assumption.
Qed.
Lemma auth_continue_sent : forall p auth, go_string auth -> nlen auth < 2 ^ 31 -> exists q,
  authenticate_continue p auth = Ok q /\ data q = frame (5, plen 1 auth) /\ 1 + nlen (plen 1 auth) < 2 ^ 32 /\
  dmsg 5 (plen 1 auth) = Some (MAuthContinue auth).
Proof.
  intros p auth Ha Hl. destruct (auth_continue_ok p auth ltac:(lia)) as [sp ->]. eexists. split; [reflexivity|]. cbn [data].
  assert (L : 1 + nlen (plen 1 auth) < 2 ^ 32) by (pose proof (nlen_plen 1 auth ltac:(lia)); lia).
  split; [apply frame_lebytes; exact L|]. split; [exact L|]. apply decode_auth_continue; assumption.
Qed.

Lemma reset_sent : forall p keep, exists pl, data (msg_reset p keep) = data p ++ frame (6, pl) /\ 1 + nlen pl < 2 ^ 32 /\ dmsg 6 pl = Some (MReset keep).
Proof.
  intros p keep. unfold msg_reset. destruct keep.
  - exists [8; 1]. rewrite data_append. split; [reflexivity|]. split; reflexivity.
  - exists []. rewrite data_append. split; [reflexivity|]. split; reflexivity.
Qed.

(* ---- expectation conditions ---- *)

Lemma reads_conditions : forall cs, Forall cond_small cs -> Forall (fun c => match c with ONoError _ => True | OFieldExists f => go_string f end) cs ->
  exists bs, reads (concat (map pcond cs)) (map (fun b => (2, WLen b)) bs) /\
    Forall2 (fun b c => dcond b = Some (match c with ONoError v => CNoError [if v : bool then 49 else 48] | OFieldExists f => CFieldExist f end)) bs cs.
Proof.
  intros cs H1 H2. induction H1 as [|c cs Hc H1 IH]; inversion H2 as [|? ? Hg H2']; subst.
  - exists []. split; [apply reads_nil|constructor].
  - destruct (IH H2') as (bs & B1 & B2). cbn [map concat].
    assert (K : exists b, reads (pcond c) [(2, WLen b)] /\ dcond b = Some (match c with ONoError v => CNoError [if v : bool then 49 else 48] | OFieldExists f => CFieldExist f end)).
    { destruct c as [v|f]; cbn [pcond cond_small] in *.
      - eexists. split; [apply reads_plen; [lia|destruct v; reflexivity|destruct v; repeat constructor]|]. destruct v; reflexivity.
      - destruct Hg as [G1 G2]. assert (R : reads (pvar 1 2 ++ plen 2 f) ([(1, WVarint 2)] ++ [(2, WLen f)])) by (apply reads_app; [apply reads_pvar; lia|apply reads_plen; [lia|lia|exact G1]]).
        eexists. split; [apply reads_plen; [lia| |apply R]|].
        + rewrite nlen_app. pose proof (nlen_pvar 1 2 ltac:(lia)). pose proof (nlen_plen 2 f ltac:(lia)). lia.
        + unfold dcond. rewrite (proj2 R). reflexivity. }
    destruct K as (b & K1 & K2). exists (b :: bs). split; [|constructor; assumption]. cbn [map]. apply (reads_app _ _ [(2, WLen b)]); assumption.
Qed.

Lemma decode_open : forall op cs, op < 2 -> Forall cond_small cs -> Forall (fun c => match c with ONoError _ => True | OFieldExists f => go_string f end) cs ->
  is_bytes (popen op cs) /\ dmsg 24 (popen op cs) = Some (MExpectOpen op (map (fun c => match c with ONoError v => CNoError [if v : bool then 49 else 48] | OFieldExists f => CFieldExist f end) cs)).
Proof.
  intros op cs Ho H1 H2. destruct (reads_conditions cs H1 H2) as (bs & B1 & B2). destruct (reads_app _ _ _ _ (reads_pvar 1 op ltac:(lia) ltac:(lia)) B1) as [R1 R2].
  split; [exact R1|]. cbn [dmsg]. unfold dexpect_open, popen. rewrite R2. cbn [obind app].
  assert (O : only [1; 2] ((1, WVarint op) :: map (fun b => (2, WLen b)) bs) = true).
  { cbn [only forallb fst existsb N.eqb Pos.eqb orb andb]. clear. induction bs; [reflexivity|exact IHbs]. }
  rewrite O. assert (Q : req_field 1 ((1, WVarint op) :: map (fun b => (2, WLen b)) bs) = Some (WVarint op)).
  { unfold req_field. change (all_of 1 ((1, WVarint op) :: map (fun b => (2, WLen b)) bs)) with (WVarint op :: all_of 1 (map (fun b => (2, WLen b)) bs)).
    replace (all_of 1 (map (fun b => (2, WLen b)) bs)) with (@nil wval); [reflexivity|]. clear. induction bs; [reflexivity|exact IHbs]. }
  rewrite Q. cbn [obind as_varint]. destruct (N.ltb_spec op 2); [|lia].
  assert (A : all_of 2 ((1, WVarint op) :: map (fun b => (2, WLen b)) bs) = map WLen bs).
  { unfold all_of. cbn [filter fst]. change (1 =? 2) with false. cbv iota. clear. induction bs; [reflexivity|]. cbn [map filter fst]. change (2 =? 2) with true. cbv iota. cbn [map snd]. rewrite IHbs. reflexivity. }
  rewrite A. assert (M : omap (dsub dcond) (map WLen bs) = Some (map (fun c => match c with ONoError v => CNoError [if v : bool then 49 else 48] | OFieldExists f => CFieldExist f end) cs)).
  { apply omap_Forall2. clear - B2. induction B2; cbn [map]; constructor; [exact H|assumption]. }
  rewrite M. reflexivity.
Qed.

(* ---- capabilities ---- *)

Lemma lib_len_plen : forall t v, 0 < t < 16 -> lib_len_field t v = plen t v.
Proof. intros t v H. unfold lib_len_field, plen. rewrite hdr_eq by lia. reflexivity. Qed.

Definition pcapability (name : bytes) (enable : bool) : bytes :=
  plen 1 name ++ plen 2 ([8; 1] ++ plen 2 [8; 7; 64; if enable then 1 else 0]).

Lemma capability_eq : forall name enable, capability_set name enable =
  lebytes 4 (1 + nlen (plen 1 (plen 1 (pcapability name enable)))) ++ 2 :: plen 1 (plen 1 (pcapability name enable)).
Proof.
  intros name enable. unfold capability_set. cbv zeta. hdrs. rewrite !lib_len_plen by (unfold tagAnyScalar; lia). rewrite le32_lebytes.
  change tagAnyScalar with 2. replace [8; Scalar_V_BOOL; 64; encode_bool enable] with [8; 7; 64; if enable then 1 else 0] by (destruct enable; reflexivity).
  fold (pcapability name enable). rewrite (N.add_comm _ 1). reflexivity.
Qed.

Lemma decode_capability : forall name enable, go_string name -> nlen name < 2 ^ 31 ->
  dmsg 2 (plen 1 (plen 1 (pcapability name enable))) = Some (MCapabilitiesSet [(name, SBool enable)]) /\ 1 + nlen (plen 1 (plen 1 (pcapability name enable))) < 2 ^ 32.
Proof.
  intros name enable [G1 G2] Hl.
  assert (R : reads (pcapability name enable) ([(1, WLen name)] ++ [(2, WLen ([8; 1] ++ plen 2 [8; 7; 64; if enable then 1 else 0]))])).
  { apply reads_app; [apply reads_plen; [lia|lia|exact G1]|]. apply reads_plen; [lia|destruct enable; reflexivity|destruct enable; repeat constructor]. }
  assert (L : nlen (pcapability name enable) < 2 ^ 31 + 100).
  { unfold pcapability. rewrite nlen_app. pose proof (nlen_plen 1 name ltac:(lia)). replace (nlen (plen 2 ([8; 1] ++ plen 2 [8; 7; 64; if enable then 1 else 0]))) with 10 by (destruct enable; reflexivity). lia. }
  pose proof (nlen_plen 1 (pcapability name enable) ltac:(lia)) as L1. pose proof (nlen_plen 1 (plen 1 (pcapability name enable)) ltac:(lia)) as L2.
  split; [|lia]. cbn [dmsg]. unfold dcapabilities_set.
  destruct (reads_plen 1 (pcapability name enable) ltac:(lia) ltac:(lia) (proj1 R)) as [R1 R2].
  rewrite dname_plen; [|lia|split; [exact R1|lia]]. cbn [obind]. rewrite R2. cbn [obind]. change (only [1] [(1, WLen (pcapability name enable))]) with true. cbv iota.
  change (all_of 1 [(1, WLen (pcapability name enable))]) with [WLen (pcapability name enable)]. cbn [omap]. unfold dsub at 1. cbn [as_len obind]. unfold dcapability. rewrite (proj2 R). cbn [obind app].
  destruct enable; reflexivity.
Qed.

(* ---- Allocate ---- *)
Lemma allocate_spec : forall p n, exists region sp, length region = n /\
  (allocate p n = (mk (data p ++ region) sp, len p) \/ allocate p n = (mk region sp, 0%nat)).
Proof.
  intros p n. unfold allocate. destruct (Nat.leb_spec (len p + n) (cap p)) as [L|L].
  - unfold len, cap in *. exists (firstn n (spare p)), (skipn n (spare p)). split; [rewrite firstn_length; lia|]. left.
    rewrite firstn_app, firstn_all2, skipn_app, skipn_all2 by lia. cbn [app]. replace (length (data p) + n - length (data p))%nat with n by lia. reflexivity.
  - exists (repeat 0 n), (repeat 0 (2 * n + 512 - n)). split; [apply repeat_length|]. right. reflexivity.
Qed.
End WithEnv.
