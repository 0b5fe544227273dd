(* The authentication mechanisms: C32, C33, C34. *)
From Coq Require Import String List NArith ZArith Arith Bool Lia ZifyN ZifyNat ZifyBool.
From Coq Require Import List.
From Verif Require Import Base GoSlice SpecWire SpecMsg Varint VarintProofs WireProofs SpecValue MsgModel SpecProg SpecUnit Conn SpecAuth AuthModel ThmSession.
From Verif Require SessionProofs AuthProofs.
Import ListNotations.
Open Scope N_scope.
Open Scope list_scope.
Ltac Zify.zify_post_hook ::= Z.div_mod_to_equations.
Local Notation length := List.length.

Definition creds_ok (c : credentials) : Prop :=
  go_string (database c) /\ go_string (user_name c) /\ go_string (password c) /\
  nlen (database c) + nlen (user_name c) + nlen (password c) < 2 ^ 30.

(* database NUL user NUL *)
Definition names (c : credentials) : bytes := database c ++ [0] ++ user_name c ++ [0].

Lemma names_length : forall c, length (names c) = (length (database c) + 1 + length (user_name c) + 1)%nat.
Proof. intros c. unfold names. rewrite !app_length. cbn [length]. lia. Qed.
Lemma names_string : forall c x, creds_ok c -> is_bytes x -> nlen x <= nlen (password c) + 200 -> go_string (names c ++ x) /\ nlen (names c ++ x) < 2 ^ 31 - 100.
Proof.
  intros c x ((D1 & _) & (U1 & _) & _ & L) Hx Hl.
  assert (L' : nlen (names c ++ x) < 2 ^ 31 - 100) by (unfold names; rewrite !nlen_app; change (nlen [0]) with 1; lia).
  split; [|exact L']. split; [|lia]. unfold names. apply Forall_app; split; [|exact Hx]. repeat (apply Forall_app; split); auto; repeat constructor.
Qed.

(* Allocate and the names, as all mechanisms begin. *)
Lemma begin_names : forall c buf extra, exists kept region rest sp,
  length rest = extra /\
  allocate buf (length (database c) + 1 + length (user_name c) + 1 + extra) = (mk (kept ++ region) sp, length kept) /\
  put_names c (mk (kept ++ region) sp) (length kept) = Ok (mk ((kept ++ names c) ++ rest) sp, length (names c)).
Proof.
  intros c buf extra. destruct (SessionProofs.allocate_spec buf (length (database c) + 1 + length (user_name c) + 1 + extra)) as (region & sp & L & H).
  assert (K : exists kept, allocate buf (length (database c) + 1 + length (user_name c) + 1 + extra) = (mk (kept ++ region) sp, length kept)) by (destruct H as [H|H]; [exists (data buf)|exists []]; exact H).
  destruct K as [kept K]. destruct (AuthProofs.put_names_ok c kept region sp ltac:(lia)) as (rest & P & Lr). exists kept, region, rest, sp.
  rewrite names_length. split; [lia|]. split; [exact K|]. rewrite P. do 4 f_equal. unfold names. rewrite <- !app_assoc. reflexivity.
Qed.

Lemma after_kept : forall kept x : bytes, skipn (length kept) (kept ++ x) = x.
Proof. intros kept x. rewrite skipn_app, skipn_all, Nat.sub_diag. reflexivity. Qed.

Lemma continue_sent : forall (E : Env) kept x sp o, o = length kept -> go_string x -> nlen x < 2 ^ 31 ->
  exists bs, bind (authenticate_continue (mk (kept ++ x) sp) (skipn o (data (mk (kept ++ x) sp)))) (fun q => Ok (data q)) = Ok bs /\ one_message bs 5 (MAuthContinue x).
Proof.
  intros E kept x sp o -> Hx Hl. cbn [data]. rewrite after_kept. destruct (C50_authenticate_continue E (mk (kept ++ x) sp) x Hx Hl) as (q & A & B). rewrite A. exists (data q). split; [reflexivity|exact B].
Qed.

Lemma proof_small : forall h n x y, digests h n -> (n <= 32)%nat -> is_bytes (hex (xor (h x) (h y))) /\ nlen (hex (xor (h x) (h y))) <= 64.
Proof.
  intros h n x y H Hn. destruct (AuthProofs.hex_bytes (xor (h x) (h y)) (AuthProofs.xor_bytes _ _ (proj1 (H x)) (proj1 (H y)))) as [A B]. split; [exact A|].
  unfold nlen. rewrite B, AuthProofs.xor_length; destruct (H x) as [_ H1]; destruct (H y) as [_ H2]; lia.
Qed.

(* ---- C32: MYSQL41 ---- *)

Theorem C32_mysql41_start : forall (E : Env) buf c,
  exists bs, mysql41_start buf c = Ok bs /\ one_message bs 4 (MAuthStart (s2b "MYSQL41") None).
Proof.
  intros E buf c. destruct (C50_authenticate_start E buf (s2b "MYSQL41") []) as (q & A & B); [split; [repeat constructor|reflexivity]|split; [constructor|reflexivity]|reflexivity|].
  unfold mysql41_start. rewrite A. exists (data q). split; [reflexivity|exact B].
Qed.

Theorem C32_mysql41_response : forall (E : Env) sha1 buf c challenge, digests sha1 20 -> creds_ok c ->
  exists bs, mysql41_continue sha1 buf c challenge = Ok bs /\
    one_message bs 5 (MAuthContinue (database c ++ [0] ++ user_name c ++ [0] ++ mysql41_proof sha1 (password c) challenge)).
Proof.
  intros E h buf c ch Hd Hc. unfold mysql41_continue. cbv zeta.
  replace (database c ++ [0] ++ user_name c ++ [0] ++ mysql41_proof h (password c) ch) with (names c ++ mysql41_proof h (password c) ch) by (unfold names; rewrite <- !app_assoc; reflexivity).
  destruct (Nat.ltb_spec 0 (length (password c))) as [Hp|Hp].
  - destruct (begin_names c buf (1 + 2 * sha1_Size)) as (kept & region & rest & sp & Lr & -> & ->). cbn [bind].
    assert (Hpw : mysql41_proof h (password c) ch = [42] ++ hex (xor (h (password c)) (h (ch ++ h (h (password c)))))) by (destruct (password c); [cbn [length] in Hp; lia|reflexivity]).
    rewrite Hpw. destruct (proof_small h 20 (password c) (ch ++ h (h (password c))) Hd ltac:(lia)) as [Q1 Q2].
    destruct (names_string c ([42] ++ hex (xor (h (password c)) (h (ch ++ h (h (password c)))))) Hc) as [S1 S2].
    { apply Forall_app. split; [repeat constructor|exact Q1]. } { rewrite nlen_app. change (nlen [42]) with 1. lia. }
    rewrite AuthProofs.put_ok; [|rewrite app_length; reflexivity|cbn [length] in *; lia]. cbn [bind].
    replace ((kept ++ names c) ++ [42] ++ skipn (length [42]) rest) with ((kept ++ names c ++ [42]) ++ skipn 1 rest) by (rewrite <- !app_assoc; reflexivity).
    pose proof (AuthProofs.scramble_ok h 20 (fun x => ch ++ x) (password c) (kept ++ names c ++ [42]) (skipn 1 rest) sp (length kept + S (length (names c))) (length kept + S (length (names c)) + 20) Hd) as S.
    unfold AuthProofs.scramble_in_place in S. unfold sha1_Size in *. rewrite S; [|rewrite !app_length; cbn [length]; lia|rewrite !app_length; cbn [length]; lia|rewrite skipn_length; lia].
    cbn [bind]. replace ((kept ++ names c ++ [42]) ++ hex (xor (h (password c)) (h (ch ++ h (h (password c)))))) with (kept ++ names c ++ [42] ++ hex (xor (h (password c)) (h (ch ++ h (h (password c)))))) by (rewrite <- !app_assoc; reflexivity).
    apply continue_sent; [reflexivity|exact S1|lia].
  - destruct (begin_names c buf 0) as (kept & region & rest & sp & Lr & -> & ->). cbn [bind].
    destruct rest; [|discriminate]. assert (Hpw : mysql41_proof h (password c) ch = []) by (destruct (password c); [reflexivity|cbn [length] in Hp; lia]).
    rewrite Hpw. destruct (names_string c [] Hc ltac:(constructor) ltac:(rewrite nlen_nil; lia)) as [S1 S2]. rewrite <- app_assoc. apply continue_sent; [reflexivity|exact S1|lia].
Qed.

(* A server that stores h (h password) accepts the response to its challenge. *)
Theorem C32_mysql41_accepted : forall sha1 password challenge, digests sha1 20 -> password <> [] ->
  accepted_mysql41 sha1 (sha1 (sha1 password)) challenge (mysql41_proof sha1 password challenge).
Proof.
  intros h pw ch Hd Hp. exists (hex (xor (h pw) (h (ch ++ h (h pw))))). split; [destruct pw; [contradiction|reflexivity]|].
  exists (xor (h pw) (h (ch ++ h (h pw)))). split; [apply AuthProofs.unhex_hex; apply AuthProofs.xor_bytes; apply Hd|].
  rewrite AuthProofs.xor_cancel; [reflexivity|]. rewrite (proj2 (Hd pw)), (proj2 (Hd _)). reflexivity.
Qed.

(* ---- C33: SHA256_MEMORY ---- *)

Theorem C33_sha256_start : forall (E : Env) buf c,
  exists bs, sha256_start buf c = Ok bs /\ one_message bs 4 (MAuthStart (s2b "SHA256_MEMORY") None).
Proof.
  intros E buf c. destruct (C50_authenticate_start E buf (s2b "SHA256_MEMORY") []) as (q & A & B); [split; [repeat constructor|reflexivity]|split; [constructor|reflexivity]|reflexivity|].
  unfold sha256_start. rewrite A. exists (data q). split; [reflexivity|exact B].
Qed.

Theorem C33_sha256_response : forall (E : Env) sha256 buf c challenge, digests sha256 32 -> creds_ok c ->
  exists bs, sha256_continue sha256 buf c challenge = Ok bs /\
    one_message bs 5 (MAuthContinue (database c ++ [0] ++ user_name c ++ [0] ++ sha256_proof sha256 (password c) challenge)).
Proof.
  intros E h buf c ch Hd Hc. unfold sha256_continue. cbv zeta.
  replace (database c ++ [0] ++ user_name c ++ [0] ++ sha256_proof h (password c) ch) with (names c ++ sha256_proof h (password c) ch) by (unfold names; rewrite <- !app_assoc; reflexivity).
  destruct (begin_names c buf (2 * sha256_Size)) as (kept & region & rest & sp & Lr & -> & ->). cbn [bind].
  unfold sha256_proof. destruct (proof_small h 32 (password c) (h (h (password c)) ++ ch) Hd ltac:(lia)) as [Q1 Q2].
  destruct (names_string c (hex (xor (h (password c)) (h (h (h (password c)) ++ ch)))) Hc Q1 ltac:(lia)) as [S1 S2].
  pose proof (AuthProofs.scramble_ok h 32 (fun x => x ++ ch) (password c) (kept ++ names c) rest sp (length kept + length (names c)) (length kept + length (names c) + 32) Hd) as S.
  specialize (S ltac:(rewrite !app_length; lia) ltac:(rewrite !app_length; lia) Lr).
  rewrite <- app_assoc in S. destruct (continue_sent E kept (names c ++ hex (xor (h (password c)) (h (h (h (password c)) ++ ch)))) sp (length kept) eq_refl S1 ltac:(lia)) as (bs & B1 & B2).
  exists bs. split; [|exact B2]. rewrite <- B1. rewrite app_assoc in S. rewrite app_assoc.
  change (bind (authenticate_continue (mk ((kept ++ names c) ++ hex (xor (h (password c)) (h (h (h (password c)) ++ ch)))) sp)
     (skipn (length kept) (data (mk ((kept ++ names c) ++ hex (xor (h (password c)) (h (h (h (password c)) ++ ch)))) sp)))) (fun q => Ok (data q)))
    with (bind (Ok (mk ((kept ++ names c) ++ hex (xor (h (password c)) (h (h (h (password c)) ++ ch)))) sp)) (fun p => bind (authenticate_continue p (skipn (length kept) (data p))) (fun q => Ok (data q)))).
  rewrite <- S. unfold AuthProofs.scramble_in_place, sha256_Size. destruct (put _ _ _) as [p1|]; [|reflexivity]. cbn [bind]. destruct (get_bytes p1 _ _) as [x1|]; [|reflexivity]. cbn [bind].
  destruct (put p1 _ _) as [p2|]; [|reflexivity]. cbn [bind]. destruct (get_bytes p2 _ _) as [x2|]; [|reflexivity]. cbn [bind].
  destruct (put p2 _ _) as [p3|]; [|reflexivity]. cbn [bind]. destruct (xor_loop _ _ _ _) as [p4|]; reflexivity.
Qed.

Theorem C33_sha256_accepted : forall sha256 password challenge, digests sha256 32 ->
  accepted_sha256 sha256 (sha256 (sha256 password)) challenge (sha256_proof sha256 password challenge).
Proof.
  intros h pw ch Hd. exists (xor (h pw) (h (h (h pw) ++ ch))). split; [apply AuthProofs.unhex_hex; apply AuthProofs.xor_bytes; apply Hd|].
  rewrite AuthProofs.xor_cancel; [reflexivity|]. rewrite (proj2 (Hd pw)), (proj2 (Hd _)). reflexivity.
Qed.

(* ---- C34: PLAIN ---- *)

Theorem C34_plain_start : forall (E : Env) buf c, creds_ok c ->
  exists bs, plain_start buf c = Ok bs /\
    one_message bs 4 (MAuthStart (s2b "PLAIN") (Some (database c ++ [0] ++ user_name c ++ [0] ++ password c))).
Proof.
  intros E buf c Hc. unfold plain_start. cbv zeta.
  replace (database c ++ [0] ++ user_name c ++ [0] ++ password c) with (names c ++ password c) by (unfold names; rewrite <- !app_assoc; reflexivity).
  destruct (begin_names c buf (length (password c))) as (kept & region & rest & sp & Lr & -> & ->). cbn [bind].
  rewrite AuthProofs.copy_str_ok; [|rewrite app_length; reflexivity|lia]. cbn [bind]. rewrite skipn_all2, app_nil_r by lia. cbn [data].
  rewrite <- app_assoc, after_kept. pose proof Hc as (Hd & Hu & Hp & Hl).
  destruct (names_string c (password c) Hc (proj1 Hp) ltac:(lia)) as [S1 S2].
  destruct (C50_authenticate_start E (mk (kept ++ names c ++ password c) sp) (s2b "PLAIN") (names c ++ password c)) as (q & A & B);
    [split; [repeat constructor|reflexivity]|exact S1|change (nlen (s2b "PLAIN")) with 5; lia|].
  rewrite A. exists (data q). split; [reflexivity|]. assert (Z : names c ++ password c <> []) by (intros Z; apply (f_equal (@length N)) in Z; rewrite app_length, names_length in Z; cbn [length] in Z; lia).
  destruct (names c ++ password c); [contradiction|exact B].
Qed.

(* The server gets the three parts back, unless a name contains a NUL byte. The same holds for the
   other two mechanisms, whose data starts the same way. *)
Theorem C34_server_splits_names : forall database user rest,
  Forall (fun b => b <> 0) database -> Forall (fun b => b <> 0) user ->
  split_names (database ++ [0] ++ user ++ [0] ++ rest) = Some (database, user, rest).
Proof.
  intros d u r Hd Hu. unfold split_names. cbn [app]. rewrite AuthProofs.until_nul_app by assumption. rewrite AuthProofs.until_nul_app by assumption. reflexivity. Qed.

(* ---- samples ---- *)

Definition me : credentials := {| user_name := s2b "me"; password := s2b "pw"; database := s2b "test" |}.
Example me_ok : creds_ok me.
Proof. repeat split; try reflexivity; repeat constructor. Qed.
(* A function with 20 byte digests, for the example only. *)
Definition toy (n : nat) (x : bytes) : bytes := firstn n (map (fun b => b mod 256) x ++ repeat (nlen x mod 256) n).
Example toy_digests : forall n, digests (toy n) n.
Proof.
  intros n x. unfold toy. split.
  - apply Forall_forall. intros b Hb. assert (I : In b (map (fun b => b mod 256) x ++ repeat (nlen x mod 256) n)) by (rewrite <- (firstn_skipn n); apply in_or_app; left; exact Hb).
    apply in_app_or in I. destruct I as [I|I]; [apply in_map_iff in I; destruct I as (y & <- & _)|apply repeat_spec in I; subst b]; unfold is_byte; lia.
  - rewrite firstn_length, app_length, repeat_length. lia.
Qed.
Example sample_response : exists bs, mysql41_continue (E := ThmBuilder.plain) (toy 20) (mk [] (repeat 7 128)) me (s2b "0123456789") = Ok bs /\
  dstream bs = Some [MAuthContinue (s2b "test" ++ [0] ++ s2b "me" ++ [0] ++ s2b "*40463031363734353a3b72750000000000000000")].
Proof. eexists. split; [vm_compute; reflexivity|]. vm_compute. reflexivity. Qed.

Print Assumptions C32_mysql41_start.
Print Assumptions C32_mysql41_response.
Print Assumptions C32_mysql41_accepted.
Print Assumptions C33_sha256_start.
Print Assumptions C33_sha256_response.
Print Assumptions C33_sha256_accepted.
Print Assumptions C34_plain_start.
Print Assumptions C34_server_splits_names.
