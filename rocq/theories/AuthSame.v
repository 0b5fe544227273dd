(* The answers to a challenge do not depend on the buffer they are made in. *)
From Coq Require Import String List NArith ZArith Arith Bool Lia ZifyN ZifyNat ZifyBool.
From Coq Require Import List.
From Verif Require Import Base GoSlice SpecWire SpecMsg Varint VarintProofs WireProofs SpecValue MsgModel SpecProg SpecUnit Conn SpecAuth AuthModel ThmSession ThmAuth.
From Verif Require AuthProofs SessionProofs Pure.
Import ListNotations.
Open Scope N_scope.
Open Scope list_scope.
Ltac Zify.zify_post_hook ::= Z.div_mod_to_equations.
Local Notation length := List.length.

Section Same.
Context `{E : Env}.

Definition continue_message (x : bytes) : bytes := lebytes 4 (1 + nlen (Pure.plen 1 x)) ++ 5 :: Pure.plen 1 x.

Lemma continue_bytes : forall kept x sp o, o = length kept -> nlen x < 2 ^ 31 ->
  bind (authenticate_continue (mk (kept ++ x) sp) (skipn o (data (mk (kept ++ x) sp)))) (fun q => Ok (data q)) = Ok (continue_message x).
Proof.
  intros kept x sp o -> Hl. cbn [data]. rewrite after_kept. destruct (SessionProofs.auth_continue_ok (mk (kept ++ x) sp) x ltac:(lia)) as [sp' ->]. reflexivity.
Qed.

Lemma mysql41_bytes : forall h buf c ch, digests h 20 -> creds_ok c ->
  mysql41_continue h buf c ch = Ok (continue_message (names c ++ mysql41_proof h (password c) ch)).
Proof.
  intros h buf c ch Hd Hc. unfold mysql41_continue. cbv zeta.
  destruct (Nat.ltb_spec 0 (length (password c))) as [Hp|Hp].
  - destruct (begin_names c buf (1 + 2 * sha1_Size)) as (kept & region & rest & sp & Lr & -> & ->). cbn [bind].
    assert (Hpw : mysql41_proof h (password c) ch = [42] ++ hex (xor (h (password c)) (h (ch ++ h (h (password c)))))) by (destruct (password c); [cbn [length] in Hp; lia|reflexivity]).
    rewrite Hpw. destruct (proof_small h 20 (password c) (ch ++ h (h (password c))) Hd ltac:(lia)) as [Q1 Q2].
    destruct (names_string c ([42] ++ hex (xor (h (password c)) (h (ch ++ h (h (password c)))))) Hc) as [S1 S2].
    { apply Forall_app. split; [repeat constructor|exact Q1]. } { rewrite nlen_app. change (nlen [42]) with 1. lia. }
    rewrite AuthProofs.put_ok; [|rewrite app_length; reflexivity|cbn [length] in *; lia]. cbn [bind].
    replace ((kept ++ names c) ++ [42] ++ skipn (length [42]) rest) with ((kept ++ names c ++ [42]) ++ skipn 1 rest) by (rewrite <- !app_assoc; reflexivity).
    pose proof (AuthProofs.scramble_ok h 20 (fun x => ch ++ x) (password c) (kept ++ names c ++ [42]) (skipn 1 rest) sp (length kept + S (length (names c))) (length kept + S (length (names c)) + 20) Hd) as S.
    unfold AuthProofs.scramble_in_place in S. unfold sha1_Size in *. rewrite S; [|rewrite !app_length; cbn [length]; lia|rewrite !app_length; cbn [length]; lia|rewrite skipn_length; lia].
    cbn [bind]. replace ((kept ++ names c ++ [42]) ++ hex (xor (h (password c)) (h (ch ++ h (h (password c)))))) with (kept ++ names c ++ [42] ++ hex (xor (h (password c)) (h (ch ++ h (h (password c)))))) by (rewrite <- !app_assoc; reflexivity).
    apply continue_bytes; [reflexivity|lia].
  - destruct (begin_names c buf 0) as (kept & region & rest & sp & Lr & -> & ->). cbn [bind].
    destruct rest; [|discriminate]. assert (Hpw : mysql41_proof h (password c) ch = []) by (destruct (password c); [reflexivity|cbn [length] in Hp; lia]).
    rewrite Hpw. destruct (names_string c [] Hc ltac:(constructor) ltac:(rewrite nlen_nil; lia)) as [S1 S2]. rewrite <- app_assoc. apply continue_bytes; [reflexivity|lia].
Qed.

Lemma sha256_bytes : forall h buf c ch, digests h 32 -> creds_ok c ->
  sha256_continue h buf c ch = Ok (continue_message (names c ++ sha256_proof h (password c) ch)).
Proof.
  intros h buf c ch Hd Hc. unfold sha256_continue. cbv zeta.
  destruct (begin_names c buf (2 * sha256_Size)) as (kept & region & rest & sp & Lr & -> & ->). cbn [bind].
  unfold sha256_proof. destruct (proof_small h 32 (password c) (h (h (password c)) ++ ch) Hd ltac:(lia)) as [Q1 Q2].
  destruct (names_string c (hex (xor (h (password c)) (h (h (h (password c)) ++ ch)))) Hc Q1 ltac:(lia)) as [S1 S2].
  pose proof (AuthProofs.scramble_ok h 32 (fun x => x ++ ch) (password c) (kept ++ names c) rest sp (length kept + length (names c)) (length kept + length (names c) + 32) Hd) as S.
  specialize (S ltac:(rewrite !app_length; lia) ltac:(rewrite !app_length; lia) Lr).
  rewrite <- app_assoc in S. rewrite <- (continue_bytes kept (names c ++ hex (xor (h (password c)) (h (h (h (password c)) ++ ch)))) sp (length kept) eq_refl ltac:(lia)). rewrite app_assoc in S. rewrite app_assoc.
  change (bind (authenticate_continue (mk ((kept ++ names c) ++ hex (xor (h (password c)) (h (h (h (password c)) ++ ch)))) sp)
     (skipn (length kept) (data (mk ((kept ++ names c) ++ hex (xor (h (password c)) (h (h (h (password c)) ++ ch)))) sp)))) (fun q => Ok (data q)))
    with (bind (Ok (mk ((kept ++ names c) ++ hex (xor (h (password c)) (h (h (h (password c)) ++ ch)))) sp)) (fun p => bind (authenticate_continue p (skipn (length kept) (data p))) (fun q => Ok (data q)))).
  rewrite <- S. unfold AuthProofs.scramble_in_place, sha256_Size. destruct (put _ _ _) as [p1|]; [|reflexivity]. cbn [bind]. destruct (get_bytes p1 _ _) as [x1|]; [|reflexivity]. cbn [bind].
  destruct (put p1 _ _) as [p2|]; [|reflexivity]. cbn [bind]. destruct (get_bytes p2 _ _) as [x2|]; [|reflexivity]. cbn [bind].
  destruct (put p2 _ _) as [p3|]; [|reflexivity]. cbn [bind]. destruct (xor_loop _ _ _ _) as [p4|]; reflexivity.
Qed.

End Same.
