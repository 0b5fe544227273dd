(* Headers written in front of data already in the buffer: operators, calls, update operations. *)
From Coq Require Import List NArith ZArith Arith Bool Lia ZifyN ZifyNat ZifyBool.
From Verif Require Import Base GoSlice SliceProofs Varint VarintProofs Chunks SpecWire SpecMsg WireProofs Pure
  Text Values AnyModel ExprModel MsgModel AnyProofs StringProofs.
Import ListNotations.
Open Scope N_scope.

Ltac Zify.zify_post_hook ::= Z.div_mod_to_equations.

(* ---- every step keeps the length or makes it grow ---- *)

Lemma put_len : forall p off xs q, put p off xs = Ok q -> len q = len p.
Proof.
  intros p off xs q H. unfold put in H. destruct (Nat.leb_spec (off + length xs) (len p)) as [Hl|]; [|discriminate].
  injection H as <-. unfold len in *. cbn [data]. apply ow_length. assumption.
Qed.
Lemma put_uvarint_len : forall p off x q k, put_uvarint p off x = Ok (q, k) -> len q = len p.
Proof.
  intros p off x q k H. unfold put_uvarint in H. destruct (off <=? len p)%nat; [|discriminate].
  destruct (x <? 128).
  - destruct (put p off [byte x]) as [r|] eqn:Hp; [|discriminate]. injection H as <- _. exact (put_len _ _ _ _ Hp).
  - destruct (put p off (uvarint x)) as [r|] eqn:Hp; [|discriminate]. injection H as <- _. exact (put_len _ _ _ _ Hp).
Qed.
Lemma copy_len : forall p off xs q, copy_at p off xs = Ok q -> len q = len p.
Proof.
  intros p off xs q H. unfold copy_at in H. destruct (Nat.leb_spec off (len p)) as [Hl|]; [|discriminate].
  injection H as <-. unfold len in *. cbn [data]. apply ow_length. rewrite firstn_length. lia.
Qed.

Lemma concat_around : forall (a : bytes) l b, a ++ concat l ++ b = concat (a :: l ++ [b]).
Proof. intros a l b. cbn [concat]. rewrite concat_app. cbn [concat]. rewrite app_nil_r. reflexivity. Qed.

Lemma plen_eq : forall t b n, length b = n -> plen t b = 8 * t + 2 :: uvarint (N.of_nat n) ++ b.
Proof. intros t b n <-. reflexivity. Qed.

Ltac steps H :=
  repeat match type of H with
  | bind (put ?p ?o ?x) _ = Ok _ => let q := fresh "q" in let Hp := fresh "Hp" in
      destruct (put p o x) as [q|] eqn:Hp; [|discriminate H]; apply put_len in Hp; cbn [bind] in H
  | bind (put_uvarint ?p ?o ?x) _ = Ok _ => let q := fresh "q" in let k := fresh "k" in let Hp := fresh "Hp" in
      destruct (put_uvarint p o x) as [[q k]|] eqn:Hp; [|discriminate H]; apply put_uvarint_len in Hp; cbn [bind] in H
  | bind (copy_at ?p ?o ?x) _ = Ok _ => let q := fresh "q" in let Hp := fresh "Hp" in
      destruct (copy_at p o x) as [q|] eqn:Hp; [|discriminate H]; apply copy_len in Hp; cbn [bind] in H
  end.

Section WithEnv.
Context `{E : Env}.

Lemma insert_len : forall p pos n q, insert p pos n = Ok q -> (len p <= len q)%nat.
Proof.
  intros p pos n q H. destruct (Nat.le_gt_cases pos (len p)) as [Hp|Hp].
  - destruct p as [d sp]. unfold len in Hp. cbn [data] in Hp.
    destruct (insert_spec (firstn pos d) (skipn pos d) sp pos n) as (gap & sp' & Hi & Hg).
    { rewrite firstn_length. lia. }
    rewrite firstn_skipn in Hi. rewrite Hi in H. injection H as <-. unfold len. cbn [data].
    rewrite !app_length, firstn_length, skipn_length. lia.
  - unfold insert in H. destruct n as [|n]; [injection H as <-; lia|].
    unfold from in H. destruct (Nat.leb_spec pos (len p)); [lia|].
    destruct (_ <=? _)%nat in H; [destruct (reslice p _) in H|]; discriminate.
Qed.

Lemma operator_header_len : forall p i tag name q, operator_header p i tag name = Ok q -> (len p <= len q)%nat.
Proof.
  intros p i tag name q H. unfold operator_header in H. cbv zeta in H.
  match type of H with bind ?m _ = _ => destruct m as [q0|] eqn:Hi; [|discriminate H] end.
  apply insert_len in Hi. cbn [bind] in H. steps H. apply copy_len in H. lia.
Qed.
Lemma call_header_len : forall p i tag name q, call_header p i tag name = Ok q -> (len p <= len q)%nat.
Proof.
  intros p i tag name q H. unfold call_header in H. cbv zeta in H.
  match type of H with bind ?m _ = _ => destruct m as [q0|] eqn:Hi; [|discriminate H] end.
  apply insert_len in Hi. cbn [bind] in H. steps H. apply copy_len in H. lia.
Qed.
Lemma set_header_len : forall p i name q, set_header p i name = Ok q -> (len p <= len q)%nat.
Proof.
  intros p i name q H. unfold set_header in H. cbv zeta in H.
  match type of H with bind ?m _ = _ => destruct m as [q0|] eqn:Hi; [|discriminate H] end.
  apply insert_len in Hi. cbn [bind] in H. steps H. apply put_len in H. lia.
Qed.

(* ---- exact contents ---- *)

Definition poper (tag : N) (name ps : bytes) : bytes := plen tag (pvar 1 5 ++ plen 6 (plen 1 name ++ ps)).
Definition pcall (tag : N) (name ps : bytes) : bytes := plen tag (pvar 1 4 ++ plen 5 (plen 1 (plen 1 name) ++ ps)).
Definition pset (name v : bytes) : bytes := plen 7 (plen 1 (plen 2 name) ++ pvar 2 1 ++ v).

(* Split the gap Insert opened between a and b into chunks of lengths [lens]. *)
Ltac open_gap lens :=
  match goal with |- context [insert (mk (?a ++ ?b) ?sp) ?pos ?n] =>
    let gap := fresh "gap" in let sp' := fresh "sp" in let Hf := fresh "Hf" in let Hl := fresh "Hl" in
    let cs := fresh "cs" in let Hm := fresh "Hm" in let Hn := fresh "Hn" in
    assert (Hn : n = list_sum lens) by (cbn [list_sum fold_right]; lia);
    destruct (insert_spec a b sp pos n eq_refl) as (gap & sp' & Hf & Hl);
    rewrite Hf; clear Hf; cbn [bind];
    destruct (split_lens lens gap) as (cs & -> & Hm);
    [ rewrite Hl; exact Hn | clear Hl Hn; cut_rec Hm ]
  end.

Lemma operator_header_ok : forall a ps sp tag name, 0 < tag < 16 -> nlen name < 2 ^ 62 -> nlen ps < 2 ^ 62 ->
  exists sp', operator_header (mk (a ++ ps) sp) (length a) tag name = Ok (mk (a ++ poper tag name ps) sp').
Proof.
  intros a ps sp tag name Ht Hs Hps. unfold operator_header, poper. cbv zeta.
  replace (len (mk (a ++ ps) sp) - length a)%nat with (length ps) by (unfold len; cbn [data]; rewrite app_length; lia).
  pose proof (sizev_bounds (length name) ltac:(unfold nlen in *; lia)) as Hn.
  remember (1 + sizev (length name) + length name + length ps)%nat as n0 eqn:En0.
  assert (H0 : N.of_nat n0 < 2 ^ 64) by (unfold nlen in *; lia).
  pose proof (sizev_bounds n0 H0) as Hn0.
  remember (3 + sizev n0 + n0)%nat as n1 eqn:En1.
  assert (H1 : N.of_nat n1 < 2 ^ 64) by (unfold nlen in *; lia).
  open_gap [1; sizev n1; 1; 1; 1; sizev n0; 1; sizev (length name); length name]%nat.
  rewrite concat_around.
  cbn [app]. eexists. hdrs.
  wput 1%nat. wvar 2%nat. wput 3%nat. wput 4%nat. wput 5%nat. wvar 6%nat. wput 7%nat. wvar 8%nat. wcopy 9%nat.
  f_equal. f_equal. cbn [concat]. f_equal. rewrite ?app_nil_r.
  assert (L0 : length (plen 1 name ++ ps) = n0) by (rewrite app_length, length_plen by lia; subst n0; unfold sizev, nlen; lia).
  assert (L1 : length (pvar 1 5 ++ plen 6 (plen 1 name ++ ps)) = n1).
  { rewrite app_length, length_plen by (unfold nlen; rewrite L0; assumption).
    change (length (pvar 1 5)) with 2%nat. unfold nlen; rewrite L0. subst n1. unfold sizev. lia. }
  rewrite (plen_eq tag _ _ L1), (plen_eq 6 _ _ L0). unfold plen. cbn [app pvar]. rewrite <- ?app_assoc. reflexivity.
Qed.

Lemma call_header_ok : forall a ps sp tag name, 0 < tag < 16 -> nlen name < 2 ^ 62 -> nlen ps < 2 ^ 62 ->
  exists sp', call_header (mk (a ++ ps) sp) (length a) tag name = Ok (mk (a ++ pcall tag name ps) sp').
Proof.
  intros a ps sp tag name Ht Hs Hps. unfold call_header, pcall. cbv zeta.
  replace (len (mk (a ++ ps) sp) - length a)%nat with (length ps) by (unfold len; cbn [data]; rewrite app_length; lia).
  pose proof (sizev_bounds (length name) ltac:(unfold nlen in *; lia)) as Hn.
  remember (1 + sizev (length name) + length name)%nat as m0 eqn:Em0.
  assert (Hm0 : N.of_nat m0 < 2 ^ 63) by (unfold nlen in *; lia).
  pose proof (sizev_bounds m0 ltac:(lia)) as Hm0'.
  remember (1 + sizev m0 + m0 + length ps)%nat as n0 eqn:En0.
  assert (H0 : N.of_nat n0 < 2 ^ 64 - 100) by (unfold nlen in *; lia).
  pose proof (sizev_bounds n0 ltac:(lia)) as Hn0.
  remember (3 + sizev n0 + n0)%nat as n1 eqn:En1.
  assert (H1 : N.of_nat n1 < 2 ^ 64) by lia.
  open_gap [1; sizev n1; 1; 1; 1; sizev n0; 1; sizev m0; 1; sizev (length name); length name]%nat.
  rewrite concat_around.
  cbn [app]. eexists. hdrs.
  wput 1%nat. wvar 2%nat. wput 3%nat. wput 4%nat. wput 5%nat. wvar 6%nat. wput 7%nat. wvar 8%nat. wput 9%nat. wvar 10%nat. wcopy 11%nat.
  f_equal. f_equal. cbn [concat]. f_equal. rewrite ?app_nil_r.
  assert (K0 : length (plen 1 name) = m0) by (rewrite length_plen by lia; subst m0; unfold sizev, nlen; lia).
  assert (L0 : length (plen 1 (plen 1 name) ++ ps) = n0).
  { rewrite app_length, length_plen by (unfold nlen; rewrite K0; lia). unfold nlen; rewrite K0. subst n0; unfold sizev, nlen; lia. }
  assert (L1 : length (pvar 1 4 ++ plen 5 (plen 1 (plen 1 name) ++ ps)) = n1).
  { rewrite app_length, length_plen by (unfold nlen; rewrite L0; lia).
    change (length (pvar 1 4)) with 2%nat. unfold nlen; rewrite L0. subst n1. unfold sizev. lia. }
  rewrite (plen_eq tag _ _ L1), (plen_eq 5 _ _ L0), (plen_eq 1 _ _ K0). unfold plen.
  unfold pvar. repeat (cbn [app]; rewrite <- ?app_assoc). reflexivity.
Qed.

Lemma set_header_ok : forall a ps sp name, nlen name < 2 ^ 62 -> nlen ps < 2 ^ 62 ->
  exists sp', set_header (mk (a ++ ps) sp) (length a) name = Ok (mk (a ++ pset name ps) sp').
Proof.
  intros a ps sp name Hs Hps. unfold set_header, pset. cbv zeta.
  replace (len (mk (a ++ ps) sp) - length a)%nat with (length ps) by (unfold len; cbn [data]; rewrite app_length; lia).
  pose proof (sizev_bounds (length name) ltac:(unfold nlen in *; lia)) as Hn.
  remember (1 + sizev (length name) + length name)%nat as n1 eqn:En1.
  assert (H1 : N.of_nat n1 < 2 ^ 63) by (unfold nlen in *; lia).
  pose proof (sizev_bounds n1 ltac:(lia)) as Hn1.
  remember (3 + sizev n1 + n1 + length ps)%nat as n2 eqn:En2.
  assert (H2 : N.of_nat n2 < 2 ^ 64) by (unfold nlen in *; lia).
  pose proof (sizev_bounds n2 ltac:(lia)) as Hn2.
  open_gap [1; sizev n2; 1; sizev n1; 1; sizev (length name); length name; 1; 1]%nat.
  rewrite concat_around.
  cbn [app]. eexists. hdrs.
  wput 1%nat. wvar 2%nat. wput 3%nat. wvar 4%nat. wput 5%nat. wvar 6%nat.
  match goal with |- context [Nat.min (len ?p - ?o) (length name)] =>
    replace (Nat.min (len p - o) (length name)) with (length name)
      by (unfold len; cbn [data concat]; repeat rewrite app_length; cbn [length];
          repeat rewrite uvarint_length by (unfold nlen in *; lia); unfold sizev, nlen in *; lia) end.
  wcopy 7%nat. wput 8%nat. wput 9%nat.
  f_equal. f_equal. cbn [concat]. f_equal. rewrite ?app_nil_r.
  assert (K0 : length (plen 2 name) = n1) by (rewrite length_plen by lia; subst n1; unfold sizev, nlen; lia).
  assert (L0 : length (plen 1 (plen 2 name) ++ pvar 2 1 ++ ps) = n2).
  { rewrite !app_length, length_plen by (unfold nlen; rewrite K0; lia). unfold nlen; rewrite K0.
    change (length (pvar 2 1)) with 2%nat. subst n2; unfold sizev, nlen; lia. }
  rewrite (plen_eq 7 _ _ L0), (plen_eq 1 _ _ K0). unfold plen.
  unfold pvar. repeat (cbn [app]; rewrite <- ?app_assoc). reflexivity.
Qed.

End WithEnv.
