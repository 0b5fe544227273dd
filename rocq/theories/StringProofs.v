(* What the string, bytes, time, duration and column encoders write. *)
From Coq Require Import List NArith ZArith Arith Bool Lia ZifyN ZifyNat ZifyBool.
From Verif Require Import Base GoSlice SliceProofs Varint VarintProofs Chunks SpecWire SpecMsg WireProofs Pure
  Text Values AnyModel ExprModel AnyProofs.
Import ListNotations.
Open Scope N_scope.

Ltac Zify.zify_post_hook ::= Z.div_mod_to_equations.

Lemma sizev_eq : forall b, sizev (length b) = size_varint (nlen b).
Proof. reflexivity. Qed.

Lemma length_plen : forall t b, nlen b < 2 ^ 64 -> length (plen t b) = (1 + size_varint (nlen b) + length b)%nat.
Proof. intros t b Hb. unfold plen. cbn [length]. rewrite app_length, uvarint_length by assumption. lia. Qed.
Lemma length_pvar : forall t x, x < 2 ^ 64 -> length (pvar t x) = (1 + size_varint x)%nat.
Proof. intros t x Hx. unfold pvar. cbn [length]. rewrite uvarint_length by assumption. lia. Qed.

Lemma concat_cons : forall (a : bytes) (l : list bytes), concat (a :: l) = a ++ concat l.
Proof. reflexivity. Qed.

(* Offsets: the length of the first chunks. *)
Ltac off := cbn [firstn concat]; repeat rewrite app_length; cbn [length];
  repeat rewrite uvarint_length by (unfold nlen in *; lia); unfold len, sizev, nlen in *; lia.
Ltac wput i := erewrite (put_nth i);
  [ cbn [rep bind] | reflexivity | off | cbn [length]; assumption || (cbn [length]; lia) ].
Ltac wvar i := erewrite (put_uvarint_nth i);
  [ cbn [rep bind] | reflexivity | off | unfold nlen in *; lia | first [assumption | unfold sizev, nlen in *; lia] ].
Ltac wcopy i := erewrite (copy_nth i);
  [ cbn [rep bind] | reflexivity | off | assumption ].
(* Split what for_append added into chunks of lengths [lens]. *)
Ltac grow p n lens :=
  let tail := fresh "tail" in let sp := fresh "sp" in let Hf := fresh "Hf" in let Hl := fresh "Hl" in
  let cs := fresh "cs" in let Hm := fresh "Hm" in
  destruct (for_append_spec p n) as (tail & sp & Hf & Hl);
  rewrite Hf; clear Hf;
  destruct (split_lens lens tail) as (cs & -> & Hm);
  [ rewrite Hl; cbn [list_sum fold_right]; lia | clear Hl; cut_rec Hm; rewrite <- concat_cons ].

Section WithEnv.
Context `{E : Env}.

(* Everything needed about the nested lengths of a string of length n with an optional part. *)
Lemma nest_lengths : forall tag k f vt g b0 n0 n1 n2, k < 128 -> vt < 128 -> nlen b0 < 2 ^ 63 ->
  n0 = length b0 -> n1 = (3 + sizev n0 + n0)%nat -> n2 = (3 + sizev n1 + n1)%nat ->
  N.of_nat n0 < 2 ^ 64 /\ N.of_nat n1 < 2 ^ 64 /\ N.of_nat n2 < 2 ^ 64 /\
  plen tag (pvar 1 k ++ plen f (pvar 1 vt ++ plen g b0)) =
  concat [[8 * tag + 2]; uvarint (N.of_nat n2); [8]; [k]; [8 * f + 2]; uvarint (N.of_nat n1);
          [8]; [vt]; [8 * g + 2]; uvarint (N.of_nat n0); b0].
Proof.
  intros tag k f vt g b0 n0 n1 n2 Hk Hv Hb -> -> ->.
  pose proof (sizev_bounds (length b0) ltac:(unfold nlen in Hb; lia)) as H0.
  assert (H1 : N.of_nat (3 + sizev (length b0) + length b0) < 2 ^ 64) by (unfold nlen in Hb; lia).
  pose proof (sizev_bounds _ H1) as H2.
  assert (H3 : N.of_nat (3 + sizev (3 + sizev (length b0) + length b0) + (3 + sizev (length b0) + length b0)) < 2 ^ 64)
    by (unfold nlen in Hb; lia).
  split; [unfold nlen in Hb; lia|]. split; [assumption|]. split; [assumption|].
  cbn [concat]. unfold pvar. rewrite (uvarint_small k Hk), (uvarint_small vt Hv).
  assert (L0 : length (plen g b0) = (1 + sizev (length b0) + length b0)%nat) by (apply length_plen; lia).
  assert (L1 : length ([8 * 1; vt] ++ plen g b0) = (3 + sizev (length b0) + length b0)%nat).
  { rewrite app_length, L0. cbn [length]. lia. }
  set (s1 := [8 * 1; vt] ++ plen g b0) in *.
  assert (L2 : length ([8 * 1; k] ++ plen f s1) = (3 + sizev (length s1) + length s1)%nat).
  { rewrite app_length, length_plen by (unfold nlen; rewrite L1; assumption). cbn [length]. unfold sizev, nlen. lia. }
  set (s2 := [8 * 1; k] ++ plen f s1) in *.
  unfold plen at 1. unfold nlen. rewrite L2, L1.
  cbn [app]. f_equal. f_equal. unfold s2. cbn [app]. f_equal. f_equal.
  unfold plen at 1. unfold nlen. rewrite L1. cbn [app]. f_equal. f_equal.
  unfold s1, plen. cbn [app]. rewrite app_nil_r. reflexivity.
Qed.

Ltac collapse := cbn [concat app]; rewrite ?app_nil_r, <- ?app_assoc; reflexivity.

Lemma poct_length : forall v c, nlen v < 2 ^ 62 -> match c with None => True | Some n => n < 2 ^ 64 end ->
  length (poct v c) = (1 + sizev (length v) + length v + match c with None => 0 | Some n => 1 + size_varint n end)%nat /\
  nlen (poct v c) < 2 ^ 63.
Proof.
  intros v c Hv Hc. pose proof (sizev_bounds (length v) ltac:(unfold nlen in Hv; lia)) as Hs.
  assert (Hl : length (poct v c) = (1 + sizev (length v) + length v + match c with None => 0 | Some n => 1 + size_varint n end)%nat).
  { unfold poct. rewrite app_length, length_plen by lia. unfold sizev. fold (nlen v).
    destruct c as [n|]; [rewrite length_pvar by assumption; lia|cbn [length]; lia]. }
  split; [assumption|]. unfold nlen in *. rewrite Hl.
  destruct c as [n|]; [pose proof (size_varint_bounds n Hc); lia|lia].
Qed.

Definition optc (c : N) : option N := if c =? 0 then None else Some c.

(* Start of every proof below: lengths, chunks. *)
Ltac start_str tag k f vt g s c p :=
  let Hn := fresh "Hn" in let Hp := fresh "Hp" in let Hpl := fresh "Hpl" in
  let H0 := fresh "H0" in let H1 := fresh "H1" in let H2 := fresh "H2" in let He := fresh "He" in
  destruct (poct_length s c ltac:(assumption) ltac:(first [exact I|assumption])) as [Hpl Hp];
  destruct (nest_lengths tag k f vt g (poct s c) _ _ _ ltac:(lia) ltac:(lia) Hp eq_refl eq_refl eq_refl) as (H0 & H1 & H2 & He);
  rewrite He; clear He;
  rewrite Hpl in *;
  pose proof (sizev_bounds (length s) ltac:(unfold nlen in *; lia)) as Hn.

Lemma emits_any_string : forall tag s c, 0 < tag < 16 -> nlen s < 2 ^ 62 -> c < 2 ^ 64 ->
  emits (fun p => append_any_string p tag s c) (pany tag (SString s (optc c))).
Proof.
  intros tag s c Ht Hs Hc p. unfold pany, pscalar, optc, append_any_string. cbv zeta.
  destruct (N.eqb_spec c 0) as [->|Hnz].
  - start_str tag 1 2 8 9 s (@None N) p.
    replace (1 + sizev (length s) + length s + 0)%nat with (1 + sizev (length s) + length s)%nat in * by lia.
    remember (1 + sizev (length s) + length s)%nat as n0 eqn:En0.
    remember (3 + sizev n0 + n0)%nat as n1 eqn:En1.
    remember (3 + sizev n1 + n1)%nat as n2 eqn:En2.
    grow p (1 + sizev n2 + n2)%nat
      [1; sizev n2; 1; 1; 1; sizev n1; 1; 1; 1; sizev n0; 1; sizev (length s); length s]%nat.
    exists sp. hdrs.
    wvar 2%nat. wput 1%nat. wvar 6%nat. wput 3%nat. wput 4%nat. wput 5%nat.
    wvar 10%nat. wput 7%nat. wput 8%nat. wput 9%nat. wvar 12%nat. wput 11%nat. wcopy 13%nat.
    f_equal. f_equal. unfold poct, plen. cbn [concat app]. rewrite ?app_nil_r. reflexivity.
  - start_str tag 1 2 8 9 s (Some c) p.
    remember (1 + sizev (length s) + length s + (1 + size_varint c))%nat as n0 eqn:En0.
    remember (3 + sizev n0 + n0)%nat as n1 eqn:En1.
    remember (3 + sizev n1 + n1)%nat as n2 eqn:En2.
    grow p (1 + sizev n2 + n2)%nat
      [1; sizev n2; 1; 1; 1; sizev n1; 1; 1; 1; sizev n0; 1; size_varint c; 1; sizev (length s); length s]%nat.
    exists sp. hdrs.
    wvar 2%nat. wput 1%nat. wvar 6%nat. wput 3%nat. wput 4%nat. wput 5%nat.
    wvar 10%nat. wput 7%nat. wput 8%nat. wput 9%nat. wvar 12%nat. wput 11%nat. wvar 14%nat. wput 13%nat. wcopy 15%nat.
    f_equal. f_equal. unfold poct, pvar, plen. cbn [concat app]. rewrite ?app_nil_r, <- ?app_assoc. reflexivity.
Qed.

Lemma emits_any_bytes_string : forall tag s c, 0 < tag < 16 -> nlen s < 2 ^ 62 -> c < 2 ^ 64 ->
  emits (fun p => append_any_bytes_string p tag s c) (pany tag (SOctets s (optc c))).
Proof.
  intros tag s c Ht Hs Hc p. unfold pany, pscalar, optc, append_any_bytes_string, ContentTypePlain. cbv zeta.
  destruct (N.eqb_spec c 0) as [->|Hnz].
  - start_str tag 1 2 4 5 s (@None N) p.
    replace (1 + sizev (length s) + length s + 0)%nat with (1 + sizev (length s) + length s)%nat in * by lia.
    remember (1 + sizev (length s) + length s)%nat as n0 eqn:En0.
    remember (3 + sizev n0 + n0)%nat as n1 eqn:En1.
    remember (3 + sizev n1 + n1)%nat as n2 eqn:En2.
    grow p (1 + sizev n2 + n2)%nat
      [1; sizev n2; 1; 1; 1; sizev n1; 1; 1; 1; sizev n0; 1; sizev (length s); length s]%nat.
    exists sp. hdrs.
    wvar 2%nat. wput 1%nat. wvar 6%nat. wput 3%nat. wput 4%nat. wput 5%nat.
    wvar 10%nat. wput 7%nat. wput 8%nat. wput 9%nat. wvar 12%nat. wput 11%nat. wcopy 13%nat.
    f_equal. f_equal. unfold poct, plen. cbn [concat app]. rewrite ?app_nil_r. reflexivity.
  - start_str tag 1 2 4 5 s (Some c) p.
    remember (1 + sizev (length s) + length s + (1 + size_varint c))%nat as n0 eqn:En0.
    remember (3 + sizev n0 + n0)%nat as n1 eqn:En1.
    remember (3 + sizev n1 + n1)%nat as n2 eqn:En2.
    grow p (1 + sizev n2 + n2)%nat
      [1; sizev n2; 1; 1; 1; sizev n1; 1; 1; 1; sizev n0; 1; size_varint c; 1; sizev (length s); length s]%nat.
    exists sp. hdrs.
    wvar 2%nat. wput 1%nat. wvar 6%nat. wput 3%nat. wput 4%nat. wput 5%nat.
    wvar 10%nat. wput 7%nat. wput 8%nat. wput 9%nat. wvar 12%nat. wput 11%nat. wvar 14%nat. wput 13%nat. wcopy 15%nat.
    f_equal. f_equal. unfold poct, pvar, plen. cbn [concat app]. rewrite ?app_nil_r, <- ?app_assoc. reflexivity.
Qed.

Lemma emits_expr_string : forall tag s c, 0 < tag < 16 -> nlen s < 2 ^ 62 -> c < 2 ^ 64 ->
  emits (fun p => append_expr_string p tag s c) (plit tag (SString s (optc c))).
Proof.
  intros tag s c Ht Hs Hc p. unfold plit, pscalar, optc, append_expr_string. cbv zeta.
  destruct (N.eqb_spec c 0) as [->|Hnz].
  - start_str tag 2 4 8 9 s (@None N) p.
    replace (1 + sizev (length s) + length s + 0)%nat with (1 + sizev (length s) + length s)%nat in * by lia.
    remember (1 + sizev (length s) + length s)%nat as n0 eqn:En0.
    remember (3 + sizev n0 + n0)%nat as n1 eqn:En1.
    remember (3 + sizev n1 + n1)%nat as n2 eqn:En2.
    grow p (1 + sizev n2 + n2)%nat
      [1; sizev n2; 1; 1; 1; sizev n1; 1; 1; 1; sizev n0; 1; sizev (length s); length s]%nat.
    exists sp. hdrs.
    wvar 2%nat. wput 1%nat. wvar 6%nat. wput 3%nat. wput 4%nat. wput 5%nat.
    wvar 10%nat. wput 7%nat. wput 8%nat. wput 9%nat. wput 11%nat. wvar 12%nat. wcopy 13%nat.
    f_equal. f_equal. unfold poct, plen. cbn [concat app]. rewrite ?app_nil_r. reflexivity.
  - start_str tag 2 4 8 9 s (Some c) p.
    remember (1 + sizev (length s) + length s + (1 + size_varint c))%nat as n0 eqn:En0.
    remember (3 + sizev n0 + n0)%nat as n1 eqn:En1.
    remember (3 + sizev n1 + n1)%nat as n2 eqn:En2.
    grow p (1 + sizev n2 + n2)%nat
      [1; sizev n2; 1; 1; 1; sizev n1; 1; 1; 1; sizev n0; 1; size_varint c; 1; sizev (length s); length s]%nat.
    exists sp. hdrs.
    wvar 2%nat. wput 1%nat. wvar 6%nat. wput 3%nat. wput 4%nat. wput 5%nat.
    wvar 10%nat. wput 7%nat. wput 8%nat. wput 9%nat. wvar 12%nat. wput 11%nat. wput 13%nat. wvar 14%nat. wcopy 15%nat.
    f_equal. f_equal. unfold poct, pvar, plen. cbn [concat app]. rewrite ?app_nil_r, <- ?app_assoc. reflexivity.
Qed.

Lemma emits_expr_bytes_string : forall tag s c, 0 < tag < 16 -> nlen s < 2 ^ 62 -> c < 2 ^ 64 ->
  emits (fun p => append_expr_bytes_string p tag s c) (plit tag (SOctets s (optc c))).
Proof.
  intros tag s c Ht Hs Hc p. unfold plit, pscalar, optc, append_expr_bytes_string. cbv zeta.
  destruct (N.eqb_spec c 0) as [->|Hnz].
  - start_str tag 2 4 4 5 s (@None N) p.
    replace (1 + sizev (length s) + length s + 0)%nat with (1 + sizev (length s) + length s)%nat in * by lia.
    remember (1 + sizev (length s) + length s)%nat as n0 eqn:En0.
    remember (3 + sizev n0 + n0)%nat as n1 eqn:En1.
    remember (3 + sizev n1 + n1)%nat as n2 eqn:En2.
    grow p (1 + sizev n2 + n2)%nat
      [1; sizev n2; 1; 1; 1; sizev n1; 1; 1; 1; sizev n0; 1; sizev (length s); length s]%nat.
    exists sp. hdrs.
    wvar 2%nat. wput 1%nat. wvar 6%nat. wput 3%nat. wput 4%nat. wput 5%nat.
    wvar 10%nat. wput 7%nat. wput 8%nat. wput 9%nat. wvar 12%nat. wput 11%nat. wcopy 13%nat.
    f_equal. f_equal. unfold poct, plen. cbn [concat app]. rewrite ?app_nil_r. reflexivity.
  - start_str tag 2 4 4 5 s (Some c) p.
    remember (1 + sizev (length s) + length s + (1 + size_varint c))%nat as n0 eqn:En0.
    remember (3 + sizev n0 + n0)%nat as n1 eqn:En1.
    remember (3 + sizev n1 + n1)%nat as n2 eqn:En2.
    grow p (1 + sizev n2 + n2)%nat
      [1; sizev n2; 1; 1; 1; sizev n1; 1; 1; 1; sizev n0; 1; size_varint c; 1; sizev (length s); length s]%nat.
    exists sp. hdrs.
    wvar 2%nat. wput 1%nat. wvar 6%nat. wput 3%nat. wput 4%nat. wput 5%nat.
    wvar 10%nat. wput 7%nat. wput 8%nat. wput 9%nat. wvar 12%nat. wput 11%nat. wvar 14%nat. wput 13%nat. wcopy 15%nat.
    f_equal. f_equal. unfold poct, pvar, plen. cbn [concat app]. rewrite ?app_nil_r, <- ?app_assoc. reflexivity.
Qed.


Lemma emits_any_bytes : forall tag b c, 0 < tag < 16 -> match b with Some s => nlen s < 2 ^ 62 | None => True end -> c < 2 ^ 64 ->
  emits (fun p => append_any_bytes p tag b c) (pany tag (match b with Some s => SOctets s (optc c) | None => SNull end)).
Proof.
  intros tag b c Ht Hb Hc. destruct b as [s|]; cbn [append_any_bytes].
  - apply emits_any_bytes_string; assumption.
  - apply emits_any_null; assumption.
Qed.
Lemma emits_expr_bytes : forall tag b c, 0 < tag < 16 -> match b with Some s => nlen s < 2 ^ 62 | None => True end -> c < 2 ^ 64 ->
  emits (fun p => append_expr_bytes p tag b c) (plit tag (match b with Some s => SOctets s (optc c) | None => SNull end)).
Proof.
  intros tag b c Ht Hb Hc. destruct b as [s|]; cbn [append_expr_bytes].
  - apply emits_expr_bytes_string; assumption.
  - apply emits_expr_null; assumption.
Qed.

(* Time and duration: an octets literal shorter than 118 bytes, with its lengths patched in. *)
Lemma octets_small : forall tag k f txt, nlen txt < 90 -> k < 128 ->
  plen tag (pvar 1 k ++ plen f (pscalar (SOctets txt None))) =
  [8 * tag + 2; 10 + nlen txt; 8; k; 8 * f + 2; 6 + nlen txt; 8; 4; 42; 2 + nlen txt; 10; nlen txt] ++ txt.
Proof.
  intros tag k f txt Hl Hk.
  assert (Hp : pscalar (SOctets txt None) = [8; 4; 42; 2 + nlen txt; 10; nlen txt] ++ txt).
  { cbn [pscalar]. unfold poct, pvar, plen. cbn [app]. rewrite nlen_cons, nlen_app.
    rewrite !(uvarint_small (nlen txt)) by lia. rewrite nlen_cons, nlen_nil.
    replace (1 + (1 + 0 + nlen txt)) with (2 + nlen txt) by lia.
    rewrite (uvarint_small (2 + nlen txt)) by lia. reflexivity. }
  assert (Hn : nlen (pscalar (SOctets txt None)) = 6 + nlen txt) by (rewrite Hp; cbn [app]; rewrite !nlen_cons; lia).
  rewrite plen2_small by lia. rewrite Hn, Hp. replace (4 + (6 + nlen txt)) with (10 + nlen txt) by lia. reflexivity.
Qed.

Lemma bump_emits : forall d sp a k f txt i, nlen txt < 90 -> i = length d ->
  bump_lengths (mk (d ++ [a; 10; 8; k; f; 6; 8; 4; 42; 2; 10; 0] ++ txt) sp) i (length txt) =
  Ok (mk (d ++ [a; 10 + nlen txt; 8; k; f; 6 + nlen txt; 8; 4; 42; 2 + nlen txt; 10; nlen txt] ++ txt) sp).
Proof.
  intros d sp a k f txt i Hl ->. unfold bump_lengths. cbv zeta. cbn [app].
  fold (nlen txt). rewrite (byte_id (nlen txt)) by lia.
  change (d ++ a :: 10 :: 8 :: k :: f :: 6 :: 8 :: 4 :: 42 :: 2 :: 10 :: 0 :: txt)
    with (d ++ [a; 10; 8; k; f; 6; 8; 4; 42; 2; 10] ++ 0 :: txt).
  rewrite app_assoc. rewrite upd_chunk by (rewrite app_length; reflexivity). cbn [bind].
  rewrite <- app_assoc. cbn [app].
  change (d ++ a :: 10 :: 8 :: k :: f :: 6 :: 8 :: 4 :: 42 :: 2 :: 10 :: ?y)
    with (d ++ [a; 10; 8; k; f; 6; 8; 4; 42] ++ 2 :: 10 :: y).
  rewrite app_assoc. rewrite upd_chunk by (rewrite app_length; reflexivity). cbn [bind].
  rewrite <- app_assoc. cbn [app].
  change (d ++ a :: 10 :: 8 :: k :: f :: 6 :: ?y) with (d ++ [a; 10; 8; k; f] ++ 6 :: y).
  rewrite app_assoc. rewrite upd_chunk by (rewrite app_length; reflexivity). cbn [bind].
  rewrite <- app_assoc. cbn [app].
  change (d ++ a :: 10 :: ?y) with (d ++ [a] ++ 10 :: y).
  rewrite app_assoc. rewrite upd_chunk by (rewrite app_length; reflexivity).
  rewrite <- app_assoc. cbn [app]. rewrite !byte_id by lia.
  change (0 + nlen txt) with (nlen txt). reflexivity.
Qed.

Lemma emits_any_time : forall tag t, 0 < tag < 16 -> nlen (format_time t) < 90 ->
  emits (fun p => append_any_time p tag t) (pany tag (SOctets (format_time t) None)).
Proof.
  intros tag t Ht Hl p. unfold append_any_time, pany. cbv zeta. rewrite octets_small by lia.
  match goal with |- context [append p ?h] => set (hd := h) end.
  destruct (append_spec p hd) as [sp0 ->].
  destruct (append_spec (mk (data p ++ hd) sp0) (format_time t)) as [sp1 ->]. cbn [data].
  rewrite <- app_assoc. unfold len; cbn [data].
  replace (length (data p ++ hd ++ format_time t) - length (data p) - 12)%nat with (length (format_time t))
    by (rewrite !app_length; unfold hd; cbn [length]; lia).
  destruct (Nat.leb_spec 118 (length (format_time t))) as [H|_]; [unfold nlen in Hl; lia|].
  unfold hd. hdrs. exists sp1. apply bump_emits; [assumption|reflexivity].
Qed.
Lemma emits_expr_time : forall tag t, 0 < tag < 16 -> nlen (format_time t) < 90 ->
  emits (fun p => append_expr_time p tag t) (plit tag (SOctets (format_time t) None)).
Proof.
  intros tag t Ht Hl p. unfold append_expr_time, plit. cbv zeta. rewrite octets_small by lia.
  match goal with |- context [append p ?h] => set (hd := h) end.
  destruct (append_spec p hd) as [sp0 ->].
  destruct (append_spec (mk (data p ++ hd) sp0) (format_time t)) as [sp1 ->]. cbn [data].
  rewrite <- app_assoc. unfold len; cbn [data].
  replace (length (data p ++ hd ++ format_time t) - length (data p) - 12)%nat with (length (format_time t))
    by (rewrite !app_length; unfold hd; cbn [length]; lia).
  destruct (Nat.leb_spec 128 (length (format_time t) + 10)) as [H|_]; [unfold nlen in Hl; lia|].
  unfold hd. hdrs. exists sp1. apply bump_emits; [assumption|reflexivity].
Qed.

Lemma emits_any_duration : forall tag d txt, 0 < tag < 16 -> nlen txt < 90 -> emits (fun p => append_duration p d) txt ->
  emits (fun p => append_any_duration p tag d) (pany tag (SOctets txt None)).
Proof.
  intros tag d txt Ht Hl Hd p. unfold append_any_duration, pany. cbv zeta. rewrite octets_small by lia.
  match goal with |- context [append p ?h] => set (hd := h) end.
  destruct (append_spec p hd) as [sp0 ->].
  destruct (Hd (mk (data p ++ hd) sp0)) as [sp1 ->]. cbn [data bind].
  rewrite <- app_assoc. unfold len; cbn [data].
  replace (length (data p ++ hd ++ txt) - length (data p) - 12)%nat with (length txt)
    by (rewrite !app_length; unfold hd; cbn [length]; lia).
  unfold hd. hdrs. exists sp1. apply bump_emits; [assumption|reflexivity].
Qed.
Lemma emits_expr_duration : forall tag d txt, 0 < tag < 16 -> nlen txt < 90 -> emits (fun p => append_duration p d) txt ->
  emits (fun p => append_expr_duration p tag d) (plit tag (SOctets txt None)).
Proof.
  intros tag d txt Ht Hl Hd p. unfold append_expr_duration, plit. cbv zeta. rewrite octets_small by lia.
  match goal with |- context [append p ?h] => set (hd := h) end.
  destruct (append_spec p hd) as [sp0 ->].
  destruct (Hd (mk (data p ++ hd) sp0)) as [sp1 ->]. cbn [data bind].
  rewrite <- app_assoc. unfold len; cbn [data].
  replace (length (data p ++ hd ++ txt) - length (data p) - 12)%nat with (length txt)
    by (rewrite !app_length; unfold hd; cbn [length]; lia).
  unfold hd. hdrs. exists sp1. apply bump_emits; [assumption|reflexivity].
Qed.

(* Columns, variables, placeholders *)
Definition pcolumn (tag : N) (name : bytes) : bytes := plen tag (pvar 1 1 ++ plen 2 (plen 2 name)).

Lemma emits_expr_column : forall tag s, 0 < tag < 16 -> nlen s < 2 ^ 62 ->
  emits (fun p => append_expr_column p tag s) (pcolumn tag s).
Proof.
  intros tag s Ht Hs p. unfold append_expr_column, pcolumn. cbv zeta.
  pose proof (sizev_bounds (length s) ltac:(unfold nlen in *; lia)) as Hn.
  remember (1 + sizev (length s) + length s)%nat as n0 eqn:En0.
  assert (H0 : N.of_nat n0 < 2 ^ 64) by (unfold nlen in *; lia).
  pose proof (sizev_bounds n0 H0) as Hn0.
  remember (3 + sizev n0 + n0)%nat as n1 eqn:En1.
  assert (H1 : N.of_nat n1 < 2 ^ 64) by (unfold nlen in *; lia).
  grow p (1 + sizev n1 + n1)%nat [1; sizev n1; 1; 1; 1; sizev n0; 1; sizev (length s); length s]%nat.
  exists sp. hdrs.
  wput 1%nat. wvar 2%nat. wput 3%nat. wput 4%nat. wput 5%nat. wvar 6%nat. wput 7%nat. wvar 8%nat. wcopy 9%nat.
  f_equal. f_equal. cbn [concat]. f_equal. rewrite ?app_nil_r.
  assert (L0 : length (plen 2 s) = n0) by (rewrite length_plen by lia; subst n0; unfold sizev, nlen; lia).
  assert (L1 : length (pvar 1 1 ++ plen 2 (plen 2 s)) = n1).
  { rewrite app_length, length_plen by (unfold nlen; rewrite L0; assumption).
    change (length (pvar 1 1)) with 2%nat. unfold nlen; rewrite L0. subst n1. unfold sizev. lia. }
  unfold plen at 1. unfold nlen at 1. rewrite L1. cbn [app]. f_equal. f_equal.
  unfold plen at 1. unfold nlen at 1. rewrite L0. reflexivity.
Qed.

Definition pvariable (tag : N) (name : bytes) : bytes := plen tag (pvar 1 3 ++ plen 3 name).
Definition pplaceholder (tag pos : N) : bytes := plen tag (pvar 1 6 ++ pvar 7 pos).

(* AppendExprVariable writes the outer length as one byte: right only below 124 bytes. *)
Lemma emits_expr_variable : forall tag s, 0 < tag < 16 -> nlen s <= 123 ->
  emits (fun p => append_expr_variable p tag s) (pvariable tag s).
Proof.
  intros tag s Ht Hs p. unfold append_expr_variable. cbv zeta.
  assert (Hx : nlen s < 2 ^ 64) by lia.
  assert (Hsz : size_varint (nlen s) = 1%nat).
  { pose proof (size_le_of_lt (nlen s) 1 Hx ltac:(change (2 ^ (7 * N.of_nat 1)) with 128; lia) ltac:(lia)).
    pose proof (size_varint_bounds _ Hx). lia. }
  match goal with |- context [append p (?a :: ?b :: ?c :: ?d :: ?e :: ?l)] =>
    change (a :: b :: c :: d :: e :: l) with ([a; b; c; d; e] ++ chain64 (nlen s)); set (hd := [a; b; c; d; e]) end.
  destruct (append_spec p (hd ++ chain64 (nlen s))) as [sp0 ->]. rewrite app_assoc.
  destruct (mask_truncate_agree (chain64 (nlen s)) (data p ++ hd) (nlen s) sp0
    (size_varint (nlen s) + (len (mk ((data p ++ hd) ++ chain64 (nlen s)) sp0) - 10))%nat Hx (agree64 _ Hx)) as [sp1 ->].
  { unfold len; cbn [data]. rewrite !app_length. change (length (chain64 (nlen s))) with 10%nat. lia. }
  cbn [bind]. destruct (append_spec (mk ((data p ++ hd) ++ uvarint (nlen s)) sp1) s) as [sp2 ->].
  exists sp2. cbn [data]. f_equal. f_equal. rewrite <- !app_assoc. f_equal.
  unfold pvariable, plen, pvar, hd. rewrite Hsz.
  change (N.of_nat 1) with 1. rewrite (byte_id (1 + nlen s)) by lia. rewrite byte_id by lia. hdrs.
  rewrite (uvarint_small (nlen s)) by lia. rewrite (uvarint_small 3) by lia. cbn [app].
  rewrite !nlen_cons. replace (1 + (1 + (1 + (1 + nlen s)))) with (3 + (1 + nlen s)) by lia.
  rewrite uvarint_small by lia. reflexivity.
Qed.

Lemma emits_expr_placeholder : forall tag x, 0 < tag < 16 -> x < 2 ^ 32 ->
  emits (fun p => append_expr_placeholder p tag x) (pplaceholder tag x).
Proof.
  intros tag x Ht Hx p. unfold append_expr_placeholder. cbv zeta.
  assert (Hx64 : x < 2 ^ 64) by lia.
  pose proof (size_small x Hx64) as Hs.
  match goal with |- context [append p (?a :: ?b :: ?c :: ?d :: ?e :: ?l)] =>
    change (a :: b :: c :: d :: e :: l) with ([a; b; c; d; e] ++ chain32 x); set (hd := [a; b; c; d; e]) end.
  destruct (append_spec p (hd ++ chain32 x)) as [sp0 ->]. rewrite app_assoc.
  destruct (mask_truncate_agree (chain32 x) (data p ++ hd) x sp0
    (size_varint x + (len (mk ((data p ++ hd) ++ chain32 x) sp0) - 5))%nat Hx64 (agree32 _ Hx)) as [sp1 ->].
  { unfold len; cbn [data]. rewrite !app_length. change (length (chain32 x)) with 5%nat. lia. }
  exists sp1. f_equal. f_equal. rewrite <- !app_assoc. f_equal.
  unfold pplaceholder, plen, pvar, hd.
  rewrite (byte_id (N.of_nat _)) by lia. rewrite byte_id by lia. hdrs.
  rewrite (uvarint_small 6) by lia. cbn [app]. rewrite !nlen_cons, nlen_uvarint by assumption.
  replace (1 + (1 + (1 + N.of_nat (size_varint x)))) with (3 + N.of_nat (size_varint x)) by lia.
  rewrite (uvarint_small (3 + N.of_nat (size_varint x))) by lia. reflexivity.
Qed.

Lemma pcolumn_ok : forall tag s, 0 < tag < 16 -> is_bytes s -> nlen s < 2 ^ 62 ->
  exists payload, reads (pcolumn tag s) [(tag, WLen payload)] /\ dexpr payload = Some (XColumn s).
Proof.
  intros tag s Ht Hb Hs.
  destruct (reads_plen 2 s ltac:(lia) ltac:(lia) Hb) as [B1 D1]. pose proof (nlen_plen 2 s ltac:(lia)).
  destruct (reads_app _ _ _ _ (reads_pvar 1 1 ltac:(lia) ltac:(lia)) (reads_plen 2 (plen 2 s) ltac:(lia) ltac:(lia) B1)) as [B2 D2].
  pose proof (nlen_plen 2 (plen 2 s) ltac:(lia)). pose proof (nlen_pvar 1 1 ltac:(lia)).
  eexists. split; [apply reads_plen; [assumption|szs; lia|exact B2]|].
  unfold dexpr. cbn [dexpr_k]. rewrite D2. cbn. unfold dname. rewrite D1. reflexivity.
Qed.
Lemma pvariable_ok : forall tag s, 0 < tag < 16 -> is_bytes s -> nlen s < 2 ^ 62 ->
  exists payload, reads (pvariable tag s) [(tag, WLen payload)] /\ dexpr payload = Some (XVariable s).
Proof.
  intros tag s Ht Hb Hs.
  destruct (reads_app _ _ _ _ (reads_pvar 1 3 ltac:(lia) ltac:(lia)) (reads_plen 3 s ltac:(lia) ltac:(lia) Hb)) as [B2 D2].
  pose proof (nlen_plen 3 s ltac:(lia)). pose proof (nlen_pvar 1 3 ltac:(lia)).
  eexists. split; [apply reads_plen; [assumption|szs; lia|exact B2]|].
  unfold dexpr. cbn [dexpr_k]. rewrite D2. reflexivity.
Qed.
Lemma pplaceholder_ok : forall tag x, 0 < tag < 16 -> x < 2 ^ 32 ->
  exists payload, reads (pplaceholder tag x) [(tag, WLen payload)] /\ dexpr payload = Some (XPlaceholder x).
Proof.
  intros tag x Ht Hx.
  destruct (reads_app _ _ _ _ (reads_pvar 1 6 ltac:(lia) ltac:(lia)) (reads_pvar 7 x ltac:(lia) ltac:(lia))) as [B2 D2].
  pose proof (nlen_pvar 7 x ltac:(lia)). pose proof (nlen_pvar 1 6 ltac:(lia)).
  eexists. split; [apply reads_plen; [assumption|szs; lia|exact B2]|].
  unfold dexpr. cbn [dexpr_k]. rewrite D2. cbn -[N.pow N.ltb].
  destruct (N.ltb_spec x (2 ^ 32)); [reflexivity|lia].
Qed.


End WithEnv.
