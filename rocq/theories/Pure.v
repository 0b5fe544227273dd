(* Canonical byte encodings used in the proofs, and that the specification reads them back. *)
From Coq Require Import List NArith ZArith Arith Bool Lia ZifyN ZifyNat ZifyBool.
From Verif Require Import Base GoSlice SliceProofs Varint VarintProofs SpecWire SpecMsg WireProofs.
Import ListNotations.
Open Scope N_scope.

Ltac Zify.zify_post_hook ::= Z.div_mod_to_equations.

Definition pvar (t x : N) : bytes := 8 * t :: uvarint x.
Definition plen (t : N) (b : bytes) : bytes := 8 * t + 2 :: uvarint (nlen b) ++ b.
Definition zz (z : Z) : N := if (z <? 0)%Z then Z.to_N (- (2 * z) - 1) else Z.to_N (2 * z).

Lemma unzigzag_zz : forall z, unzigzag (zz z) = z.
Proof.
  intros z. unfold unzigzag, zz. destruct (Z.ltb_spec z 0) as [Hz|Hz].
  - replace (Z.to_N (- (2 * z) - 1)) with (1 + 2 * Z.to_N (- z - 1)) by lia.
    rewrite N.even_add_mul_2. change (N.even 1) with false. cbv iota. lia.
  - replace (Z.to_N (2 * z)) with (0 + 2 * Z.to_N z) by lia.
    rewrite N.even_add_mul_2. change (N.even 0) with true. cbv iota. lia.
Qed.

Lemma zz_bound : forall z k, (0 < k)%N -> (- 2 ^ Z.of_N (k - 1) <= z < 2 ^ Z.of_N (k - 1))%Z -> zz z < 2 ^ k.
Proof.
  intros z k Hk Hz.
  assert (H2 : (2 ^ Z.of_N k = 2 * 2 ^ Z.of_N (k - 1))%Z).
  { replace (Z.of_N k) with (1 + Z.of_N (k - 1))%Z by lia. rewrite Z.pow_add_r by lia. reflexivity. }
  assert (H3 : Z.of_N (2 ^ k) = (2 ^ Z.of_N k)%Z) by (rewrite N2Z.inj_pow; reflexivity).
  apply N2Z.inj_lt. rewrite H3, H2. unfold zz. destruct (Z.ltb_spec z 0); lia.
Qed.

Definition poct (v : bytes) (c : option N) : bytes :=
  match c with None => [] | Some c => pvar 2 c end ++ plen 1 v.

Definition pscalar (s : scalar) : bytes :=
  match s with
  | SSint z => pvar 1 1 ++ pvar 2 (zz z)
  | SUint n => pvar 1 2 ++ pvar 3 n
  | SNull => pvar 1 3
  | SOctets v c => pvar 1 4 ++ plen 5 (poct v c)
  | SDouble x => pvar 1 5 ++ 49 :: lebytes 8 x
  | SFloat x => pvar 1 6 ++ 61 :: lebytes 4 x
  | SBool b => pvar 1 7 ++ pvar 8 (if b then 1 else 0)
  | SString v c => pvar 1 8 ++ plen 9 (poct v c)
  end.

Definition pany (tag : N) (s : scalar) : bytes := plen tag (pvar 1 1 ++ plen 2 (pscalar s)).
Definition plit (tag : N) (s : scalar) : bytes := plen tag (pvar 1 2 ++ plen 4 (pscalar s)).

(* Scalars that fit the wire format. *)
Definition scalar_ok (s : scalar) : Prop :=
  match s with
  | SSint z => (- 2 ^ 63 <= z < 2 ^ 63)%Z
  | SUint n => n < 2 ^ 64
  | SNull | SBool _ => True
  | SDouble x => x < 2 ^ 64
  | SFloat x => x < 2 ^ 32
  | SOctets v c => is_bytes v /\ nlen v < 2 ^ 62 /\ match c with None => True | Some n => n < 2 ^ 32 end
  | SString v c => is_bytes v /\ nlen v < 2 ^ 62 /\ match c with None => True | Some n => n < 2 ^ 64 end
  end.

Lemma reads_pvar : forall t x, 0 < t < 16 -> x < 2 ^ 64 -> reads (pvar t x) [(t, WVarint x)].
Proof. exact reads_varint. Qed.
Lemma reads_plen : forall t b, 0 < t < 16 -> nlen b < 2 ^ 64 -> is_bytes b -> reads (plen t b) [(t, WLen b)].
Proof. exact reads_len. Qed.

Lemma uvarint_nlen : forall x, x < 2 ^ 64 -> nlen (uvarint x) <= 10.
Proof. intros x Hx. unfold nlen. rewrite uvarint_length by assumption. pose proof (size_varint_bounds x Hx). lia. Qed.

Lemma nlen_pvar : forall t x, x < 2 ^ 64 -> nlen (pvar t x) <= 11.
Proof. intros t x Hx. unfold pvar. rewrite nlen_cons. pose proof (uvarint_nlen x Hx). lia. Qed.
Lemma nlen_plen : forall t b, nlen b < 2 ^ 64 -> nlen (plen t b) <= 11 + nlen b.
Proof. intros t b Hb. unfold plen. rewrite nlen_cons, nlen_app. pose proof (uvarint_nlen _ Hb). lia. Qed.

Ltac szs := repeat match goal with
  | |- context [nlen (?a ++ ?b)] => rewrite (nlen_app a b)
  | |- context [nlen (?a :: ?b)] => rewrite (nlen_cons a b)
  | |- context [nlen []] => rewrite nlen_nil
  end.

Lemma poct_reads : forall v c, is_bytes v -> nlen v < 2 ^ 62 -> match c with None => True | Some n => n < 2 ^ 64 end ->
  reads (poct v c) (match c with None => [] | Some n => [(2, WVarint n)] end ++ [(1, WLen v)]) /\ nlen (poct v c) <= 22 + nlen v.
Proof.
  intros v c Hv Hl Hc. unfold poct. pose proof (nlen_plen 1 v ltac:(lia)).
  destruct c as [n|].
  - pose proof (nlen_pvar 2 n Hc). split; [|szs; lia].
    apply reads_app; [apply reads_pvar; [lia|assumption]|apply reads_plen; [lia|lia|assumption]].
  - split; [|szs; lia]. cbn [app]. apply reads_plen; [lia|lia|assumption].
Qed.

Lemma poct_dvalue_opt : forall v c, is_bytes v -> nlen v < 2 ^ 62 -> match c with None => True | Some n => n < 2 ^ 64 end ->
  dvalue_opt (poct v c) = Some (v, c).
Proof.
  intros v c Hv Hl Hc. destruct (poct_reads v c Hv Hl Hc) as [[_ Hr] _].
  unfold dvalue_opt. rewrite Hr. destruct c; reflexivity.
Qed.

Lemma pscalar_ok : forall s, scalar_ok s ->
  is_bytes (pscalar s) /\ nlen (pscalar s) <= 60 + match s with SOctets v _ | SString v _ => nlen v | _ => 0 end /\
  dscalar (pscalar s) = Some s.
Proof.
  intros s Hs.
  assert (Hlen8 : forall x, nlen (lebytes 8 x) = 8) by (intros; unfold nlen; rewrite lebytes_length; reflexivity).
  assert (Hlen4 : forall x, nlen (lebytes 4 x) = 4) by (intros; unfold nlen; rewrite lebytes_length; reflexivity).
  assert (H1 : forall x, x < 2 ^ 64 -> reads (pvar 1 x) [(1, WVarint x)]) by (intros; apply reads_pvar; [lia|assumption]).
  destruct s as [z|n| |v c|x|x|b|v c]; cbn [scalar_ok] in Hs; cbn [pscalar].
  - assert (Hz : zz z < 2 ^ 64) by (apply zz_bound; [lia|exact Hs]).
    pose proof (nlen_pvar 1 1 ltac:(lia)). pose proof (nlen_pvar 2 (zz z) Hz).
    pose proof (reads_app _ _ _ _ (H1 1 ltac:(lia)) (reads_pvar 2 (zz z) ltac:(lia) Hz)) as [Hb Hd].
    split; [assumption|]. split; [szs; lia|]. unfold dscalar. rewrite Hd. cbn. rewrite unzigzag_zz. reflexivity.
  - pose proof (nlen_pvar 1 2 ltac:(lia)). pose proof (nlen_pvar 3 n Hs).
    pose proof (reads_app _ _ _ _ (H1 2 ltac:(lia)) (reads_pvar 3 n ltac:(lia) Hs)) as [Hb Hd].
    split; [assumption|]. split; [szs; lia|]. unfold dscalar. rewrite Hd. reflexivity.
  - pose proof (nlen_pvar 1 3 ltac:(lia)). destruct (H1 3 ltac:(lia)) as [Hb Hd].
    split; [assumption|]. split; [szs; lia|]. unfold dscalar. rewrite Hd. reflexivity.
  - destruct Hs as (Hv & Hl & Hc).
    assert (Hc' : match c with None => True | Some n => n < 2 ^ 64 end) by (destruct c; [lia|exact I]).
    destruct (poct_reads v c Hv Hl Hc') as [[Hpb _] Hpl].
    pose proof (nlen_pvar 1 4 ltac:(lia)). pose proof (nlen_plen 5 (poct v c) ltac:(lia)).
    pose proof (reads_app _ _ _ _ (H1 4 ltac:(lia)) (reads_plen 5 (poct v c) ltac:(lia) ltac:(lia) Hpb)) as [Hb Hd].
    split; [assumption|]. split; [szs; lia|]. unfold dscalar. rewrite Hd. cbn -[N.pow N.ltb].
    rewrite (poct_dvalue_opt v c Hv Hl Hc'). cbn -[N.pow N.ltb].
    destruct c as [n|]; [|reflexivity]. destruct (N.ltb_spec n (2 ^ 32)); [reflexivity|lia].
  - pose proof (nlen_pvar 1 5 ltac:(lia)).
    pose proof (reads_app _ _ _ _ (H1 5 ltac:(lia)) (reads_i64 6 x ltac:(lia) Hs)) as [Hb Hd].
    split; [assumption|]. split; [szs; rewrite Hlen8; lia|]. unfold dscalar.
    change (8 * 6 + 1) with 49 in Hd. rewrite Hd. reflexivity.
  - pose proof (nlen_pvar 1 6 ltac:(lia)).
    pose proof (reads_app _ _ _ _ (H1 6 ltac:(lia)) (reads_i32 7 x ltac:(lia) Hs)) as [Hb Hd].
    split; [assumption|]. split; [szs; rewrite Hlen4; lia|]. unfold dscalar.
    change (8 * 7 + 5) with 61 in Hd. rewrite Hd. reflexivity.
  - assert (Hx : (if b then 1 else 0) < 2 ^ 64) by (destruct b; lia).
    pose proof (nlen_pvar 1 7 ltac:(lia)). pose proof (nlen_pvar 8 _ Hx).
    pose proof (reads_app _ _ _ _ (H1 7 ltac:(lia)) (reads_pvar 8 _ ltac:(lia) Hx)) as [Hb Hd].
    split; [assumption|]. split; [szs; lia|]. unfold dscalar. rewrite Hd. destruct b; reflexivity.
  - destruct Hs as (Hv & Hl & Hc).
    destruct (poct_reads v c Hv Hl Hc) as [[Hpb _] Hpl].
    pose proof (nlen_pvar 1 8 ltac:(lia)). pose proof (nlen_plen 9 (poct v c) ltac:(lia)).
    pose proof (reads_app _ _ _ _ (H1 8 ltac:(lia)) (reads_plen 9 (poct v c) ltac:(lia) ltac:(lia) Hpb)) as [Hb Hd].
    split; [assumption|]. split; [szs; lia|]. unfold dscalar. rewrite Hd. cbn.
    rewrite (poct_dvalue_opt v c Hv Hl Hc). reflexivity.
Qed.

Lemma scalar_ok_len : forall s, scalar_ok s -> match s with SOctets v _ | SString v _ => nlen v | _ => 0 end < 2 ^ 62.
Proof. intros s Hs. destruct s; cbn [scalar_ok] in Hs; try lia; tauto. Qed.

Lemma pany_ok : forall tag s, 0 < tag < 16 -> scalar_ok s ->
  exists payload, reads (pany tag s) [(tag, WLen payload)] /\ dany payload = Some s.
Proof.
  intros tag s Ht Hs. destruct (pscalar_ok s Hs) as (Hb & Hl & Hd). pose proof (scalar_ok_len s Hs) as Hsl.
  pose proof (nlen_pvar 1 1 ltac:(lia)). pose proof (nlen_plen 2 (pscalar s) ltac:(lia)).
  pose proof (reads_app _ _ _ _ (reads_pvar 1 1 ltac:(lia) ltac:(lia)) (reads_plen 2 (pscalar s) ltac:(lia) ltac:(lia) Hb)) as [Hb2 Hd2].
  eexists. split.
  - apply reads_plen; [assumption|szs; lia|assumption].
  - unfold dany. rewrite Hd2. cbn. exact Hd.
Qed.

Lemma dexpr_lit : forall pl s, dfields pl = Some [(1, WVarint 2); (4, WLen (pscalar s))] -> scalar_ok s ->
  dexpr pl = Some (XLiteral s).
Proof.
  intros pl s Hd Hs. unfold dexpr. cbn [dexpr_k]. rewrite Hd. cbn.
  destruct (pscalar_ok s Hs) as (_ & _ & ->). reflexivity.
Qed.

Lemma plit_ok : forall tag s, 0 < tag < 16 -> scalar_ok s ->
  exists payload, reads (plit tag s) [(tag, WLen payload)] /\ dexpr payload = Some (XLiteral s).
Proof.
  intros tag s Ht Hs. destruct (pscalar_ok s Hs) as (Hb & Hl & Hd). pose proof (scalar_ok_len s Hs) as Hsl.
  pose proof (nlen_pvar 1 2 ltac:(lia)). pose proof (nlen_plen 4 (pscalar s) ltac:(lia)).
  pose proof (reads_app _ _ _ _ (reads_pvar 1 2 ltac:(lia) ltac:(lia)) (reads_plen 4 (pscalar s) ltac:(lia) ltac:(lia) Hb)) as [Hb2 Hd2].
  eexists. split.
  - apply reads_plen; [assumption|szs; lia|assumption].
  - apply dexpr_lit; assumption.
Qed.
