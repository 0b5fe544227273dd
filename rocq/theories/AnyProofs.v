(* What the encoders of AnyModel and the literal encoders of ExprModel write. *)
From Coq Require Import List NArith ZArith Arith Bool Lia ZifyN ZifyNat ZifyBool.
From Verif Require Import Base GoSlice SliceProofs Varint VarintProofs Chunks SpecWire SpecMsg WireProofs Pure
  Text Values AnyModel ExprModel.
Import ListNotations.
Open Scope N_scope.

Ltac Zify.zify_post_hook ::= Z.div_mod_to_equations.

(* The encoder always succeeds and appends exactly bs. *)
Definition emits (m : slice -> res slice) (bs : bytes) : Prop :=
  forall p, exists sp, m p = Ok (mk (data p ++ bs) sp).

Lemma zigzag_zz : forall w v, 1 < w -> (- 2 ^ Z.of_N (w - 1) <= v < 2 ^ Z.of_N (w - 1))%Z -> zigzag w v = zz v.
Proof.
  intros w v Hw Hv. unfold zigzag. cbv zeta.
  assert (H2 : (2 ^ Z.of_N w = 2 * 2 ^ Z.of_N (w - 1))%Z).
  { replace (Z.of_N w) with (1 + Z.of_N (w - 1))%Z by lia. rewrite Z.pow_add_r by lia. reflexivity. }
  assert (H3 : 2 ^ w = Z.to_N (2 ^ Z.of_N w)).
  { apply N2Z.inj. rewrite N2Z.inj_pow, Z2N.id by (apply Z.pow_nonneg; lia). reflexivity. }
  replace (Z.of_N w - 1)%Z with (Z.of_N (w - 1)) by lia.
  rewrite Z.shiftr_div_pow2 by lia. rewrite N.shiftl_mul_pow2. change (2 ^ 1) with 2.
  set (h := (2 ^ Z.of_N (w - 1))%Z) in *.
  assert (Hh : (0 < h)%Z) by (apply Z.pow_pos_nonneg; lia).
  unfold zz. destruct (Z.ltb_spec v 0) as [Hn|Hn].
  - replace (v / h)%Z with (-1)%Z by (apply Z.div_unique with (v + h)%Z; lia).
    rewrite <- (Z.mod_unique v (2 ^ Z.of_N w) (-1) (v + 2 ^ Z.of_N w)) by lia.
    rewrite <- (Z.mod_unique (-1) (2 ^ Z.of_N w) (-1) (2 ^ Z.of_N w - 1)) by lia.
    rewrite H3. rewrite <- (N.mod_unique (Z.to_N (v + 2 ^ Z.of_N w) * 2) (Z.to_N (2 ^ Z.of_N w)) 1
      (Z.to_N (2 * v + 2 ^ Z.of_N w))) by lia.
    assert (Ho : Z.to_N (2 ^ Z.of_N w - 1) = N.ones w) by (rewrite N.ones_equiv, H3; lia).
    rewrite Ho. fold (N.lnot (Z.to_N (2 * v + 2 ^ Z.of_N w)) w).
    rewrite N.lnot_sub_low.
    + rewrite N.ones_equiv, H3. lia.
    + destruct (N.eq_dec (Z.to_N (2 * v + 2 ^ Z.of_N w)) 0) as [->|Hz]; [cbn; lia|].
      apply N.log2_lt_pow2; [lia|]. rewrite H3. lia.
  - replace (v / h)%Z with 0%Z by (symmetry; apply Z.div_small; lia).
    rewrite Z.mod_small by lia. rewrite Z.mod_small by lia.
    rewrite H3. rewrite N.mod_small by lia. change (Z.to_N 0) with 0. rewrite N.lxor_0_r. lia.
Qed.

Lemma size_small : forall x, x < 2 ^ 64 -> N.of_nat (size_varint x) <= 10.
Proof. intros x Hx. pose proof (size_varint_bounds x Hx). lia. Qed.

Lemma nlen_uvarint : forall x, x < 2 ^ 64 -> nlen (uvarint x) = N.of_nat (size_varint x).
Proof. intros x Hx. unfold nlen. rewrite uvarint_length by assumption. reflexivity. Qed.

(* Nested pair of length delimited fields around a small scalar. *)
Lemma plen2_small : forall tag k f body, nlen body < 100 -> k < 128 ->
  plen tag (pvar 1 k ++ plen f body) =
  [8 * tag + 2; 4 + nlen body; 8; k; 8 * f + 2; nlen body] ++ body.
Proof.
  intros tag k f body Hl Hk. unfold plen, pvar. rewrite (uvarint_small k Hk), (uvarint_small (nlen body)) by lia.
  cbn [app]. rewrite !nlen_cons.
  replace (1 + (1 + (1 + (1 + nlen body)))) with (4 + nlen body) by lia.
  rewrite uvarint_small by lia. reflexivity.
Qed.

Ltac hdrs := repeat match goal with |- context [hdr ?t ?w] =>
  first [ let e := eval vm_compute in (hdr t w) in
          match e with N0 => idtac | Npos _ => idtac end; change (hdr t w) with e
        | rewrite (hdr_eq t w) by (unfold wireBytes, wireVarint; lia) ] end.

Section WithEnv.
Context `{E : Env}.

Lemma chain_emits : forall tag k hf vt ht l x L p, 0 < tag < 16 -> x < 2 ^ 64 -> agree l (size_varint x) x -> length l = L ->
  exists sp,
  (let n := size_varint x in
   let q := append p ([hdr tag wireBytes; byte (7 + byte (N.of_nat n)); 8; k; hf; byte (3 + byte (N.of_nat n)); 8; vt; ht] ++ l) in
   mask_truncate q (n + (len q - L))) =
  Ok (mk (data p ++ [8 * tag + 2; 4 + nlen ([8; vt; ht] ++ uvarint x); 8; k; hf; nlen ([8; vt; ht] ++ uvarint x)] ++ [8; vt; ht] ++ uvarint x) sp).
Proof.
  intros tag k hf vt ht l x L p Ht Hx Ha HL. cbv zeta.
  pose proof (size_small x Hx) as Hs.
  rewrite (byte_id (N.of_nat (size_varint x))) by lia. rewrite !byte_id by lia.
  rewrite hdr_eq by (unfold wireBytes; lia).
  match goal with |- context [append p (?h ++ l)] => set (hd := h) end.
  destruct (append_spec p (hd ++ l)) as [sp0 ->].
  rewrite app_assoc.
  destruct (mask_truncate_agree l (data p ++ hd) x sp0
     (size_varint x + (len (mk ((data p ++ hd) ++ l) sp0) - L))%nat Hx Ha) as [sp1 ->].
  - unfold len; cbn [data]. rewrite !app_length. lia.
  - exists sp1. f_equal. f_equal. rewrite <- app_assoc. f_equal.
    unfold hd. cbn [app]. rewrite !nlen_cons, nlen_uvarint by assumption.
    replace (1 + (1 + (1 + N.of_nat (size_varint x)))) with (3 + N.of_nat (size_varint x)) by lia.
    replace (4 + (3 + N.of_nat (size_varint x))) with (7 + N.of_nat (size_varint x)) by lia. reflexivity.
Qed.

(* Any / Expr wrapping of a varint scalar: [k] the enum of the outer type, [f] the field of the scalar. *)
Lemma plen2_chain : forall tag k f vt g x, x < 2 ^ 64 -> k < 128 -> vt < 128 ->
  plen tag (pvar 1 k ++ plen f (pvar 1 vt ++ pvar g x)) =
  [8 * tag + 2; 4 + nlen ([8; vt; 8 * g] ++ uvarint x); 8; k; 8 * f + 2; nlen ([8; vt; 8 * g] ++ uvarint x)] ++ [8; vt; 8 * g] ++ uvarint x.
Proof.
  intros tag k f vt g x Hx Hk Hv. pose proof (size_small x Hx) as Hs.
  replace (pvar 1 vt ++ pvar g x) with ([8; vt; 8 * g] ++ uvarint x).
  - apply plen2_small; [|assumption]. cbn [app]. rewrite !nlen_cons, nlen_uvarint by assumption. lia.
  - unfold pvar. rewrite (uvarint_small vt) by assumption. reflexivity.
Qed.

Lemma emits_any_uint64 : forall tag x, 0 < tag < 16 -> x < 2 ^ 64 ->
  emits (fun p => append_any_uint64 p tag x) (pany tag (SUint x)).
Proof.
  intros tag x Ht Hx p. unfold pany, pscalar. rewrite plen2_chain by lia.
  apply (chain_emits tag 1 18 2 24 (chain64 x) x 10 p Ht Hx (agree64 x Hx) eq_refl).
Qed.
Lemma emits_any_uint32 : forall tag x, 0 < tag < 16 -> x < 2 ^ 32 ->
  emits (fun p => append_any_uint32 p tag x) (pany tag (SUint x)).
Proof.
  intros tag x Ht Hx p. unfold pany, pscalar. rewrite plen2_chain by lia.
  apply (chain_emits tag 1 18 2 24 (chain32 x) x 5 p Ht ltac:(lia) (agree32 x Hx) eq_refl).
Qed.
Lemma emits_any_uint16 : forall tag x, 0 < tag < 16 -> x < 2 ^ 16 ->
  emits (fun p => append_any_uint16 p tag x) (pany tag (SUint x)).
Proof.
  intros tag x Ht Hx p. unfold pany, pscalar. rewrite plen2_chain by lia.
  apply (chain_emits tag 1 18 2 24 (chain16 x) x 3 p Ht ltac:(lia) (agree16 x Hx) eq_refl).
Qed.
Lemma emits_any_int64 : forall tag z, 0 < tag < 16 -> (- 2 ^ 63 <= z < 2 ^ 63)%Z ->
  emits (fun p => append_any_int64 p tag z) (pany tag (SSint z)).
Proof.
  intros tag z Ht Hz p. pose proof (zz_bound z 64 ltac:(lia) Hz) as Hx.
  unfold pany, pscalar, append_any_int64. rewrite (zigzag_zz 64 z ltac:(lia) Hz). rewrite plen2_chain by lia.
  apply (chain_emits tag 1 18 1 16 (chain64 (zz z)) (zz z) 10 p Ht Hx (agree64 _ Hx) eq_refl).
Qed.
Lemma emits_any_int32 : forall tag z, 0 < tag < 16 -> (- 2 ^ 31 <= z < 2 ^ 31)%Z ->
  emits (fun p => append_any_int32 p tag z) (pany tag (SSint z)).
Proof.
  intros tag z Ht Hz p. pose proof (zz_bound z 32 ltac:(lia) Hz) as Hx.
  unfold pany, pscalar, append_any_int32. rewrite (zigzag_zz 32 z ltac:(lia) Hz). rewrite plen2_chain by lia.
  apply (chain_emits tag 1 18 1 16 (chain32 (zz z)) (zz z) 5 p Ht ltac:(lia) (agree32 _ Hx) eq_refl).
Qed.
Lemma emits_any_int16 : forall tag z, 0 < tag < 16 -> (- 2 ^ 15 <= z < 2 ^ 15)%Z ->
  emits (fun p => append_any_int16 p tag z) (pany tag (SSint z)).
Proof.
  intros tag z Ht Hz p. pose proof (zz_bound z 16 ltac:(lia) Hz) as Hx.
  unfold pany, pscalar, append_any_int16. rewrite (zigzag_zz 16 z ltac:(lia) Hz). rewrite plen2_chain by lia.
  apply (chain_emits tag 1 18 1 16 (chain16 (zz z)) (zz z) 3 p Ht ltac:(lia) (agree16 _ Hx) eq_refl).
Qed.

Lemma emits_expr_uint64 : forall tag x, 0 < tag < 16 -> x < 2 ^ 64 ->
  emits (fun p => append_expr_uint64 p tag x) (plit tag (SUint x)).
Proof.
  intros tag x Ht Hx p. unfold plit, pscalar. rewrite plen2_chain by lia.
  apply (chain_emits tag 2 34 2 24 (chain64 x) x 10 p Ht Hx (agree64 x Hx) eq_refl).
Qed.
Lemma emits_expr_int64 : forall tag z, 0 < tag < 16 -> (- 2 ^ 63 <= z < 2 ^ 63)%Z ->
  emits (fun p => append_expr_int64 p tag z) (plit tag (SSint z)).
Proof.
  intros tag z Ht Hz p. pose proof (zz_bound z 64 ltac:(lia) Hz) as Hx.
  unfold plit, pscalar, append_expr_int64. rewrite (zigzag_zz 64 z ltac:(lia) Hz). rewrite plen2_chain by lia.
  apply (chain_emits tag 2 34 1 16 (chain64 (zz z)) (zz z) 10 p Ht Hx (agree64 _ Hx) eq_refl).
Qed.

(* one-shot appends *)
Lemma emits_append : forall xs bs, xs = bs -> emits (fun p => Ok (append p xs)) bs.
Proof. intros xs bs -> p. destruct (append_spec p bs) as [sp ->]. exists sp. reflexivity. Qed.

Lemma uvarint2 : forall x, 128 <= x < 256 -> uvarint x = [x; 1].
Proof.
  intros x Hx. unfold uvarint. cbn [uvarint_k]. destruct (N.ltb_spec x 128); [lia|].
  rewrite shiftr_div. change (2 ^ 7) with 128. replace (x / 128) with 1 by lia. cbn [N.ltb N.compare].
  rewrite b80_eq. f_equal. lia.
Qed.

Lemma emits_any_uint8 : forall tag x, 0 < tag < 16 -> x < 256 ->
  emits (fun p => Ok (append_any_uint8 p tag x)) (pany tag (SUint x)).
Proof.
  intros tag x Ht Hx p. unfold append_any_uint8, pany, pscalar.
  destruct (N.ltb_spec x 128) as [Hs|Hs].
  - apply (emits_append _ (pany tag (SUint x))). unfold pany, pscalar. rewrite plen2_chain by lia.
    rewrite uvarint_small by assumption. hdrs. reflexivity.
  - apply (emits_append _ (pany tag (SUint x))). unfold pany, pscalar. rewrite plen2_chain by lia.
    rewrite uvarint2 by lia. hdrs. reflexivity.
Qed.
Lemma emits_any_int8 : forall tag z, 0 < tag < 16 -> (-128 <= z < 128)%Z ->
  emits (fun p => Ok (append_any_int8 p tag z)) (pany tag (SSint z)).
Proof.
  intros tag z Ht Hz p. pose proof (zz_bound z 8 ltac:(lia) Hz) as Hx. change (2 ^ 8) with 256 in Hx.
  unfold append_any_int8. cbv zeta. rewrite (zigzag_zz 8 z ltac:(lia) Hz).
  destruct (N.ltb_spec (zz z) 128) as [Hs|Hs].
  - apply (emits_append _ (pany tag (SSint z))). unfold pany, pscalar. rewrite plen2_chain by lia.
    rewrite uvarint_small by assumption. hdrs. reflexivity.
  - apply (emits_append _ (pany tag (SSint z))). unfold pany, pscalar. rewrite plen2_chain by lia.
    rewrite uvarint2 by lia. hdrs. reflexivity.
Qed.

Lemma emits_any_null : forall tag, 0 < tag < 16 -> emits (fun p => Ok (append_any_null p tag)) (pany tag SNull).
Proof. intros tag Ht. apply emits_append. hdrs. reflexivity. Qed.
Lemma emits_expr_null : forall tag, 0 < tag < 16 -> emits (fun p => Ok (append_expr_null p tag)) (plit tag SNull).
Proof. intros tag Ht. apply emits_append. hdrs. reflexivity. Qed.
Lemma emits_any_bool : forall tag b, 0 < tag < 16 -> emits (fun p => Ok (append_any_bool p tag b)) (pany tag (SBool b)).
Proof. intros tag b Ht. apply emits_append. hdrs. destruct b; reflexivity. Qed.
Lemma emits_expr_bool : forall tag b, 0 < tag < 16 -> emits (fun p => Ok (append_expr_bool p tag b)) (plit tag (SBool b)).
Proof. intros tag b Ht. apply emits_append. hdrs. destruct b; reflexivity. Qed.

Lemma lebytes8 : forall x, [byte x; byte (N.shiftr x 8); byte (N.shiftr x 16); byte (N.shiftr x 24);
            byte (N.shiftr x 32); byte (N.shiftr x 40); byte (N.shiftr x 48); byte (N.shiftr x 56)] = lebytes 8 x.
Proof.
  intros x. cbn [lebytes]. unfold byte. rewrite !shiftr_div.
  change 256 with (2 ^ 8). rewrite !div_div. reflexivity.
Qed.
Lemma lebytes4 : forall x, [byte x; byte (N.shiftr x 8); byte (N.shiftr x 16); byte (N.shiftr x 24)] = lebytes 4 x.
Proof.
  intros x. cbn [lebytes]. unfold byte. rewrite !shiftr_div.
  change 256 with (2 ^ 8). rewrite !div_div. reflexivity.
Qed.

Lemma emits_any_float64 : forall tag x, 0 < tag < 16 -> emits (fun p => Ok (append_any_float64 p tag x)) (pany tag (SDouble x)).
Proof.
  intros tag x Ht. apply emits_append. unfold pany, pscalar. rewrite <- lebytes8. hdrs. reflexivity.
Qed.
Lemma emits_any_float32 : forall tag x, 0 < tag < 16 -> emits (fun p => Ok (append_any_float32 p tag x)) (pany tag (SFloat x)).
Proof.
  intros tag x Ht. apply emits_append. unfold pany, pscalar. rewrite <- lebytes4. hdrs. reflexivity.
Qed.
Lemma emits_expr_float64 : forall tag x, 0 < tag < 16 -> emits (fun p => Ok (append_expr_float64 p tag x)) (plit tag (SDouble x)).
Proof.
  intros tag x Ht. apply emits_append. unfold plit, pscalar. rewrite <- lebytes8. hdrs. reflexivity.
Qed.
Lemma emits_expr_float32 : forall tag x, 0 < tag < 16 -> emits (fun p => Ok (append_expr_float32 p tag x)) (plit tag (SFloat x)).
Proof.
  intros tag x Ht. apply emits_append. unfold plit, pscalar. rewrite <- lebytes4. hdrs. reflexivity.
Qed.

End WithEnv.
