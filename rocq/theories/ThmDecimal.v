(* Decimals: C42, C43, C58. *)
From Coq Require Import NArith ZArith Arith Bool List Lia ZifyN ZifyNat ZifyBool.
From Verif Require Import Base Decimal SpecDecimal DecimalProofs.
Import ListNotations.
Open Scope N_scope.
Ltac Zify.zify_post_hook ::= Z.div_mod_to_equations.

(* ---- C43: 256-bit arithmetic ---- *)

(* Four 64-bit words, the lowest first, and the number they stand for. *)
Definition words (x : uint256) : Prop := x0 x < 2 ^ 64 /\ x1 x < 2 ^ 64 /\ x2 x < 2 ^ 64 /\ x3 x < 2 ^ 64.
Definition value (x : uint256) : N := x0 x + 2 ^ 64 * x1 x + 2 ^ 128 * x2 x + 2 ^ 192 * x3 x.
Lemma value_val : forall x, value x = val x.
Proof. intros x. unfold value, val. change (2 ^ 64) with W. change (2 ^ 128) with (W * W). change (2 ^ 192) with (W * W * W). lia. Qed.

(* x*y + z, exactly: what does not fit into 256 bits is the result, one word. *)
Theorem C43_mul_add_exact : forall x y z, words x -> y < 2 ^ 64 -> z < 2 ^ 64 -> forall x' o, mul_add x y z = (x', o) ->
  words x' /\ o < 2 ^ 64 /\ value x' + 2 ^ 256 * o = value x * y + z.
Proof.
  intros x y z Hx Hy Hz x' o E. pose proof (mul_add_raw x y z Hx Hy Hz) as M. rewrite E in M. destruct M as (M1 & M2 & M3). split; [exact M1|]. split; [exact M2|].
  rewrite !value_val, <- M3. change (2 ^ 256) with (W * (W * (W * W))). lia. Qed.
Theorem C43_mul_add_mod : forall x y z, words x -> y < 2 ^ 64 -> z < 2 ^ 64 ->
  value (fst (mul_add x y z)) = (value x * y + z) mod 2 ^ 256 /\ snd (mul_add x y z) = (value x * y + z) / 2 ^ 256.
Proof.
  intros x y z Hx Hy Hz. destruct (mul_add x y z) as [x' o] eqn:E. destruct (C43_mul_add_exact x y z Hx Hy Hz _ _ E) as (M1 & M2 & M3). cbn [fst snd].
  assert (L : value x' < 2 ^ 256) by (rewrite value_val; exact (val_small _ M1)). split.
  - apply (N.mod_unique _ _ o); [exact L|]. lia.
  - apply (N.div_unique _ _ _ (value x')); [exact L|]. lia.
Qed.

(* Big endian, without leading zeros, a single zero byte for zero, after what was in the buffer. *)
Theorem C43_append_bytes : forall x buf, words x -> exists l, append_bytes x buf = buf ++ l /\ is_bytes l /\ big_endian l = value x /\
  (1 <= length l <= 32)%nat /\ (hd 0 l = 0 -> l = [0] /\ value x = 0).
Proof.
  intros x buf Hx. destruct (append_bytes_spec x buf Hx) as (l & E & B & V & L & Z). exists l. rewrite value_val. split; [exact E|]. split; [exact B|]. split; [exact V|]. split; [exact L|].
  intros H. destruct Z as [Z|(y & t & -> & Hy)]; [|contradiction]. destruct l as [|y [|? ?]]; try discriminate Z. cbn in H. subst y. split; [reflexivity|]. rewrite <- V. reflexivity. Qed.

(* ---- C42: the text of a decimal ---- *)

Lemma string_packed : forall s neg ds d, packed s neg ds d -> (N.to_nat s <= length ds)%nat ->
  to_string d = Ok ((if neg then [45] else []) ++ map digit (firstn (length ds - N.to_nat s) ds) ++ (if 0 <? s then 46 :: map digit (skipn (length ds - N.to_nat s) ds) else [])).
Proof.
  intros s neg ds d (_ & F & body & sign & pad & -> & Hb & Hs) L. destruct (sign_range _ _ Hs) as [Hs9 Hm]. unfold to_string. rewrite (string_nibs _ _ Hb), (nib_text_spec _ _ _ _ F Hs9), Hm. cbn [app].
  destruct (N.ltb_spec 0 s) as [P|P]; cbn [andb].
  - assert (K : forall pre, (N.to_nat s <=? length (pre ++ map digit ds))%nat = true /\ (length (pre ++ map digit ds) - N.to_nat s = length pre + (length ds - N.to_nat s))%nat).
    { intros pre. rewrite app_length, map_length. split; [apply Nat.leb_le; lia|lia]. }
    destruct neg; cbn [negb].
    + destruct (K [45]) as [K1 K2]. cbn [app] in K1, K2. rewrite K1, K2. cbn [length Nat.add firstn skipn app]. rewrite firstn_map, skipn_map. reflexivity.
    + destruct (K []) as [K1 K2]. cbn [app] in K1, K2. rewrite K1, K2. cbn [length Nat.add firstn skipn app]. rewrite firstn_map, skipn_map. reflexivity.
  - assert (s = 0) by lia. subst s. cbn [andb N.to_nat]. rewrite Nat.sub_0_r, firstn_all, app_nil_r. destruct neg; reflexivity.
Qed.

Lemma has_digit_app : forall a b, has_digit (a ++ b) = has_digit a || has_digit b.
Proof. intros. apply existsb_app. Qed.
Lemma has_digit_map : forall ds, Forall (fun x => x < 10) ds -> ds <> [] -> has_digit (map digit ds) = true.
Proof. intros [|d ds] F H; [contradiction|]. inversion_clear F. unfold has_digit. cbn [map existsb]. unfold digit at 1 2. rewrite (proj2 (N.leb_le _ _)), (proj2 (N.leb_le _ _)) by lia. reflexivity. Qed.

Lemma read_text : forall (neg : bool) ds k, Forall (fun x => x < 10) ds -> ds <> [] -> (k <= length ds)%nat ->
  read_decimal ((if neg then [45] else []) ++ map digit (firstn (length ds - k) ds) ++ (if 0 <? N.of_nat k then 46 :: map digit (skipn (length ds - k) ds) else [])) = Some (neg, number 10 ds, N.of_nat k).
Proof.
  intros neg ds k F Hne Hk. set (i := (length ds - k)%nat). assert (E : firstn i ds ++ skipn i ds = ds) by apply firstn_skipn.
  assert (F1 : Forall (fun x => x < 10) (firstn i ds)) by (apply Forall_forall; intros x Hx; rewrite Forall_forall in F; apply F; rewrite <- E; apply in_or_app; auto).
  assert (F2 : Forall (fun x => x < 10) (skipn i ds)) by (apply Forall_forall; intros x Hx; rewrite Forall_forall in F; apply F; rewrite <- E; apply in_or_app; auto).
  assert (Lk : length (skipn i ds) = k) by (rewrite skipn_length; unfold i; lia).
  set (t := map digit (firstn i ds) ++ (if 0 <? N.of_nat k then 46 :: map digit (skipn i ds) else [])).
  assert (R : read_int t 0 = Some (number 10 ds, N.of_nat k)).
  { unfold t. rewrite read_int_digits by exact F1. rewrite N.mul_0_l, N.add_0_l. destruct (N.ltb_spec 0 (N.of_nat k)) as [P|P].
    - cbn [read_int]. change (46 =? 46) with true. cbn iota. rewrite read_frac_digits by exact F2. rewrite <- number_app, E, Lk. reflexivity.
    - cbn [read_int]. assert (Zk : k = 0%nat) by lia. assert (skipn i ds = []) as Z by (destruct (skipn i ds); [reflexivity|rewrite Zk in Lk; discriminate Lk]). rewrite Z, app_nil_r in E. rewrite E, Zk. reflexivity. }
  assert (D : has_digit t = true).
  { unfold t. rewrite has_digit_app. destruct (firstn i ds) as [|x l] eqn:Ef.
    - cbn [map]. destruct (N.ltb_spec 0 (N.of_nat k)) as [P|P].
      + change (46 :: map digit (skipn i ds)) with ([46] ++ map digit (skipn i ds)). rewrite has_digit_app, (has_digit_map _ F2); [apply orb_true_r|]. cbn [app] in E. rewrite E. exact Hne.
      + exfalso. assert (Zi : i = length ds) by (unfold i; lia). rewrite Zi, firstn_all in Ef. contradiction.
    - rewrite (has_digit_map _ F1); [reflexivity|discriminate]. }
  unfold read_decimal. rewrite has_digit_app, D, orb_true_r. cbn [negb]. destruct neg.
  - cbn [app]. fold t. rewrite R. reflexivity.
  - cbn [app]. fold t. destruct t as [|c t'] eqn:Et; [discriminate D|]. assert (Hc : c <> 45).
    { intros ->. assert (read_int (45 :: t') 0 = None) by reflexivity. congruence. }
    rewrite R. destruct (N.eq_dec c 45) as [|_]; [contradiction|]. clear - Hc. destruct c as [|p]; [reflexivity|]. repeat (destruct p as [p|p|]; try reflexivity; try contradiction).
Qed.

(* The text and the decomposition stand for the number the packed digits, sign and scale stand for. *)
Theorem C42_text_and_parts_agree : forall s neg ds d, packed s neg ds d -> (1 <= length ds <= 77)%nat -> (N.to_nat s <= length ds)%nat ->
  exists t c, to_string d = Ok t /\ read_decimal t = Some (neg, number 10 ds, s) /\
              decompose d = Ok (0, neg, c, (- Z.of_N s)%Z) /\ big_endian c = number 10 ds.
Proof.
  intros s neg ds d P Ln Ls. rewrite (string_packed _ _ _ _ P Ls). pose proof P as (_ & F & body & sign & pad & -> & Hb & Hs). destruct (sign_range _ _ Hs) as [Hs9 Hm].
  destruct (nib_value_spec ds sign pad (mku 0 0 0 0) F Hs9) as (u & E & Hu & V); [repeat split; reflexivity|]. destruct (append_bytes_spec u [] Hu) as (c & Ec & _ & Vc & _). cbn [app] in Ec.
  eexists. exists c. split; [reflexivity|]. split; [|split].
  - pose proof (read_text neg ds (N.to_nat s) F ltac:(intros ->; cbn in Ln; lia) Ls) as R. rewrite N2Nat.id in R. exact R.
  - unfold decompose. rewrite (decompose_nibs _ _ Hb), E, Hm, Ec. reflexivity.
  - rewrite Vc. rewrite (N.mod_small _ _ (val_small _ Hu)) in V. rewrite V. cbn [val x0 x1 x2 x3]. change (val (mku 0 0 0 0)) with 0. rewrite N.mul_0_l, N.add_0_l. apply N.mod_small.
    eapply N.lt_le_trans; [apply number_lt; exact F|]. eapply N.le_trans; [apply (N.pow_le_mono_r 10 (N.of_nat (length ds)) 77); [discriminate|lia]|]. vm_compute. discriminate.
Qed.

(* The text itself: a minus if negative, all digits, the point before the last s of them. *)
Theorem C42_text : forall s neg ds d, packed s neg ds d -> (N.to_nat s <= length ds)%nat ->
  exists before after, ds = before ++ after /\ N.of_nat (length after) = s /\
    to_string d = Ok ((if neg then [45] else []) ++ map (fun x => 48 + x) before ++ (if 0 <? s then 46 :: map (fun x => 48 + x) after else [])).
Proof.
  intros s neg ds d P L. exists (firstn (length ds - N.to_nat s) ds), (skipn (length ds - N.to_nat s) ds). split; [symmetry; apply firstn_skipn|]. split; [rewrite skipn_length; lia|].
  exact (string_packed _ _ _ _ P L). Qed.

(* ---- C58: every input ---- *)

(* With more digits Decompose is off by a multiple of 2^256. *)
Theorem C58_decompose_any_length_partial : forall s neg ds d, packed s neg ds d ->
  exists c, decompose d = Ok (0, neg, c, (- Z.of_N s)%Z) /\ big_endian c = number 10 ds mod 2 ^ 256.
Proof.
  intros s neg ds d (_ & F & body & sign & pad & -> & Hb & Hs). destruct (sign_range _ _ Hs) as [Hs9 Hm].
  destruct (nib_value_spec ds sign pad (mku 0 0 0 0) F Hs9) as (u & E & Hu & V); [repeat split; reflexivity|]. destruct (append_bytes_spec u [] Hu) as (c & Ec & _ & Vc & _). cbn [app] in Ec.
  exists c. split; [unfold decompose; rewrite (decompose_nibs _ _ Hb), E, Hm, Ec; reflexivity|]. rewrite Vc. rewrite (N.mod_small _ _ (val_small _ Hu)) in V. rewrite V. change (val (mku 0 0 0 0)) with 0. reflexivity. Qed.

(* Every input: both return, and mean the same. *)
Definition agree (d : bytes) : Prop := exists t neg a k c, to_string d = Ok t /\ read_decimal t = Some (neg, a, k) /\
  decompose d = Ok (0, neg, c, (- Z.of_N k)%Z) /\ big_endian c = a.

Theorem C58_no_panic_partial : forall d, d <> [] -> to_string d <> Panic /\ decompose d <> Panic.
Proof.
  intros [|s d] H; [contradiction|]. unfold to_string, decompose. split.
  - destruct (string_loop d []) as [cut b]. destruct ((0 <? s) && _); discriminate.
  - destruct (decompose_loop d (mku 0 0 0 0)). discriminate.
Qed.
Theorem C58_empty_panics_refuted : to_string [] = Panic /\ decompose [] = Panic.
Proof. split; reflexivity. Qed.

Ltac disagree := intros (t & neg & a & k & c & E1 & E2 & E3 & E4); vm_compute in E1; injection E1 as <-; vm_compute in E2; vm_compute in E3; try discriminate E2; injection E2 as <- <- <-; injection E3; intros; discriminate.
(* No sign half byte: the text says -12, the parts say 12. *)
Theorem C58_missing_sign_refuted : to_string [0; 18] = Ok [45; 49; 50] /\ decompose [0; 18] = Ok (0, false, [12], 0%Z) /\ ~ agree [0; 18].
Proof. split; [reflexivity|]. split; [vm_compute; reflexivity|]. disagree. Qed.
(* More decimal places than digits: .-12 for -0.012, and 12 for 0.012. *)
Theorem C58_large_scale_refuted :
  packed 3 true [1; 2] [3; 18; 208] /\ to_string [3; 18; 208] = Ok [46; 45; 49; 50] /\ ~ agree [3; 18; 208] /\
  packed 3 false [1; 2] [3; 18; 192] /\ to_string [3; 18; 192] = Ok [49; 50] /\ ~ agree [3; 18; 192].
Proof.
  split; [|split; [reflexivity|split; [disagree|split; [|split; [reflexivity|disagree]]]]].
  - split; [lia|]. split; [repeat constructor|]. exists [18; 208], 13, [0]. split; [reflexivity|]. split; [|cbn; auto]. apply (hb_byte 1 2 [208]); [lia|lia|]. apply (hb_byte 13 0 []); [lia|lia|constructor].
  - split; [lia|]. split; [repeat constructor|]. exists [18; 192], 12, [0]. split; [reflexivity|]. split; [|cbn; auto]. apply (hb_byte 1 2 [192]); [lia|lia|]. apply (hb_byte 12 0 []); [lia|lia|constructor].
Qed.

(* The inputs on which they agree, exactly: a packed decimal with a sign, at least one digit, no more decimal places than digits,
   and digits that stand for less than 2^256. *)
Lemma half_bytes_total : forall l, is_bytes l -> exists hs, half_bytes l hs /\ Forall (fun x => x < 16) hs.
Proof.
  induction l as [|x l IH]; intros H; [exists []; split; constructor|]. inversion_clear H as [|? ? Hx Hl]. destruct (IH Hl) as (hs & H1 & H2). unfold is_byte in Hx.
  exists (x / 16 :: x mod 16 :: hs). split; [|repeat constructor; try exact H2; lia]. replace x with (16 * (x / 16) + x mod 16) at 1 by lia. constructor; [lia|lia|exact H1].
Qed.
Lemma sign_or_not : forall hs, Forall (fun x => x < 16) hs -> Forall (fun x => x < 10) hs \/ exists ds sign pad, hs = ds ++ sign :: pad /\ Forall (fun x => x < 10) ds /\ 9 < sign < 16.
Proof.
  induction 1 as [|h hs Hh H IH]; [left; constructor|]. destruct (N.lt_ge_cases h 10) as [L|L]; [|right; exists [], h, hs; split; [reflexivity|split; [constructor|lia]]].
  destruct IH as [IH|(ds & sign & pad & -> & F & S)]; [left; constructor; assumption|right; exists (h :: ds), sign, pad; split; [reflexivity|split; [constructor; assumption|exact S]]].
Qed.
Lemma nib_text_unsigned : forall ds b, Forall (fun x => x < 10) ds -> nib_text ds b = (false, b ++ map digit ds).
Proof.
  induction ds as [|d ds IH]; intros b F; [cbn [nib_text map]; rewrite app_nil_r; reflexivity|]. inversion_clear F as [|? ? Hd F']. cbn [nib_text map]. rewrite (proj2 (N.ltb_ge _ _)) by lia.
  rewrite IH by exact F'. rewrite <- app_assoc. reflexivity.
Qed.
Lemma nib_value_unsigned : forall ds u, Forall (fun x => x < 10) ds -> fst (nib_value ds u) = false.
Proof. induction ds as [|d ds IH]; intros u F; [reflexivity|]. inversion_clear F as [|? ? Hd F']. cbn [nib_value]. rewrite (proj2 (N.ltb_ge _ _)) by lia. apply IH. exact F'. Qed.
Lemma minus_point : forall t a k, read_decimal (46 :: 45 :: t) <> Some (a, k).
Proof. intros t a k. unfold read_decimal. destruct (negb _); discriminate. Qed.
Lemma minus_first : forall t neg a k, read_decimal (45 :: t) = Some (neg, a, k) -> neg = true.
Proof. intros t neg a k H. unfold read_decimal in H. destruct (negb _); [discriminate|]. destruct (read_int t 0) as [[]|]; congruence. Qed.
Lemma digit_first : forall d t, d < 10 -> read_decimal (digit d :: t) = match read_int (digit d :: t) 0 with Some (a, k) => Some (false, a, k) | None => None end.
Proof.
  intros d t Hd. assert (C : In d [0; 1; 2; 3; 4; 5; 6; 7; 8; 9]) by (cbn; lia). cbn [In] in C. repeat (destruct C as [<-|C]; [reflexivity|]). destruct C.
Qed.
Lemma pointless : forall (neg : bool) ds n a k, Forall (fun x => x < 10) ds -> read_decimal ((if neg then [45] else []) ++ map digit ds) = Some (n, a, k) -> k = 0.
Proof.
  intros neg ds n a k F H. assert (R : read_int (map digit ds) 0 = Some (number 10 ds, 0)).
  { rewrite <- (app_nil_r (map digit ds)), read_int_digits by exact F. cbn [read_int]. rewrite N.mul_0_l. reflexivity. }
  destruct neg; cbn [app] in H; [unfold read_decimal in H; destruct (negb _); [discriminate|]; rewrite R in H; congruence|].
  destruct ds as [|d ds]; [cbn in H; congruence|]. inversion_clear F as [|? ? Hd F']. cbn [map] in H, R. rewrite digit_first, R in H by exact Hd. congruence.
Qed.
Lemma Ok_inj : forall {A} (x y : A), Ok x = Ok y -> x = y.
Proof. congruence. Qed.

Theorem C58_agree_exactly_partial : forall d, is_bytes d ->
  (agree d <-> exists s neg ds, packed s neg ds d /\ ds <> [] /\ (N.to_nat s <= length ds)%nat /\ number 10 ds < 2 ^ 256).
Proof.
  intros d Hd. split.
  - intros (t & neg & a & k & c & E1 & E2 & E3 & E4). destruct d as [|s body]; [discriminate|]. inversion_clear Hd as [|? ? Hs Hbody]. unfold is_byte in Hs.
    destruct (half_bytes_total body Hbody) as (hs & Hb & H16). destruct (sign_or_not hs H16) as [F|(ds & sign & pad & -> & F & S9)].
    + exfalso. unfold to_string in E1. rewrite (string_nibs _ _ Hb), nib_text_unsigned in E1 by exact F. cbn [app] in E1.
      unfold decompose in E3. rewrite (decompose_nibs _ _ Hb) in E3. pose proof (nib_value_unsigned hs (mku 0 0 0 0) F) as Hf. destruct (nib_value hs _) as [n u]. cbn [fst] in Hf. subst n.
      injection E3 as <- _ _. destruct ((0 <? s) && _) eqn:Ec.
      * apply Ok_inj in E1. subst t. destruct (length (45%N :: map digit hs) - N.to_nat s)%nat as [|i]; cbn [firstn skipn app] in E2; [exact (minus_point _ _ _ E2)|].
        apply minus_first in E2. discriminate.
      * apply Ok_inj in E1. subst t. apply minus_first in E2. discriminate.
    + assert (P : packed s (minus sign) ds (s :: body)).
      { split; [exact Hs|]. split; [exact F|]. exists body, sign, pad. split; [reflexivity|]. split; [exact Hb|].
        assert (C : In sign [10; 11; 12; 13; 14; 15]) by (cbn; lia). cbn [In] in C. repeat (destruct C as [<-|C]; [cbn; tauto|]). destruct C. }
      exists s, (minus sign), ds. split; [exact P|]. destruct (C58_decompose_any_length_partial _ _ _ _ P) as (c' & D1 & D2). rewrite D1 in E3.
      assert (neg = minus sign) by congruence. assert (c' = c) by congruence. assert (Hk : k = s) by (assert ((- Z.of_N s = - Z.of_N k)%Z) by congruence; lia). subst neg c' k.
      assert (L : (N.to_nat s <= length ds)%nat).
      { destruct (Nat.le_gt_cases (N.to_nat s) (length ds)) as [L|L]; [exact L|]. exfalso. unfold to_string in E1. rewrite (string_nibs _ _ Hb), nib_text_spec in E1 by (exact F || lia). cbn [app] in E1.
        rewrite (proj2 (N.ltb_lt 0 s)) in E1 by lia. cbn [andb] in E1. destruct (minus sign) eqn:Em; cbn [negb] in E1.
        - destruct (Nat.leb_spec (N.to_nat s) (length (45%N :: map digit ds))) as [L2|L2]; apply Ok_inj in E1; subst t.
          + replace (length (45%N :: map digit ds) - N.to_nat s)%nat with O in E2 by (cbn [length] in *; rewrite map_length in *; lia). exact (minus_point _ _ _ E2).
          + apply (pointless true) in E2; [lia|exact F].
        - rewrite (proj2 (Nat.leb_gt _ _)) in E1 by (rewrite map_length; exact L). apply Ok_inj in E1. subst t. apply (pointless false) in E2; [lia|exact F]. }
      assert (Hne : ds <> []).
      { intros ->. cbn [length] in L. assert (s = 0) by lia. subst s. rewrite (string_packed _ _ _ _ P (le_n 0)) in E1. apply Ok_inj in E1. subst t.
        destruct (minus sign); discriminate. }
      split; [exact Hne|]. split; [exact L|]. rewrite (string_packed _ _ _ _ P L) in E1. apply Ok_inj in E1. subst t.
      pose proof (read_text (minus sign) ds (N.to_nat s) F Hne L) as R. rewrite N2Nat.id in R. rewrite R in E2. assert (Ha : a = number 10 ds) by congruence.
      rewrite <- Ha, <- E4, D2. apply N.mod_upper_bound. discriminate.
  - intros (s & neg & ds & P & Hne & L & Hv). destruct (C58_decompose_any_length_partial _ _ _ _ P) as (c & D1 & D2). pose proof P as (_ & F & _).
    exists ((if neg then [45] else []) ++ map digit (firstn (length ds - N.to_nat s) ds) ++ (if 0 <? s then 46 :: map digit (skipn (length ds - N.to_nat s) ds) else [])), neg, (number 10 ds), s, c.
    split; [exact (string_packed _ _ _ _ P L)|]. split; [pose proof (read_text neg ds (N.to_nat s) F Hne L) as R; rewrite N2Nat.id in R; exact R|].
    split; [exact D1|]. rewrite D2. apply N.mod_small. exact Hv.
Qed.

(* -1.20, an odd number of digits; and 0.05 with an even number of digits plus a sign byte. *)
Example minus_1_20 : packed 2 true [1; 2; 0] [2; 18; 13] /\ to_string [2; 18; 13] = Ok [45; 49; 46; 50; 48] /\ decompose [2; 18; 13] = Ok (0, true, [120], (-2)%Z).
Proof.
  split; [|split; vm_compute; reflexivity]. split; [lia|]. split; [repeat constructor|]. exists [18; 13], 13, []. split; [reflexivity|]. split; [|cbn; auto]. apply (hb_byte 1 2 [13]); [lia|lia|]. apply (hb_byte 0 13 []); [lia|lia|constructor]. Qed.
Example plus_10_05 : packed 2 false [1; 0; 0; 5] [2; 16; 5; 192] /\ to_string [2; 16; 5; 192] = Ok [49; 48; 46; 48; 53] /\ decompose [2; 16; 5; 192] = Ok (0, false, [3; 237], (-2)%Z).
Proof.
  split; [|split; vm_compute; reflexivity]. split; [lia|]. split; [repeat constructor|]. exists [16; 5; 192], 12, [0]. split; [reflexivity|]. split; [|cbn; auto].
  apply (hb_byte 1 0); [lia|lia|]. apply (hb_byte 0 5); [lia|lia|]. apply (hb_byte 12 0); [lia|lia|constructor]. Qed.
(* A carry through all four words. *)
Example carries : words (mku (2^64-1) (2^64-1) (2^64-1) (2^64-1)) /\ mul_add (mku (2^64-1) (2^64-1) (2^64-1) (2^64-1)) 1 1 = (mku 0 0 0 0, 1).
Proof. split; [repeat split; reflexivity|vm_compute; reflexivity]. Qed.

Print Assumptions C43_mul_add_exact.
Print Assumptions C43_mul_add_mod.
Print Assumptions C43_append_bytes.
Print Assumptions C42_text_and_parts_agree.
Print Assumptions C42_text.
Print Assumptions C58_decompose_any_length_partial.
Print Assumptions C58_agree_exactly_partial.
Print Assumptions C58_no_panic_partial.
Print Assumptions C58_empty_panics_refuted.
Print Assumptions C58_missing_sign_refuted.
Print Assumptions C58_large_scale_refuted.
