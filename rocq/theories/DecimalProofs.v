(* Proofs about Decimal. *)
From Coq Require Import NArith ZArith Arith Bool List Lia ZifyN ZifyNat ZifyBool.
From Verif Require Import Base Decimal SpecDecimal.
Import ListNotations.
Open Scope N_scope.
Ltac Zify.zify_post_hook ::= Z.div_mod_to_equations.

Definition wf (x : uint256) : Prop := x0 x < W /\ x1 x < W /\ x2 x < W /\ x3 x < W.
Definition val (x : uint256) : N := x0 x + W * (x1 x + W * (x2 x + W * x3 x)).

Lemma mod_lt : forall a, a mod W < W.
Proof. intros. apply N.mod_lt. unfold W. discriminate. Qed.
Lemma div_mod : forall a, a = a mod W + W * (a / W).
Proof. intros a. rewrite N.add_comm. apply N.div_mod. unfold W. discriminate. Qed.

Lemma mul_add_raw : forall x y z, wf x -> y < W -> z < W ->
  let '(x', o) := mul_add x y z in
  wf x' /\ o < W /\ val x' + W * (W * (W * (W * o))) = val x * y + z.
Proof.
  intros [a0 a1 a2 a3] y z (H0 & H1 & H2 & H3) Hy Hz. cbn [x0 x1 x2 x3] in H0, H1, H2, H3. unfold mul_add, mul64, add64, val, wf. cbn [x0 x1 x2 x3].
  pose proof (div_mod (a0 * y)) as E0. pose proof (div_mod (a1 * y)) as E1. pose proof (div_mod (a2 * y)) as E2. pose proof (div_mod (a3 * y)) as E3.
  set (h1 := a0 * y / W) in *. set (l0 := (a0 * y) mod W) in *. set (h2 := a1 * y / W) in *. set (l1 := (a1 * y) mod W) in *.
  set (h3 := a2 * y / W) in *. set (l2 := (a2 * y) mod W) in *. set (h4 := a3 * y / W) in *. set (l3 := (a3 * y) mod W) in *.
  pose proof (div_mod (l0 + z + 0)) as F0. set (c0 := (l0 + z + 0) / W) in *. set (b0 := (l0 + z + 0) mod W) in *.
  pose proof (div_mod (l1 + h1 + c0)) as F1. set (c1 := (l1 + h1 + c0) / W) in *. set (b1 := (l1 + h1 + c0) mod W) in *.
  pose proof (div_mod (l2 + h2 + c1)) as F2. set (c2 := (l2 + h2 + c1) / W) in *. set (b2 := (l2 + h2 + c1) mod W) in *.
  pose proof (div_mod (l3 + h3 + c2)) as F3. set (c3 := (l3 + h3 + c2) / W) in *. set (b3 := (l3 + h3 + c2) mod W) in *.
  assert (B : b0 < W /\ b1 < W /\ b2 < W /\ b3 < W) by (repeat split; apply mod_lt). destruct B as (B0 & B1 & B2 & B3).
  assert (T : b0 + W * (b1 + W * (b2 + W * b3)) + W * (W * (W * (W * (h4 + c3)))) = (a0 + W * (a1 + W * (a2 + W * a3))) * y + z).
  { clearbody h1 l0 h2 l1 h3 l2 h4 l3 b0 b1 b2 b3 c0 c1 c2 c3. clear - E0 E1 E2 E3 F0 F1 F2 F3. nia. }
  assert (O : h4 + c3 < W).
  { clearbody h1 l0 h2 l1 h3 l2 h4 l3 b0 b1 b2 b3 c0 c1 c2 c3. clear - T H0 H1 H2 H3 Hy Hz.
    set (v := a0 + W * (a1 + W * (a2 + W * a3))) in *.
    assert (Hv : v + 1 <= W * (W * (W * W))).
    { unfold v. assert (A2 : a2 + W * a3 + 1 <= W * W).
      { assert (W * (a3 + 1) <= W * W) by (apply N.mul_le_mono_l; lia). lia. }
      assert (A1 : a1 + W * (a2 + W * a3) + 1 <= W * (W * W)).
      { assert (W * (a2 + W * a3 + 1) <= W * (W * W)) by (apply N.mul_le_mono_l; exact A2). lia. }
      assert (W * (a1 + W * (a2 + W * a3) + 1) <= W * (W * (W * W))) by (apply N.mul_le_mono_l; exact A1). lia. }
    clearbody v.
    assert (Q : v * y + z < W * (W * (W * (W * W)))).
    { assert (Y1 : v * y <= v * W) by (apply N.mul_le_mono_l; lia).
      assert (Y2 : (v + 1) * W <= (W * (W * (W * W))) * W) by (apply N.mul_le_mono_r; exact Hv).
      lia. }
    destruct (N.lt_ge_cases (h4 + c3) W) as [L|L]; [exact L|]. exfalso. set (o := h4 + c3) in *. clearbody o. assert (W * (W * (W * (W * W))) <= W * (W * (W * (W * o)))) by (repeat apply N.mul_le_mono_l; exact L). lia. }
  split; [auto|]. rewrite (N.mod_small _ _ O). split; [exact O|]. exact T.
Qed.

(* ---- numbers in base b ---- *)
Lemma number_acc : forall b l a, fold_left (fun a d => a * b + d) l a = a * b ^ N.of_nat (length l) + number b l.
Proof.
  intros b l. unfold number. induction l as [|d l IH]; intros a; cbn [fold_left length].
  - change (N.of_nat 0) with 0. rewrite N.pow_0_r. lia.
  - rewrite IH, (IH (0 * b + d)), Nat2N.inj_succ, N.pow_succ_r'. lia.
Qed.
Lemma number_app : forall b l m, number b (l ++ m) = number b l * b ^ N.of_nat (length m) + number b m.
Proof. intros. unfold number at 1. rewrite fold_left_app. apply number_acc. Qed.
Lemma number_cons : forall b d l, number b (d :: l) = d * b ^ N.of_nat (length l) + number b l.
Proof. intros. unfold number at 1. cbn [fold_left]. rewrite number_acc. lia. Qed.
Lemma number_lt : forall b l, Forall (fun d => d < b) l -> number b l < b ^ N.of_nat (length l).
Proof.
  intros b l F. induction F as [|d l Hd F IH]; [reflexivity|]. rewrite number_cons. cbn [length]. rewrite Nat2N.inj_succ, N.pow_succ_r'.
  assert ((d + 1) * b ^ N.of_nat (length l) <= b * b ^ N.of_nat (length l)) by (apply N.mul_le_mono_r; lia). lia. Qed.

Lemma be64_value : forall v, v < W -> number 256 (be64 v) = v.
Proof.
  intros v H. unfold be64, number, byte. cbn [fold_left]. rewrite !N.shiftr_div_pow2.
  assert (S : forall k, v / 2 ^ k = 256 * (v / 2 ^ (k + 8)) + (v / 2 ^ k) mod 256).
  { intros k. replace (v / 2 ^ (k + 8)) with (v / 2 ^ k / 256); [apply N.div_mod; discriminate|]. rewrite N.div_div by (try apply N.pow_nonzero; discriminate). rewrite N.pow_add_r. reflexivity. }
  pose proof (S 0) as S0. pose proof (S 8) as S1. pose proof (S 16) as S2. pose proof (S 24) as S3. pose proof (S 32) as S4. pose proof (S 40) as S5. pose proof (S 48) as S6. clear S.
  change (0 + 8) with 8 in S0. change (8 + 8) with 16 in S1. change (16 + 8) with 24 in S2. change (24 + 8) with 32 in S3. change (32 + 8) with 40 in S4. change (40 + 8) with 48 in S5. change (48 + 8) with 56 in S6.
  change (2 ^ 0) with 1 in S0. rewrite N.div_1_r in S0.
  assert (S7 : (v / 2 ^ 56) mod 256 = v / 2 ^ 56) by (apply N.mod_small, N.div_lt_upper_bound; [apply N.pow_nonzero; discriminate|exact H]). rewrite S7.
  remember (v / 2 ^ 8) as q1. remember (v / 2 ^ 16) as q2. remember (v / 2 ^ 24) as q3. remember (v / 2 ^ 32) as q4. remember (v / 2 ^ 40) as q5. remember (v / 2 ^ 48) as q6. remember (v / 2 ^ 56) as q7.
  remember (v mod 256) as r0. remember (q1 mod 256) as r1. remember (q2 mod 256) as r2. remember (q3 mod 256) as r3. remember (q4 mod 256) as r4. remember (q5 mod 256) as r5. remember (q6 mod 256) as r6.
  clear - S0 S1 S2 S3 S4 S5 S6. lia.
Qed.
Lemma be64_bytes : forall v, is_bytes (be64 v).
Proof. intros v. unfold be64, byte, is_bytes, is_byte. repeat constructor; apply N.mod_lt; discriminate. Qed.
Lemma be64_length : forall v, length (be64 v) = 8%nat. Proof. reflexivity. Qed.

Lemma skip_zeros_spec : forall n b, (n < length b)%nat ->
  number 256 (skip_zeros n b) = number 256 b /\ (is_bytes b -> is_bytes (skip_zeros n b)) /\ (length b - n <= length (skip_zeros n b) <= length b)%nat /\
  ((length b - n < length (skip_zeros n b))%nat -> exists x t, skip_zeros n b = x :: t /\ x <> 0).
Proof.
  induction n as [|n IH]; intros b H.
  - destruct b as [|x b]; cbn [skip_zeros]; (split; [reflexivity|]); (split; [auto|]); (split; [lia|lia]).
  - destruct b as [|x b]; [cbn in H; lia|]. cbn [length] in H. destruct x as [|p].
    + cbn [skip_zeros]. destruct (IH b ltac:(lia)) as (I1 & I2 & I3 & I4). split; [rewrite I1, number_cons; lia|]. split; [intros F; inversion F; auto|]. cbn [length]. split; [lia|]. intros L. apply I4. lia.
    + cbn [skip_zeros]. split; [reflexivity|]. split; [auto|]. split; [cbn [length]; lia|]. intros _. exists (N.pos p), b. split; [reflexivity|discriminate].
Qed.

Lemma val_bytes : forall x, wf x -> number 256 (be64 (x3 x) ++ be64 (x2 x) ++ be64 (x1 x) ++ be64 (x0 x)) = val x.
Proof.
  intros x (H0 & H1 & H2 & H3). rewrite !number_app, !be64_value by assumption. rewrite !app_length, !be64_length. unfold val.
  change (256 ^ N.of_nat 8) with W. change (256 ^ N.of_nat (8 + 8)) with (W * W). change (256 ^ N.of_nat (8 + (8 + 8))) with (W * W * W). lia. Qed.

Lemma append_bytes_spec : forall x buf, wf x -> exists l, append_bytes x buf = buf ++ l /\ is_bytes l /\ big_endian l = val x /\
  (1 <= length l <= 32)%nat /\ (length l = 1%nat \/ exists y t, l = y :: t /\ y <> 0).
Proof.
  intros x buf Hx. unfold append_bytes. set (b := be64 (x3 x) ++ be64 (x2 x) ++ be64 (x1 x) ++ be64 (x0 x)). assert (L : length b = 32%nat) by reflexivity.
  destruct (skip_zeros_spec 31 b ltac:(lia)) as (I1 & I2 & I3 & I4). rewrite L in I3, I4. exists (skip_zeros 31 b). split; [reflexivity|]. split; [apply I2; unfold b, is_bytes; rewrite !Forall_app; repeat split; apply be64_bytes|].
  split; [unfold big_endian; rewrite I1; apply val_bytes, Hx|]. split; [lia|]. destruct (Nat.eq_dec (length (skip_zeros 31 b)) 1) as [E|E]; [left; exact E|right; apply I4; lia].
Qed.

(* ---- half bytes ---- *)
Fixpoint nib_value (hs : list N) (u : uint256) : bool * uint256 :=
  match hs with
  | [] => (false, u)
  | h :: hs => if 9 <? h then (minus h, u) else nib_value hs (fst (mul_add u 10 h))
  end.
Fixpoint nib_text (hs : list N) (b : bytes) : bool * bytes :=
  match hs with
  | [] => (false, b)
  | h :: hs => if 9 <? h then (negb (minus h), b) else nib_text hs (b ++ [digit h])
  end.
Lemma nib_hi : forall hi lo, lo < 16 -> N.shiftr (16 * hi + lo) 4 = hi.
Proof. intros. rewrite N.shiftr_div_pow2. change (2 ^ 4) with 16. lia. Qed.
Lemma nib_lo : forall hi lo, lo < 16 -> N.land (16 * hi + lo) 15 = lo.
Proof. intros. change 15 with (N.ones 4). rewrite N.land_ones. change (2 ^ 4) with 16. lia. Qed.
Lemma decompose_nibs : forall l hs, half_bytes l hs -> forall u, decompose_loop l u = nib_value hs u.
Proof. induction 1 as [|hi lo l hs Hh Hl H IH]; intros u; [reflexivity|]. cbn [decompose_loop nib_value]. rewrite nib_hi, nib_lo by exact Hl. destruct (9 <? hi); [reflexivity|]. destruct (9 <? lo); [reflexivity|]. apply IH. Qed.
Lemma string_nibs : forall l hs, half_bytes l hs -> forall b, string_loop l b = nib_text hs b.
Proof. induction 1 as [|hi lo l hs Hh Hl H IH]; intros u; [reflexivity|]. cbn [string_loop nib_text]. rewrite nib_hi, nib_lo by exact Hl. destruct (9 <? hi); [reflexivity|]. destruct (9 <? lo); [reflexivity|]. rewrite IH, <- app_assoc. reflexivity. Qed.

(* Each digit shifts and adds, modulo 2^256. *)
Definition W4 : N := W * (W * (W * W)).
Lemma mul_add_mod : forall u d, wf u -> d < W -> wf (fst (mul_add u 10 d)) /\ val (fst (mul_add u 10 d)) = (val u * 10 + d) mod W4.
Proof.
  intros u d Hu Hd. pose proof (mul_add_raw u 10 d Hu eq_refl Hd) as M. destruct (mul_add u 10 d) as [u' o]. destruct M as (H1 & _ & H2). split; [exact H1|]. cbn [fst].
  assert (L : val u' < W4).
  { destruct H1 as (A0 & A1 & A2 & A3). unfold val, W4. destruct u' as [a0 a1 a2 a3]. cbn [x0 x1 x2 x3] in *.
    assert (B2 : a2 + W * a3 + 1 <= W * W) by (assert (W * (a3 + 1) <= W * W) by (apply N.mul_le_mono_l; lia); lia).
    assert (B1 : a1 + W * (a2 + W * a3) + 1 <= W * (W * W)) by (assert (W * (a2 + W * a3 + 1) <= W * (W * W)) by (apply N.mul_le_mono_l; exact B2); lia).
    assert (W * (a1 + W * (a2 + W * a3) + 1) <= W * (W * (W * W))) by (apply N.mul_le_mono_l; exact B1). lia. }
  apply (N.mod_unique _ _ o); [exact L|]. rewrite <- H2. unfold W4. lia.
Qed.
Lemma W4_pos : W4 <> 0. Proof. discriminate. Qed.
Lemma nib_value_spec : forall ds sign pad u, Forall (fun x => x < 10) ds -> 9 < sign -> wf u ->
  exists u', nib_value (ds ++ sign :: pad) u = (minus sign, u') /\ wf u' /\ val u' mod W4 = (val u * 10 ^ N.of_nat (length ds) + number 10 ds) mod W4.
Proof.
  induction ds as [|d ds IH]; intros sign pad u F Hs Hu.
  - cbn [app nib_value]. rewrite (proj2 (N.ltb_lt _ _) Hs). exists u. split; [reflexivity|]. split; [exact Hu|]. f_equal. cbn. lia.
  - inversion_clear F as [|? ? Hd F']. cbn [app nib_value]. rewrite (proj2 (N.ltb_ge _ _)) by lia.
    destruct (mul_add_mod u d Hu ltac:(unfold W; lia)) as [H1 H2]. destruct (IH sign pad _ F' Hs H1) as (u' & E & Hu' & Ev). exists u'. split; [exact E|]. split; [exact Hu'|]. rewrite Ev, H2, number_cons. cbn [length]. rewrite Nat2N.inj_succ, N.pow_succ_r'.
    rewrite N.add_mod, N.mul_mod_idemp_l, <- N.add_mod by exact W4_pos. f_equal. lia.
Qed.
Lemma nib_text_spec : forall ds sign pad b, Forall (fun x => x < 10) ds -> 9 < sign -> nib_text (ds ++ sign :: pad) b = (negb (minus sign), b ++ map digit ds).
Proof.
  induction ds as [|d ds IH]; intros sign pad b F Hs.
  - cbn [app nib_text map]. rewrite (proj2 (N.ltb_lt _ _) Hs), app_nil_r. reflexivity.
  - inversion_clear F as [|? ? Hd F']. cbn [app nib_text map]. rewrite (proj2 (N.ltb_ge _ _)) by lia. rewrite IH by assumption. rewrite <- app_assoc. reflexivity.
Qed.
Lemma val_small : forall u, wf u -> val u < W4.
Proof.
  intros [a0 a1 a2 a3] (A0 & A1 & A2 & A3). unfold val, W4. cbn [x0 x1 x2 x3] in *.
  assert (B2 : a2 + W * a3 + 1 <= W * W) by (assert (W * (a3 + 1) <= W * W) by (apply N.mul_le_mono_l; lia); lia).
  assert (B1 : a1 + W * (a2 + W * a3) + 1 <= W * (W * W)) by (assert (W * (a2 + W * a3 + 1) <= W * (W * W)) by (apply N.mul_le_mono_l; exact B2); lia).
  assert (W * (a1 + W * (a2 + W * a3) + 1) <= W * (W * (W * W))) by (apply N.mul_le_mono_l; exact B1). lia.
Qed.

Lemma sign_range : forall (neg : bool) (sign : N), In sign (if neg then [11; 13] else [10; 12; 14; 15]) -> 9 < sign /\ minus sign = neg.
Proof. intros [|] sign H; cbn in H; repeat (destruct H as [<-|H]; [split; reflexivity|]); destruct H. Qed.

(* ---- reading text back ---- *)
Lemma read_frac_digits : forall ds a k, Forall (fun x => x < 10) ds -> read_frac (map digit ds) a k = Some (a * 10 ^ N.of_nat (length ds) + number 10 ds, k + N.of_nat (length ds)).
Proof.
  induction ds as [|d ds IH]; intros a k F; cbn [map read_frac length].
  - f_equal. f_equal; cbn; lia.
  - inversion_clear F as [|? ? Hd F']. unfold digit at 1 2. rewrite (proj2 (N.leb_le _ _)), (proj2 (N.leb_le _ _)) by lia. cbn [andb]. rewrite IH by exact F'. unfold digit. rewrite number_cons, Nat2N.inj_succ, N.pow_succ_r'. do 2 f_equal; lia.
Qed.
Lemma read_int_digits : forall ds a t, Forall (fun x => x < 10) ds -> read_int (map digit ds ++ t) a = read_int t (a * 10 ^ N.of_nat (length ds) + number 10 ds).
Proof.
  induction ds as [|d ds IH]; intros a t F; cbn [map app read_int length].
  - f_equal. cbn. lia.
  - inversion_clear F as [|? ? Hd F']. assert (Z1 : digit d =? 46 = false) by (unfold digit; apply N.eqb_neq; lia). assert (Z2 : (48 <=? digit d) && (digit d <=? 57) = true) by (unfold digit; rewrite (proj2 (N.leb_le _ _)), (proj2 (N.leb_le _ _)) by lia; reflexivity). rewrite Z1, Z2. rewrite IH by exact F'. unfold digit. rewrite number_cons, Nat2N.inj_succ, N.pow_succ_r'. f_equal. lia.
Qed.
