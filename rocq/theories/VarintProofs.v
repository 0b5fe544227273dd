(* Facts about Varint: the size formula, the bytes written, and that the specification decoder
   reads them back. *)
From Coq Require Import List NArith ZArith Arith Lia ZifyN ZifyNat ZifyBool.
From Verif Require Import Base GoSlice SliceProofs Varint SpecWire.
Import ListNotations.
Open Scope N_scope.

Ltac Zify.zify_post_hook ::= Z.div_mod_to_equations.

Lemma Some_inj {A} (a b : A) : Some a = Some b -> a = b.
Proof. intros H. inversion H. reflexivity. Qed.

Lemma sweep (n : nat) (P : N -> bool) :
  forallb P (map N.of_nat (seq 0 n)) = true -> forall x, x < N.of_nat n -> P x = true.
Proof.
  intros Hf x Hx. rewrite forallb_forall in Hf. apply Hf.
  apply in_map_iff. exists (N.to_nat x). split; [lia|]. apply in_seq. lia.
Qed.

Lemma byte_id : forall x, x < 256 -> byte x = x.
Proof. intros x Hx. unfold byte. apply N.mod_small. exact Hx. Qed.

Lemma byte_lt : forall x, byte x < 256.
Proof. intros x. unfold byte. lia. Qed.

Lemma b80_eq : forall x, b80 x = x mod 128 + 128.
Proof.
  intros x. unfold b80.
  assert (H : forall y, y < N.of_nat 256 -> (N.lor y 128 =? y mod 128 + 128) = true)
    by (apply sweep; vm_compute; reflexivity).
  specialize (H (byte x) (byte_lt x)). apply N.eqb_eq in H. rewrite H. unfold byte. lia.
Qed.

Lemma land127 : forall x, N.land x 127 = x mod 128.
Proof. intros x. change 127 with (N.ones 7). rewrite N.land_ones. reflexivity. Qed.

Lemma hdr_eq : forall tag wt, tag < 16 -> wt < 8 -> hdr tag wt = 8 * tag + wt.
Proof.
  intros tag wt Ht Hw.
  assert (H : forall t, t < N.of_nat 16 -> (forallb (fun w => hdr t w =? 8 * t + w) (map N.of_nat (seq 0 8))) = true)
    by (apply sweep; vm_compute; reflexivity).
  specialize (H tag Ht). rewrite forallb_forall in H.
  apply N.eqb_eq. apply H. apply in_map_iff. exists (N.to_nat wt). split; [lia|]. apply in_seq. lia.
Qed.

Lemma shiftr_div : forall x k, N.shiftr x k = x / 2 ^ k.
Proof. intros. apply N.shiftr_div_pow2. Qed.

(* ---- size ---- *)

Lemma size_pos : forall x, x <> 0 -> 2 ^ (N.size x - 1) <= x.
Proof.
  intros x Hx. rewrite N.size_log2 by assumption.
  replace (N.succ (N.log2 x) - 1) with (N.log2 x) by lia.
  apply N.log2_spec. lia.
Qed.

Lemma size_le_iff : forall x k, x < 2 ^ k -> N.size x <= k.
Proof.
  intros x k Hx. destruct (N.eq_dec x 0) as [->|Hz]; [cbn; lia|].
  pose proof (size_pos x Hz) as Hp.
  destruct (N.le_gt_cases (N.size x) k) as [|Hgt]; [assumption|].
  assert (2 ^ k <= 2 ^ (N.size x - 1)) by (apply N.pow_le_mono_r; lia). lia.
Qed.

Lemma size_varint_bounds : forall x, x < 2 ^ 64 ->
  (1 <= size_varint x <= 10)%nat /\ x < 2 ^ (7 * N.of_nat (size_varint x)) /\
  (size_varint x = 1%nat \/ 2 ^ (7 * N.of_nat (size_varint x - 1)) <= x).
Proof.
  intros x Hx. unfold size_varint.
  pose proof (size_le_iff x 64 Hx) as Hs.
  pose proof (N.size_gt x) as Hg.
  set (s := N.size x) in *.
  set (n := (9 * s + 64) / 64).
  assert (Hn : 1 <= n <= 10 /\ s <= 7 * n /\ (n = 1 \/ 7 * (n - 1) < s)).
  { assert (H : forall s, s < N.of_nat 65 ->
       (let n := (9 * s + 64) / 64 in
        (1 <=? n) && (n <=? 10) && (s <=? 7 * n) && ((n =? 1) || (7 * (n - 1) <? s)))%bool = true)
      by (apply sweep; vm_compute; reflexivity).
    specialize (H s). cbv zeta in H. fold n in H. lia. }
  destruct Hn as (Hn1 & Hn2 & Hn3).
  split; [lia|]. rewrite N2Nat.id. split.
  - apply N.lt_le_trans with (2 ^ s); [assumption|]. apply N.pow_le_mono_r; lia.
  - destruct Hn3 as [->|Hn3]; [left; reflexivity|]. right.
    replace (N.of_nat (N.to_nat n - 1)) with (n - 1) by lia.
    assert (Hx0 : x <> 0). { intros ->. subst s. cbn in Hn3. lia. }
    apply N.le_trans with (2 ^ (s - 1)); [apply N.pow_le_mono_r; lia|].
    apply size_pos. exact Hx0.
Qed.

(* ---- shape of uvarint ---- *)

Lemma div_div : forall x a b, x / 2 ^ a / 2 ^ b = x / 2 ^ (a + b).
Proof. intros. rewrite N.div_div by (apply N.pow_nonzero; lia). rewrite N.pow_add_r. reflexivity. Qed.

Lemma uvarint_shape : forall n k x, (n <= k)%nat -> x < 2 ^ (7 * N.of_nat (n + 1)) ->
  (n = 0%nat \/ 2 ^ (7 * N.of_nat n) <= x) ->
  uvarint_k k x = map (fun i => b80 (N.shiftr x (7 * N.of_nat i))) (seq 0 n) ++ [N.shiftr x (7 * N.of_nat n)].
Proof.
  induction n as [|n IH]; intros k x Hk Hx Hl.
  - change (2 ^ (7 * N.of_nat (0 + 1))) with 128 in Hx.
    destruct k as [|k]; cbn [uvarint_k seq map app N.of_nat N.mul]; rewrite N.shiftr_0_r.
    + f_equal. apply byte_id. lia.
    + destruct (N.ltb_spec x 128); [|lia]. f_equal. apply byte_id. lia.
  - destruct k as [|k]; [lia|]. cbn [uvarint_k].
    assert (H128 : 128 <= x).
    { destruct Hl as [|Hl]; [lia|]. apply N.le_trans with (2 ^ (7 * N.of_nat (S n))); [|assumption].
      change 128 with (2 ^ 7). apply N.pow_le_mono_r; lia. }
    destruct (N.ltb_spec x 128); [lia|].
    cbn [seq map app]. f_equal.
    rewrite IH.
    + rewrite <- seq_shift, map_map. f_equal.
      * apply map_ext. intros i. f_equal. rewrite N.shiftr_shiftr. f_equal. lia.
      * f_equal. rewrite N.shiftr_shiftr. f_equal. lia.
    + lia.
    + rewrite shiftr_div. apply N.div_lt_upper_bound; [apply N.pow_nonzero; lia|].
      rewrite <- N.pow_add_r. replace (7 + 7 * N.of_nat (n + 1)) with (7 * N.of_nat (S n + 1)) by lia. exact Hx.
    + destruct Hl as [|Hl]; [lia|]. right.
      rewrite shiftr_div. apply N.div_le_lower_bound; [apply N.pow_nonzero; lia|].
      rewrite <- N.pow_add_r. replace (7 + 7 * N.of_nat n) with (7 * N.of_nat (S n)) by lia. exact Hl.
Qed.

Lemma uvarint_eq : forall x, x < 2 ^ 64 ->
  uvarint x = map (fun i => b80 (N.shiftr x (7 * N.of_nat i))) (seq 0 (size_varint x - 1)) ++
              [N.shiftr x (7 * N.of_nat (size_varint x - 1))].
Proof.
  intros x Hx. destruct (size_varint_bounds x Hx) as (H1 & H2 & H3).
  unfold uvarint. apply uvarint_shape; [lia| |].
  - replace (size_varint x - 1 + 1)%nat with (size_varint x) by lia. exact H2.
  - destruct H3 as [->|H3]; [left; lia|right; exact H3].
Qed.

Lemma uvarint_length : forall x, x < 2 ^ 64 -> length (uvarint x) = size_varint x.
Proof.
  intros x Hx. rewrite uvarint_eq by assumption. rewrite app_length, map_length, seq_length. simpl.
  pose proof (size_varint_bounds x Hx). lia.
Qed.

(* protobuf.go:48-50 sizeVarint8, which nothing calls yet, agrees *)
Lemma size_varint8_eq : forall x, x < 2 ^ 8 -> size_varint8 x = length (uvarint x).
Proof.
  intros x Hx. assert (A : forallb (fun n => Nat.eqb (size_varint8 (N.of_nat n)) (length (uvarint (N.of_nat n)))) (seq 0 256) = true) by (vm_compute; reflexivity).
  rewrite forallb_forall in A. specialize (A (N.to_nat x)). rewrite N2Nat.id in A. apply Nat.eqb_eq, A, in_seq. lia.
Qed.

Lemma uvarint_bytes_k : forall k x, is_bytes (uvarint_k k x).
Proof.
  induction k as [|k IH]; intros x; cbn [uvarint_k].
  - constructor; [apply byte_lt|constructor].
  - destruct (x <? 128); constructor; try constructor; try apply IH; try apply byte_lt.
    unfold is_byte. rewrite b80_eq. lia.
Qed.
Lemma uvarint_bytes : forall x, is_bytes (uvarint x).
Proof. intros. apply uvarint_bytes_k. Qed.

Lemma uvarint_small : forall x, x < 128 -> uvarint x = [x].
Proof.
  intros x Hx. unfold uvarint. cbn [uvarint_k]. destruct (N.ltb_spec x 128); [|lia].
  rewrite byte_id by lia. reflexivity.
Qed.

(* ---- the specification reads it back ---- *)

Lemma dvarint_uvarint_k : forall k x r, x < 2 ^ (7 * N.of_nat k) -> k <> 0%nat ->
  dvarint_k k (uvarint_k k x ++ r) = Some (x, r).
Proof.
  induction k as [|k IH]; intros x r Hx Hk; [congruence|].
  cbn [uvarint_k]. destruct (N.ltb_spec x 128) as [Hs|Hs].
  - cbn [app dvarint_k]. rewrite byte_id by lia. destruct (N.ltb_spec x 128); [reflexivity|lia].
  - cbn [app dvarint_k]. rewrite b80_eq.
    destruct (N.ltb_spec (x mod 128 + 128) 128); [lia|].
    destruct (N.ltb_spec (x mod 128 + 128) 256); [|lia].
    assert (Hk' : k <> 0%nat). { intros ->. change (2 ^ (7 * N.of_nat 1)) with 128 in Hx. lia. }
    rewrite IH; [| |exact Hk'].
    + f_equal. f_equal. rewrite shiftr_div. change (2 ^ 7) with 128. lia.
    + rewrite shiftr_div. apply N.div_lt_upper_bound; [apply N.pow_nonzero; lia|].
      rewrite <- N.pow_add_r. replace (7 + 7 * N.of_nat k) with (7 * N.of_nat (S k)) by lia. exact Hx.
Qed.

Lemma dvarint_uvarint : forall x r, x < 2 ^ 64 -> dvarint (uvarint x ++ r) = Some (x, r).
Proof.
  intros x r Hx. unfold dvarint, uvarint. rewrite dvarint_uvarint_k; [| |lia].
  - destruct (N.ltb_spec x (2 ^ 64)); [reflexivity|lia].
  - apply N.lt_trans with (2 ^ 64); [assumption|]. change (7 * N.of_nat 10) with 70.
    apply N.pow_lt_mono_r; lia.
Qed.

Lemma dvarint_small : forall x r, x < 128 -> dvarint (x :: r) = Some (x, r).
Proof.
  intros x r Hx. change (x :: r) with ([x] ++ r). rewrite <- uvarint_small by assumption.
  apply dvarint_uvarint. lia.
Qed.

(* ---- masking and truncating an unrolled varint ---- *)

Lemma mask_truncate_chunk : forall a y b sp n, n = (length a + 1)%nat ->
  mask_truncate (mk (a ++ y :: b) sp) n = Ok (mk (a ++ [N.land y 127]) (b ++ sp)).
Proof.
  intros a y b sp n ->. unfold mask_truncate.
  rewrite upd_chunk by lia. cbn [bind].
  change (N.land y 127 :: b) with ([N.land y 127] ++ b). rewrite app_assoc.
  apply reslice_app. rewrite app_length. reflexivity.
Qed.

Definition chain64 (x : N) : bytes :=
  [b80 x; b80 (N.shiftr x 7); b80 (N.shiftr x 14); b80 (N.shiftr x 21); b80 (N.shiftr x 28);
   b80 (N.shiftr x 35); b80 (N.shiftr x 42); b80 (N.shiftr x 49); byte (N.shiftr x 56); 1].
Definition chain64w (x : N) : bytes :=
  [b80 x; b80 (N.shiftr x 7); b80 (N.shiftr x 14); b80 (N.shiftr x 21); b80 (N.shiftr x 28);
   b80 (N.shiftr x 35); b80 (N.shiftr x 42); b80 (N.shiftr x 49); b80 (N.shiftr x 56); 1].
Definition chain32 (x : N) : bytes :=
  [b80 x; b80 (N.shiftr x 7); b80 (N.shiftr x 14); b80 (N.shiftr x 21); byte (N.shiftr x 28)].
Definition chain16 (x : N) : bytes :=
  [b80 x; b80 (N.shiftr x 7); byte (N.shiftr x 14)].

Lemma b80_mask : forall z, z < 128 -> N.land (b80 z) 127 = z.
Proof. intros z Hz. rewrite land127, b80_eq. lia. Qed.
Lemma byte_mask : forall z, z < 128 -> N.land (byte z) 127 = z.
Proof. intros z Hz. rewrite land127. unfold byte. lia. Qed.

Definition agree (l : bytes) (n : nat) (x : N) : Prop :=
  exists y b, l = map (fun i => b80 (N.shiftr x (7 * N.of_nat i))) (seq 0 (n - 1)) ++ y :: b /\
              N.land y 127 = N.shiftr x (7 * N.of_nat (n - 1)).

Lemma mask_truncate_agree : forall l pre x sp n, x < 2 ^ 64 -> agree l (size_varint x) x ->
  n = (length pre + size_varint x)%nat ->
  exists sp', mask_truncate (mk (pre ++ l) sp) n = Ok (mk (pre ++ uvarint x) sp').
Proof.
  intros l pre x sp n Hx (y & b & -> & Hy) ->.
  rewrite app_assoc. eexists. rewrite mask_truncate_chunk.
  - rewrite Hy, <- app_assoc, <- uvarint_eq by assumption. reflexivity.
  - rewrite app_length, map_length, seq_length. pose proof (size_varint_bounds x Hx). lia.
Qed.

Ltac chain_last :=
  repeat match goal with
  | H : context [7 * N.of_nat ?k] |- _ => let e := eval vm_compute in (7 * N.of_nat k) in change (7 * N.of_nat k) with e in H
  | |- context [7 * N.of_nat ?k] => let e := eval vm_compute in (7 * N.of_nat k) in change (7 * N.of_nat k) with e
  end;
  rewrite ?N.shiftr_0_r in *;
  match goal with
  | H : ?z < 128 |- N.land (b80 ?z) _ = _ => exact (b80_mask z H)
  | H : ?z < 128 |- N.land (byte ?z) _ = _ => exact (byte_mask z H)
  end.

Lemma shiftr_lt : forall x a b, x < 2 ^ (a + b) -> N.shiftr x a < 2 ^ b.
Proof.
  intros x a b Hx. rewrite shiftr_div. apply N.div_lt_upper_bound; [apply N.pow_nonzero; lia|].
  rewrite <- N.pow_add_r. exact Hx.
Qed.

Lemma agree_any : forall x n l, x < 2 ^ 64 -> n = size_varint x ->
  (n <= length l)%nat ->
  (forall i, (i < n - 1)%nat -> nth_error l i = Some (b80 (N.shiftr x (7 * N.of_nat i)))) ->
  (forall y, nth_error l (n - 1) = Some y -> N.land y 127 = N.shiftr x (7 * N.of_nat (n - 1))) ->
  agree l n x.
Proof.
  intros x n l Hx Hn Hl Hpre Hlast.
  assert (H1 : (1 <= n)%nat) by (subst n; apply size_varint_bounds; assumption).
  destruct (nth_error l (n - 1)) as [y|] eqn:Hy; [|apply nth_error_None in Hy; lia].
  destruct (nth_error_split _ _ Hy) as (a & b & -> & Ha).
  exists y, b. split; [|apply Hlast; reflexivity].
  f_equal. apply nth_ext with (d := 0) (d' := b80 (N.shiftr x (7 * N.of_nat 0))).
  - rewrite map_length, seq_length. lia.
  - intros i Hi. specialize (Hpre i). rewrite nth_error_app1 in Hpre by lia.
    erewrite nth_error_nth by (apply Hpre; lia).
    change (b80 (N.shiftr x (7 * N.of_nat 0))) with ((fun i => b80 (N.shiftr x (7 * N.of_nat i))) 0%nat).
    rewrite map_nth, seq_nth by lia. reflexivity.
Qed.

Lemma last_lt : forall x, x < 2 ^ 64 -> N.shiftr x (7 * N.of_nat (size_varint x - 1)) < 128.
Proof.
  intros x Hx. destruct (size_varint_bounds x Hx) as (H1 & H2 & _).
  change 128 with (2 ^ 7). apply shiftr_lt.
  replace (7 * N.of_nat (size_varint x - 1) + 7) with (7 * N.of_nat (size_varint x)) by lia. exact H2.
Qed.

Lemma size_le_of_lt : forall x k, x < 2 ^ 64 -> x < 2 ^ (7 * N.of_nat k) -> (1 <= k)%nat -> (size_varint x <= k)%nat.
Proof.
  intros x k Hx Hk H1. destruct (size_varint_bounds x Hx) as (Hb & _ & H3).
  destruct H3 as [H3|H3]; [lia|].
  destruct (le_lt_dec (size_varint x) k) as [|Hlt]; [assumption|].
  assert (2 ^ (7 * N.of_nat k) <= 2 ^ (7 * N.of_nat (size_varint x - 1))) by (apply N.pow_le_mono_r; lia).
  lia.
Qed.

Lemma agree16 : forall x, x < 2 ^ 16 -> agree (chain16 x) (size_varint x) x.
Proof.
  intros x Hx.
  assert (H64 : x < 2 ^ 64) by (apply N.lt_trans with (2 ^ 16); [assumption|apply N.pow_lt_mono_r; lia]).
  assert (Hs : (size_varint x <= 3)%nat).
  { apply size_le_of_lt; [assumption| |lia]. apply N.lt_trans with (2 ^ 16); [assumption|apply N.pow_lt_mono_r; lia]. }
  apply agree_any; [assumption|reflexivity|exact Hs| |].
  - intros i Hi. assert (Hi2 : (i < 2)%nat) by lia. clear Hi.
    destruct i as [|[|i]]; [| |lia]; cbn; rewrite ?N.shiftr_0_r; reflexivity.
  - intros y Hy. pose proof (last_lt x H64) as Hlast.
    destruct (size_varint_bounds x H64) as (Hb & _ & _).
    destruct (size_varint x) as [|[|[|[|n]]]]; [exfalso; lia| | | |exfalso; lia];
      cbn [chain16 Nat.sub nth_error] in *; apply Some_inj in Hy; subst y; chain_last.
Qed.

Lemma agree32 : forall x, x < 2 ^ 32 -> agree (chain32 x) (size_varint x) x.
Proof.
  intros x Hx.
  assert (H64 : x < 2 ^ 64) by (apply N.lt_trans with (2 ^ 32); [assumption|apply N.pow_lt_mono_r; lia]).
  assert (Hs : (size_varint x <= 5)%nat).
  { apply size_le_of_lt; [assumption| |lia]. apply N.lt_trans with (2 ^ 32); [assumption|apply N.pow_lt_mono_r; lia]. }
  apply agree_any; [assumption|reflexivity|exact Hs| |].
  - intros i Hi. assert (Hi2 : (i < 4)%nat) by lia. clear Hi.
    destruct i as [|[|[|[|i]]]]; [| | | |lia]; cbn; rewrite ?N.shiftr_0_r; reflexivity.
  - intros y Hy. pose proof (last_lt x H64) as Hlast.
    destruct (size_varint_bounds x H64) as (Hb & _ & _).
    destruct (size_varint x) as [|[|[|[|[|[|n]]]]]]; [exfalso; lia| | | | | |exfalso; lia];
      cbn [chain32 Nat.sub nth_error] in *; apply Some_inj in Hy; subst y; chain_last.
Qed.

Lemma ten_top : forall x, x < 2 ^ 64 -> size_varint x = 10%nat ->
  byte (N.shiftr x 56) = b80 (N.shiftr x 56) /\ N.shiftr x 63 = 1.
Proof.
  intros x Hx Hs. destruct (size_varint_bounds x Hx) as (_ & _ & H3). rewrite Hs in H3.
  destruct H3 as [H3|H3]; [lia|]. change (7 * N.of_nat (10 - 1)) with 63 in H3.
  rewrite !shiftr_div.
  assert (Ha : 128 <= x / 2 ^ 56) by (apply N.div_le_lower_bound; [apply N.pow_nonzero; lia|exact H3]).
  assert (Hb : x / 2 ^ 56 < 256) by (apply N.div_lt_upper_bound; [apply N.pow_nonzero; lia|exact Hx]).
  split.
  - rewrite b80_eq. unfold byte. lia.
  - assert (1 <= x / 2 ^ 63) by (apply N.div_le_lower_bound; [apply N.pow_nonzero; lia|exact H3]).
    assert (x / 2 ^ 63 < 2) by (apply N.div_lt_upper_bound; [apply N.pow_nonzero; lia|exact Hx]).
    lia.
Qed.

Lemma agree64 : forall x, x < 2 ^ 64 -> agree (chain64 x) (size_varint x) x.
Proof.
  intros x Hx.
  destruct (size_varint_bounds x Hx) as (Hb & _ & _).
  pose proof (ten_top x Hx) as Hten.
  apply agree_any; [assumption|reflexivity|simpl; lia| |].
  - intros i Hi. assert (Hi2 : (i < 9)%nat) by lia.
    do 8 (destruct i as [|i]; [cbn; rewrite ?N.shiftr_0_r; reflexivity|]).
    destruct i as [|i]; [|lia]. cbn [chain64 nth_error]. f_equal. apply Hten. lia.
  - intros y Hy. pose proof (last_lt x Hx) as Hlast.
    destruct (size_varint x) as [|n]; [lia|].
    do 9 (destruct n as [|n]; [cbn [chain64 Nat.sub nth_error] in *; apply Some_inj in Hy; subst y; chain_last|]).
    destruct n as [|n]; [|lia]. cbn [chain64 Nat.sub nth_error] in Hy. apply Some_inj in Hy; subst y.
    symmetry. apply Hten. reflexivity.
Qed.

Lemma agree64w : forall x, x < 2 ^ 64 -> agree (chain64w x) (size_varint x) x.
Proof.
  intros x Hx.
  destruct (size_varint_bounds x Hx) as (Hb & _ & _).
  pose proof (ten_top x Hx) as Hten.
  apply agree_any; [assumption|reflexivity|simpl; lia| |].
  - intros i Hi. assert (Hi2 : (i < 9)%nat) by lia.
    do 9 (destruct i as [|i]; [cbn; rewrite ?N.shiftr_0_r; reflexivity|]). lia.
  - intros y Hy. pose proof (last_lt x Hx) as Hlast.
    destruct (size_varint x) as [|n]; [lia|].
    do 9 (destruct n as [|n]; [cbn [chain64w Nat.sub nth_error] in *; apply Some_inj in Hy; subst y; chain_last|]).
    destruct n as [|n]; [|lia]. cbn [chain64w Nat.sub nth_error] in Hy. apply Some_inj in Hy; subst y.
    symmetry. apply Hten. reflexivity.
Qed.

(* ---- put_uvarint on a chunk ---- *)

Lemma put_uvarint_chunk : forall a old b sp off x, off = length a -> x < 2 ^ 64 ->
  length old = size_varint x ->
  put_uvarint (mk (a ++ old ++ b) sp) off x = Ok (mk (a ++ uvarint x ++ b) sp, size_varint x).
Proof.
  intros a old b sp off x -> Hx Ho. unfold put_uvarint, len; cbn [data].
  rewrite !app_length.
  destruct (Nat.leb_spec (length a) (length a + (length old + length b))); [|lia].
  destruct (N.ltb_spec x 128) as [Hs|Hs].
  - rewrite <- (uvarint_length x Hx) in *. rewrite uvarint_small in * by assumption.
    rewrite byte_id by lia. rewrite put_chunk by (reflexivity || assumption). reflexivity.
  - rewrite put_chunk; [|reflexivity|rewrite uvarint_length by assumption; exact Ho].
    cbn [bind]. rewrite uvarint_length by assumption. reflexivity.
Qed.

Section WithEnv.
Context `{E : Env}.

Lemma append_wire_bytes_spec : forall p tag v, nlen v < 2 ^ 64 -> exists sp,
  append_wire_bytes p tag v = Ok (mk (data p ++ hdr tag 2 :: uvarint (nlen v) ++ v) sp).
Proof.
  intros p tag v Hv. unfold append_wire_bytes. cbv zeta.
  match goal with |- context [append p (?h :: ?c)] => change (h :: c) with ([h] ++ chain64w (nlen v)) end.
  destruct (append_spec p ([hdr tag wireBytes] ++ chain64w (nlen v))) as [sp0 ->].
  rewrite app_assoc.
  destruct (mask_truncate_agree (chain64w (nlen v)) (data p ++ [hdr tag wireBytes]) (nlen v) sp0
    (size_varint (nlen v) + (len (mk ((data p ++ [hdr tag wireBytes]) ++ chain64w (nlen v)) sp0) - 10))%nat) as [sp1 ->].
  - assumption.
  - apply agree64w. assumption.
  - unfold len; cbn [data]. rewrite !app_length. change (length (chain64w (nlen v))) with 10%nat. lia.
  - cbn [bind]. destruct (append_spec (mk ((data p ++ [hdr tag wireBytes]) ++ uvarint (nlen v)) sp1) v) as [sp2 ->].
    exists sp2. cbn [data]. rewrite <- !app_assoc. reflexivity.
Qed.

End WithEnv.
