(* Proofs about a batch of updates for which slice.Insert grows the buffer by its 512 bytes again and again. *)
From Coq Require Import String List NArith ZArith Arith Bool Lia ZifyN ZifyNat ZifyBool.
From Coq Require Import List.
From Verif Require Import Base GoSlice Varint Values Text AnyModel ExprModel MsgModel Builder Mem MemModel MemProofs SpecSpend SpendProofs.
Import ListNotations.
Local Open Scope nat_scope.
Open Scope list_scope.

Section More.
Context {E : Env}.

(* h does not panic, and Q holds after it *)
Definition to {B} (h : H B) (m : mem) (Q : B -> mem -> Prop) : Prop :=
  match h m with HOk b m' => Q b m' | HPanic _ => False end.

Lemma to_bind : forall {B C} (h : H B) (f : B -> H C) m Q, to h m (fun b m' => to (f b) m' Q) -> to (hbind h f) m Q.
Proof. unfold to, hbind. intros B C h f m Q H. destruct (h m); auto. Qed.
Lemma to_ret : forall {B} (b : B) m (Q : B -> mem -> Prop), Q b m -> to (hret b) m Q.
Proof. intros. exact H. Qed.
Lemma to_mono : forall {B} (h : H B) m (Q Q' : B -> mem -> Prop), to h m Q -> (forall b m', Q b m' -> Q' b m') -> to h m Q'.
Proof. unfold to. intros B h m Q Q' H K. destruct (h m); auto. Qed.

Lemma to_from : forall s n m (Q : hslice -> mem -> Prop), wf m s -> n <= hlen s -> (forall b, wf m b -> hlen b = hlen s - n -> Q b m) -> to (h_from s n) m Q.
Proof. intros s n m Q [W1 W2] Hn K. unfold to, h_from. rewrite (proj2 (Nat.leb_le _ _) Hn). apply K; [|reflexivity]. split; cbn; lia. Qed.
Lemma to_reslice : forall s n m (Q : hslice -> mem -> Prop), wf m s -> n <= hcap s -> (forall b, wf m b -> hlen b = n -> hcap b = hcap s -> Q b m) -> to (h_reslice s n) m Q.
Proof. intros s n m Q [W1 W2] Hn K. unfold to, h_reslice. rewrite (proj2 (Nat.leb_le _ _) Hn). apply K; try reflexivity. split; cbn; lia. Qed.
Lemma to_put : forall s i xs m (Q : unit -> mem -> Prop), wf m s -> i + length xs <= hlen s -> (forall m', shape m m' -> Q tt m') -> to (h_put s i xs) m Q.
Proof. intros s i xs m Q W Hi K. unfold to, h_put. rewrite (proj2 (Nat.leb_le _ _) Hi). apply K. apply write_shape; [exact W|]. destruct W. lia. Qed.
Lemma to_copy : forall s i xs m (Q : nat -> mem -> Prop), wf m s -> i + length xs <= hlen s -> (forall m', shape m m' -> Q (length xs) m') -> to (h_copy s i xs) m Q.
Proof.
  intros s i xs m Q W Hi K. unfold h_copy. apply to_bind. apply to_from; [exact W|lia|]. intros b Wb Lb. unfold to. rewrite Nat.min_r by lia. apply K.
  pose proof (write_shape m b 0 (firstn (hlen b) xs) Wb) as H. rewrite Nat.add_0_r in H. apply H. rewrite firstn_length. destruct Wb. lia.
Qed.
Lemma to_put_uvarint : forall s i x m (Q : nat -> mem -> Prop), wf m s -> (x < 128)%N -> i < hlen s -> (forall m', shape m m' -> Q 1 m') -> to (h_put_uvarint s i x) m Q.
Proof.
  intros s i x m Q W Hx Hi K. unfold h_put_uvarint. apply to_bind. apply to_from; [exact W|lia|]. intros b Wb Lb. rewrite (proj2 (N.ltb_lt _ _) Hx).
  apply to_bind. apply to_put; [exact Wb|cbn; lia|]. intros m' Sh. apply to_ret. apply K. exact Sh.
Qed.
Lemma to_read : forall s m (Q : bytes -> mem -> Prop), wf m s -> (forall l, length l = hlen s -> Q l m) -> to (h_read s) m Q.
Proof. intros s m Q [W1 W2] K. unfold to, h_read. apply K. unfold contents. apply sub_length. lia. Qed.
Lemma to_make : forall n c m (Q : hslice -> mem -> Prop), n <= c ->
  (forall b m', wf m' b -> hlen b = n -> hcap b = c -> allocated m' = allocated m + c -> (forall s, wf m s -> wf m' s) -> Q b m') -> to (h_make n c) m Q.
Proof.
  intros n c m Q H K. pose proof (wp_make n c m (fun b m' => Q b m') H K) as X. unfold wp, h_make, h_new in X. unfold to, h_make, h_new. exact X.
Qed.

Lemma to_append_in : forall s xs m (Q : hslice -> mem -> Prop), wf m s -> hlen s + length xs <= hcap s ->
  (forall s' m', wf m' s' -> shape m m' -> hlen s' = hlen s + length xs -> hcap s' = hcap s -> Q s' m') -> to (h_append s xs) m Q.
Proof.
  intros s xs m Q W Hf K. unfold to, h_append. rewrite (proj2 (Nat.leb_le _ _) Hf). pose proof (write_shape m s (hlen s) xs W Hf) as Sh.
  apply K; [|exact Sh|reflexivity|reflexivity]. apply (shape_wf m); [exact Sh|]. destruct W. split; cbn; lia.
Qed.

Lemma to_for_append_in : forall s n m (Q : hslice * hslice -> mem -> Prop), wf m s -> hlen s + n <= hcap s ->
  (forall s' b, wf m s' -> wf m b -> hlen s' = hlen s + n -> hcap s' = hcap s -> hlen b = n -> Q (s', b) m) -> to (h_for_append s n) m Q.
Proof.
  intros s n m Q W Hf K. unfold h_for_append. cbv zeta. apply to_bind. rewrite (proj2 (Nat.leb_le _ _) Hf). apply to_reslice; [exact W|exact Hf|]. intros h Wh Lh Ch.
  apply to_bind. apply to_from; [exact Wh|lia|]. intros b Wb Lb. apply to_ret. apply K; try assumption. lia.
Qed.
Lemma to_for_append_new : forall s n m (Q : hslice * hslice -> mem -> Prop), wf m s -> hcap s < hlen s + n ->
  (forall s' b m', wf m' s' -> wf m' b -> hlen s' = hlen s + n -> hcap s' = 2 * (hlen s + n) -> hlen b = n -> allocated m' = allocated m + 2 * (hlen s + n) -> Q (s', b) m') -> to (h_for_append s n) m Q.
Proof.
  intros s n m Q W Hf K. unfold h_for_append. cbv zeta. apply to_bind. rewrite (proj2 (Nat.leb_gt _ _) Hf). apply to_bind. apply to_make; [lia|]. intros h m1 Wh Lh Ch Am Old.
  apply to_bind. apply to_read; [apply Old; exact W|]. intros l Ll. apply to_bind. apply to_copy; [exact Wh|lia|]. intros m2 Sh. apply to_ret. apply to_bind.
  apply to_from; [apply (shape_wf m1); assumption|lia|]. intros b Wb Lb. apply to_ret. apply K; try assumption; [apply (shape_wf m1); assumption|lia|]. rewrite (shape_allocated _ _ Sh). exact Am.
Qed.

Lemma to_insert_in : forall s pos n m (Q : hslice -> mem -> Prop), wf m s -> 0 < n -> pos <= hlen s -> hlen s + n <= hcap s ->
  (forall s' m', wf m' s' -> shape m m' -> hlen s' = hlen s + n -> hcap s' = hcap s -> Q s' m') -> to (h_insert s pos n) m Q.
Proof.
  intros s pos n m Q W Hn Hp Hf K. unfold h_insert. destruct n as [|n]; [lia|]. rewrite (proj2 (Nat.leb_le (pos + S n) (hcap s)) ltac:(lia)). apply to_bind.
  apply to_reslice; [exact W|lia|]. intros h Wh Lh Ch. apply to_bind. apply to_from; [exact W|exact Hp|]. intros t Wt Lt. unfold h_append_slice. apply to_bind.
  apply to_read; [exact Wt|]. intros l Ll. apply to_append_in; [exact Wh|lia|]. intros s' m' W' Sh L C. apply K; try assumption; lia.
Qed.
Lemma to_insert_new : forall s pos n m (Q : hslice -> mem -> Prop), wf m s -> pos <= hlen s -> hcap s < pos + n ->
  (forall s' m', wf m' s' -> hlen s' = hlen s + n -> hcap s' = hlen s + n + 512 -> allocated m' = allocated m + (hlen s + n + 512) -> Q s' m') -> to (h_insert s pos n) m Q.
Proof.
  intros s pos n m Q W Hp Hf K. pose proof W as [W1 W2]. unfold h_insert. destruct n as [|n]; [lia|]. rewrite (proj2 (Nat.leb_gt (pos + S n) (hcap s)) Hf). apply to_bind.
  apply to_make; [lia|]. intros p m1 Wp Lp Cp Am Old. apply to_bind. apply to_reslice; [apply Old; exact W|lia|]. intros a Wa La Ca.
  apply to_bind. apply to_read; [exact Wa|]. intros l Ll. apply to_bind. apply to_copy; [exact Wp|lia|]. intros m2 S2. apply to_bind.
  apply to_from; [apply (shape_wf m1); [exact S2|apply Old; exact W]|exact Hp|]. intros t Wt Lt. apply to_bind. apply to_read; [exact Wt|]. intros l2 Ll2.
  apply to_bind. apply to_copy; [apply (shape_wf m1); assumption|lia|]. intros m3 S3. apply to_ret.
  apply K; [apply (shape_wf m2); [exact S3|apply (shape_wf m1); assumption]|exact Lp|exact Cp|]. rewrite (shape_allocated _ _ S3), (shape_allocated _ _ S2). exact Am.
Qed.

(* ---- one update of the batch ---- *)

Definition table : bytes := s2b "users".
Definition column : bytes := s2b "notifications_active".
Lemma table_len : length table = 5. Proof. reflexivity. Qed.
Lemma column_len : length column = 20. Proof. reflexivity. Qed.
Lemma sizev_small : forall n, n < 128 -> sizev n = 1.
Proof.
  intros n H. unfold sizev, size_varint. assert (Hs : (N.size (N.of_nat n) <= 7)%N).
  { destruct n as [|n]; [cbn; lia|]. rewrite N.size_log2 by lia. assert (N.log2 (N.of_nat (S n)) < 7)%N; [|lia]. apply N.log2_lt_pow2; lia. }
  assert (Hq : ((9 * N.size (N.of_nat n) + 64) / 64 = 1)%N); [|lia]. symmetry. apply (N.div_unique _ 64 1 (9 * N.size (N.of_nat n))); lia.
Qed.

Ltac shp Sh := match type of Sh with shape ?m ?m' =>
  repeat match goal with W : wf m ?b |- _ => apply (shape_wf m m' b Sh) in W | X : allocated m = ?a |- _ => apply (eq_trans (shape_allocated m m' Sh)) in X end; clear Sh end.
Ltac bd := cbn [length]; unfold le32; cbn [length]; rewrite ?table_len, ?column_len; lia.
Ltac go := cbv beta zeta iota; match goal with
  | |- to (hbind _ _) _ _ => apply to_bind
  | |- to (hret _) _ _ => apply to_ret
  | |- to (h_put _ _ _) _ _ => apply to_put; [assumption|bd|]; let Sh := fresh "Sh" in intros ? Sh; shp Sh
  | |- to (h_put_uvarint _ _ _) _ _ => apply to_put_uvarint; [assumption|bd|bd|]; let Sh := fresh "Sh" in intros ? Sh; shp Sh
  | |- to (h_copy _ _ _) _ _ => apply to_copy; [assumption|bd|]; let Sh := fresh "Sh" in intros ? Sh; shp Sh
  end.

(* p has room for r more bytes, and a bytes are allocated so far *)
Definition room (m : mem) (p : hslice) (l r a : nat) : Prop := wf m p /\ hlen p = l /\ hcap p = l + r /\ allocated m = a.

Lemma room_update : forall m p l r a, room m p l r a -> 16 <= r ->
  to (h_msg_update p table None) m (fun q m' => exists p', q = (p', None) /\ room m' p' (l + 16) (r - 16) a).
Proof.
  intros m p l r a (W & L & C & X) Hr. unfold h_msg_update. cbv zeta. rewrite table_len. rewrite !(sizev_small 5), !(sizev_small (1 + 1 + 5)) by lia.
  go. apply to_for_append_in; [exact W|lia|]. intros p1 b Wp Wb Lp Cp Lb. repeat go. eexists. split; [reflexivity|]. split; [assumption|]. lia.
Qed.
Lemma room_bool : forall m p l r a, room m p l r a -> 10 <= r ->
  to (h_append_expr (VBool true) p tagUpdateOperationValue) m (fun q m' => exists p', q = (p', None) /\ room m' p' (l + 10) (r - 10) a).
Proof.
  intros m p l r a (W & L & C & X) Hr. cbn [h_append_expr]. unfold h_okm, h_append_expr_bool. go. apply to_append_in; [exact W|cbn [length]; lia|]. intros p1 m1 W1 Sh L1 C1. shp Sh.
  cbn [length] in L1. go. eexists. split; [reflexivity|]. split; [assumption|]. lia.
Qed.
Lemma room_patch : forall m p l r a n, room m p l r a -> n + 4 <= l ->
  to (h_okm (h_patch_length p n)) m (fun q m' => exists p', q = (p', None) /\ room m' p' l r a).
Proof.
  intros m p l r a n (W & L & C & X) Hr. unfold h_okm, h_patch_length. go. go. go. go. eexists. split; [reflexivity|]. split; [assumption|]. lia.
Qed.
Lemma room_header : forall m p l r a i, room m p l r a -> l = i + 10 -> 28 <= r \/ r < 18 ->
  to (h_okm (h_set_header p i column)) m (fun q m' => exists p', q = (p', None) /\
    if 28 <=? r then room m' p' (l + 28) (r - 28) a else room m' p' (l + 28) 512 (a + (l + 540))).
Proof.
  intros m p l r a i (W & L & C & X) Hi Hr. unfold h_okm, h_set_header. cbv zeta. rewrite column_len, L. replace (l - i) with 10 by lia.
  rewrite !(sizev_small 20), !(sizev_small (1 + 1 + 20)), !(sizev_small (3 + 1 + (1 + 1 + 20) + 10)) by lia. apply to_bind. go. destruct (Nat.leb_spec 28 r) as [Hx|Hx].
  - apply to_insert_in; [exact W|lia|lia|lia|]. intros p1 m1 W1 Sh L1 C1. shp Sh. repeat go. eexists. split; [reflexivity|]. split; [assumption|]. lia.
  - apply to_insert_new; [exact W|lia|lia|]. intros p1 m1 W1 L1 C1 A1. rewrite X in A1. repeat go. eexists. split; [reflexivity|]. split; [assumption|]. lia.
Qed.

Definition one_update : call := CUpdate table None [(column, VBool true)].

Lemma room_one : forall m p l r a, room m p l r a -> 54 <= r \/ 26 <= r < 44 ->
  to (h_do_update table None [(column, VBool true)] p) m (fun q m' => exists p', q = (p', None) /\
    if 54 <=? r then room m' p' (l + 54) (r - 54) a else room m' p' (l + 54) 512 (a + (l + 566))).
Proof.
  intros m p l r a R Hr. pose proof R as (_ & L & _ & _). unfold h_do_update. cbv zeta. apply to_bind. apply (to_mono _ _ _ _ (room_update m p l r a R ltac:(lia))). intros q m1 (p1 & -> & R1). cbv iota beta.
  apply to_bind. cbn [h_update_sets]. unfold h_append_update_set. cbv zeta. apply to_bind. apply to_bind.
  apply (to_mono _ _ _ _ (room_bool m1 p1 _ _ a R1 ltac:(lia))). intros q m2 (p2 & -> & R2). cbv iota beta. pose proof R1 as (_ & L1 & _ & _). rewrite L1.
  apply (to_mono _ _ _ _ (room_header m2 p2 _ _ a (l + 16) R2 ltac:(lia) ltac:(lia))). intros q m3 (p3 & -> & R3). cbv iota beta. apply to_ret. cbv iota beta. rewrite L.
  assert (R4 : if 54 <=? r then room m3 p3 (l + 54) (r - 54) a else room m3 p3 (l + 54) 512 (a + (l + 566))).
  { destruct (Nat.leb_spec 28 (r - 16 - 10)), (Nat.leb_spec 54 r); try lia.
    - replace (l + 54) with (l + 16 + 10 + 28) by lia. replace (r - 54) with (r - 16 - 10 - 28) by lia. exact R3.
    - replace (l + 54) with (l + 16 + 10 + 28) by lia. replace (a + (l + 566)) with (a + (l + 16 + 10 + 540)) by lia. exact R3. }
  destruct (Nat.leb_spec 54 r); apply (to_mono _ _ _ _ (room_patch m3 p3 _ _ _ l R4 ltac:(lia))); intros q m4 X; exact X.
Qed.

(* ---- the batch ---- *)

Fixpoint updates (k : nat) : prog := match k with O => Ret None [] | S k => PCall 0 one_update (updates k) end.

Definition after_some (j : nat) (m : mem) (p : hslice) (l r a : nat) : Prop :=
  forall k (Q : list hbuilder * list (option exprfun) -> mem -> Prop),
    (forall p' m', room m' p' l r a -> to (h_run (updates k) [mkhb p' None false]) m' Q) -> to (h_run (updates (j + k)) [mkhb p None false]) m Q.

Lemma some_one : forall m p l r a, room m p l r a -> 54 <= r \/ 26 <= r < 44 ->
  if 54 <=? r then after_some 1 m p (l + 54) (r - 54) a else after_some 1 m p (l + 54) 512 (a + (l + 566)).
Proof.
  intros m p l r a R Hr. pose proof (room_one m p l r a R Hr) as H.
  destruct (54 <=? r); intros k Q K; cbn [Nat.add updates h_run nth_error map set_nth]; apply to_bind; unfold h_exec_call, h_guarded; cbn [hdisabled hberr hbuf one_update]; apply to_bind;
    apply (to_mono _ _ _ _ H); intros q m' (p' & -> & R'); cbv iota beta; apply to_ret; cbn [set_nth]; apply K; exact R'.
Qed.

Lemma some_fit : forall j m p l r a, room m p l (r + 54 * j) a -> after_some j m p (l + 54 * j) r a.
Proof.
  induction j as [|j IH]; intros m p l r a R k Q K.
  - cbn [Nat.add]. apply K. rewrite Nat.mul_0_r, !Nat.add_0_r in *. exact R.
  - pose proof (some_one m p l _ a R ltac:(lia)) as H. destruct (Nat.leb_spec 54 (r + 54 * S j)); [|lia]. change (S j + k) with (1 + (j + k)). apply H. intros p1 m1 R1.
    apply (IH m1 p1 (l + 54) r a); [replace (r + 54 * j) with (r + 54 * S j - 54) by lia; exact R1|]. replace (l + 54 + 54 * j) with (l + 54 * S j) by lia. exact K.
Qed.

(* ten updates: the first needs new memory, and there is as little room after them as before *)
Lemma some_cycle : forall m p l a, room m p l 26 a -> after_some 10 m p (l + 540) 26 (a + (l + 566)).
Proof.
  intros m p l a R k Q K. pose proof (some_one m p l 26 a R ltac:(lia)) as H. cbn [Nat.leb] in H. change (10 + k) with (1 + (9 + k)). apply H. intros p1 m1 R1.
  apply (some_fit 9 m1 p1 (l + 54) 26 (a + (l + 566)) R1). replace (l + 54 + 54 * 9) with (l + 540) by lia. exact K.
Qed.

Fixpoint cycles_take (l k : nat) : nat := match k with O => 0 | S k => l + 566 + cycles_take (l + 540) k end.

Lemma some_cycles : forall k m p l a, room m p l 26 a -> after_some (10 * k) m p (l + 540 * k) 26 (a + cycles_take l k).
Proof.
  induction k as [|k IH]; intros m p l a R k2 Q K.
  - cbn [Nat.add Nat.mul]. apply K. cbn [cycles_take]. rewrite Nat.mul_0_r, !Nat.add_0_r. exact R.
  - replace (10 * S k + k2) with (10 + (10 * k + k2)) by lia. apply (some_cycle m p l a R). intros p1 m1 R1. apply (IH m1 p1 _ _ R1). cbn [cycles_take] in K.
    replace (l + 540 + 540 * k) with (l + 540 * S k) by lia. replace (a + (l + 566) + cycles_take (l + 540) k) with (a + (l + 566 + cycles_take (l + 540) k)) by lia. exact K.
Qed.

Lemma cycles_square : forall k l, 270 * (k * k) + l * k <= cycles_take l k.
Proof. induction k as [|k IH]; intros l; cbn [cycles_take]; [lia|]. specialize (IH (l + 540)). nia. Qed.

(* ---- a first message that leaves 26 bytes of room, or 54 bytes more, or 108 bytes more ... ---- *)

Lemma room_prepare : forall m p stmt, wf m p -> hlen p = 0 -> length stmt <= 119 ->
  to (h_okm (h_msg_prepare p 1 stmt)) m (fun q m' => exists p', q = (p', None) /\
    if 15 + length stmt <=? hcap p then room m' p' (15 + length stmt) (hcap p - (15 + length stmt)) (allocated m)
    else room m' p' (15 + length stmt) (15 + length stmt) (allocated m + 2 * (15 + length stmt))).
Proof.
  intros m p stmt W L Hs. unfold h_okm, h_msg_prepare. cbv zeta. remember (length stmt) as x eqn:Hx. rewrite !(sizev_small x), !(sizev_small (1 + 1 + x)), !(sizev_small (3 + 1 + (1 + 1 + x))) by lia.
  change (size_varint 1) with 1. apply to_bind. go. destruct (Nat.leb_spec (15 + x) (hcap p)) as [Hc|Hc].
  - apply to_for_append_in; [exact W|lia|]. intros p1 b Wp Wb Lp Cp Lb. assert (Am : allocated m = allocated m) by reflexivity. revert Am. generalize (allocated m) at 2 3. intros a Am.
    repeat go. eexists. split; [reflexivity|]. split; [assumption|]. lia.
  - apply to_for_append_new; [exact W|lia|]. intros p1 b m1 Wp Wb Lp Cp Lb Am. revert Am. generalize (allocated m). intros a Am. repeat go. eexists. split; [reflexivity|]. split; [assumption|]. lia.
Qed.

Definition batch (stmt : bytes) (k : nat) : prog := PCall 0 (CPrepare 1 stmt) (updates k).

Lemma batch_runs : forall n c m, exists stmt k b m1 b' m',
  h_new_pipe n m = HOk b m1 /\ h_run (batch stmt k) [b] m1 = HOk ([b'], []) m' /\ hberr b' = None /\ 0 < hlen (hbuf b') /\ allocated m1 + c * hlen (hbuf b') <= allocated m'.
Proof.
  intros n c m.
  assert (P : exists x j, x <= 119 /\ if 15 + x <=? n then n - (15 + x) = 26 + 54 * j else 15 + x = 26 + 54 * j).
  { destruct (Nat.lt_ge_cases n 94) as [Hn|Hn].
    - exists 119, 2. split; [lia|]. destruct (Nat.leb_spec (15 + 119) n); lia.
    - exists ((n - 41) mod 54), ((n - 41) / 54). pose proof (Nat.mod_upper_bound (n - 41) 54 ltac:(lia)) as B. pose proof (Nat.div_mod (n - 41) 54 ltac:(lia)) as D. split; [lia|].
      destruct (Nat.leb_spec (15 + (n - 41) mod 54) n); lia. }
  destruct P as (x & j & Hx & Hj).
  pose (l := 15 + x + 54 * j). pose (k := c * (l + 540) + 1).
  exists (repeat 120%N x), (j + (10 * k + 0)).
  assert (M : to (h_new_pipe n) m (fun b m1 => b = mkhb (hbuf b) None false /\ wf m1 (hbuf b) /\ hlen (hbuf b) = 0 /\ hcap (hbuf b) = n)).
  { unfold h_new_pipe. apply to_bind. apply to_make; [lia|]. intros b m1 W L C _ _. apply to_ret. auto. }
  unfold to in M. destruct (h_new_pipe n m) as [b m1|] eqn:Hb; [|contradiction]. destruct M as (Eb & W & L & C). exists b, m1.
  assert (G : to (h_run (batch (repeat 120%N x) (j + (10 * k + 0))) [b]) m1 (fun q m' => exists p', q = ([mkhb p' None false], []) /\ hlen p' = l + 540 * k /\ allocated m1 + 270 * (k * k) <= allocated m')).
  { rewrite Eb. unfold batch. cbn [h_run nth_error map set_nth]. apply to_bind. unfold h_exec_call, h_guarded. cbn [hdisabled hberr hbuf]. apply to_bind.
    pose proof (room_prepare m1 (hbuf b) (repeat 120%N x) W L ltac:(rewrite repeat_length; exact Hx)) as R. rewrite repeat_length, C in R.
    apply (to_mono _ _ _ _ R). clear R. intros q m2 (p2 & -> & R2). cbv iota beta. apply to_ret. cbn [set_nth].
    assert (R3 : exists a, allocated m1 <= a /\ room m2 p2 (15 + x) (26 + 54 * j) a).
    { destruct (15 + x <=? n); rewrite Hj in R2 at 1.
      - exists (allocated m1). split; [lia|exact R2].
      - exists (allocated m1 + 2 * (15 + x)). split; [lia|]. destruct R2 as (A & B & D & F). split; [exact A|]. lia. }
    destruct R3 as (a & Ha & R3). apply (some_fit j m2 p2 _ 26 a R3). intros p3 m3 R4. apply (some_cycles k m3 p3 _ a R4). intros p4 m4 R5. cbn [updates h_run]. apply to_ret.
    destruct R5 as (_ & L5 & _ & A5). exists p4. split; [reflexivity|]. split; [unfold l; exact L5|]. rewrite A5. pose proof (cycles_square k (15 + x + 54 * j)). lia. }
  unfold to in G. destruct (h_run _ [b] m1) as [q m'|] eqn:Hr; [|contradiction]. destruct G as (p' & -> & Lp & Am). exists (mkhb p' None false), m'. split; [reflexivity|]. split; [reflexivity|].
  split; [reflexivity|]. cbn [hbuf]. rewrite Lp. split; [unfold l; lia|].
  assert (Q : c * (l + 540 * k) <= 270 * (k * k)).
  { assert (Hk : c * (l + 540) <= k) by (unfold k; lia). assert (1 <= k) by (unfold k; lia). clearbody k l. clear - Hk H.
    apply Nat.le_trans with (k * (c * (l + 540))); [|nia]. apply Nat.le_trans with (c * (k * (l + 540))); [apply Nat.mul_le_mono_l; nia|]. lia. }
  lia.
Qed.
End More.
