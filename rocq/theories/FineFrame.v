(* The operations of Fine.v on part of a goroutine's memory: what they leave alone. *)
From Coq Require Import String List NArith Arith Bool Lia.
From Coq Require Import List.
From Verif Require Import Base GoSlice Varint MsgModel Conn AuthModel Mem Fine FineProofs.
From Verif Require MemProofs.
Import ListNotations.
Local Open Scope nat_scope.
Local Notation length := List.length.

Import MemProofs(sub_length, nth_skipn, nth_sub, ow_length, nth_ow, list_ext, sub_firstn, skipn_sk, tl, tl_refl, tl_len, view_make, owns).

(* Since m, no array has gone, and nothing but elements reachable through s from index lo on has changed. *)
Definition outside (m : heap) (s : hslice) (lo : nat) (m' : heap) : Prop :=
  forall a, m a <> None -> m' a <> None /\ length (array m' a) = length (array m a) /\
    forall i, ~ owns s lo a i -> nth i (array m' a) 0%N = nth i (array m a) 0%N.

(* s' is in the memory of s or in memory allocated since m. *)
Definition within (m : heap) (s s' : hslice) : Prop :=
  (arr s' = arr s /\ off s' = off s /\ hcap s' = hcap s) \/ m (arr s') = None \/ hcap s' = 0.

(* In m, s is the slice value p; compared with m0, only memory of s0 from index lo on has changed. *)
Definition sf (m0 : heap) (s0 : hslice) (lo : nat) (m : heap) (p : slice) (s : hslice) : Prop :=
  sl m p s /\ outside m0 s0 lo m /\ within m0 s0 s.

(* b is s[k:k+n]. *)
Definition part (s b : hslice) (k n : nat) : Prop :=
  k + n <= hlen s /\ b = mkh (arr s) (off s + k) n (hcap s - k).

Lemma tl_part s b k : tl s b k -> part s b k (hlen s - k).
Proof. intros [T ->]. split; [lia|reflexivity]. Qed.

Lemma outside_refl m s lo : outside m s lo m.
Proof. intros a A. auto. Qed.

Lemma outside_upd m0 s0 lo m a l : outside m0 s0 lo m -> m a = None -> outside m0 s0 lo (upd m a l).
Proof.
  intros O Ha b B. destruct (O b B) as [N [L V]]. rewrite array_upd. unfold upd.
  destruct (Nat.eqb_spec b a) as [->|]; [contradiction|]. auto.
Qed.

Lemma outside_write m0 s0 lo m s o xs : outside m0 s0 lo m -> within m0 s0 s -> wf m s -> lo <= o -> o + length xs <= hcap s ->
  outside m0 s0 lo (write m (arr s) (off s + o) xs).
Proof.
  intros O W [W1 W2] Lo Lx a A. destruct (O a A) as [N [O1 O2]].
  split; [rewrite write_some; exact N|].
  rewrite array_write by lia. destruct (Nat.eqb_spec a (arr s)) as [->|Na]; [|auto].
  split; [rewrite ow_length by lia; exact O1|]. intros i I. rewrite nth_ow by lia.
  destruct (Nat.leb_spec (off s + o) i), (Nat.ltb_spec i (off s + o + length xs)); cbn [andb]; auto.
  exfalso. destruct W as [[Wa [Wb Wc]]|[W|W]]; [|contradiction|lia]. apply I. split; [exact Wa|lia].
Qed.

Lemma outside_trans m s lo m1 m2 : outside m s lo m1 -> outside m1 s lo m2 -> outside m s lo m2.
Proof.
  intros O1 O2 a A. destruct (O1 a A) as [N [L V]]. destruct (O2 a N) as [N2 [L2 V2]].
  split; [exact N2|]. split; [congruence|]. intros i I. rewrite V2, V by exact I. reflexivity.
Qed.

(* What is reached through t and not through s from lo on is kept. *)
Lemma outside_keeps m s lo m' t : outside m s lo m' -> wf m t ->
  (forall i, i < hlen t -> ~ owns s lo (arr t) (off t + i)) -> hcap t = 0 \/ m (arr t) <> None ->
  contents m' t = contents m t /\ (off t + hlen t <= length (array m' (arr t)) \/ hlen t = 0).
Proof.
  intros O [W1 W2] D Hn. destruct Hn as [Z|Hn].
  - assert (Z0 : hlen t = 0) by lia. unfold contents. rewrite Z0. auto.
  - destruct (O _ Hn) as [_ [L V]]. split; [|left; rewrite L; lia]. unfold contents. apply list_ext; [rewrite !sub_length by lia; reflexivity|].
    rewrite sub_length by lia. intros i I. rewrite !nth_sub by exact I. apply V, D, I.
Qed.

Lemma sf_start m s lo : wf m s -> sf m s lo m (view m s) s.
Proof. intros W. split; [apply sl_start; exact W|]. split; [apply outside_refl|]. left; auto. Qed.

Lemma safe_and {A} (c : go A) : forall m (Q Q' : heap -> option A -> Prop), safe c m Q -> safe c m Q' -> safe c m (fun m o => Q m o /\ Q' m o).
Proof.
  induction c as [a| |a i k IH|a i x k IH|l k IH]; cbn [safe]; intros m Q Q' H1 H2; auto.
  - destruct H1, H2. split; auto.
  - destruct H1, H2. split; auto.
Qed.

Lemma ref_and {A B} (r : res A) (c : go B) m (R : heap -> A -> B -> Prop) (P : heap -> B -> Prop) :
  refines r c m R -> safe c m (fun m' o => match o with Some b => P m' b | None => True end) ->
  refines r c m (fun m' a b => R m' a b /\ P m' b).
Proof.
  intros H1 H2. unfold refines in *. eapply safe_weaken; [|exact (safe_and _ _ _ _ H1 H2)]. cbv beta.
  intros m' o [G1 G2]. destruct r, o; auto.
Qed.

Section Ops.
Context `{E : Env}.
Variables (m0 : heap) (s0 : hslice) (lo : nat).
Local Notation sf := (sf m0 s0 lo).

Lemma sf_len m p s : sf m p s -> len p = hlen s.
Proof. intros [S _]. exact (sl_len _ _ _ S). Qed.

Lemma sf_sl m p s : sf m p s -> sl m p s.
Proof. intros [S _]. exact S. Qed.

Lemma sf_put m p s o xs : sf m p s -> lo <= o -> o + length xs <= hlen s ->
  sf (write m (arr s) (off s + o) xs) (mk (ow (data p) o xs) (spare p)) s.
Proof.
  intros [S [O W]] Lo L. pose proof S as [[W1 W2] _]. split; [apply sl_put; assumption|]. split; [|exact W].
  apply outside_write; auto; [split; assumption|lia].
Qed.

(* b[o], b[o+1], .. of part of s *)
Lemma sf_put_part m p s b k n j i xs : sf m p s -> part s b k n -> j + length xs <= n -> i = k + j -> lo <= i ->
  refines (put p i xs) (g_put b j xs) m (fun m' p' _ => sf m' p' s).
Proof.
  intros S [P ->] L -> Lo. unfold put, g_put. cbn [hlen arr off]. rewrite (sf_len _ _ _ S). pose proof S as [[[W1 W2] _] _].
  destruct (Nat.leb_spec (k + j + length xs) (hlen s)); [|lia]. destruct (Nat.leb_spec (j + length xs) n); [|lia].
  unfold refines. apply safe_stores; [lia|]. rewrite <- Nat.add_assoc. apply sf_put; [exact S|exact Lo|lia].
Qed.

Lemma sf_put_tl m p s b k i o xs : sf m p s -> tl s b k -> i = k + o -> lo <= i ->
  refines (put p i xs) (g_put b o xs) m (fun m' p' _ => sf m' p' s).
Proof.
  intros S T Ei Lo. destruct (Nat.leb_spec (o + length xs) (hlen s - k)).
  - eapply sf_put_part; [exact S|apply tl_part; exact T|assumption|exact Ei|exact Lo].
  - unfold put, g_put. rewrite (sf_len _ _ _ S), (tl_len _ _ _ T). destruct T as [T _].
    destruct (Nat.leb_spec (i + length xs) (hlen s)), (Nat.leb_spec (o + length xs) (hlen s - k)); try lia. exact I.
Qed.

Lemma nth_error_firstn (l : bytes) : forall n j, j < n -> nth_error (firstn n l) j = nth_error l j.
Proof. induction l as [|x l IH]; intros [|n] [|j] L; cbn; try lia; auto. apply IH. lia. Qed.

Lemma part_get m p s b k n j : sf m p s -> part s b k n -> j < n ->
  j < hlen b /\ off b + j < length (array m (arr b)) /\ nth_error (data p) (k + j) = Some (nth (off b + j) (array m (arr b)) 0%N).
Proof.
  intros [S _] [P ->] L. cbn [hlen off arr]. pose proof S as [[W1 W2] _]. split; [exact L|]. split; [lia|].
  rewrite <- (sl_contents _ _ _ S). unfold contents. rewrite <- Nat.add_assoc, <- (nth_sub (array m (arr s)) (off s) (hlen s) (k + j) 0%N) by lia.
  apply nth_error_nth'. rewrite sub_length; lia.
Qed.

Lemma firstn_1_skipn (l : bytes) k x : nth_error l k = Some x -> firstn 1 (skipn k l) = [x].
Proof. revert l; induction k as [|k IH]; intros [|y l] N; try discriminate; cbn in *; [congruence|apply IH; exact N]. Qed.

Lemma sf_upd_part m p s b k n j i f : sf m p s -> part s b k n -> j < n -> i = k + j -> lo <= i ->
  refines (GoSlice.upd p i f) (g_upd b j f) m (fun m' p' _ => sf m' p' s).
Proof.
  intros S P L -> Lo. destruct (part_get m p s b k n j S P L) as [Lj [La En]]. unfold GoSlice.upd, g_upd. rewrite En.
  destruct (Nat.ltb_spec j (hlen b)); [|lia]. unfold refines. cbn [safe]. split; [exact La|].
  eapply (sf_put_part m p s b k n j (k + j) [_] S P); [cbn [length]; lia|reflexivity|exact Lo].
Qed.

Lemma skipn_sub l o n k : k <= n -> skipn k (sub l o n) = sub l (o + k) (n - k).
Proof. intros L. unfold sub. rewrite skipn_firstn_comm, skipn_sk. reflexivity. Qed.

Lemma part_contents m p s b k n : sl m p s -> part s b k n ->
  contents m b = firstn n (skipn k (data p)) /\ off b + hlen b <= length (array m (arr b)).
Proof.
  intros [[W1 W2] <-] [L ->]. unfold contents, view; cbn [data arr off hlen].
  rewrite sub_firstn, skipn_sub, sub_firstn by lia. split; [reflexivity|lia].
Qed.

(* reading part of s *)
Lemma sf_read_part {B B'} m p s b k n (f : bytes -> res B) (g : bytes -> go B') Q : sf m p s -> part s b k n ->
  (forall x, refines (f x) (g x) m Q) ->
  refines (bind (get_bytes p k n) f) (gbind (g_read b) g) m Q.
Proof.
  intros S P H. destruct (part_contents m p s b k n (sf_sl _ _ _ S) P) as [Ec Lc]. unfold get_bytes. rewrite (sf_len _ _ _ S).
  pose proof P as [P1 _]. destruct (Nat.leb_spec (k + n) (hlen s)); [|lia]. cbn [bind].
  eapply ref_read; [left; exact Lc|exact Ec|]. apply H.
Qed.

Lemma sf_append m p s xs : sf m p s -> lo <= hlen s ->
  refines (Ok (append p xs)) (g_append s xs) m (fun m' p' s' => sf m' p' s' /\ hlen s' = hlen s + length xs).
Proof.
  intros [S [O W]] Lo. pose proof S as [[W1 W2] _].
  eapply ref_weaken.
  - apply (ref_and _ _ _ _ (fun m' s' => outside m0 s0 lo m' /\ within m0 s0 s') (ref_append m p s xs S (Nat.le_0_l _))).
    unfold g_append. destruct (Nat.leb_spec (hlen s + length xs) (hcap s)).
    + apply safe_bind, safe_stores; [lia|]. cbn [safe]. split; [apply outside_write; auto; split; assumption|].
      destruct W as [W|W]; [left|right]; exact W.
    + apply safe_bind. unfold g_read. apply safe_loads; [lia|]. cbn [g_new safe]. intros a Ha. split; [apply outside_upd; assumption|].
      right; left. cbn [arr]. destruct (m0 a) eqn:Ea; [|reflexivity]. destruct (O a ltac:(congruence)). contradiction.
  - cbv beta. intros m' p' s' [[S' L'] [O' W']]. split; [|exact L']. split; [exact S'|]. auto.
Qed.

Lemma sf_reslice m p s n : sf m p s ->
  refines (reslice p n) (g_reslice s n) m (fun m' p' s' => sf m' p' s' /\ hlen s' = n).
Proof.
  intros [S [O W]]. eapply ref_weaken.
  - apply (ref_and _ _ _ _ (fun m' s' => outside m0 s0 lo m' /\ within m0 s0 s') (ref_reslice m p s n S)).
    unfold g_reslice. destruct (n <=? hcap s); cbn [safe]; [|exact I]. split; [exact O|]. destruct W as [W|W]; [left|right]; exact W.
  - cbv beta. intros m' p' s' [[S' L'] [O' W']]. split; [|exact L']. split; [exact S'|]. auto.
Qed.

Lemma sf_mask_truncate m p s n : sf m p s -> lo < n ->
  refines (mask_truncate p n) (g_mask_truncate s n) m (fun m' p' s' => sf m' p' s' /\ hlen s' = n).
Proof.
  intros S Lo. unfold mask_truncate, g_mask_truncate. eapply (ref_bind _ _ _ _ _ (fun m' p' _ => sf m' p' s)).
  - destruct (Nat.ltb_spec (n - 1) (hlen s)) as [L|L].
    + eapply sf_upd_part; [exact S|apply (tl_part s s 0); apply tl_refl| |reflexivity|]; lia.
    + unfold GoSlice.upd, g_upd. pose proof (sf_len _ _ _ S) as Ln. unfold len in Ln.
      rewrite (proj2 (nth_error_None (data p) (n - 1))) by lia. destruct (Nat.ltb_spec (n - 1) (hlen s)); [lia|exact I].
  - intros m' p' u S'. apply sf_reslice; exact S'.
Qed.

Lemma sf_copy m p s b k i o xs : sf m p s -> tl s b k -> i = k + o -> lo <= i ->
  refines (copy_at p i xs) (g_copy b o xs) m (fun m' p' n => sf m' p' s /\ n = Nat.min (hlen b - o) (length xs)).
Proof.
  intros [S [O W]] T Ei Lo. pose proof S as [[W1 W2] _].
  eapply ref_weaken.
  - apply (ref_and _ _ _ _ (fun m' _ => outside m0 s0 lo m') (ref_copy m p s b k i o xs S T Ei (Nat.le_0_l _))).
    destruct T as [T ->]. unfold g_copy, g_from. cbn [hlen arr off hcap]. destruct (Nat.leb_spec o (hlen s - k)); cbn [gbind safe]; [|exact I].
    cbn [hlen arr off]. apply safe_bind, safe_stores; [rewrite firstn_length; lia|]. cbn [safe].
    rewrite <- Nat.add_assoc. apply outside_write; auto; [split; assumption|lia|rewrite firstn_length; lia].
  - cbv beta. intros m' p' n [[S' [En _]] O']. split; [|exact En]. split; [exact S'|]. auto.
Qed.

End Ops.
