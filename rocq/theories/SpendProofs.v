(* Proofs about the memory that is allocated while a unit of work is built. *)
From Coq Require Import String List NArith ZArith Arith Bool Lia ZifyN ZifyNat ZifyBool.
From Coq Require Import List.
From Verif Require Import Base GoSlice Varint Values Text AnyModel ExprModel MsgModel Builder Mem MemModel MemProofs SpecValue SpecProg SpecSpend ValueProofs ReuseProofs.
Import ListNotations.
Local Open Scope nat_scope.
Open Scope list_scope.

(* ---- memory whose arrays keep their lengths ---- *)

Definition shape (m m' : mem) : Prop := map (@length N) m' = map (@length N) m.

Lemma shape_refl : forall m, shape m m.
Proof. reflexivity. Qed.
Lemma shape_trans : forall m1 m2 m3, shape m1 m2 -> shape m2 m3 -> shape m1 m3.
Proof. unfold shape. congruence. Qed.

Lemma shape_array : forall m m' a, shape m m' -> length (array m' a) = length (array m a).
Proof. intros m m' a H. unfold array. rewrite <- !(map_nth (@length N)). rewrite H. reflexivity. Qed.
Lemma shape_wf : forall m m' s, shape m m' -> wf m s -> wf m' s.
Proof. intros m m' s H [A B]. split; [exact A|]. rewrite (shape_array m m' _ H). exact B. Qed.
Lemma shape_allocated : forall m m', shape m m' -> allocated m' = allocated m.
Proof. intros m m' H. unfold allocated. rewrite H. reflexivity. Qed.

Lemma set_array_shape : forall m a l, length l = length (array m a) -> shape m (set_array m a l).
Proof.
  unfold shape. induction m as [|x m IH]; intros [|a] l H; cbn [set_array map]; [reflexivity..| |].
  - f_equal. exact H.
  - f_equal. apply IH. exact H.
Qed.
Lemma write_shape : forall m s o xs, wf m s -> o + length xs <= hcap s -> shape m (write m (arr s) (off s + o) xs).
Proof. intros m s o xs [A B] H. apply set_array_shape. apply ow_length. lia. Qed.

Lemma new_wf : forall m l n, n <= length l -> wf (m ++ [l]) (mkh (length m) 0 n (length l)).
Proof. intros m l n H. split; cbn [hlen hcap arr off]; [exact H|]. rewrite array_app_new. lia. Qed.
Lemma new_allocated : forall m l, allocated (m ++ [l]) = allocated m + length l.
Proof. intros m l. unfold allocated. rewrite map_app, list_sum_app. f_equal. apply Nat.add_0_r. Qed.

Section Spend.
Context {E : Env}.
Hypothesis HE : geometric E.
Variable A : Prop.

(* From s in m to s' in m': at most k bytes more than s' holds were held in between; g times the
   slice grew by the 512 bytes of slice.Insert, and otherwise geometrically. *)
Definition Step (k : nat) (m : mem) (s : hslice) (m' : mem) (s' : hslice) : Prop :=
  wf m' s' /\ hlen s <= hlen s' /\ hcap s <= hcap s' /\ hcap s' <= Nat.max (hcap s) (3 * (hlen s' + k) + 512) /\
  exists g, (g = 0 \/ A) /\ 512 * g + hcap s <= hcap s' /\
    allocated m' + 5 * hcap s <= allocated m + 5 * hcap s' + g * (hlen s' + k + 512).

Lemma Step_wf : forall k m s m' s', Step k m s m' s' -> wf m' s'.
Proof. intros k m s m' s' H. apply H. Qed.
Lemma Step_refl : forall k m s, wf m s -> Step k m s m s.
Proof. intros k m s H. split; [exact H|]. split; [lia|]. split; [lia|]. split; [lia|]. exists 0. lia. Qed.
Lemma Step_weaken : forall k k' m s m' s', k <= k' -> Step k m s m' s' -> Step k' m s m' s'.
Proof.
  intros k k' m s m' s' H (W & L & C & D & g & G & P & Q). split; [exact W|]. split; [exact L|]. split; [exact C|]. split; [lia|].
  exists g. split; [exact G|]. split; [exact P|].
  assert (M : g * (hlen s' + k + 512) <= g * (hlen s' + k' + 512)) by (apply Nat.mul_le_mono_l; lia). lia.
Qed.
Lemma Step_trans : forall k m1 s1 m2 s2 m3 s3, Step k m1 s1 m2 s2 -> Step k m2 s2 m3 s3 -> Step k m1 s1 m3 s3.
Proof.
  intros k m1 s1 m2 s2 m3 s3 (W & L & C & D & g & G & P & Q) (W' & L' & C' & D' & g' & G' & P' & Q'). split; [exact W'|]. split; [lia|]. split; [lia|]. split; [lia|].
  exists (g + g'). split; [destruct G as [->|G]; [exact G'|right; exact G]|]. split; [lia|].
  assert (M : g * (hlen s2 + k + 512) <= g * (hlen s3 + k + 512)) by (apply Nat.mul_le_mono_l; lia). rewrite Nat.mul_add_distr_r. lia.
Qed.
Lemma Step_shape : forall k m s m1 s1 m2, Step k m s m1 s1 -> shape m1 m2 -> Step k m s m2 s1.
Proof.
  intros k m s m1 s1 m2 (W & R) H. split; [apply (shape_wf m1); assumption|]. rewrite (shape_allocated _ _ H). exact R.
Qed.
(* the end of the slice is cut off, or unused bytes after it are made part of it *)
Lemma Step_cut : forall j k m s m1 s1 m2 s2, Step k m s m1 s1 -> shape m1 m2 -> wf m2 s2 -> hcap s2 = hcap s1 -> hlen s <= hlen s2 -> hlen s1 + k <= hlen s2 + j ->
  Step j m s m2 s2.
Proof.
  intros j k m s m1 s1 m2 s2 (W & L & C & D & g & G & P & Q) Sh W2 HC HL HK. split; [exact W2|]. rewrite HC, (shape_allocated _ _ Sh). split; [exact HL|]. split; [lia|]. split; [lia|].
  exists g. split; [exact G|]. split; [lia|].
  assert (M : g * (hlen s1 + k + 512) <= g * (hlen s2 + j + 512)) by (apply Nat.mul_le_mono_l; lia). lia.
Qed.

(* ---- what holds after a piece of code, if it does not panic ---- *)

Definition wp {B} (h : H B) (m : mem) (Q : B -> mem -> Prop) : Prop :=
  match h m with HOk b m' => Q b m' | HPanic _ => True end.

Lemma wp_mono : forall {B} (h : H B) m (Q Q' : B -> mem -> Prop), wp h m Q -> (forall b m', Q b m' -> Q' b m') -> wp h m Q'.
Proof. unfold wp. intros B h m Q Q' H K. destruct (h m); auto. Qed.
Lemma wp_bind : forall {B C} (h : H B) (f : B -> H C) m Q, wp h m (fun b m' => wp (f b) m' Q) -> wp (hbind h f) m Q.
Proof. unfold wp, hbind. intros B C h f m Q H. destruct (h m); auto. Qed.
Lemma wp_ret : forall {B} (b : B) m (Q : B -> mem -> Prop), Q b m -> wp (hret b) m Q.
Proof. intros. exact H. Qed.
Lemma wp_panic : forall {B} m (Q : B -> mem -> Prop), wp hpanic m Q.
Proof. intros. exact I. Qed.

Lemma wp_append : forall s xs m (Q : hslice -> mem -> Prop), wf m s -> (forall s' m', Step 0 m s m' s' -> hlen s' = hlen s + length xs -> Q s' m') -> wp (h_append s xs) m Q.
Proof.
  intros s xs m Q W K. unfold wp, h_append. destruct (Nat.leb_spec (hlen s + length xs) (hcap s)) as [Hf|Hf].
  - apply K; [|reflexivity]. apply (Step_cut 0 0 m s m s); [apply Step_refl; exact W|apply write_shape; [exact W|lia]| |reflexivity|cbn; lia|cbn; lia].
    apply (shape_wf m); [apply write_shape; [exact W|lia]|]. destruct W. split; cbn; lia.
  - cbn [hbind h_read h_new]. destruct (HE (hcap s) (hlen s + length xs) Hf) as [G1 G2].
    set (l := contents m s ++ xs ++ fresh (hcap s) (hlen s + length xs)).
    assert (Ll : length l = hlen s + length xs + length (fresh (hcap s) (hlen s + length xs))).
    { unfold l. rewrite !app_length. unfold contents. rewrite sub_length by (destruct W; lia). lia. }
    unfold hbind, h_read, h_new. fold l. apply K; [|reflexivity]. split; [apply new_wf; lia|]. cbn [hlen hcap]. destruct W as [W1 W2].
    split; [lia|]. split; [lia|]. split; [lia|]. exists 0. split; [left; reflexivity|]. split; [lia|]. rewrite new_allocated. lia.
Qed.

Lemma wp_from : forall s n m (Q : hslice -> mem -> Prop), wf m s ->
  (forall b, wf m b -> n <= hlen s -> hlen b = hlen s - n -> arr b = arr s -> off b = off s + n -> Q b m) -> wp (h_from s n) m Q.
Proof.
  intros s n m Q [W1 W2] K. unfold wp, h_from. destruct (Nat.leb_spec n (hlen s)); [|exact I]. apply K; try reflexivity; [|assumption]. split; cbn; lia.
Qed.
Lemma wp_reslice : forall s n m (Q : hslice -> mem -> Prop), wf m s -> (forall b, wf m b -> hlen b = n -> hcap b = hcap s -> Q b m) -> wp (h_reslice s n) m Q.
Proof. intros s n m Q [W1 W2] K. unfold wp, h_reslice. destruct (Nat.leb_spec n (hcap s)); [|exact I]. apply K; try reflexivity. split; cbn; lia. Qed.
Lemma wp_put : forall s i xs m (Q : unit -> mem -> Prop), wf m s -> (forall m', shape m m' -> Q tt m') -> wp (h_put s i xs) m Q.
Proof.
  intros s i xs m Q W K. unfold wp, h_put. destruct (Nat.leb_spec (i + length xs) (hlen s)); [|exact I]. apply K. apply write_shape; [exact W|]. destruct W. lia.
Qed.
Lemma wp_upd : forall s i f m (Q : unit -> mem -> Prop), wf m s -> (forall m', shape m m' -> i < hlen s -> Q tt m') -> wp (h_upd s i f) m Q.
Proof.
  intros s i f m Q W K. unfold wp, h_upd. destruct (nth_error (contents m s) i) as [x|] eqn:Hx; [|exact I].
  assert (Hi : i < hlen s). { assert (Hi : i < length (contents m s)) by (apply nth_error_Some; congruence). unfold contents in Hi. rewrite sub_length in Hi by (destruct W; lia). exact Hi. }
  apply (wp_put s i [f x] m Q W). intros m' Hm. apply K; assumption.
Qed.
Lemma wp_copy : forall s i xs m (Q : nat -> mem -> Prop), wf m s -> (forall n m', shape m m' -> Q n m') -> wp (h_copy s i xs) m Q.
Proof.
  intros s i xs m Q W K. unfold h_copy. apply wp_bind. apply wp_from; [exact W|]. intros b Wb _ _ _ _. unfold wp. apply K.
  pose proof (write_shape m b 0 (firstn (hlen b) xs) Wb) as H. rewrite Nat.add_0_r in H. apply H. rewrite firstn_length. destruct Wb. lia.
Qed.
Lemma wp_put_uvarint : forall s i x m (Q : nat -> mem -> Prop), wf m s -> (forall n m', shape m m' -> Q n m') -> wp (h_put_uvarint s i x) m Q.
Proof.
  intros s i x m Q W K. unfold h_put_uvarint. apply wp_bind. apply wp_from; [exact W|]. intros b Wb _ _ _ _.
  destruct (x <? 128)%N; apply wp_bind; (apply wp_put; [exact Wb|]); intros m' Hm; apply wp_ret; apply K; exact Hm.
Qed.

Lemma wp_read : forall s m (Q : bytes -> mem -> Prop), wf m s -> (forall l, length l = hlen s -> Q l m) -> wp (h_read s) m Q.
Proof. intros s m Q [W1 W2] K. unfold wp, h_read. apply K. unfold contents. apply sub_length. lia. Qed.
Lemma wp_make : forall n c m (Q : hslice -> mem -> Prop), n <= c ->
  (forall b m', wf m' b -> hlen b = n -> hcap b = c -> allocated m' = allocated m + c -> (forall s, wf m s -> wf m' s) -> Q b m') -> wp (h_make n c) m Q.
Proof.
  intros n c m Q H K. unfold wp, h_make, h_new. set (l := repeat 0%N n ++ repeat 0%N (c - n)).
  assert (Ll : length l = c) by (unfold l; rewrite app_length, !repeat_length; lia).
  apply K; cbn [hlen hcap]; [apply new_wf; lia|reflexivity|exact Ll|rewrite new_allocated; lia|].
  intros s [S1 S2]. split; [exact S1|]. destruct (Nat.lt_ge_cases (arr s) (length m)) as [Ha|Ha].
  - rewrite array_app_old by exact Ha. exact S2.
  - rewrite (array_out m) in S2 by exact Ha. cbn in S2. lia.
Qed.

Lemma wp_for_append : forall s n m (Q : hslice * hslice -> mem -> Prop), wf m s ->
  (forall s' b m', Step 0 m s m' s' -> hlen s' = hlen s + n -> wf m' b -> Q (s', b) m') -> wp (h_for_append s n) m Q.
Proof.
  intros s n m Q W K. unfold h_for_append. cbv zeta. apply wp_bind. destruct (Nat.leb_spec (hlen s + n) (hcap s)) as [Hf|Hf].
  - apply wp_reslice; [exact W|]. intros h Wh Lh Ch. apply wp_bind. apply wp_from; [exact Wh|]. intros b Wb _ _ _ _. apply wp_ret. apply K; [|exact Lh|exact Wb].
    apply (Step_cut 0 0 m s m s); [apply Step_refl; exact W|apply shape_refl|exact Wh|exact Ch|lia|lia].
  - apply wp_bind. apply wp_make; [lia|]. intros h m1 Wh Lh Ch Am Old. apply wp_bind. apply wp_read; [apply Old; exact W|]. intros l _.
    apply wp_bind. apply wp_copy; [exact Wh|]. intros _ m2 Sh. apply wp_ret. apply wp_bind. apply wp_from; [apply (shape_wf m1); assumption|]. intros b Wb _ _ _ _. apply wp_ret.
    apply K; [|exact Lh|exact Wb]. destruct W as [W1 W2]. split; [apply (shape_wf m1); assumption|]. split; [lia|]. split; [lia|]. split; [lia|].
    exists 0. split; [left; reflexivity|]. split; [lia|]. rewrite (shape_allocated _ _ Sh), Am. lia.
Qed.

Lemma wp_append_slice : forall s t m (Q : hslice -> mem -> Prop), wf m s -> wf m t -> (forall s' m', Step 0 m s m' s' -> hlen s' = hlen s + hlen t -> Q s' m') ->
  wp (h_append_slice s t) m Q.
Proof.
  intros s t m Q W Wt K. unfold h_append_slice. apply wp_bind. apply wp_read; [exact Wt|]. intros l Hl. apply wp_append; [exact W|]. rewrite Hl. exact K.
Qed.

Lemma wp_insert : forall s pos n m (Q : hslice -> mem -> Prop), A -> wf m s -> (forall s' m', Step 0 m s m' s' -> Q s' m') -> wp (h_insert s pos n) m Q.
Proof.
  intros s pos n m Q HA W K. unfold h_insert. destruct n as [|n]; [apply wp_ret; apply K; apply Step_refl; exact W|]. destruct (Nat.leb_spec (pos + S n) (hcap s)) as [Hf|Hf].
  - apply wp_bind. apply wp_reslice; [exact W|]. intros h Wh Lh Ch. apply wp_bind. apply wp_from; [exact W|]. intros t Wt Hp Lt _ _.
    apply wp_append_slice; [exact Wh|exact Wt|]. intros s' m' (W' & L & C & D & R) Ls. apply K. split; [exact W'|]. rewrite <- Ch. split; [lia|]. split; [exact C|]. split; [exact D|exact R].
  - apply wp_bind. apply wp_make; [lia|]. intros p m1 Wp Lp Cp Am Old. apply wp_bind. apply wp_reslice; [apply Old; exact W|]. intros a Wa La Ca.
    apply wp_bind. apply wp_read; [exact Wa|]. intros l _. apply wp_bind. apply wp_copy; [exact Wp|]. intros _ m2 S2. apply wp_bind.
    apply wp_from; [apply (shape_wf m1); [exact S2|apply Old; exact W]|]. intros t Wt Hp _ _ _. apply wp_bind. apply wp_read; [exact Wt|]. intros l2 _.
    apply wp_bind. apply wp_copy; [apply (shape_wf m1); assumption|]. intros _ m3 S3. apply wp_ret. apply K. destruct W as [W1 W2].
    split; [apply (shape_wf m2); [exact S3|apply (shape_wf m1); assumption]|]. split; [lia|]. split; [lia|]. split; [lia|].
    exists 1. split; [right; exact HA|]. split; [lia|]. rewrite (shape_allocated _ _ S3), (shape_allocated _ _ S2), Am. lia.
Qed.

(* bytes that hold a variable-length number are appended, and cut off where the number ends *)
Lemma wp_masked_then : forall {B} p xs (f : hslice -> nat) (g : hslice -> hslice -> H B) m (Q : B -> mem -> Prop), wf m p ->
  (forall p1, hlen p1 = hlen p + length xs -> hlen p <= f p1 /\ hlen p1 <= f p1 + 9) ->
  (forall p1 p2 m2, Step 9 m p m2 p2 -> wp (g p1 p2) m2 Q) -> wp (hbind (h_append p xs) (fun p1 => hbind (h_mask_truncate p1 (f p1)) (g p1))) m Q.
Proof.
  intros B p xs f g m Q W Hf K. apply wp_bind. apply wp_append; [exact W|]. intros p1 m1 S1 L1. destruct (Hf p1 L1) as [F1 F2]. apply wp_bind. unfold h_mask_truncate. apply wp_bind.
  apply wp_upd; [apply (Step_wf _ _ _ _ _ S1)|]. intros m2 Sh _. apply wp_reslice; [apply (shape_wf m1); [exact Sh|apply (Step_wf _ _ _ _ _ S1)]|]. intros p2 W2 L2 C2. apply K.
  apply (Step_cut 9 0 m p m1 p1); try assumption; lia.
Qed.
Lemma wp_masked : forall p xs (f : hslice -> nat) m (Q : hslice -> mem -> Prop), wf m p ->
  (forall p1, hlen p1 = hlen p + length xs -> hlen p <= f p1 /\ hlen p1 <= f p1 + 9) ->
  (forall p2 m2, Step 9 m p m2 p2 -> Q p2 m2) -> wp (hbind (h_append p xs) (fun p1 => h_mask_truncate p1 (f p1))) m Q.
Proof.
  intros p xs f m Q W Hf K. apply wp_bind. apply wp_append; [exact W|]. intros p1 m1 S1 L1. destruct (Hf p1 L1) as [F1 F2]. unfold h_mask_truncate. apply wp_bind.
  apply wp_upd; [apply (Step_wf _ _ _ _ _ S1)|]. intros m2 Sh _. apply wp_reslice; [apply (shape_wf m1); [exact Sh|apply (Step_wf _ _ _ _ _ S1)]|]. intros p2 W2 L2 C2. apply K.
  apply (Step_cut 9 0 m p m1 p1); try assumption; lia.
Qed.

(* ---- encoders ---- *)

Definition spends (k : nat) (f : hslice -> H hslice) : Prop := forall m p, wf m p -> wp (f p) m (fun p' m' => Step k m p m' p').
Definition spendsE (k : nat) (f : hslice -> H (hslice * option err)) : Prop :=
  forall m p, wf m p -> wp (f p) m (fun r m' => snd r = None -> Step k m p m' (fst r)).

Lemma spends_okm : forall k f, spends k f -> spendsE k (fun p => h_okm (f p)).
Proof. intros k f H m p W. unfold h_okm. apply wp_bind. apply (wp_mono _ _ _ _ (H m p W)). intros p' m' S. apply wp_ret. intros _. exact S. Qed.

(* use what a function spends in the middle of another *)
Lemma wp_use : forall k f m0 p0 m p (Q : hslice -> mem -> Prop), spends k f -> Step k m0 p0 m p -> (forall p' m', Step k m0 p0 m' p' -> Q p' m') -> wp (f p) m Q.
Proof.
  intros k f m0 p0 m p Q H S K. apply (wp_mono _ _ _ _ (H m p (Step_wf _ _ _ _ _ S))). intros p' m' S'. apply K. apply (Step_trans _ _ _ _ _ _ _ S S').
Qed.
Lemma wp_useE : forall k f m0 p0 m p (Q : hslice * option err -> mem -> Prop), spendsE k f -> Step k m0 p0 m p ->
  (forall p' m', Step k m0 p0 m' p' -> Q (p', None) m') -> (forall p' e m', Q (p', Some e) m') -> wp (f p) m Q.
Proof.
  intros k f m0 p0 m p Q H S K K'. apply (wp_mono _ _ _ _ (H m p (Step_wf _ _ _ _ _ S))). intros [p' [e|]] m' S'; [apply K'|]. apply K. apply (Step_trans _ _ _ _ _ _ _ S). apply S'. reflexivity.
Qed.

Ltac wfs := first [assumption | eapply Step_wf; eassumption].
Ltac shaped Sh := match type of Sh with shape ?m ?m' =>
  repeat match goal with
  | W : wf m ?b |- _ => apply (shape_wf m m' b Sh) in W
  | S : Step ?k ?m0 ?p0 m ?p |- _ => apply (fun X => Step_shape k m0 p0 m p m' X Sh) in S
  end; clear Sh; try clear m end.
Ltac joined S1 := match type of S1 with Step ?j ?m ?p ?m1 ?p1 =>
  match goal with S : Step ?k ?m0 ?p0 m p |- _ =>
    apply (fun X => Step_trans k m0 p0 m p m1 p1 S (Step_weaken j k m p m1 p1 ltac:(lia) X)) in S1; clear S end end.
Ltac masked := let p1 := fresh in let H := fresh in intros p1 H; cbn [length] in H; rewrite ?H;
  repeat match goal with |- context [size_varint ?x] => pose proof (size_varint_pos x); generalize dependent (size_varint x); intros end; split; lia.
Ltac sp := cbv beta zeta iota; match goal with
  | |- wp (hbind (h_append _ _) (fun p1 => hbind (h_mask_truncate p1 _) _)) _ _ =>
      apply wp_masked_then; [wfs|masked|]; let S := fresh "S" in intros ? ? ? S; joined S
  | |- wp (hbind (h_append _ _) (fun p1 => h_mask_truncate p1 _)) _ _ =>
      apply wp_masked; [wfs|masked|]; let S := fresh "S" in intros ? ? S; joined S; try exact S
  | |- wp (hbind _ _) _ _ => apply wp_bind
  | |- wp (hret _) _ _ => apply wp_ret; try assumption; try (intros _; cbn [fst]; assumption)
  | |- wp hpanic _ _ => apply wp_panic
  | |- wp (h_append _ _) _ _ => apply wp_append; [wfs|]; let S := fresh "S" in let L := fresh "L" in intros ? ? S L; clear L; joined S; try exact S
  | |- wp (h_for_append _ _) _ _ => apply wp_for_append; [wfs|]; let S := fresh "S" in let L := fresh "L" in let W := fresh "W" in intros ? ? ? S L W; clear L; joined S
  | |- wp (h_put _ _ _) _ _ => apply wp_put; [wfs|]; let Sh := fresh "Sh" in intros ? Sh; shaped Sh
  | |- wp (h_upd _ _ _) _ _ => apply wp_upd; [wfs|]; let Sh := fresh "Sh" in intros ? Sh _; shaped Sh
  | |- wp (h_copy _ _ _) _ _ => apply wp_copy; [wfs|]; let Sh := fresh "Sh" in intros ? ? Sh; shaped Sh
  | |- wp (h_put_uvarint _ _ _) _ _ => apply wp_put_uvarint; [wfs|]; let Sh := fresh "Sh" in intros ? ? Sh; shaped Sh
  | |- wp (h_from _ _) _ _ => apply wp_from; [wfs|]; let W := fresh "W" in intros ? W _ _ _ _
  | |- wp (if _ then _ else _) _ _ => match goal with |- wp (if ?c then _ else _) _ _ => destruct c end
  end.
Ltac begin := let m := fresh "m0" in let p := fresh "p0" in let W := fresh "W0" in intros m p W; cbv beta; pose proof (Step_refl 9 m p W) as S0; clear W.

Tactic Notation "use" uconstr(L) := match goal with S : Step ?k ?m0 ?p0 ?m ?p |- wp _ ?m _ =>
  refine (wp_use k _ m0 p0 m p _ L S _); clear S; intros ? ? S; cbv beta; try exact S end.
Tactic Notation "useE" uconstr(L) := match goal with S : Step ?k ?m0 ?p0 ?m ?p |- wp _ ?m _ =>
  refine (wp_useE k _ m0 p0 m p _ L S _ _); clear S; [intros ? ? S; cbv beta|intros ? ? ?; cbv beta] end.
Ltac simple_spends := intros; begin; repeat sp.

Lemma sp_duration : forall d, spends 9 (fun p => h_append_duration p d).
Proof.
  intros d. begin. unfold h_append_duration. sp. destruct (d <? 0)%Z.
  - repeat sp. destruct (smalls_at _); [|apply wp_panic]. destruct (smalls_at _); [|apply wp_panic]. destruct (smalls_at _); [|apply wp_panic]. destruct (smalls_at _); [|apply wp_panic]. sp.
  - repeat sp. destruct (smalls_at _); [|apply wp_panic]. destruct (smalls_at _); [|apply wp_panic]. destruct (smalls_at _); [|apply wp_panic]. destruct (smalls_at _); [|apply wp_panic]. sp.
Qed.
Lemma sp_bump : forall i n, spends 9 (fun p => h_bump_lengths p i n).
Proof. unfold h_bump_lengths. simple_spends. Qed.

Lemma sp_any_uint8 : forall tag x, spends 9 (fun p => h_append_any_uint8 p tag x).
Proof. unfold h_append_any_uint8. simple_spends. Qed.
Lemma sp_any_uint16 : forall tag x, spends 9 (fun p => h_append_any_uint16 p tag x).
Proof. unfold h_append_any_uint16. simple_spends. Qed.
Lemma sp_any_uint32 : forall tag x, spends 9 (fun p => h_append_any_uint32 p tag x).
Proof. unfold h_append_any_uint32. simple_spends. Qed.
Lemma sp_any_uint64 : forall tag x, spends 9 (fun p => h_append_any_uint64 p tag x).
Proof. unfold h_append_any_uint64. simple_spends. Qed.
Lemma sp_any_int8 : forall tag x, spends 9 (fun p => h_append_any_int8 p tag x).
Proof. unfold h_append_any_int8. simple_spends. Qed.
Lemma sp_any_int16 : forall tag x, spends 9 (fun p => h_append_any_int16 p tag x).
Proof. unfold h_append_any_int16. simple_spends. Qed.
Lemma sp_any_int32 : forall tag x, spends 9 (fun p => h_append_any_int32 p tag x).
Proof. unfold h_append_any_int32. simple_spends. Qed.
Lemma sp_any_int64 : forall tag x, spends 9 (fun p => h_append_any_int64 p tag x).
Proof. unfold h_append_any_int64. simple_spends. Qed.
Lemma sp_any_null : forall tag, spends 9 (fun p => h_append_any_null p tag).
Proof. unfold h_append_any_null. simple_spends. Qed.
Lemma sp_any_bytes_string : forall tag s c, spends 9 (fun p => h_append_any_bytes_string p tag s c).
Proof. unfold h_append_any_bytes_string. simple_spends. Qed.
Lemma sp_any_bytes : forall tag s c, spends 9 (fun p => h_append_any_bytes p tag s c).
Proof. intros tag [s|] c; [apply sp_any_bytes_string|apply sp_any_null]. Qed.
Lemma sp_any_string : forall tag s c, spends 9 (fun p => h_append_any_string p tag s c).
Proof. unfold h_append_any_string. simple_spends. Qed.
Lemma sp_any_time : forall tag t, spends 9 (fun p => h_append_any_time p tag t).
Proof. unfold h_append_any_time. simple_spends. use (sp_bump _ _). Qed.
Lemma sp_any_duration : forall tag d, spends 9 (fun p => h_append_any_duration p tag d).
Proof.
  unfold h_append_any_duration. simple_spends. use (sp_duration _). use (sp_bump _ _).
Qed.
Lemma sp_any_float64 : forall tag x, spends 9 (fun p => h_append_any_float64 p tag x).
Proof. unfold h_append_any_float64. simple_spends. Qed.
Lemma sp_any_float32 : forall tag x, spends 9 (fun p => h_append_any_float32 p tag x).
Proof. unfold h_append_any_float32. simple_spends. Qed.
Lemma sp_any_bool : forall tag x, spends 9 (fun p => h_append_any_bool p tag x).
Proof. unfold h_append_any_bool. simple_spends. Qed.

Ltac okm := match goal with |- spendsE 9 (fun p => h_okm (@?f p)) => apply (spends_okm 9 f); cbv beta end.
Ltac any_leaf := okm; match goal with
  | |- spends 9 (fun p => h_append_any_string p _ _ _) => apply sp_any_string
  | |- spends 9 (fun p => h_append_any_bytes p _ _ _) => apply sp_any_bytes
  | |- spends 9 (fun p => h_append_any_bytes_string p _ _ _) => apply sp_any_bytes_string
  | |- spends 9 (fun p => h_append_any_uint8 p _ _) => apply sp_any_uint8
  | |- spends 9 (fun p => h_append_any_uint16 p _ _) => apply sp_any_uint16
  | |- spends 9 (fun p => h_append_any_uint32 p _ _) => apply sp_any_uint32
  | |- spends 9 (fun p => h_append_any_uint64 p _ _) => apply sp_any_uint64
  | |- spends 9 (fun p => h_append_any_int8 p _ _) => apply sp_any_int8
  | |- spends 9 (fun p => h_append_any_int16 p _ _) => apply sp_any_int16
  | |- spends 9 (fun p => h_append_any_int32 p _ _) => apply sp_any_int32
  | |- spends 9 (fun p => h_append_any_int64 p _ _) => apply sp_any_int64
  | |- spends 9 (fun p => h_append_any_null p _) => apply sp_any_null
  | |- spends 9 (fun p => h_append_any_time p _ _) => apply sp_any_time
  | |- spends 9 (fun p => h_append_any_duration p _ _) => apply sp_any_duration
  | |- spends 9 (fun p => h_append_any_float64 p _ _) => apply sp_any_float64
  | |- spends 9 (fun p => h_append_any_float32 p _ _) => apply sp_any_float32
  | |- spends 9 (fun p => h_append_any_bool p _ _) => apply sp_any_bool
  end.

Lemma sp_any_method : forall v, value_simple A v -> forall f, h_any_method v = Some f -> forall tag, spendsE 9 (fun p => f p tag).
Proof.
  intros v Hv f Hf tag. destruct v; try discriminate; cbn [h_any_method] in Hf; try contradiction; injection Hf as <-; cbv beta; any_leaf.
Qed.

Lemma sp_error : forall k (q : hslice -> hslice) e, spendsE k (fun p => hret (q p, Some e)).
Proof. intros k q e m p W. apply wp_ret. cbn. discriminate. Qed.
Lemma sp_panics : forall k, spendsE k (fun p => hpanic).
Proof. intros k m p W. exact I. Qed.

Lemma sp_type_switch : forall v, value_simple A v -> forall tag, spendsE 9 (fun p => h_type_switch v p tag).
Proof.
  fix IH 1. intros v Hv tag.
  destruct v as [|z|z|z|z|z|n|n|n|n|n|s|b|b|bits|bits|t|d|s c|b|s|b|s|b|f|i v|a e|a e0]; cbn [h_type_switch h_any_method value_simple] in *; try contradiction.
  all: try match goal with |- context [word32] => destruct word32 end.
  all: try (destruct a).
  all: try any_leaf.
  - exact (sp_error 9 (fun _ => hnil) _).
  - exact (sp_error 9 (fun _ => hnil) _).
  - destruct (if i then None else h_any_method v) as [f|] eqn:Hf; [|apply IH; exact Hv]. destruct i; [discriminate|]. exact (sp_any_method v Hv f Hf tag).
  - apply sp_panics.
Qed.

Lemma sp_append_any : forall v, value_simple A v -> forall tag, spendsE 9 (fun p => h_append_any v p tag).
Proof. intros v Hv tag. destruct v; try (apply sp_type_switch; exact Hv). apply spends_okm. apply sp_any_null. Qed.

Lemma sp_expr_null : forall tag, spends 9 (fun p => h_append_expr_null p tag).
Proof. unfold h_append_expr_null. simple_spends. Qed.
Lemma sp_expr_bool : forall tag x, spends 9 (fun p => h_append_expr_bool p tag x).
Proof. unfold h_append_expr_bool. simple_spends. Qed.
Lemma sp_expr_uint64 : forall tag x, spends 9 (fun p => h_append_expr_uint64 p tag x).
Proof. unfold h_append_expr_uint64. simple_spends. Qed.
Lemma sp_expr_int64 : forall tag x, spends 9 (fun p => h_append_expr_int64 p tag x).
Proof. unfold h_append_expr_int64. simple_spends. Qed.
Lemma sp_expr_float32 : forall tag x, spends 9 (fun p => h_append_expr_float32 p tag x).
Proof. unfold h_append_expr_float32. simple_spends. Qed.
Lemma sp_expr_float64 : forall tag x, spends 9 (fun p => h_append_expr_float64 p tag x).
Proof. unfold h_append_expr_float64. simple_spends. Qed.
Lemma sp_expr_time : forall tag t, spends 9 (fun p => h_append_expr_time p tag t).
Proof. unfold h_append_expr_time. simple_spends. use (sp_bump _ _). Qed.
Lemma sp_expr_duration : forall tag d, spends 9 (fun p => h_append_expr_duration p tag d).
Proof. unfold h_append_expr_duration. simple_spends. use (sp_duration _). use (sp_bump _ _). Qed.
Lemma sp_expr_string : forall tag s c, spends 9 (fun p => h_append_expr_string p tag s c).
Proof. unfold h_append_expr_string. simple_spends. Qed.
Lemma sp_expr_bytes_string : forall tag s c, spends 9 (fun p => h_append_expr_bytes_string p tag s c).
Proof. unfold h_append_expr_bytes_string. simple_spends. Qed.
Lemma sp_expr_bytes : forall tag s c, spends 9 (fun p => h_append_expr_bytes p tag s c).
Proof. intros tag [s|] c; [apply sp_expr_bytes_string|apply sp_expr_null]. Qed.
Lemma sp_expr_column : forall tag s, spends 9 (fun p => h_append_expr_column p tag s).
Proof. unfold h_append_expr_column. simple_spends. Qed.
Lemma sp_expr_placeholder : forall tag pos, spends 9 (fun p => h_append_expr_placeholder p tag pos).
Proof. unfold h_append_expr_placeholder. simple_spends. Qed.
Lemma sp_expr_variable : forall tag s, spends 9 (fun p => h_append_expr_variable p tag s).
Proof. unfold h_append_expr_variable. simple_spends. Qed.

Ltac expr_known := okm; match goal with
  | |- spends 9 (fun p => h_append_expr_string p _ _ _) => apply sp_expr_string
  | |- spends 9 (fun p => h_append_expr_bytes p _ _ _) => apply sp_expr_bytes
  | |- spends 9 (fun p => h_append_expr_bytes_string p _ _ _) => apply sp_expr_bytes_string
  | |- spends 9 (fun p => h_append_expr_uint64 p _ _) => apply sp_expr_uint64
  | |- spends 9 (fun p => h_append_expr_int64 p _ _) => apply sp_expr_int64
  | |- spends 9 (fun p => h_append_expr_null p _) => apply sp_expr_null
  | |- spends 9 (fun p => h_append_expr_time p _ _) => apply sp_expr_time
  | |- spends 9 (fun p => h_append_expr_duration p _ _) => apply sp_expr_duration
  | |- spends 9 (fun p => h_append_expr_float64 p _ _) => apply sp_expr_float64
  | |- spends 9 (fun p => h_append_expr_float32 p _ _) => apply sp_expr_float32
  | |- spends 9 (fun p => h_append_expr_bool p _ _) => apply sp_expr_bool
  | |- spends 9 (fun p => h_append_expr_column p _ _) => apply sp_expr_column
  | |- spends 9 (fun p => h_append_expr_variable p _ _) => apply sp_expr_variable
  | |- spends 9 (fun p => h_append_expr_placeholder p _ _) => apply sp_expr_placeholder
  end.

Lemma sp_insert : forall pos n, A -> spends 9 (fun p => h_insert p pos n).
Proof. intros pos n HA m p W. apply wp_insert; [exact HA|exact W|]. intros s' m' S. apply (Step_weaken 0); [lia|exact S]. Qed.
Lemma sp_operator_header : forall i tag name, A -> spends 9 (fun p => h_operator_header p i tag name).
Proof. intros i tag name HA. begin. unfold h_operator_header. sp. use (sp_insert _ _ HA). repeat sp. Qed.
Lemma sp_call_header : forall i tag name, A -> spends 9 (fun p => h_call_header p i tag name).
Proof. intros i tag name HA. begin. unfold h_call_header. sp. use (sp_insert _ _ HA). repeat sp. Qed.
Lemma sp_set_header : forall i name, A -> spends 9 (fun p => h_set_header p i name).
Proof. intros i name HA. begin. unfold h_set_header. sp. use (sp_insert _ _ HA). repeat sp. Qed.

Lemma sp_expr_method : forall v, value_simple A v -> forall f, h_expr_method v = Some f -> forall tag, spendsE 9 (fun p => f p tag).
Proof.
  intros v Hv f Hf tag. destruct v; try discriminate; cbn [h_expr_method] in Hf; try contradiction; injection Hf as <-; cbv beta; expr_known.
Qed.

Lemma sp_each : forall B (f : B -> hslice -> H (hslice * option err)) wrap xs j, (forall x, In x xs -> spendsE 9 (f x)) -> spendsE 9 (fun p => h_each f wrap j xs p).
Proof.
  intros B f wrap xs. induction xs as [|x xs IH]; intros j Hf; begin; cbn [h_each]; [repeat sp|]. sp. useE (Hf x (or_introl eq_refl)).
  - apply (wp_mono _ _ _ _ (IH (S j) (fun y Hy => Hf y (or_intror Hy)) _ _ (Step_wf _ _ _ _ _ S0))). intros r mx Sx Hn. apply (Step_trans _ _ _ _ _ _ _ S0). apply Sx. exact Hn.
  - apply wp_ret. cbn. discriminate.
Qed.

Definition expr_spends (v : gvalue) : Prop := value_simple A v -> forall tag, spendsE 9 (fun p => h_append_expr v p tag).
Definition fun_spends (f : exprfun) : Prop := fun_simple A f -> forall tag, spendsE 9 (fun p => h_run_fun f p tag).

Lemma sp_params : forall ps (t1 : N) wrap (hd : nat -> hslice -> H hslice), Forall expr_spends ps -> all (value_simple A) ps -> (forall i, spends 9 (hd i)) ->
  spendsE 9 (fun p => let i := hlen p in let* (p, e) := h_each (fun v p => h_append_expr v p t1) wrap 0 ps p in
    match e with Some e => hret (p, Some e) | None => h_okm (hd i p) end).
Proof.
  intros ps t1 wrap hd Hps Hv Hhd. begin. sp.
  assert (He : spendsE 9 (fun p => h_each (fun v p => h_append_expr v p t1) wrap 0 ps p)).
  { apply sp_each. intros x Hx. rewrite Forall_forall in Hps. apply Hps; [exact Hx|]. apply all_Forall in Hv. rewrite Forall_forall in Hv. apply Hv. exact Hx. }
  useE He.
  - useE (spends_okm _ _ (Hhd _)); [intros _; exact S0|discriminate].
  - apply wp_ret. cbn. discriminate.
Qed.

Ltac expr_leaf := match goal with
  | |- spendsE _ (fun _ => h_okm _) => expr_known
  | |- spendsE _ (fun _ => hpanic) => apply sp_panics
  | |- spendsE _ (fun _ => hret _) => exact (sp_error 9 (fun p => p) _)
  end.

Lemma sp_expr : forall v, expr_spends v.
Proof.
  apply (gvalue_deep expr_spends fun_spends).
  - intros v Hleaf Hv tag.
    destruct v as [|z|z|z|z|z|n|n|n|n|n|s|b|b|bits|bits|t|d|s c|b|s|b|s|b|[f|]|i v|a e|a e0]; try contradiction; cbn [h_append_expr h_expr_method]; try expr_leaf.
    destruct e; expr_leaf.
  - intros f Hf Hv tag. cbn [h_append_expr]. apply Hf; exact Hv.
  - intros i v Hi Hv tag. cbn [h_append_expr]. cbn [value_simple] in Hv. destruct i; [expr_leaf|].
    destruct (h_expr_method v) as [f|] eqn:Hf; [|expr_leaf]. exact (sp_expr_method v Hv f Hf tag).
  - intros f Hleaf Hv tag. destruct f as [name|name ps|name ps|name|pos|u]; try contradiction; cbn [h_run_fun]; expr_leaf.
  - intros name ps Hps [HA Hv] tag. exact (sp_params ps tagOperatorParam EParam (fun i p => h_operator_header p i tag name) Hps Hv (fun i => sp_operator_header i tag name HA)).
  - intros name ps Hps [HA Hv] tag. exact (sp_params ps tagFunctionCallParam EParam (fun i p => h_call_header p i tag name) Hps Hv (fun i => sp_call_header i tag name HA)).
Qed.

Lemma sp_fun : forall f, fun_spends f.
Proof. intros f Hf tag. exact (sp_expr (VFunc (Some f)) Hf tag). Qed.

(* ---- messages ---- *)

Lemma sp_patch : forall n, spends 9 (fun p => h_patch_length p n).
Proof. unfold h_patch_length. simple_spends. Qed.

Lemma sp_args : forall tag args, Forall (value_simple A) args -> spendsE 9 (fun p => h_append_args tag args p).
Proof. intros tag args Ha. apply sp_each. intros x Hx. apply sp_append_any. rewrite Forall_forall in Ha. apply Ha. exact Hx. Qed.

Ltac failed := apply wp_ret; cbn; discriminate.
Ltac donE := first [intros _; cbn [fst]; assumption | discriminate].

Lemma sp_stmt_execute : forall stmt args, Forall (value_simple A) args -> spendsE 9 (fun p => h_stmt_execute p stmt args).
Proof.
  intros stmt args Ha. begin. unfold h_stmt_execute. repeat sp. useE (sp_args _ _ Ha); [|failed]. useE (spends_okm _ _ (sp_patch _)); donE.
Qed.
Lemma sp_execute : forall id args, Forall (value_simple A) args -> spendsE 9 (fun p => h_msg_execute p id args).
Proof.
  intros id args Ha. begin. unfold h_msg_execute. repeat sp. useE (sp_args _ _ Ha); [|failed]. useE (spends_okm _ _ (sp_patch _)); donE.
Qed.
Lemma sp_criteria : forall cr tag, opt (fun_simple A) cr -> spendsE 9 (fun p => match cr with None => hret (p, None) | Some f => h_run_fun f p tag end).
Proof. intros [f|] tag Hc; [apply sp_fun; exact Hc|]. begin. sp. Qed.
Lemma sp_delete : forall name cr, opt (fun_simple A) cr -> spendsE 9 (fun p => h_msg_delete p name cr).
Proof.
  intros name cr Hc. begin. unfold h_msg_delete. repeat sp. useE (sp_criteria cr _ Hc); repeat sp; [use (sp_patch _); sp|]. unfold wp. destruct (h_patch_length _ _ _); [|exact I]. cbn. discriminate.
Qed.
Lemma sp_columns : forall names, spends 9 (fun p => h_insert_columns names p).
Proof. induction names as [|name names IH]; begin; cbn [h_insert_columns]; [sp|]. repeat sp. use IH. Qed.
Lemma sp_msg_insert : forall name cols, spends 9 (fun p => h_msg_insert p name cols).
Proof. intros name cols. begin. unfold h_msg_insert. repeat sp. use (sp_columns _). Qed.
Lemma sp_msg_update : forall name cr, opt (fun_simple A) cr -> spendsE 9 (fun p => h_msg_update p name cr).
Proof. intros name cr Hc. begin. unfold h_msg_update. repeat sp. useE (sp_criteria cr _ Hc); donE. Qed.
Lemma sp_update_set : forall name v, A -> value_simple A v -> spendsE 9 (fun p => h_append_update_set p name v).
Proof.
  intros name v HA Hv. begin. unfold h_append_update_set. repeat sp. useE (sp_expr v Hv _); [|failed]. useE (spends_okm _ _ (sp_set_header _ _ HA)); donE.
Qed.
Lemma sp_prepare : forall id stmt, spends 9 (fun p => h_msg_prepare p id stmt).
Proof. intros id stmt. begin. unfold h_msg_prepare. repeat sp. Qed.
Lemma sp_deallocate : forall id, spends 9 (fun p => h_msg_deallocate p id).
Proof. intros id. begin. unfold h_msg_deallocate. repeat sp. Qed.
Lemma sp_condition : forall c, spends 9 (fun p => h_append_condition c p).
Proof. intros [[|]|field]; begin; cbn [h_append_condition]; repeat sp. Qed.
Lemma sp_conditions : forall cs, spends 9 (fun p => h_append_conditions cs p).
Proof. induction cs as [|c cs IH]; begin; cbn [h_append_conditions]; [sp|]. sp. use (sp_condition _). use IH. Qed.
Lemma sp_expect_open : forall op cs, spends 9 (fun p => h_expect_open p op cs).
Proof. intros op cs. begin. unfold h_expect_open. repeat sp. use (sp_conditions _). use (sp_patch _). Qed.
Lemma sp_expect_close : spends 9 h_expect_close.
Proof. begin. unfold h_expect_close. repeat sp. Qed.

Lemma sp_row : forall row, Forall (value_simple A) row -> spendsE 10 (fun p => h_append_insert_row p row).
Proof.
  intros row Hr m p W. unfold h_append_insert_row. cbv zeta. apply wp_bind. apply wp_append; [exact W|]. intros p1 m1 S1 L1. cbn [length] in L1. apply (Step_weaken 0 9) in S1; [|lia].
  apply wp_bind. assert (He : spendsE 9 (fun p => h_each (fun v p => h_append_expr v p tagTypedRowField) EColumnErr 0 row p)).
  { apply sp_each. intros x Hx. apply sp_expr. rewrite Forall_forall in Hr. apply Hr. exact Hx. }
  apply (wp_mono _ _ _ _ (He m1 p1 (Step_wf _ _ _ _ _ S1))). intros [p2 [e|]] m2 S2; cbv iota beta; [failed|]. specialize (S2 eq_refl). cbn [fst] in S2.
  pose proof (Step_trans _ _ _ _ _ _ _ S1 S2) as S3. assert (L2 : hlen p1 <= hlen p2) by apply S2. pose proof (Step_wf _ _ _ _ _ S2) as W2.
  pose proof (size_varint_pos (N.of_nat (hlen p2 - hlen p1))) as Hs. fold (sizev (hlen p2 - hlen p1)) in Hs. set (v := sizev (hlen p2 - hlen p1)) in *. clearbody v.
  apply wp_bind. destruct (Nat.eqb_spec v 2) as [Hv|Hv].
  - apply wp_ret. apply wp_bind. apply wp_put_uvarint; [exact W2|]. intros _ m3 Sh. apply wp_ret. intros _. cbn [fst]. apply (Step_weaken 9); [lia|]. apply (Step_shape 9 m p m2 p2 m3); assumption.
  - apply wp_bind. apply wp_reslice; [exact W2|]. intros h Wh Lh Ch. apply wp_bind. apply wp_from; [exact W2|]. intros t Wt _ Lt _ _.
    apply wp_append_slice; [exact Wh|exact Wt|]. intros p3 m3 S4 L4. apply wp_bind. apply wp_put_uvarint; [apply (Step_wf _ _ _ _ _ S4)|]. intros _ m4 Sh. apply wp_ret. intros _. cbn [fst].
    apply (Step_shape 10 m p m3 p3 m4); [|exact Sh].
    destruct S3 as (_ & A1 & A2 & A3 & g & A4 & A5 & A6), S4 as (B0 & B1 & B2 & B3 & g' & B4 & B5 & B6). rewrite Ch in *. split; [exact B0|]. split; [lia|]. split; [lia|]. split; [lia|].
    exists (g + g'). split; [destruct A4 as [->|A4]; [exact B4|right; exact A4]|]. split; [lia|].
    assert (M : g * (hlen p2 + 9 + 512) <= g * (hlen p3 + 10 + 512)) by (apply Nat.mul_le_mono_l; lia).
    assert (M' : g' * (hlen p3 + 0 + 512) <= g' * (hlen p3 + 10 + 512)) by (apply Nat.mul_le_mono_l; lia). rewrite Nat.mul_add_distr_r. lia.
Qed.

Lemma spends_more : forall f, spends 9 f -> spends 10 f.
Proof. intros f H m p W. apply (wp_mono _ _ _ _ (H m p W)). intros p' m' S. apply (Step_weaken 9); [lia|exact S]. Qed.
Lemma spendsE_more : forall f, spendsE 9 f -> spendsE 10 f.
Proof. intros f H m p W. apply (wp_mono _ _ _ _ (H m p W)). intros p' m' S Hn. apply (Step_weaken 9); [lia|exact (S Hn)]. Qed.

Ltac begin10 := let m := fresh "m0" in let p := fresh "p0" in let W := fresh "W0" in intros m p W; cbv beta; pose proof (Step_refl 10 m p W) as S0; clear W.

Lemma sp_insert_rows : forall ncols rows i, Forall (Forall (value_simple A)) rows -> spendsE 10 (fun p => h_insert_rows ncols i rows p).
Proof.
  intros ncols rows. induction rows as [|row rows IH]; intros i Hr; begin10; cbn [h_insert_rows]; [sp|]. inversion Hr as [|? ? H1 H2]; subst.
  destruct (length row =? ncols); [|failed]. sp. useE (sp_row row H1); [|failed]. useE (IH (Datatypes.S i) H2); donE.
Qed.
Lemma sp_update_sets : forall set, Forall (fun v => A /\ value_simple A v) (map snd set) -> spendsE 10 (fun p => h_update_sets set p).
Proof.
  induction set as [|[k v] set IH]; intros Hr; begin10; cbn [h_update_sets]; [sp|]. inversion Hr as [|? ? [H0 H1] H2]; subst.
  sp. useE (spendsE_more _ (sp_update_set k v H0 H1)); [|failed]. useE (IH H2); donE.
Qed.

Lemma iops_failed : forall dis ops p e m, wp (h_run_iops dis ops p (Some e)) m (fun r _ => snd r <> None).
Proof.
  intros dis. induction ops as [|[row|lvl] ops IH]; intros p e m; cbn [h_run_iops]; [discriminate|apply IH|].
  apply wp_bind. unfold h_use_outer. destruct (nth_error dis lvl) as [[|]|]; [exact I|apply wp_ret; apply IH|exact I].
Qed.
Lemma uops_failed : forall dis ops p e m, wp (h_run_uops dis ops p (Some e)) m (fun r _ => snd r <> None).
Proof.
  intros dis. induction ops as [|[k v|lvl] ops IH]; intros p e m; cbn [h_run_uops]; [discriminate|apply IH|].
  apply wp_bind. unfold h_use_outer. destruct (nth_error dis lvl) as [[|]|]; [exact I|apply wp_ret; apply IH|exact I].
Qed.

Lemma sp_iops : forall dis ops, Forall (Forall (value_simple A)) (rows_of ops) -> spendsE 10 (fun p => h_run_iops dis ops p None).
Proof.
  intros dis. induction ops as [|[row|lvl] ops IH]; intros Hr; begin10; cbn [h_run_iops rows_of] in *; [sp| |].
  - inversion Hr as [|? ? H1 H2]; subst. sp. useE (sp_row row H1); [useE (IH H2); donE|]. apply (wp_mono _ _ _ _ (iops_failed dis ops _ _ _)). intros r mx H Hn. contradiction.
  - sp. unfold h_use_outer. destruct (nth_error dis lvl) as [[|]|]; [exact I| |exact I]. sp. useE (IH Hr); donE.
Qed.
Lemma sp_uops : forall dis ops, Forall (fun v => A /\ value_simple A v) (map snd (sets_of ops)) -> spendsE 10 (fun p => h_run_uops dis ops p None).
Proof.
  intros dis. induction ops as [|[k v|lvl] ops IH]; intros Hr; begin10; cbn [h_run_uops sets_of map] in *; [sp| |].
  - inversion Hr as [|? ? [H0 H1] H2]; subst. sp. useE (spendsE_more _ (sp_update_set k v H0 H1)); [useE (IH H2); donE|].
    apply (wp_mono _ _ _ _ (uops_failed dis ops _ _ _)). intros r mx H Hn. contradiction.
  - sp. unfold h_use_outer. destruct (nth_error dis lvl) as [[|]|]; [exact I| |exact I]. sp. useE (IH Hr); donE.
Qed.

(* an error that is kept while the length is still written *)
Lemma patched_failed : forall (p : hslice) n (e : err) m m0 (p0 : hslice), wp (let* p := h_patch_length p n in hret (p, Some e)) m (fun r m' => snd r = None -> Step 10 m0 p0 m' (fst r)).
Proof. intros p n e m m0 p0. apply wp_bind. unfold wp. destruct (h_patch_length p n m); [|exact I]. cbn. discriminate. Qed.

Lemma sp_do_insert : forall name cols rows, Forall (Forall (value_simple A)) rows -> spendsE 10 (fun p => h_do_insert name cols rows p).
Proof.
  intros name cols rows Hr. begin10. unfold h_do_insert. sp. use (spends_more _ (sp_msg_insert _ _)). sp. useE (sp_insert_rows _ _ _ Hr); [|failed].
  useE (spends_okm _ _ (spends_more _ (sp_patch _))); donE.
Qed.
Lemma sp_do_insert_f : forall dis name cols ops, Forall (Forall (value_simple A)) (rows_of ops) -> spendsE 10 (fun p => h_do_insert_f dis name cols ops p).
Proof.
  intros dis name cols ops Hr. begin10. unfold h_do_insert_f. sp. use (spends_more _ (sp_msg_insert _ _)). sp. useE (sp_iops _ _ Hr); [|apply patched_failed].
  sp. use (spends_more _ (sp_patch _)). sp.
Qed.
Lemma sp_do_update : forall name cr set, opt (fun_simple A) cr -> Forall (fun v => A /\ value_simple A v) (map snd set) -> spendsE 10 (fun p => h_do_update name cr set p).
Proof.
  intros name cr set Hc Hs. begin10. unfold h_do_update. sp. useE (spendsE_more _ (sp_msg_update name cr Hc)); [|failed]. sp. useE (sp_update_sets set Hs); [|failed].
  useE (spends_okm _ _ (spends_more _ (sp_patch _))); donE.
Qed.
Lemma sp_do_update_f : forall dis name cr ops, opt (fun_simple A) cr -> Forall (fun v => A /\ value_simple A v) (map snd (sets_of ops)) ->
  spendsE 10 (fun p => h_do_update_f dis name cr ops p).
Proof.
  intros dis name cr ops Hc Hs. begin10. unfold h_do_update_f. sp. useE (spendsE_more _ (sp_msg_update name cr Hc)).
  - sp. useE (sp_uops dis ops Hs); [|apply patched_failed]. sp. use (spends_more _ (sp_patch _)). sp.
  - sp. apply (wp_mono _ _ _ _ (uops_failed dis ops _ _ _)). intros [p2 [x|]] mx H; [|contradiction (H eq_refl)]. apply patched_failed.
Qed.

Lemma sp_call : forall dis c, call_simple A c -> spendsE 10 (fun p =>
    match c with
    | CStmtExecute stmt args => h_stmt_execute p stmt args
    | CPrepare id stmt => h_okm (h_msg_prepare p id stmt)
    | CExecute id args => h_msg_execute p id args
    | CDeallocate id => h_okm (h_msg_deallocate p id)
    | CInsert name columns rows => h_do_insert name columns rows p
    | CInsertF name columns ops _ => h_do_insert_f dis name columns ops p
    | CUpdate name criteria set => h_do_update name criteria set p
    | CUpdateF name criteria ops _ => h_do_update_f dis name criteria ops p
    | CDelete name criteria => h_msg_delete p name criteria
    end).
Proof.
  intros dis [stmt args|id stmt|id args|id|name cols rows|name cols ops e|name cr set|name cr ops e|name cr] Hc; cbn [call_simple] in Hc.
  - apply spendsE_more. apply sp_stmt_execute. exact Hc.
  - apply spendsE_more. apply (spends_okm 9 (fun p => h_msg_prepare p id stmt)). apply sp_prepare.
  - apply spendsE_more. apply sp_execute. exact Hc.
  - apply spendsE_more. apply (spends_okm 9 (fun p => h_msg_deallocate p id)). apply sp_deallocate.
  - apply sp_do_insert. exact Hc.
  - apply sp_do_insert_f. exact Hc.
  - apply sp_do_update; apply Hc.
  - apply sp_do_update_f; apply Hc.
  - apply spendsE_more. apply sp_delete. exact Hc.
Qed.

(* ---- builders ---- *)

Definition ready (m : mem) (b : hbuilder) : Prop := hdisabled b = false /\ (hberr b = None -> wf m (hbuf b)).
Definition spent (m : mem) (b : hbuilder) (m' : mem) (b' : hbuilder) : Prop :=
  hdisabled b' = false /\ (hberr b' = None -> hberr b = None /\ Step 10 m (hbuf b) m' (hbuf b')).

Lemma spent_ready : forall m b m' b', spent m b m' b' -> ready m' b'.
Proof. intros m b m' b' [D S]. split; [exact D|]. intros He. destruct (S He) as [_ X]. apply (Step_wf _ _ _ _ _ X). Qed.
Lemma spent_trans : forall m1 b1 m2 b2 m3 b3, spent m1 b1 m2 b2 -> spent m2 b2 m3 b3 -> spent m1 b1 m3 b3.
Proof. intros m1 b1 m2 b2 m3 b3 [_ S] [D' S']. split; [exact D'|]. intros He. destruct (S' He) as [He2 X]. destruct (S He2) as [He1 Y]. split; [exact He1|]. apply (Step_trans _ _ _ _ _ _ _ Y X). Qed.
Lemma spent_refl : forall m b, ready m b -> spent m b m b.
Proof. intros m b [D W]. split; [exact D|]. intros He. split; [exact He|]. apply Step_refl. apply W. exact He. Qed.

Lemma sp_guarded : forall f m b, spendsE 10 f -> ready m b -> wp (h_guarded b f) m (fun b' m' => spent m b m' b').
Proof.
  intros f m b Hf R. pose proof R as [D W]. unfold h_guarded. rewrite D. destruct (hberr b) as [e|] eqn:He; [apply wp_ret; apply spent_refl; exact R|].
  apply wp_bind. apply (wp_mono _ _ _ _ (Hf m (hbuf b) (W eq_refl))). intros [p' e'] m' S. apply wp_ret. split; [reflexivity|]. cbn [hberr hbuf]. intros ->. split; [exact He|]. apply S. reflexivity.
Qed.
Lemma sp_b_stmt : forall s m b, ready m b -> wp (h_b_stmt_execute s [] b) m (fun b' m' => spent m b m' b').
Proof. intros s m b R. apply sp_guarded; [|exact R]. apply spendsE_more. apply sp_stmt_execute. constructor. Qed.

Lemma sp_b_insert_row : forall name cols row m b, Forall (value_simple A) row -> ready m b ->
  wp (h_b_insert_row name cols row b) m (fun r m' => spent m b m' (fst r) /\ opt (fun_simple A) (snd r)).
Proof.
  intros name cols row m b Hr R. pose proof R as [D W]. unfold h_b_insert_row. rewrite D. destruct (hberr b) as [e|] eqn:He.
  { apply wp_ret. split; [apply spent_refl; exact R|exact I]. }
  cbv zeta. pose proof (Step_refl 10 m (hbuf b) (W eq_refl)) as S0. sp. use (spends_more _ (sp_msg_insert _ _)). sp. useE (sp_row row Hr).
  2: { apply wp_ret. split; [|exact I]. split; [reflexivity|]. cbn. discriminate. }
  sp. use (spends_more _ (sp_patch _)). apply wp_bind. match goal with S : Step _ _ _ ?mx ?p |- wp (h_b_stmt_execute ?s [] ?b') _ _ =>
    assert (Q : spent m b mx b') by (split; [reflexivity|]; intros _; split; [exact He|exact S]);
    apply (wp_mono _ _ _ _ (sp_b_stmt s mx b' (spent_ready _ _ _ _ Q))) end.
  intros b2 m2 S2. apply wp_ret. split; [exact (spent_trans _ _ _ _ _ _ Q S2)|exact I].
Qed.

Lemma sp_then_started : forall s m b m1 b1, spent m b m1 b1 -> wp (let* b2 := h_b_stmt_execute s [] b1 in hret (b2, true)) m1 (fun r m' => spent m b m' (fst r)).
Proof.
  intros s m b m1 b1 S. apply wp_bind. apply (wp_mono _ _ _ _ (sp_b_stmt s m1 b1 (spent_ready _ _ _ _ S))). intros b2 m2 S2. apply wp_ret. exact (spent_trans _ _ _ _ _ _ S S2).
Qed.
Lemma sp_block_begin : forall k m b, ready m b -> wp (h_block_begin k b) m (fun r m' => spent m b m' (fst r)).
Proof.
  intros k m b R. pose proof R as [D W]. unfold h_block_begin. rewrite D. destruct (hberr b) as [e|] eqn:He; [apply wp_ret; apply spent_refl; exact R|]. destruct k as [lvl|ctx].
  - assert (Two : forall s s', wp (let* b1 := h_b_stmt_execute s [] b in let* b2 := h_b_stmt_execute s' [] b1 in hret (b2, true)) m (fun r m' => spent m b m' (fst r))).
    { intros s s'. apply wp_bind. apply (wp_mono _ _ _ _ (sp_b_stmt s m b R)). intros b1 m1 S1. apply sp_then_started. exact S1. }
    assert (Bad : wp (hret (mkhb (hbuf b) (Some EIsolation) (hdisabled b), false)) m (fun r m' => spent m b m' (fst r))).
    { apply wp_ret. split; [exact D|]. cbn. discriminate. }
    pose proof (fun s => sp_then_started s m b m b (spent_refl m b R)) as One.
    unfold h_tx_begin. destruct lvl as [|[[[lvl|lvl|]|[lvl|lvl|]|]|[[lvl|lvl|]|[lvl|lvl|]|]|]]; cbv zeta; first [exact Bad | apply Two | apply One].
  - apply wp_bind. pose proof (Step_refl 10 m (hbuf b) (W eq_refl)) as S0. use (spends_more _ (sp_expect_open _ _)). apply wp_ret. split; [reflexivity|]. intros _. split; [exact He|exact S0].
Qed.
Lemma sp_block_end : forall k m b, ready m b -> wp (h_block_end k b) m (fun b' m' => spent m b m' b').
Proof.
  intros [lvl|ctx] m b R; cbn [h_block_end]; [apply sp_b_stmt; exact R|]. destruct R as [D W]. apply wp_bind. destruct (hberr b) as [e|] eqn:He.
  - unfold wp. destruct (h_expect_close (hbuf b) m); [|exact I]. cbn. split; [exact D|]. cbn. discriminate.
  - apply (wp_mono _ _ _ _ (spends_more _ sp_expect_close m (hbuf b) (W eq_refl))). intros p' m' S. apply wp_ret. split; [exact D|]. intros _. split; [exact He|exact S].
Qed.

(* ---- programs ---- *)

Definition off_duty (st : list hbuilder) : Prop := Forall (fun b => hdisabled b = true) st.

Lemma off_duty_nth : forall outer lvl b, off_duty outer -> nth_error outer lvl = Some b -> hdisabled b = true.
Proof. intros outer lvl b Ho Hn. unfold off_duty in Ho. rewrite Forall_forall in Ho. apply Ho. apply (nth_error_In _ _ Hn). Qed.

Lemma sp_run : forall pr b outer m, prog_simple A pr -> off_duty outer -> ready m b ->
  wp (h_run pr (b :: outer)) m (fun r m' => exists b', fst r = b' :: outer /\ spent m b m' b' /\ Forall (opt (fun_simple A)) (snd r)).
Proof.
  induction pr as [cberr out0|lvl c next IH|lvl name cols row next IH|lvl k body IHb next IHn]; intros b outer m Hp Ho R; cbn [h_run prog_simple] in *.
  - apply wp_ret. exists b. split; [reflexivity|]. split; [apply spent_refl; exact R|exact Hp].
  - destruct Hp as [Hc Hp]. destruct lvl as [|lvl]; cbn [nth_error].
    2: { destruct (nth_error outer lvl) as [x|] eqn:Hx; [|exact I]. apply wp_bind. unfold h_exec_call, h_guarded. rewrite (off_duty_nth _ _ _ Ho Hx). exact I. }
    apply wp_bind. unfold h_exec_call. apply (wp_mono _ _ _ _ (sp_guarded _ m b (sp_call _ c Hc) R)). intros b1 m1 S1. cbn [set_nth].
    apply (wp_mono _ _ _ _ (IH b1 outer m1 Hp Ho (spent_ready _ _ _ _ S1))). intros r m2 (b2 & F & S2 & O). exists b2. split; [exact F|]. split; [exact (spent_trans _ _ _ _ _ _ S1 S2)|exact O].
  - destruct Hp as [Hr Hp]. destruct lvl as [|lvl]; cbn [nth_error].
    2: { destruct (nth_error outer lvl) as [x|] eqn:Hx; [|exact I]. apply wp_bind. unfold h_b_insert_row. rewrite (off_duty_nth _ _ _ Ho Hx). exact I. }
    apply wp_bind. apply (wp_mono _ _ _ _ (sp_b_insert_row name cols row m b Hr R)). intros [b1 f] m1 [S1 Hf]. cbn [set_nth fst snd] in *.
    apply (wp_mono _ _ _ _ (IH f b1 outer m1 (Hp f Hf) Ho (spent_ready _ _ _ _ S1))). intros r m2 (b2 & F & S2 & O). exists b2. split; [exact F|]. split; [exact (spent_trans _ _ _ _ _ _ S1 S2)|exact O].
  - destruct Hp as [Hb Hp]. destruct lvl as [|lvl]; cbn [nth_error].
    2: { destruct (nth_error outer lvl) as [x|] eqn:Hx; [|exact I]. apply wp_bind. unfold h_block_begin. rewrite (off_duty_nth _ _ _ Ho Hx). exact I. }
    apply wp_bind. apply (wp_mono _ _ _ _ (sp_block_begin k m b R)). intros [b1 [|]] m1 S1; cbn [set_nth fst] in *.
    + set (b1' := mkhb (hbuf b1) (hberr b1) false). assert (S1' : spent m b m1 b1') by (destruct S1 as [D1 S1]; split; [reflexivity|exact S1]).
      apply wp_bind. assert (Ho' : off_duty (mkhb (hbuf b1) (hberr b1) true :: outer)) by (constructor; [reflexivity|exact Ho]).
      apply (wp_mono _ _ _ _ (IHb b1' _ m1 Hb Ho' (spent_ready _ _ _ _ S1'))). intros [st out] m2 (b2 & F & S2 & O). cbn [fst snd] in *. subst st.
      set (b2' := mkhb (hbuf b2) (hberr b2) false). assert (S2' : spent m b m2 b2') by (pose proof (spent_trans _ _ _ _ _ _ S1' S2) as [D2 X]; split; [reflexivity|exact X]).
      apply wp_bind. apply (wp_mono _ _ _ _ (sp_block_end k m2 b2' (spent_ready _ _ _ _ S2'))). intros b3 m3 S3. cbn [set_nth]. pose proof (spent_trans _ _ _ _ _ _ S2' S3) as S4.
      apply (wp_mono _ _ _ _ (IHn out b3 outer m3 (Hp out O) Ho (spent_ready _ _ _ _ S4))). intros r m4 (b4 & F & S5 & O'). exists b4. split; [exact F|]. split; [exact (spent_trans _ _ _ _ _ _ S4 S5)|exact O'].
    + apply (wp_mono _ _ _ _ (IHn [] b1 outer m1 (Hp [] (Forall_nil _)) Ho (spent_ready _ _ _ _ S1))). intros r m4 (b4 & F & S5 & O'). exists b4. split; [exact F|]. split; [exact (spent_trans _ _ _ _ _ _ S1 S5)|exact O'].
Qed.

End Spend.
