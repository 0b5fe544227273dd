(* The operations of Fine.v access no memory but the goroutine's own, and do to it what those of GoSlice.v do to slice values. *)
From Coq Require Import List NArith Arith Bool Lia.
From Verif Require Import Base GoSlice Varint Mem Fine.
From Verif Require MemProofs.
Import ListNotations.
Local Open Scope nat_scope.

Import MemProofs(sub_length, nth_skipn, nth_firstn, nth_sub, ow_length, nth_ow, list_ext, sub_ow, firstn_ow, skipn_ow, ow_app, skipn_ow_app, ow_nil, skipn_sk, sub_firstn, tl, tl_refl, tl_len, view_make).

(* ------------------------------------------------------------ the memory of one goroutine *)

(* The arrays a goroutine has allocated. *)
Definition heap := nat -> option bytes.
Definition array (m : heap) (a : nat) : bytes := match m a with Some l => l | None => [] end.
Definition contents (m : heap) (s : hslice) : bytes := sub (array m (arr s)) (off s) (hlen s).
Definition upd (m : heap) (a : nat) (l : bytes) : heap := fun b => if b =? a then Some l else m b.
Definition put1 (m : heap) (a i : nat) (x : N) : heap := fun b => if b =? a then option_map (fun l => ow l i [x]) (m a) else m b.
Fixpoint write (m : heap) (a o : nat) (xs : bytes) : heap :=
  match xs with [] => m | x :: xs => write (put1 m a o x) a (S o) xs end.

(* Whatever the addresses of the arrays it allocates, c accesses only elements of arrays in m and of those; and if it ends it ends as Q says. *)
Fixpoint safe {A} (c : go A) (m : heap) (Q : heap -> option A -> Prop) : Prop :=
  match c with
  | Return a => Q m (Some a)
  | Stop => Q m None
  | Load a i k => i < length (array m a) /\ safe (k (nth i (array m a) 0%N)) m Q
  | Store a i x k => i < length (array m a) /\ safe k (put1 m a i x) Q
  | Alloc l k => forall a, m a = None -> safe (k a) (upd m a l) Q
  end.

Lemma safe_weaken {A} (c : go A) : forall m (Q Q' : heap -> option A -> Prop), (forall m o, Q m o -> Q' m o) -> safe c m Q -> safe c m Q'.
Proof.
  induction c as [a| |a i k IH|a i x k IH|l k IH]; cbn [safe]; intros m Q Q' W Hc; auto.
  - destruct Hc. split; eauto.
  - destruct Hc. split; eauto.
  - eauto.
Qed.

Lemma safe_bind {A B} (c : go A) (f : A -> go B) Q : forall m,
  safe c m (fun m' o => match o with Some a => safe (f a) m' Q | None => Q m' None end) -> safe (gbind c f) m Q.
Proof.
  induction c as [a| |a i k IH|a i x k IH|l k IH]; cbn [safe gbind]; intros m Hc; auto; destruct Hc; split; auto.
Qed.

Lemma safe_try {A} (c : go A) Q : forall m, safe c m (fun m' o => Q m' (Some o)) -> safe (try c) m Q.
Proof.
  induction c as [a| |a i k IH|a i x k IH|l k IH]; cbn [safe try]; intros m Hc; auto; destruct Hc; split; auto.
Qed.

(* ------------------------------------------------------------ relating it to values *)

Definition view (m : heap) (s : hslice) : slice :=
  let l := sub (array m (arr s)) (off s) (hcap s) in mk (firstn (hlen s) l) (skipn (hlen s) l).
Definition wf (m : heap) (s : hslice) : Prop :=
  hlen s <= hcap s /\ off s + hcap s <= length (array m (arr s)).
Definition sl (m : heap) (p : slice) (s : hslice) : Prop := wf m s /\ view m s = p.
Definition sg (m : heap) (p : slice) (s : hslice) : Prop := sl m p s /\ 0 <= hlen s.

(* c, run on m, does what r does to values. *)
Definition refines {A B} (r : res A) (c : go B) (m : heap) (R : heap -> A -> B -> Prop) : Prop :=
  safe c m (fun m' o => match r, o with Ok a, Some b => R m' a b | Panic, None => True | _, _ => False end).

Lemma array_upd m a l b : array (upd m a l) b = if b =? a then l else array m b.
Proof. unfold array, upd. destruct (b =? a); reflexivity. Qed.

Lemma array_put1 m a i x b : i < length (array m a) -> array (put1 m a i x) b = if b =? a then ow (array m a) i [x] else array m b.
Proof.
  unfold array, put1. intros L. destruct (b =? a); [|reflexivity]. destruct (m a); [reflexivity|]. cbn in L. lia.
Qed.

Lemma ow_cons l o x xs : o + S (length xs) <= length l -> ow (ow l o [x]) (S o) xs = ow l o (x :: xs).
Proof.
  intros L. apply list_ext.
  - rewrite !ow_length; cbn [length]; rewrite ?ow_length; cbn [length]; lia.
  - intros i _. rewrite !nth_ow by (rewrite ?ow_length; cbn [length]; lia). cbn [length].
    destruct (Nat.leb_spec (S o) i), (Nat.ltb_spec i (S o + length xs)), (Nat.leb_spec o i), (Nat.ltb_spec i (o + 1)), (Nat.ltb_spec i (o + S (length xs)));
      cbn [andb]; try lia; try reflexivity.
    + replace (i - o) with (S (i - S o)) by lia. reflexivity.
    + replace (i - o) with 0 by lia. reflexivity.
Qed.

Lemma array_write xs : forall m a o b, o + length xs <= length (array m a) ->
  array (write m a o xs) b = if b =? a then ow (array m a) o xs else array m b.
Proof.
  induction xs as [|x xs IH]; intros m a o b L; cbn [write length] in *.
  - rewrite ow_nil. destruct (Nat.eqb_spec b a) as [->|]; reflexivity.
  - assert (La : length (array (put1 m a o x) a) = length (array m a)).
    { rewrite array_put1, Nat.eqb_refl, ow_length by (cbn [length]; lia). reflexivity. }
    rewrite IH by lia. rewrite !array_put1 by lia. rewrite Nat.eqb_refl.
    destruct (b =? a); [apply ow_cons; lia|reflexivity].
Qed.

Lemma write_some xs : forall m a o b, write m a o xs b = None <-> m b = None.
Proof.
  induction xs as [|x xs IH]; intros m a o b; cbn [write]; [reflexivity|]. rewrite IH. unfold put1.
  destruct (Nat.eqb_spec b a) as [->|]; [|reflexivity]. destruct (m a); cbn; split; congruence.
Qed.

Lemma safe_loads a n : forall o m (Q : heap -> option bytes -> Prop), o + n <= length (array m a) -> Q m (Some (sub (array m a) o n)) -> safe (loads a o n) m Q.
Proof.
  induction n as [|n IH]; intros o m Q L HQ; cbn [loads safe]; [exact HQ|].
  split; [lia|]. apply safe_bind. apply IH; [lia|]. cbn [safe].
  replace (nth o (array m a) 0%N :: sub (array m a) (S o) n) with (sub (array m a) o (S n)); [exact HQ|].
  apply list_ext; cbn [length]; rewrite !sub_length by lia; [reflexivity|].
  intros i Li. rewrite nth_sub by lia. destruct i as [|i]; cbn [nth]; [f_equal; lia|]. rewrite nth_sub by lia. f_equal. lia.
Qed.

Lemma safe_stores a xs : forall o m (Q : heap -> option unit -> Prop), o + length xs <= length (array m a) -> Q (write m a o xs) (Some tt) -> safe (stores a o xs) m Q.
Proof.
  induction xs as [|x xs IH]; intros o m Q L HQ; cbn [stores safe length write] in *; [exact HQ|].
  split; [lia|]. apply IH; [|exact HQ]. rewrite array_put1, Nat.eqb_refl, ow_length by (cbn [length]; lia). lia.
Qed.

Lemma wf_arr m s : wf m s -> 0 < hcap s -> m (arr s) <> None.
Proof. intros [W1 W2] L Ea. unfold array in W2. rewrite Ea in W2. cbn in W2. lia. Qed.

Lemma sl_len m p s : sl m p s -> len p = hlen s.
Proof. intros [[W1 W2] <-]. unfold view, len; cbn [data]. rewrite firstn_length, sub_length; lia. Qed.

Lemma sl_cap m p s : sl m p s -> cap p = hcap s.
Proof. intros [[W1 W2] <-]. unfold view, cap; cbn [data spare]. rewrite firstn_length, skipn_length, sub_length; lia. Qed.

Lemma sl_full m p s : sl m p s -> data p ++ spare p = sub (array m (arr s)) (off s) (hcap s).
Proof. intros [_ <-]. apply firstn_skipn. Qed.

Lemma contents_data m s : wf m s -> contents m s = data (view m s).
Proof. intros [W1 W2]. unfold contents, view; cbn [data]. rewrite sub_firstn; auto. Qed.

Lemma sl_contents m p s : sl m p s -> contents m s = data p.
Proof. intros [W <-]. apply contents_data; auto. Qed.

Lemma sl_start m s : wf m s -> sl m (view m s) s.
Proof. intros W. split; auto. Qed.

(* ------------------------------------------------------------ composing *)

Lemma ref_bind {A B A' B'} (r : res A) (h : go B) (f : A -> res A') (g : B -> go B') m R Q :
  refines r h m R ->
  (forall m' a b, R m' a b -> refines (f a) (g b) m' Q) ->
  refines (bind r f) (gbind h g) m Q.
Proof.
  intros Hr Hf. unfold refines in *. apply safe_bind. eapply safe_weaken; [|exact Hr]. cbv beta. intros m' o.
  destruct r as [a|], o as [b|]; cbn [bind]; try contradiction; auto.
Qed.

Lemma ref_ret {A B} m (a : A) (b : B) (R : heap -> A -> B -> Prop) : R m a b -> refines (Ok a) (Return b) m R.
Proof. intros HR. exact HR. Qed.

Lemma ref_panic {A B} m p s (R : heap -> A -> B -> Prop) : sl m p s -> refines Panic Stop m R.
Proof. intros S. exact I. Qed.

Lemma ref_weaken {A B} (r : res A) (h : go B) m (R Q : heap -> A -> B -> Prop) :
  refines r h m R -> (forall m a b, R m a b -> Q m a b) -> refines r h m Q.
Proof.
  intros Hr W. unfold refines in *. eapply safe_weaken; [|exact Hr]. cbv beta. intros m' o. destruct r, o; auto.
Qed.

(* A step that does what a value computed at once does. *)
Lemma ref_pure {A B A' B'} (a : A) (r : res A') (h : go B) (g : B -> go B') m R Q :
  refines (Ok a) h m R ->
  (forall m' b, R m' a b -> refines r (g b) m' Q) ->
  refines r (gbind h g) m Q.
Proof.
  intros Hr HQ. unfold refines in *. apply safe_bind. eapply safe_weaken; [|exact Hr]. cbv beta. intros m' [b|]; [apply HQ|contradiction].
Qed.

(* The last step, whose result the memory version already has. *)
Lemma ref_last {A B C} (r : res A) (h : go B) (c : C) m (R : heap -> A -> B -> Prop) (Q : heap -> A -> C -> Prop) :
  refines r h m R -> (forall m' a b, R m' a b -> Q m' a c) -> refines r (gbind h (fun _ => Return c)) m Q.
Proof.
  intros Hr HQ. unfold refines in *. apply safe_bind. eapply safe_weaken; [|exact Hr]. cbv beta. intros m' o.
  destruct r as [a|], o as [b|]; cbn [safe]; try contradiction; eauto.
Qed.

Lemma gbind_assoc {A B C} (h : go A) (f : A -> go B) (g : B -> go C) m (Q : heap -> option C -> Prop) :
  safe (gbind h (fun x => gbind (f x) g)) m Q -> safe (gbind (gbind h f) g) m Q.
Proof.
  revert m. induction h as [a| |a i k IH|a i x k IH|l k IH]; cbn [gbind safe]; intros m; auto; intros [L Hs]; split; auto.
Qed.

Lemma ref_assoc {A B B' C} (r : res A) (h : go B) (f : B -> go B') (g : B' -> go C) m Q :
  refines r (gbind h (fun x => gbind (f x) g)) m Q -> refines r (gbind (gbind h f) g) m Q.
Proof. apply gbind_assoc. Qed.

(* ------------------------------------------------------------ writing in place *)

Lemma write_wf m s o xs t : wf m s -> o + length xs <= hcap s -> wf m t -> wf (write m (arr s) (off s + o) xs) t.
Proof.
  intros [W1 W2] L [W3 W4]. split; auto. rewrite array_write by lia.
  destruct (Nat.eqb_spec (arr t) (arr s)) as [Ea|]; auto. rewrite ow_length; [congruence|lia].
Qed.

Lemma write_full m s o xs : wf m s -> o + length xs <= hcap s ->
  sub (array (write m (arr s) (off s + o) xs) (arr s)) (off s) (hcap s)
  = ow (sub (array m (arr s)) (off s) (hcap s)) o xs.
Proof. intros [W1 W2] L. rewrite array_write, Nat.eqb_refl by lia. apply sub_ow; lia. Qed.

Section Ops.
Context `{E : Env}.

Lemma sl_write m p s o xs : sl m p s -> o + length xs <= hcap s ->
  sl (write m (arr s) (off s + o) xs)
     (mk (firstn (hlen s) (ow (data p ++ spare p) o xs)) (skipn (hlen s) (ow (data p ++ spare p) o xs))) s.
Proof.
  intros S L. pose proof (sl_full _ _ _ S) as F. destruct S as [W V].
  split; [apply write_wf; auto|]. unfold view. rewrite write_full by auto. rewrite F. reflexivity.
Qed.

Lemma sl_put m p s o xs : sl m p s -> o + length xs <= hlen s ->
  sl (write m (arr s) (off s + o) xs) (mk (ow (data p) o xs) (spare p)) s.
Proof.
  intros S L. pose proof S as [[W1 W2] V].
  pose proof (sl_write _ _ _ o xs S ltac:(lia)) as S'. pose proof (sl_full _ _ _ S) as F.
  pose proof (sl_len _ _ _ S) as Ln. unfold len in Ln.
  assert (Lf : length (data p ++ spare p) = hcap s) by (rewrite F; apply sub_length; auto).
  rewrite firstn_ow, skipn_ow in S' by lia.
  rewrite firstn_app, skipn_app, <- Ln, Nat.sub_diag, firstn_all, skipn_all, firstn_O, app_nil_r in S'. exact S'.
Qed.

(* b[j:] of a tail *)
Lemma from_tl s b k j : tl s b k -> k + j <= hlen s ->
  exists b', g_from b j = Return b' /\ tl s b' (k + j).
Proof.
  intros [T ->] L. unfold g_from; cbn [hlen arr off hcap].
  destruct (Nat.leb_spec j (hlen s - k)); [|lia].
  eexists. split; [reflexivity|]. split; [exact L|]. f_equal; lia.
Qed.

Lemma ref_from {A B} s b k j m (r : res A) (g : hslice -> go B) Q :
  tl s b k -> k + j <= hlen s ->
  (forall b', tl s b' (k + j) -> refines r (g b') m Q) ->
  refines r (gbind (g_from b j) g) m Q.
Proof.
  intros T L HQ. destruct (from_tl s b k j T L) as [b' [Eb T']]. rewrite Eb. cbn [gbind]. auto.
Qed.

(* ------------------------------------------------------------ the operations *)

Lemma ref_put m p s b k i o xs : sl m p s -> tl s b k -> i = k + o -> 0 <= i ->
  refines (put p i xs) (g_put b o xs) m (fun m' p' _ => sl m' p' s).
Proof.
  intros S [T ->] -> _. unfold put, g_put. cbn [hlen arr off]. rewrite (sl_len _ _ _ S).
  destruct (Nat.leb_spec (k + o + length xs) (hlen s)), (Nat.leb_spec (o + length xs) (hlen s - k)).
  - unfold refines. pose proof S as [[W1 W2] _]. apply safe_stores; [lia|]. rewrite <- Nat.add_assoc. apply sl_put; [exact S|lia].
  - lia.
  - lia.
  - exact I.
Qed.

(* A new array, whatever it holds. *)
Lemma sl_new m a l n : n <= length l -> sl (upd m a l) (mk (firstn n l) (skipn n l)) (mkh a 0 n (length l)).
Proof.
  intros L. split.
  - split; cbn [hlen hcap off arr]; [auto|]. rewrite array_upd, Nat.eqb_refl. lia.
  - unfold view; cbn [hlen hcap off arr]. rewrite array_upd, Nat.eqb_refl. unfold sub. cbn [skipn]. rewrite firstn_all. reflexivity.
Qed.

Lemma ref_append m p s xs : sl m p s -> 0 <= hlen s ->
  refines (Ok (append p xs)) (g_append s xs) m (fun m' p' s' => sl m' p' s' /\ hlen s' = hlen s + length xs).
Proof.
  intros S _. unfold append, g_append. rewrite (sl_len _ _ _ S), (sl_cap _ _ _ S).
  pose proof (sl_full _ _ _ S) as F. pose proof S as [[W1 W2] V].
  assert (Lf : length (data p ++ spare p) = hcap s) by (rewrite F; apply sub_length; auto).
  pose proof (sl_len _ _ _ S) as Ln. unfold len in Ln. unfold refines.
  destruct (Nat.leb_spec (hlen s + length xs) (hcap s)).
  - apply safe_bind, safe_stores; [lia|]. cbn [safe]. split; [|reflexivity].
    assert (Fl : firstn (hlen s) (data p ++ spare p) = data p).
    { rewrite <- Ln, firstn_app, Nat.sub_diag, firstn_all, firstn_O, app_nil_r. reflexivity. }
    split.
    + pose proof (write_wf m s (hlen s) xs s (conj W1 W2) ltac:(lia) (conj W1 W2)) as [_ W3]. split; cbn [hlen hcap off arr]; lia.
    + unfold view; cbn [hlen hcap off arr]. rewrite write_full by (auto; split; auto). rewrite <- F.
      rewrite ow_app, skipn_ow_app, Fl by lia. f_equal.
      rewrite skipn_app, skipn_all2 by lia. cbn [app]. f_equal. lia.
  - apply safe_bind. unfold g_read. apply safe_loads; [lia|]. fold (contents m s). cbn [g_new safe].
    rewrite (sl_contents _ _ _ S). intros a Ha. split; [|reflexivity].
    pose proof (sl_new m a (data p ++ xs ++ fresh (hcap s) (hlen s + length xs)) (hlen s + length xs)) as G.
    rewrite !app_length in G. specialize (G ltac:(lia)).
    rewrite app_assoc in G at 2 3.
    rewrite firstn_app, firstn_all2 in G by (rewrite app_length; lia).
    rewrite skipn_app, skipn_all2 in G by (rewrite app_length; lia).
    rewrite !app_length in G. replace (hlen s + length xs - (length (data p) + length xs)) with 0 in G by lia.
    cbn [firstn skipn app] in G. rewrite app_nil_r in G. rewrite !app_length. exact G.
Qed.

Lemma ref_reslice m p s n : sl m p s ->
  refines (reslice p n) (g_reslice s n) m (fun m' p' s' => sl m' p' s' /\ hlen s' = n).
Proof.
  intros S. unfold reslice, g_reslice. rewrite (sl_cap _ _ _ S), (sl_full _ _ _ S).
  pose proof S as [[W1 W2] V]. destruct (Nat.leb_spec n (hcap s)); [|exact I].
  apply ref_ret. split; [|reflexivity]. split; [split; cbn; auto|reflexivity].
Qed.

Lemma ref_copy m p s b k i o xs : sl m p s -> tl s b k -> i = k + o -> 0 <= i ->
  refines (copy_at p i xs) (g_copy b o xs) m
    (fun m' p' n => sl m' p' s /\ n = Nat.min (hlen b - o) (length xs) /\ i + n <= hlen s /\ forall a, a <> arr s -> array m' a = array m a).
Proof.
  intros S [T ->] -> _. unfold copy_at, g_copy, g_from. cbn [hlen arr off hcap]. rewrite (sl_len _ _ _ S). pose proof S as [[W1 W2] _].
  destruct (Nat.leb_spec (k + o) (hlen s)), (Nat.leb_spec o (hlen s - k)); try lia; [|exact I].
  cbn [gbind hlen arr off]. unfold refines. apply safe_bind, safe_stores; [rewrite firstn_length; lia|]. cbn [safe].
  split; [|split; [|split]].
  - rewrite <- Nat.sub_add_distr, <- Nat.add_assoc. apply sl_put; [exact S|]. rewrite firstn_length. lia.
  - reflexivity.
  - lia.
  - intros a N. rewrite array_write by (rewrite firstn_length; lia). destruct (Nat.eqb_spec a (arr s)); [contradiction|reflexivity].
Qed.

Lemma ref_upd m p s i f : sl m p s -> 0 <= i ->
  refines (GoSlice.upd p i f) (g_upd s i f) m (fun m' p' _ => sl m' p' s).
Proof.
  intros S _. unfold GoSlice.upd, g_upd. pose proof (sl_len _ _ _ S) as Ln. unfold len in Ln. pose proof S as [[W1 W2] V].
  destruct (Nat.ltb_spec i (hlen s)).
  - assert (Ex : nth_error (data p) i = Some (nth (off s + i) (array m (arr s)) 0%N)).
    { rewrite <- (sl_contents _ _ _ S). unfold contents. rewrite <- (nth_sub (array m (arr s)) (off s) (hlen s) i 0%N) by lia.
      apply nth_error_nth'. rewrite sub_length; lia. }
    rewrite Ex. unfold refines. cbn [safe]. split; [lia|].
    exact (ref_put m p s s 0 i i [f _] S (tl_refl s) eq_refl (Nat.le_0_l _)).
  - rewrite (proj2 (nth_error_None (data p) i)) by lia. exact I.
Qed.

Lemma ref_make m n c : n <= c ->
  refines (Ok (make n c)) (g_make n c) m
    (fun m' q t => sl m' q t /\ m' = upd m (arr t) (data q ++ spare q) /\ hlen t = n /\ m (arr t) = None).
Proof.
  intros L. unfold g_make, g_new, refines. cbn [safe]. intros a Ha. split; [|split; [|split; auto]].
  - rewrite view_make by auto. apply sl_new. rewrite app_length, repeat_length. lia.
  - reflexivity.
Qed.

(* An old slice after an allocation. *)
Lemma sl_upd m p s a l : sl m p s -> m a = None -> sl (upd m a l) p s \/ hcap s = 0.
Proof.
  intros [W V] Ha. destruct (Nat.eq_dec (hcap s) 0) as [Z|Z]; [auto|left].
  pose proof (wf_arr _ _ W ltac:(lia)) as Na. assert (Ne : (arr s =? a) = false) by (apply Nat.eqb_neq; congruence).
  split; [|unfold view in *; rewrite array_upd, Ne; exact V]. destruct W. split; [auto|]. rewrite array_upd, Ne. auto.
Qed.

Lemma ref_read {A B} m s (x : bytes) (r : res A) (g : bytes -> go B) Q : off s + hlen s <= length (array m (arr s)) \/ hlen s = 0 -> contents m s = x ->
  refines r (g x) m Q -> refines r (gbind (g_read s) g) m Q.
Proof.
  intros L <- HQ. unfold refines, g_read in *. apply safe_bind. destruct L as [L|Z].
  - apply safe_loads; [exact L|]. exact HQ.
  - unfold contents in HQ. rewrite Z in *. cbn [loads safe]. exact HQ.
Qed.

Lemma upd_contents m p s a l : sl m p s -> m a = None ->
  contents (upd m a l) s = data p /\ (off s + hlen s <= length (array (upd m a l) (arr s)) \/ hlen s = 0).
Proof.
  intros S Ha. pose proof S as [[W1 W2] _]. pose proof (sl_len _ _ _ S) as Ln. unfold len in Ln. destruct (sl_upd m p s a l S Ha) as [S'|Z].
  - split; [apply sl_contents; exact S'|]. destruct S' as [[W3 W4] _]. left. lia.
  - assert (Z0 : hlen s = 0) by lia. split; [|auto]. unfold contents. rewrite Z0 in *. destruct (data p); [reflexivity|discriminate].
Qed.

Lemma ref_for_append m p s n : sl m p s -> 0 <= hlen s ->
  refines (Ok (for_append p n)) (g_for_append s n) m
    (fun m' p' x => sl m' p' (fst x) /\ tl (fst x) (snd x) (hlen s) /\ hlen (fst x) = hlen s + n).
Proof.
  intros S _. unfold for_append, g_for_append. rewrite (sl_len _ _ _ S), (sl_cap _ _ _ S).
  pose proof S as [[W1 W2] V]. pose proof (sl_len _ _ _ S) as Ln. unfold len in Ln.
  destruct (Nat.leb_spec (hlen s + n) (hcap s)).
  - pose proof (ref_reslice m p s (hlen s + n) S) as R. unfold reslice in R. rewrite (sl_cap _ _ _ S) in R.
    destruct (Nat.leb_spec (hlen s + n) (hcap s)); [|lia]. eapply ref_pure; [exact R|]. cbv beta. intros m' t [St Lt].
    eapply ref_from; [apply tl_refl|lia|]. cbn [Nat.add]. intros b T. apply ref_ret. cbn [fst snd]. auto.
  - set (nn := hlen s + n) in *. apply ref_assoc.
    eapply ref_pure; [apply (ref_make m nn (2 * nn)); lia|].
    intros m1 t [S1 [M1 [L1 A1]]]. apply ref_assoc.
    destruct (upd_contents m p s (arr t) (data (make nn (2 * nn)) ++ spare (make nn (2 * nn))) S A1) as [Ec Lc]. rewrite <- M1 in Ec, Lc.
    eapply ref_read; [exact Lc|exact Ec|]. apply ref_assoc.
    eapply ref_pure.
    { pose proof (ref_copy _ _ _ _ 0 0 0 (data p) S1 (tl_refl _) eq_refl (Nat.le_0_l _)) as R.
      unfold copy_at in R. rewrite (sl_len _ _ _ S1) in R. cbn [Nat.leb] in R. exact R. }
    intros m2 k [S2 _]. cbn [gbind].
    eapply ref_from; [apply tl_refl|unfold nn in *; lia|]. cbn [Nat.add]. intros b T.
    apply ref_ret. cbn [fst snd]. split; [|split; [exact T|lia]].
    rewrite L1, Nat.sub_0_r, (firstn_all2 (data p)) in S2 by (unfold nn in *; lia). exact S2.
Qed.

(* append(s[:n], s[i:]...) *)
Lemma ref_append_tail m p s n i : sl m p s -> 0 <= n ->
  refines (do h <- reslice p n; do t <- from p i; Ok (append h t))
    (let! h := g_reslice s n in let! t := g_from s i in g_append_slice h t) m (fun m' p' s' => sl m' p' s' /\ hlen s' = n + (hlen s - i)).
Proof.
  intros S _. pose proof S as [[W1 W2] V].
  eapply (ref_bind _ _ _ _ m (fun m' p' s' => m' = m /\ sl m p' s' /\ hlen s' = n)).
  { unfold reslice, g_reslice. rewrite (sl_cap _ _ _ S), (sl_full _ _ _ S). destruct (Nat.leb_spec n (hcap s)); [|exact I].
    apply ref_ret. split; [reflexivity|]. split; [|reflexivity]. split; [split; cbn; auto|reflexivity]. }
  cbv beta. intros m' h hs [-> [St Lh]]. unfold from, g_from. rewrite (sl_len _ _ _ S). destruct (Nat.leb_spec i (hlen s)); cbn [bind gbind]; [|exact I].
  unfold g_append_slice. eapply (ref_read m _ (skipn i (data p))).
  - cbn [arr off hlen]. left. lia.
  - rewrite <- (sl_contents _ _ _ S). unfold contents; cbn [arr off hlen]. apply list_ext.
    + rewrite skipn_length, !sub_length; lia.
    + rewrite sub_length by lia. intros j J. rewrite nth_skipn, !nth_sub by lia. f_equal. lia.
  - eapply ref_weaken; [apply ref_append; [exact St|lia]|]. intros m' a b [S' L']. split; [exact S'|].
    rewrite L', skipn_length, Lh. rewrite <- (sl_len _ _ _ S). reflexivity.
Qed.

Lemma read_old m p s x a o n b : sl m p s -> m b = None -> a = arr s -> o + n <= off s + hlen s -> off s <= o -> 0 < n ->
  sub (array (upd m b x) a) o n = sub (data p) (o - off s) n /\ o + n <= length (array (upd m b x) a).
Proof.
  intros S Hb -> L L2 L3. rewrite <- (sl_contents _ _ _ S). pose proof S as [[W1 W2] _]. unfold contents.
  assert (A : m (arr s) <> None) by (apply wf_arr; [split; auto|lia]).
  rewrite array_upd. destruct (Nat.eqb_spec (arr s) b); [congruence|]. split; [|lia]. apply list_ext.
  - rewrite sub_length by lia. rewrite sub_length; [reflexivity|]. rewrite sub_length; lia.
  - rewrite sub_length by lia. intros j J. rewrite !nth_sub by lia. f_equal. lia.
Qed.

Lemma ref_insert m p s pos n : sl m p s -> 0 <= hlen s -> 0 <= pos ->
  refines (insert p pos n) (g_insert s pos n) m sg.
Proof.
  intros S _ _. unfold insert, g_insert. destruct n as [|n0]; [apply ref_ret; split; [assumption|lia]|].
  set (n := Datatypes.S n0). rewrite (sl_cap _ _ _ S), (sl_len _ _ _ S).
  destruct (Nat.leb_spec (pos + n) (hcap s)).
  { eapply ref_weaken; [apply ref_append_tail; [exact S|lia]|]. cbv beta. intros m' a b [S' L']. split; [exact S'|lia]. }
  pose proof S as [[W1 W2] V]. pose proof (sl_len _ _ _ S) as Ln. unfold len in Ln.
  eapply ref_pure; [apply (ref_make m (hlen s + n) (hlen s + n + 512)); lia|].
  intros m1 t [S1 [M1 [L1 A1]]]. unfold from. rewrite (sl_len _ _ _ S).
  destruct (Nat.leb_spec pos (hlen s)) as [Lp|Lp]; cbn [bind].
  - unfold g_reslice. destruct (Nat.leb_spec pos (hcap s)); [|lia]. cbn [gbind].
    assert (Ec : contents m1 (mkh (arr s) (off s) pos (hcap s)) = firstn pos (data p) /\ (off s + pos <= length (array m1 (arr s)) \/ pos = 0)).
    { unfold contents; cbn [arr off hlen]. rewrite M1. destruct (Nat.eq_dec pos 0) as [->|Z]; [auto|].
      destruct (read_old m p s (data (make (hlen s + n) (hlen s + n + 512)) ++ spare (make (hlen s + n) (hlen s + n + 512))) (arr s) (off s) pos (arr t) S A1 eq_refl ltac:(lia) ltac:(lia) ltac:(lia)) as [-> L2].
      rewrite Nat.sub_diag. auto. }
    destruct Ec as [Ec Lc]. eapply ref_read; [exact Lc|exact Ec|].
    eapply ref_bind; [eapply (ref_copy m1 _ t t 0); [exact S1|apply tl_refl|reflexivity|lia]|].
    intros m2 q k [S2 [Hk [Lk O2]]]. unfold g_from. destruct (Nat.leb_spec pos (hlen s)); [|lia]. cbn [gbind].
    assert (Et : contents m2 (mkh (arr s) (off s + pos) (hlen s - pos) (hcap s - pos)) = skipn pos (data p) /\
                 (off s + pos + (hlen s - pos) <= length (array m2 (arr s)) \/ hlen s - pos = 0)).
    { unfold contents; cbn [arr off hlen]. destruct (Nat.eq_dec (hlen s - pos) 0) as [Z|Z].
      - rewrite Z. split; [|auto]. cbn [sub firstn]. symmetry. apply skipn_all2. lia.
      - assert (Na : m (arr s) <> None) by (apply wf_arr; [split; auto|lia]).
        rewrite O2 by congruence. rewrite M1.
        destruct (read_old m p s (data (make (hlen s + n) (hlen s + n + 512)) ++ spare (make (hlen s + n) (hlen s + n + 512))) (arr s) (off s + pos) (hlen s - pos) (arr t) S A1 eq_refl ltac:(lia) ltac:(lia) ltac:(lia)) as [-> L2].
        split; [|auto]. unfold sub. replace (off s + pos - off s) with pos by lia. apply firstn_all2. rewrite skipn_length. lia. }
    destruct Et as [Et Lt]. eapply ref_read; [exact Lt|exact Et|].
    eapply ref_last; [eapply (ref_copy m2 _ t t 0); [exact S2|apply tl_refl|reflexivity|lia]|].
    intros m3 q' k' [S3 _]. split; [exact S3|lia].
  - (* in[pos:] is out of range *)
    unfold g_reslice. destruct (Nat.leb_spec pos (hcap s)) as [Lc|Lc]; [|exact I]. cbn [gbind].
    eapply ref_read; [|reflexivity|].
    + cbn [arr off hlen]. left. pose proof (wf_arr m s ltac:(split; auto) ltac:(lia)) as Na.
      rewrite M1, array_upd. destruct (Nat.eqb_spec (arr s) (arr t)); [congruence|lia].
    + eapply ref_pure.
      { pose proof (ref_copy m1 _ t t 0 0 0 (contents m1 (mkh (arr s) (off s) pos (hcap s))) S1 (tl_refl _) eq_refl (Nat.le_0_l _)) as R.
        unfold copy_at in R. rewrite (sl_len _ _ _ S1) in R. cbn [Nat.leb] in R. exact R. }
      intros m2 k [S2 _]. unfold g_from. destruct (Nat.leb_spec pos (hlen s)); [lia|]. exact I.
Qed.

Lemma ref_put_uvarint m p s b k i o x : sl m p s -> tl s b k -> i = k + o -> 0 <= i ->
  refines (put_uvarint p i x) (g_put_uvarint b o x) m
    (fun m' a n => sl m' (fst a) s /\ n = snd a /\ i + n <= hlen s).
Proof.
  intros S T -> Lo. unfold put_uvarint, g_put_uvarint. rewrite (sl_len _ _ _ S).
  destruct (Nat.leb_spec (k + o) (hlen s)) as [L|L].
  - eapply ref_from; [exact T|exact L|]. intros t T'.
    assert (P : forall xs, refines (put p (k + o) xs) (g_put t 0 xs) m
                  (fun m' p' _ => sl m' p' s /\ k + o + length xs <= hlen s)).
    { intros xs. pose proof (ref_put m p s t (k + o) (k + o) 0 xs S T' ltac:(lia) Lo) as R.
      unfold put in *. rewrite (sl_len _ _ _ S) in *.
      destruct (Nat.leb_spec (k + o + length xs) (hlen s)); [|exact R].
      eapply ref_weaken; [exact R|]. cbv beta. auto. }
    destruct (x <? 128)%N; (eapply ref_bind; [apply P|]; intros m' p' u [S' L']; apply ref_ret; cbn [fst snd length] in *; auto).
  - unfold g_from. rewrite (tl_len _ _ _ T). destruct T as [T _].
    destruct (Nat.leb_spec o (hlen s - k)); [lia|]. exact I.
Qed.

Lemma ref_mask_truncate m p s n : sl m p s -> 0 < n ->
  refines (mask_truncate p n) (g_mask_truncate s n) m (fun m' p' s' => sl m' p' s' /\ hlen s' = n).
Proof.
  intros S Lo. unfold mask_truncate, g_mask_truncate. eapply ref_bind; [apply ref_upd; [exact S|lia]|].
  intros m' p' u S'. apply ref_reslice; exact S'.
Qed.

Lemma ref_append_wire_string m p s tag v : sl m p s -> 0 <= hlen s ->
  refines (append_wire_bytes p tag v) (g_append_wire_string s tag v) m sg.
Proof.
  intros S Lo. unfold append_wire_bytes, g_append_wire_string.
  eapply ref_pure; [apply ref_append; [exact S|exact Lo]|]. intros m' s' [S' L']. cbn [length] in L'.
  rewrite (sl_len _ _ _ S').
  eapply ref_bind; [apply ref_mask_truncate; [exact S'|lia]|]. intros m2 p2 s2 [S2 L2].
  eapply ref_weaken; [apply ref_append; [exact S2|lia]|]. intros m3 p3 s3 [S3 L3]. split; [exact S3|lia].
Qed.

End Ops.
