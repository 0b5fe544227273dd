(* The operations of Mem.v do to memory what those of GoSlice.v do to slice values, and touch nothing else. *)
From Coq Require Import List NArith Arith Bool Lia.
From Verif Require Import Base GoSlice Varint Mem.
Import ListNotations.
Local Open Scope nat_scope.

(* ------------------------------------------------------------ relating the two *)

(* The slice value a header stands for. *)
Definition view (m : mem) (s : hslice) : slice :=
  let l := sub (array m (arr s)) (off s) (hcap s) in mk (firstn (hlen s) l) (skipn (hlen s) l).

Definition wf (m : mem) (s : hslice) : Prop :=
  hlen s <= hcap s /\ off s + hcap s <= length (array m (arr s)).

(* Element i of array a can be reached through s, at index lo of s or after it. *)
Definition owns (s : hslice) (lo a i : nat) : Prop := a = arr s /\ off s + lo <= i < off s + hcap s.

(* Since m, nothing but elements reachable through s from index lo on has changed. *)
Definition outside (m : mem) (s : hslice) (lo : nat) (m' : mem) : Prop :=
  length m <= length m' /\
  forall a, a < length m ->
    length (array m' a) = length (array m a) /\
    forall i, ~ owns s lo a i -> nth i (array m' a) 0%N = nth i (array m a) 0%N.

(* s' is in the memory of s or in memory allocated since m. *)
Definition within (m : mem) (s s' : hslice) : Prop :=
  (arr s' = arr s /\ off s' = off s /\ hcap s' = hcap s) \/ length m <= arr s' \/ hcap s' = 0.

(* In m, s is the slice value p; compared with m0, only memory of s0 from index lo on has changed. *)
Definition sl (m0 : mem) (s0 : hslice) (lo : nat) (m : mem) (p : slice) (s : hslice) : Prop :=
  wf m s /\ view m s = p /\ outside m0 s0 lo m /\ within m0 s0 s.
Definition sg (m0 : mem) (s0 : hslice) (lo : nat) (m : mem) (p : slice) (s : hslice) : Prop :=
  sl m0 s0 lo m p s /\ lo <= hlen s.

(* b is s[k:]. *)
Definition tl (s b : hslice) (k : nat) : Prop :=
  k <= hlen s /\ b = mkh (arr s) (off s + k) (hlen s - k) (hcap s - k).

(* h, run on memory, does what r does to values. *)
Definition refines {A B} (m0 : mem) (s0 : hslice) (lo : nat) (r : res A) (h : hres B) (R : mem -> A -> B -> Prop) : Prop :=
  match r with
  | Panic => exists m', h = HPanic m' /\ outside m0 s0 lo m'
  | Ok a => exists b m', h = HOk b m' /\ R m' a b
  end.

(* ------------------------------------------------------------ lists *)

Lemma sub_length l o n : o + n <= length l -> length (sub l o n) = n.
Proof. intros L. unfold sub. rewrite firstn_length, skipn_length. lia. Qed.

Lemma nth_skipn {A} (l : list A) o i d : nth i (skipn o l) d = nth (o + i) l d.
Proof.
  revert l; induction o as [|o IH]; intros [|x l]; cbn [skipn Nat.add nth]; auto.
  destruct i; reflexivity.
Qed.

Lemma nth_firstn {A} (l : list A) n i d : i < n -> nth i (firstn n l) d = nth i l d.
Proof.
  revert l i; induction n as [|n IH]; intros [|x l] [|i] L; cbn [firstn nth]; try lia; auto.
  apply IH; lia.
Qed.

Lemma nth_sub l o n i d : i < n -> nth i (sub l o n) d = nth (o + i) l d.
Proof. intros L. unfold sub. rewrite nth_firstn, nth_skipn; auto. Qed.

Lemma ow_length l o xs : o + length xs <= length l -> length (ow l o xs) = length l.
Proof. intros L. unfold ow. rewrite !app_length, firstn_length, skipn_length. lia. Qed.

Lemma nth_ow l o xs i d : o + length xs <= length l ->
  nth i (ow l o xs) d = if (o <=? i) && (i <? o + length xs) then nth (i - o) xs d else nth i l d.
Proof.
  intros L. unfold ow.
  destruct (Nat.leb_spec o i); cbn [andb].
  - rewrite app_nth2; rewrite firstn_length, Nat.min_l by lia; [|lia].
    destruct (Nat.ltb_spec i (o + length xs)).
    + rewrite app_nth1 by lia. reflexivity.
    + rewrite app_nth2 by lia. rewrite nth_skipn. f_equal. lia.
  - rewrite app_nth1 by (rewrite firstn_length; lia). apply nth_firstn; lia.
Qed.

Lemma list_ext (a b : bytes) : length a = length b -> (forall i, i < length a -> nth i a 0%N = nth i b 0%N) -> a = b.
Proof. intros L N. apply (nth_ext a b 0%N 0%N L). auto. Qed.

Lemma sub_ow l o n i xs : o + n <= length l -> i + length xs <= n ->
  sub (ow l (o + i) xs) o n = ow (sub l o n) i xs.
Proof.
  intros L L2.
  assert (Ls : length (sub l o n) = n) by (apply sub_length; auto).
  assert (Lo : length (ow l (o + i) xs) = length l) by (apply ow_length; lia).
  apply list_ext.
  - rewrite sub_length by lia. rewrite ow_length; lia.
  - rewrite sub_length by lia. intros k K. rewrite nth_sub by lia. rewrite !nth_ow by lia. rewrite nth_sub by lia.
    destruct (Nat.leb_spec (o + i) (o + k)), (Nat.leb_spec i k); try lia; cbn [andb]; auto.
    destruct (Nat.ltb_spec (o + k) (o + i + length xs)), (Nat.ltb_spec k (i + length xs)); try lia; auto.
    f_equal. lia.
Qed.

Lemma firstn_ow l n o xs : o + length xs <= n -> n <= length l -> firstn n (ow l o xs) = ow (firstn n l) o xs.
Proof.
  intros L L2.
  assert (Lf : length (firstn n l) = n) by (rewrite firstn_length; lia).
  assert (Lo : length (ow l o xs) = length l) by (apply ow_length; lia).
  apply list_ext.
  - rewrite firstn_length, Lo, ow_length; lia.
  - rewrite firstn_length. intros i I. rewrite nth_firstn by lia. rewrite !nth_ow by lia.
    rewrite nth_firstn by lia. reflexivity.
Qed.

Lemma skipn_ow l n o xs : o + length xs <= n -> n <= length l -> skipn n (ow l o xs) = skipn n l.
Proof.
  intros L L2.
  assert (Lo : length (ow l o xs) = length l) by (apply ow_length; lia).
  apply list_ext.
  - rewrite !skipn_length. lia.
  - intros i I. rewrite !nth_skipn, nth_ow by lia.
    destruct (Nat.leb_spec o (n + i)), (Nat.ltb_spec (n + i) (o + length xs)); try lia; reflexivity.
Qed.

Lemma ow_app l n xs : n + length xs <= length l -> firstn (n + length xs) (ow l n xs) = firstn n l ++ xs.
Proof.
  intros L. unfold ow. rewrite app_assoc, firstn_app.
  rewrite firstn_all2 by (rewrite app_length, firstn_length; lia).
  rewrite app_length, firstn_length. replace (_ - _) with 0 by lia. cbn [firstn]. apply app_nil_r.
Qed.

Lemma skipn_ow_app l n xs : n + length xs <= length l -> skipn (n + length xs) (ow l n xs) = skipn (n + length xs) l.
Proof. intros L. apply skipn_ow; lia. Qed.

Lemma ow_nil l o : ow l o [] = l.
Proof. unfold ow. cbn [app length]. rewrite Nat.add_0_r. apply firstn_skipn. Qed.

Lemma skipn_sk {A} (l : list A) a b : skipn a (skipn b l) = skipn (b + a) l.
Proof. revert l; induction b as [|b IH]; intros [|x l]; cbn [skipn Nat.add]; auto. apply skipn_nil. Qed.

(* ------------------------------------------------------------ memory *)

Lemma set_array_length m a l : length (set_array m a l) = length m.
Proof. revert a; induction m as [|x m IH]; intros [|a]; cbn [set_array length]; auto. Qed.

Lemma array_set m a b l : array (set_array m a l) b = if (b =? a) && (a <? length m) then l else array m b.
Proof.
  unfold array. revert a b; induction m as [|x m IH]; intros [|a] b; cbn [set_array length].
  - destruct b; reflexivity.
  - destruct b; cbn [nth]; rewrite ?Bool.andb_false_r; auto.
  - destruct b; cbn [nth]; reflexivity.
  - destruct b; cbn [nth]; [reflexivity|]. rewrite IH. reflexivity.
Qed.

Lemma array_out m a : length m <= a -> array m a = [].
Proof. intros L. unfold array. apply nth_overflow. auto. Qed.

Lemma array_write m a o xs b : o + length xs <= length (array m a) ->
  array (write m a o xs) b = if b =? a then ow (array m a) o xs else array m b.
Proof.
  intros L. unfold write. rewrite array_set. destruct (Nat.eqb_spec b a) as [->|]; cbn [andb]; auto.
  destruct (Nat.ltb_spec a (length m)); auto.
  rewrite array_out in * by auto. destruct xs; [|cbn in L; lia]. rewrite ow_nil. reflexivity.
Qed.

Lemma write_length m a o xs : length (write m a o xs) = length m.
Proof. apply set_array_length. Qed.

Lemma array_app_old m l a : a < length m -> array (m ++ [l]) a = array m a.
Proof. intros L. unfold array. apply app_nth1; auto. Qed.

Lemma array_app_new m l : array (m ++ [l]) (length m) = l.
Proof. unfold array. rewrite app_nth2, Nat.sub_diag by auto. reflexivity. Qed.

Lemma array_some m a : array m a <> [] -> a < length m.
Proof. intros N. destruct (Nat.lt_ge_cases a (length m)); auto. rewrite array_out in N by auto. congruence. Qed.

Lemma wf_arr m s : wf m s -> 0 < hcap s -> arr s < length m.
Proof. intros [_ W] L. apply array_some. intros E. rewrite E in W. cbn in W. lia. Qed.

(* ------------------------------------------------------------ what is left alone *)

Lemma outside_refl m s lo : outside m s lo m.
Proof. split; auto. Qed.

Lemma outside_new m0 s0 lo m l : outside m0 s0 lo m -> outside m0 s0 lo (m ++ [l]).
Proof.
  intros [L O]. split; [rewrite app_length; lia|]. intros a A. rewrite array_app_old by lia. auto.
Qed.

Lemma outside_write m0 s0 lo m s o xs : outside m0 s0 lo m -> within m0 s0 s -> wf m s -> lo <= o \/ length m0 <= arr s -> o + length xs <= hcap s ->
  outside m0 s0 lo (write m (arr s) (off s + o) xs).
Proof.
  intros [L O] W [W1 W2] Lo Lx. split; [rewrite write_length; lia|]. intros a A. destruct (O a A) as [O1 O2].
  rewrite array_write by lia. destruct (Nat.eqb_spec a (arr s)) as [->|N]; [|auto].
  split; [rewrite ow_length by lia; exact O1|]. intros i I. rewrite nth_ow by lia.
  destruct (Nat.leb_spec (off s + o) i), (Nat.ltb_spec i (off s + o + length xs)); cbn [andb]; auto.
  exfalso. destruct W as [[Wa [Wb Wc]]|[W|W]]; [|lia|lia]. apply I. split; [exact Wa|lia].
Qed.

Lemma sl_len m0 s0 lo m p s : sl m0 s0 lo m p s -> len p = hlen s.
Proof.
  intros [[W1 W2] [<- _]]. unfold view, len; cbn [data].
  rewrite firstn_length, sub_length; lia.
Qed.

Lemma sl_cap m0 s0 lo m p s : sl m0 s0 lo m p s -> cap p = hcap s.
Proof.
  intros [[W1 W2] [<- _]]. unfold view, cap; cbn [data spare].
  rewrite firstn_length, skipn_length, sub_length; lia.
Qed.

Lemma sl_full m0 s0 lo m p s : sl m0 s0 lo m p s -> data p ++ spare p = sub (array m (arr s)) (off s) (hcap s).
Proof. intros [_ [<- _]]. apply firstn_skipn. Qed.

Lemma sl_outside m0 s0 lo m p s : sl m0 s0 lo m p s -> outside m0 s0 lo m.
Proof. intros [_ [_ K]]. apply K. Qed.

Lemma sub_firstn l o n k : k <= n -> firstn k (sub l o n) = sub l o k.
Proof. intros L. unfold sub. rewrite firstn_firstn, Nat.min_l; auto. Qed.

Lemma contents_data m s : wf m s -> contents m s = data (view m s).
Proof. intros [W1 W2]. unfold contents, view; cbn [data]. rewrite sub_firstn; auto. Qed.

Lemma sl_contents m0 s0 lo m p s : sl m0 s0 lo m p s -> contents m s = data p.
Proof. intros [W [<- _]]. apply contents_data; auto. Qed.

Lemma sl_start m s lo : wf m s -> sl m s lo m (view m s) s.
Proof. intros W. split; [auto|]. split; [auto|]. split; [apply outside_refl|]. left; auto. Qed.

(* ------------------------------------------------------------ composing *)

Section Composing.
Variables (m0 : mem) (s0 : hslice) (lo : nat).

Lemma ref_bind {A B A' B'} (r : res A) (h : H B) (f : A -> res A') (g : B -> H B') m R Q :
  refines m0 s0 lo r (h m) R ->
  (forall m' a b, R m' a b -> refines m0 s0 lo (f a) (g b m') Q) ->
  refines m0 s0 lo (bind r f) (hbind h g m) Q.
Proof.
  intros Hr Hf. destruct r as [a|]; cbn [bind]; unfold hbind.
  - destruct Hr as [b [m' [-> HR]]]. auto.
  - destruct Hr as [m' [-> O]]. exists m'. auto.
Qed.

Lemma ref_ret {A B} m (a : A) (b : B) (R : mem -> A -> B -> Prop) : R m a b -> refines m0 s0 lo (Ok a) (hret b m) R.
Proof. intros HR. exists b, m. auto. Qed.

Lemma ref_panic {A B} m p s (R : mem -> A -> B -> Prop) :
  sl m0 s0 lo m p s -> refines m0 s0 lo Panic (hpanic m) R.
Proof. intros S. exists m. split; [reflexivity|]. eapply sl_outside; eauto. Qed.

Lemma ref_weaken {A B} (r : res A) (h : hres B) (R Q : mem -> A -> B -> Prop) :
  refines m0 s0 lo r h R -> (forall m a b, R m a b -> Q m a b) -> refines m0 s0 lo r h Q.
Proof.
  intros Hr W. destruct r as [a|]; [|exact Hr]. destruct Hr as [b [m' [-> HR]]]. exists b, m'. auto.
Qed.

(* A step of the memory that the value model has no counterpart of. *)
Lemma ref_skip {A B B'} (r : res A) (h : H B) (g : B -> H B') m b Q :
  h m = HOk b m -> refines m0 s0 lo r (g b m) Q -> refines m0 s0 lo r (hbind h g m) Q.
Proof. intros E HQ. unfold hbind. rewrite E. exact HQ. Qed.

(* A step of the memory that does what a value computed at once does. *)
Lemma ref_pure {A B A' B'} (a : A) (r : res A') (h : H B) (g : B -> H B') m R Q :
  refines m0 s0 lo (Ok a) (h m) R ->
  (forall m' b, R m' a b -> refines m0 s0 lo r (g b m') Q) ->
  refines m0 s0 lo r (hbind h g m) Q.
Proof. intros [b [m' [E HR]]] HQ. unfold hbind. rewrite E. auto. Qed.

(* The last step, whose result the memory version already has. *)
Lemma ref_last {A B C} (r : res A) (h : H B) (c : C) m (R : mem -> A -> B -> Prop) (Q : mem -> A -> C -> Prop) :
  refines m0 s0 lo r (h m) R -> (forall m' a b, R m' a b -> Q m' a c) -> refines m0 s0 lo r (hbind h (fun _ => hret c) m) Q.
Proof.
  intros Hr HQ. unfold hbind. destruct r as [a|].
  - destruct Hr as [b [m' [-> HR]]]. exists c, m'. split; [reflexivity|eauto].
  - destruct Hr as [m' [-> O]]. exists m'. auto.
Qed.
End Composing.

Lemma hbind_assoc {A B C} (h : H A) (f : A -> H B) (g : B -> H C) m :
  hbind (hbind h f) g m = hbind h (fun x => hbind (f x) g) m.
Proof. unfold hbind. destruct (h m); reflexivity. Qed.

(* ------------------------------------------------------------ writing in place *)

Lemma write_wf m s o xs t : wf m s -> o + length xs <= hcap s -> wf m t -> wf (write m (arr s) (off s + o) xs) t.
Proof.
  intros [W1 W2] L [W3 W4]. split; auto. rewrite array_write by lia.
  destruct (Nat.eqb_spec (arr t) (arr s)) as [E|]; auto. rewrite ow_length; [congruence|lia].
Qed.

Lemma write_full m s o xs : wf m s -> o + length xs <= hcap s ->
  sub (array (write m (arr s) (off s + o) xs) (arr s)) (off s) (hcap s)
  = ow (sub (array m (arr s)) (off s) (hcap s)) o xs.
Proof. intros [W1 W2] L. rewrite array_write, Nat.eqb_refl by lia. apply sub_ow; lia. Qed.

Section Ops.
Context `{E : Env}.
Variables (m0 : mem) (s0 : hslice) (lo : nat).
Local Notation sl := (sl m0 s0 lo).
Local Notation sg := (sg m0 s0 lo).
Local Notation refines := (refines m0 s0 lo).

Lemma sl_write m p s o xs : sl m p s -> lo <= o \/ length m0 <= arr s -> o + length xs <= hcap s ->
  sl (write m (arr s) (off s + o) xs)
     (mk (firstn (hlen s) (ow (data p ++ spare p) o xs)) (skipn (hlen s) (ow (data p ++ spare p) o xs))) s.
Proof.
  intros S Lo L. pose proof (sl_full _ _ _ _ _ _ S) as F. destruct S as [W [V [O I]]].
  split; [apply write_wf; auto|]. split; [|split; [apply outside_write; auto|exact I]].
  unfold view. rewrite write_full by auto. rewrite F. reflexivity.
Qed.

Lemma sl_put m p s o xs : sl m p s -> lo <= o \/ length m0 <= arr s -> o + length xs <= hlen s ->
  sl (write m (arr s) (off s + o) xs) (mk (ow (data p) o xs) (spare p)) s.
Proof.
  intros S Lo L. pose proof S as [[W1 W2] [V K]].
  pose proof (sl_write _ _ _ o xs S Lo ltac:(lia)) as S'. pose proof (sl_full _ _ _ _ _ _ S) as F.
  pose proof (sl_len _ _ _ _ _ _ S) as Ln. unfold len in Ln.
  assert (Lf : length (data p ++ spare p) = hcap s) by (rewrite F; apply sub_length; auto).
  rewrite firstn_ow, skipn_ow in S' by lia.
  rewrite firstn_app, skipn_app, <- Ln, Nat.sub_diag, firstn_all, skipn_all, firstn_O, app_nil_r in S'. exact S'.
Qed.

Lemma tl_refl s : tl s s 0.
Proof. split; [lia|]. destruct s; cbn. f_equal; lia. Qed.

Lemma tl_len s b k : tl s b k -> hlen b = hlen s - k.
Proof. intros [_ ->]. reflexivity. Qed.

(* b[j:] of a tail *)
Lemma from_tl s b k j m : tl s b k -> k + j <= hlen s ->
  exists b', h_from b j m = HOk b' m /\ tl s b' (k + j).
Proof.
  intros [T ->] L. unfold h_from; cbn [hlen arr off hcap].
  destruct (Nat.leb_spec j (hlen s - k)); [|lia].
  eexists. split; [reflexivity|]. split; [exact L|]. f_equal; lia.
Qed.

Lemma ref_from {A B} s b k j m (r : res A) (g : hslice -> H B) Q :
  tl s b k -> k + j <= hlen s ->
  (forall b', tl s b' (k + j) -> refines r (g b' m) Q) ->
  refines r (hbind (h_from b j) g m) Q.
Proof.
  intros T L HQ. destruct (from_tl s b k j m T L) as [b' [Eb T']].
  eapply ref_skip; [exact Eb|]. auto.
Qed.

(* ------------------------------------------------------------ the operations *)

Lemma ref_put m p s b k i o xs : sl m p s -> tl s b k -> i = k + o -> lo <= i ->
  refines (put p i xs) (h_put b o xs m) (fun m' p' _ => sl m' p' s).
Proof.
  intros S [T ->] -> Lo. unfold put, h_put. cbn [hlen arr off]. rewrite (sl_len _ _ _ _ _ _ S).
  destruct (Nat.leb_spec (k + o + length xs) (hlen s)), (Nat.leb_spec (o + length xs) (hlen s - k)).
  - exists tt, (write m (arr s) (off s + k + o) xs). split; [reflexivity|].
    rewrite <- Nat.add_assoc. apply sl_put; [exact S|left; exact Lo|lia].
  - lia.
  - lia.
  - exists m. split; [reflexivity|eapply sl_outside; eauto].
Qed.

(* A new array, whatever it holds. *)
Lemma sl_new m p s l n : sl m p s -> n <= length l ->
  sl (m ++ [l]) (mk (firstn n l) (skipn n l)) (mkh (length m) 0 n (length l)).
Proof.
  intros [W [V [O I]]] L. split; [|split; [|split]].
  - split; cbn [hlen hcap off arr]; [auto|]. rewrite array_app_new. lia.
  - unfold view; cbn [hlen hcap off arr]. rewrite array_app_new. unfold sub. cbn [skipn]. rewrite firstn_all. reflexivity.
  - apply outside_new; exact O.
  - right; left; cbn. apply O.
Qed.

Lemma ref_append_at m p s xs : sl m p s -> lo <= hlen s \/ length m0 <= arr s \/ (hcap s = 0 /\ xs <> []) ->
  refines (Ok (append p xs)) (h_append s xs m)
    (fun m' p' s' => sl m' p' s' /\ hlen s' = hlen s + length xs /\ (arr s' = arr s /\ 0 < hcap s \/ length m0 <= arr s' \/ xs = [])).
Proof.
  intros S Lo. unfold append, h_append. rewrite (sl_len _ _ _ _ _ _ S), (sl_cap _ _ _ _ _ _ S).
  pose proof (sl_full _ _ _ _ _ _ S) as F. pose proof S as [[W1 W2] [V [O I]]].
  assert (Lf : length (data p ++ spare p) = hcap s) by (rewrite F; apply sub_length; auto).
  pose proof (sl_len _ _ _ _ _ _ S) as Ln. unfold len in Ln.
  destruct (Nat.leb_spec (hlen s + length xs) (hcap s)).
  - eexists _, _. split; [reflexivity|]. split; [|split; [reflexivity|destruct xs; [auto|left; cbn [length arr] in *; split; [reflexivity|lia]]]].
    assert (Fl : firstn (hlen s) (data p ++ spare p) = data p).
    { rewrite <- Ln, firstn_app, Nat.sub_diag, firstn_all, firstn_O, app_nil_r. reflexivity. }
    split; [|split; [|split]].
    + pose proof (write_wf m s (hlen s) xs s (conj W1 W2) ltac:(lia) (conj W1 W2)) as [_ W3]. split; cbn [hlen hcap off arr]; lia.
    + unfold view; cbn [hlen hcap off arr]. rewrite write_full by (auto; split; auto). rewrite <- F.
      rewrite ow_app, skipn_ow_app, Fl by lia. f_equal.
      rewrite skipn_app, skipn_all2 by lia. cbn [app]. f_equal. lia.
    + apply outside_write; auto; [split; auto|]. destruct Lo as [Lo|[Lo|[Lo Nx]]]; auto. exfalso. destruct xs; [auto|cbn [length] in *; lia].
    + exact I.
  - unfold hbind, h_read, h_new. eexists _, _. split; [reflexivity|]. split; [|split; [reflexivity|right; left; apply O]].
    rewrite (sl_contents _ _ _ _ _ _ S).
    pose proof (sl_new m p s (data p ++ xs ++ fresh (hcap s) (hlen s + length xs)) (hlen s + length xs) S) as G.
    rewrite !app_length in G. specialize (G ltac:(lia)).
    rewrite app_assoc in G at 2 3.
    rewrite firstn_app, firstn_all2 in G by (rewrite app_length; lia).
    rewrite skipn_app, skipn_all2 in G by (rewrite app_length; lia).
    rewrite !app_length in G. replace (hlen s + length xs - (length (data p) + length xs)) with 0 in G by lia.
    cbn [firstn skipn app] in G. rewrite app_nil_r in G. rewrite !app_length. exact G.
Qed.

Lemma ref_append m p s xs : sl m p s -> lo <= hlen s ->
  refines (Ok (append p xs)) (h_append s xs m) (fun m' p' s' => sl m' p' s' /\ hlen s' = hlen s + length xs).
Proof.
  intros S Lo. pose proof (ref_append_at m p s xs S (or_introl Lo)) as [b [m' [Eq [S' [L _]]]]]. exists b, m'. auto.
Qed.

Lemma ref_reslice m p s n : sl m p s ->
  refines (reslice p n) (h_reslice s n m) (fun m' p' s' => sl m' p' s' /\ hlen s' = n).
Proof.
  intros S. unfold reslice, h_reslice. rewrite (sl_cap _ _ _ _ _ _ S), (sl_full _ _ _ _ _ _ S).
  pose proof S as [[W1 W2] [V [O I]]].
  destruct (Nat.leb_spec n (hcap s)).
  - eexists _, _. split; [reflexivity|]. split; [|reflexivity]. split; [split; cbn; auto|]. split; [reflexivity|]. split; [exact O|exact I].
  - eapply ref_panic; eauto.
Qed.

Lemma write_other m a o xs b : b <> a -> array (write m a o xs) b = array m b.
Proof. intros N. unfold write. rewrite array_set. destruct (Nat.eqb_spec b a); [congruence|reflexivity]. Qed.

Lemma ref_copy m p s b k i o xs : sl m p s -> tl s b k -> i = k + o -> lo <= i \/ length m0 <= arr s ->
  refines (copy_at p i xs) (h_copy b o xs m)
    (fun m' p' n => sl m' p' s /\ n = Nat.min (hlen b - o) (length xs) /\ i + n <= hlen s /\ forall a, a <> arr s -> array m' a = array m a).
Proof.
  intros S [T ->] -> Lo. unfold copy_at, h_copy, h_from, hbind. cbn [hlen arr off hcap]. rewrite (sl_len _ _ _ _ _ _ S).
  destruct (Nat.leb_spec (k + o) (hlen s)), (Nat.leb_spec o (hlen s - k)); try lia.
  - eexists _, _. split; [reflexivity|]. cbn [hlen arr off hcap]. split; [|split; [|split]].
    + rewrite <- Nat.sub_add_distr, <- Nat.add_assoc. apply sl_put; [exact S|exact Lo|]. rewrite firstn_length. lia.
    + reflexivity.
    + lia.
    + intros a N. apply write_other; auto.
  - exists m. split; [reflexivity|eapply sl_outside; eauto].
Qed.

Lemma ref_upd m p s i f : sl m p s -> lo <= i ->
  refines (upd p i f) (h_upd s i f m) (fun m' p' _ => sl m' p' s).
Proof.
  intros S Lo. unfold upd, h_upd. rewrite (sl_contents _ _ _ _ _ _ S).
  destruct (nth_error (data p) i).
  - eapply ref_put; [exact S|apply tl_refl|reflexivity|exact Lo].
  - exists m. split; [reflexivity|eapply sl_outside; eauto].
Qed.

Lemma view_make n c : n <= c -> make n c = mk (firstn n (repeat 0%N n ++ repeat 0%N (c - n))) (skipn n (repeat 0%N n ++ repeat 0%N (c - n))).
Proof.
  intros L. unfold make. rewrite firstn_app, skipn_app, repeat_length, Nat.sub_diag.
  rewrite firstn_all2, skipn_all2 by (rewrite repeat_length; lia). cbn [firstn skipn app]. rewrite app_nil_r. reflexivity.
Qed.

Lemma ref_make m p s n c : sl m p s -> n <= c ->
  refines (Ok (make n c)) (h_make n c m)
    (fun m' q t => sl m' q t /\ m' = m ++ [data q ++ spare q] /\ hlen t = n /\ arr t = length m).
Proof.
  intros S L. unfold h_make, h_new. eexists _, _. split; [reflexivity|]. split; [|split; [|split]; reflexivity].
  rewrite view_make by auto. apply sl_new with (p := p) (s := s); [exact S|]. rewrite app_length, repeat_length. lia.
Qed.


Lemma sl_new_arr m p s : sl m p s -> length m0 <= length m.
Proof. intros [_ [_ [O _]]]. apply O. Qed.

Lemma ref_for_append m p s n : sl m p s -> lo <= hlen s ->
  refines (Ok (for_append p n)) (h_for_append s n m)
    (fun m' p' x => sl m' p' (fst x) /\ tl (fst x) (snd x) (hlen s) /\ hlen (fst x) = hlen s + n).
Proof.
  intros S Lo. unfold for_append, h_for_append. rewrite (sl_len _ _ _ _ _ _ S), (sl_cap _ _ _ _ _ _ S).
  pose proof S as [[W1 W2] [V K]]. pose proof (sl_len _ _ _ _ _ _ S) as Ln. unfold len in Ln.
  destruct (Nat.leb_spec (hlen s + n) (hcap s)).
  - pose proof (ref_reslice m p s (hlen s + n) S) as R. unfold reslice in R. rewrite (sl_cap _ _ _ _ _ _ S) in R.
    unfold hbind at 1. destruct (Nat.leb_spec (hlen s + n) (hcap s)); [|lia]. destruct R as [t [m' [Et [St _]]]].
    rewrite Et. unfold h_reslice in Et. destruct (Nat.leb_spec (hlen s + n) (hcap s)); [|lia]. injection Et as <- <-.
    unfold hbind, h_from; cbn [hlen arr off hcap]. destruct (Nat.leb_spec (hlen s) (hlen s + n)); [|lia].
    eexists _, _. split; [reflexivity|]. cbn [fst snd]. split; [exact St|]. split; [|reflexivity].
    split; [cbn; lia|]. reflexivity.
  - set (nn := hlen s + n) in *. rewrite hbind_assoc.
    eapply ref_pure; [apply (ref_make m p s nn (2 * nn) S); lia|].
    intros m1 t [S1 [M1 [L1 A1]]].
    assert (Ec : contents m1 s = data p).
    { rewrite <- (sl_contents _ _ _ _ _ _ S), M1. unfold contents.
      destruct (Nat.eq_dec (hlen s) 0) as [->|Z]; [reflexivity|].
      rewrite array_app_old; [reflexivity|]. apply wf_arr; [split; auto|lia]. }
    rewrite hbind_assoc. eapply ref_skip; [reflexivity|]. rewrite Ec. rewrite hbind_assoc.
    assert (A0 : length m0 <= arr t) by (rewrite A1; eapply sl_new_arr; eauto).
    eapply ref_pure.
    { pose proof (ref_copy _ _ _ _ 0 0 0 (data p) S1 (tl_refl _) eq_refl (or_intror A0)) as R.
      unfold copy_at in R. rewrite (sl_len _ _ _ _ _ _ S1) in R. cbn [Nat.leb] in R. exact R. }
    intros m2 k [S2 _]. eapply ref_skip; [reflexivity|].
    eapply ref_from; [apply tl_refl|unfold nn in *; lia|]. cbn [Nat.add]. intros b T.
    apply ref_ret. cbn [fst snd]. split; [|split; [exact T|lia]].
    rewrite L1, Nat.sub_0_r, (firstn_all2 (data p)) in S2 by (unfold nn in *; lia). exact S2.
Qed.

(* append(s[:n], s[i:]...) *)
Lemma ref_append_tail m p s n i : sl m p s -> lo <= n ->
  refines (do h <- reslice p n; do t <- from p i; Ok (append h t))
    ((let* h := h_reslice s n in let* t := h_from s i in h_append_slice h t) m) (fun m' p' s' => sl m' p' s' /\ hlen s' = n + (hlen s - i)).
Proof.
  intros S Lo. pose proof (ref_reslice m p s n S) as R. unfold h_reslice in *.
  destruct (Nat.leb_spec n (hcap s)).
  2:{ unfold reslice in *. rewrite (sl_cap _ _ _ _ _ _ S) in *. destruct (Nat.leb_spec n (hcap s)); [lia|]. exact R. }
  destruct (reslice p n) as [h|] eqn:Eh; cbn [bind].
  2:{ destruct R as [? [? _]]. discriminate. }
  destruct R as [t [m' [Et [St _]]]]. injection Et as <- <-. unfold hbind at 1; cbn [hret].
  unfold from, h_from. rewrite (sl_len _ _ _ _ _ _ S). destruct (Nat.leb_spec i (hlen s)); cbn [bind].
  2:{ eapply ref_panic; eauto. }
  unfold hbind at 1; cbn [hret]. unfold h_append_slice, hbind, h_read.
  replace (contents m _) with (skipn i (data p)).
  - eapply ref_weaken; [apply ref_append; [exact St|exact Lo]|]. intros m' a b [S' L']. split; [exact S'|].
    rewrite L', skipn_length. cbn [hlen]. rewrite <- (sl_len _ _ _ _ _ _ S). reflexivity.
  - rewrite <- (sl_contents _ _ _ _ _ _ S). unfold contents; cbn [arr off hlen].
    destruct S as [[W1 W2] _]. apply list_ext.
    + rewrite skipn_length, !sub_length; lia.
    + rewrite skipn_length, sub_length by lia. intros j J. rewrite nth_skipn, !nth_sub by lia. f_equal. lia.
Qed.

Lemma read_old m p s x a o n : sl m p s -> a = arr s -> o + n <= off s + hlen s -> off s <= o ->
  sub (array (m ++ [x]) a) o n = sub (data p) (o - off s) n.
Proof.
  intros S -> L L2. rewrite <- (sl_contents _ _ _ _ _ _ S). pose proof S as [[W1 W2] _]. unfold contents.
  destruct (Nat.eq_dec n 0) as [->|Z]; [reflexivity|].
  assert (A : arr s < length m) by (apply wf_arr; [split; auto|lia]).
  rewrite array_app_old by auto. apply list_ext.
  - rewrite sub_length by lia. rewrite sub_length; [reflexivity|]. rewrite sub_length; lia.
  - rewrite sub_length by lia. intros j J. rewrite !nth_sub by lia. f_equal. lia.
Qed.

Lemma ref_insert m p s pos n : sl m p s -> lo <= hlen s -> lo <= pos ->
  refines (insert p pos n) (h_insert s pos n m) sg.
Proof.
  intros S Ls Lo. unfold insert, h_insert. destruct n as [|n0]; [apply ref_ret; split; assumption|].
  set (n := Datatypes.S n0). rewrite (sl_cap _ _ _ _ _ _ S), (sl_len _ _ _ _ _ _ S).
  destruct (Nat.leb_spec (pos + n) (hcap s)).
  { eapply ref_weaken; [apply ref_append_tail; [exact S|lia]|]. cbv beta. intros m' a b [S' L']. split; [exact S'|lia]. }
  pose proof S as [[W1 W2] [V K]].
  eapply ref_pure; [apply (ref_make m p s (hlen s + n) (hlen s + n + 512) S); lia|].
  intros m1 t [S1 [M1 [L1 A1]]]. unfold from. rewrite (sl_len _ _ _ _ _ _ S).
  assert (A0 : length m0 <= arr t) by (rewrite A1; eapply sl_new_arr; eauto).
  destruct (Nat.leb_spec pos (hlen s)) as [Lp|Lp]; cbn [bind].
  - eapply ref_skip.
    { unfold h_reslice. destruct (Nat.leb_spec pos (hcap s)); [reflexivity|lia]. }
    eapply ref_skip; [reflexivity|].
    assert (Ec : contents m1 (mkh (arr s) (off s) pos (hcap s)) = firstn pos (data p)).
    { unfold contents; cbn [arr off hlen]. rewrite M1, (read_old m p s) by (auto; lia).
      rewrite Nat.sub_diag. reflexivity. }
    rewrite Ec.
    eapply ref_bind; [eapply (ref_copy m1 _ t t 0); [exact S1|apply tl_refl|reflexivity|right; exact A0]|].
    intros m2 q k [S2 [Hk [Lk O2]]]. eapply ref_skip.
    { unfold h_from. destruct (Nat.leb_spec pos (hlen s)); [reflexivity|lia]. }
    eapply ref_skip; [reflexivity|].
    assert (Et : contents m2 (mkh (arr s) (off s + pos) (hlen s - pos) (hcap s - pos)) = skipn pos (data p)).
    { unfold contents; cbn [arr off hlen]. destruct (Nat.eq_dec (hlen s - pos) 0) as [Z|Z].
      - rewrite Z. cbn [sub firstn]. symmetry. apply skipn_all2. pose proof (sl_len _ _ _ _ _ _ S) as Ln. unfold len in Ln. lia.
      - assert (arr s < length m) by (apply wf_arr; [split; auto|lia]).
        rewrite O2 by lia. rewrite M1, (read_old m p s) by (auto; lia). unfold sub. rewrite <- (sl_len _ _ _ _ _ _ S). unfold len.
        replace (off s + pos - off s) with pos by lia. apply firstn_all2. rewrite skipn_length. lia. }
    rewrite Et.
    eapply ref_last; [eapply (ref_copy m2 _ t t 0); [exact S2|apply tl_refl|reflexivity|right; exact A0]|].
    intros m3 q' k' [S3 _]. split; [exact S3|lia].
  - (* in[pos:] is out of range *)
    unfold h_reslice. destruct (Nat.leb_spec pos (hcap s)) as [Lc|Lc].
    2:{ unfold hbind at 1; cbn [hpanic]. eapply ref_panic; exact S1. }
    eapply ref_skip; [reflexivity|]. eapply ref_skip; [reflexivity|].
    eapply ref_pure.
    { pose proof (ref_copy m1 _ t t 0 0 0 (contents m1 (mkh (arr s) (off s) pos (hcap s))) S1 (tl_refl _) eq_refl (or_intror A0)) as R.
      unfold copy_at in R. rewrite (sl_len _ _ _ _ _ _ S1) in R. cbn [Nat.leb] in R. exact R. }
    intros m2 k [S2 _]. unfold hbind at 1, h_from. destruct (Nat.leb_spec pos (hlen s)); [lia|].
    cbn [hpanic]. eapply ref_panic; exact S2.
Qed.

Lemma ref_put_uvarint m p s b k i o x : sl m p s -> tl s b k -> i = k + o -> lo <= i ->
  refines (put_uvarint p i x) (h_put_uvarint b o x m)
    (fun m' a n => sl m' (fst a) s /\ n = snd a /\ i + n <= hlen s).
Proof.
  intros S T -> Lo. unfold put_uvarint, h_put_uvarint. rewrite (sl_len _ _ _ _ _ _ S).
  destruct (Nat.leb_spec (k + o) (hlen s)) as [L|L].
  - eapply ref_from; [exact T|exact L|]. intros t T'.
    assert (P : forall xs, refines (put p (k + o) xs) (h_put t 0 xs m)
                  (fun m' p' _ => sl m' p' s /\ k + o + length xs <= hlen s)).
    { intros xs. pose proof (ref_put m p s t (k + o) (k + o) 0 xs S T' ltac:(lia) Lo) as R.
      unfold put in *. rewrite (sl_len _ _ _ _ _ _ S) in *.
      destruct (Nat.leb_spec (k + o + length xs) (hlen s)); [|exact R].
      destruct R as [u [m' [Eu Su]]]. exists u, m'. auto. }
    destruct (x <? 128)%N; (eapply ref_bind; [apply P|]; intros m' p' u [S' L']; apply ref_ret; cbn [fst snd length] in *; auto).
  - unfold hbind, h_from. rewrite (tl_len _ _ _ T). destruct T as [T _].
    destruct (Nat.leb_spec o (hlen s - k)); [lia|]. cbn [hpanic]. eapply ref_panic; exact S.
Qed.

Lemma ref_mask_truncate m p s n : sl m p s -> lo < n ->
  refines (mask_truncate p n) (h_mask_truncate s n m) (fun m' p' s' => sl m' p' s' /\ hlen s' = n).
Proof.
  intros S Lo. unfold mask_truncate, h_mask_truncate. eapply ref_bind; [apply ref_upd; [exact S|lia]|].
  intros m' p' u S'. apply ref_reslice; exact S'.
Qed.

Lemma ref_append_wire_string m p s tag v : sl m p s -> lo <= hlen s ->
  refines (append_wire_bytes p tag v) (h_append_wire_string s tag v m) sg.
Proof.
  intros S Lo. unfold append_wire_bytes, h_append_wire_string.
  eapply ref_pure; [apply ref_append; [exact S|exact Lo]|]. intros m' s' [S' L']. cbn [length] in L'.
  rewrite (sl_len _ _ _ _ _ _ S').
  eapply ref_bind; [apply ref_mask_truncate; [exact S'|lia]|]. intros m2 p2 s2 [S2 L2].
  eapply ref_weaken; [apply ref_append; [exact S2|lia]|]. intros m3 p3 s3 [S3 L3]. split; [exact S3|lia].
Qed.

End Ops.
