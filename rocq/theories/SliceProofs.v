(* Facts about GoSlice. *)
From Coq Require Import List NArith Arith Lia.
From Verif Require Import Base GoSlice.
Import ListNotations.
Local Open Scope nat_scope.

Lemma split_at : forall (n : nat) (l : bytes), n <= length l ->
  exists a b, l = a ++ b /\ length a = n /\ length b = length l - n.
Proof.
  intros n l Hn. exists (firstn n l), (skipn n l).
  rewrite firstn_skipn, firstn_length, skipn_length. repeat split; lia.
Qed.

Lemma ow_skip : forall a l off xs, length a <= off ->
  ow (a ++ l) off xs = a ++ ow l (off - length a) xs.
Proof.
  intros a l off xs Ha. unfold ow.
  rewrite firstn_app, skipn_app.
  rewrite firstn_all2 by lia. rewrite (skipn_all2 a) by lia.
  rewrite <- app_assoc. simpl. do 4 f_equal. lia.
Qed.

Lemma ow_here : forall a l xs, length a = length xs -> ow (a ++ l) 0 xs = xs ++ l.
Proof.
  intros a l xs Ha. unfold ow. rewrite firstn_O. simpl. f_equal.
  rewrite skipn_app, skipn_all2 by lia. rewrite Ha, Nat.sub_diag. reflexivity.
Qed.

Lemma ow_all : forall a xs, length a = length xs -> ow a 0 xs = xs.
Proof.
  intros a xs Ha. rewrite <- (app_nil_r a). rewrite ow_here by assumption. apply app_nil_r.
Qed.

Lemma ow_length : forall l off xs, off + length xs <= length l -> length (ow l off xs) = length l.
Proof.
  intros l off xs Hl. unfold ow. rewrite !app_length, firstn_length, skipn_length. lia.
Qed.

Lemma ow_nil : forall l off, ow l off [] = l.
Proof. intros l off. unfold ow. simpl. rewrite Nat.add_0_r. apply firstn_skipn. Qed.

(* Writing over a chunk [old] that follows [a]. *)
Lemma put_chunk : forall a old b sp off xs,
  off = length a -> length old = length xs ->
  put (mk (a ++ old ++ b) sp) off xs = Ok (mk (a ++ xs ++ b) sp).
Proof.
  intros a old b sp off xs -> Ho. unfold put, len; simpl.
  rewrite !app_length.
  destruct (Nat.leb_spec (length a + length xs) (length a + (length old + length b))); [|lia].
  rewrite ow_skip by lia. rewrite Nat.sub_diag, ow_here by assumption. reflexivity.
Qed.

Lemma copy_chunk : forall a old b sp off xs,
  off = length a -> length old = length xs ->
  copy_at (mk (a ++ old ++ b) sp) off xs = Ok (mk (a ++ xs ++ b) sp).
Proof.
  intros a old b sp off xs -> Ho. unfold copy_at, len; simpl.
  rewrite !app_length.
  destruct (Nat.leb_spec (length a) (length a + (length old + length b))); [|lia].
  rewrite firstn_all2 by lia.
  rewrite ow_skip by lia. rewrite Nat.sub_diag, ow_here by assumption. reflexivity.
Qed.

Lemma for_append_spec : forall p n, exists tail sp,
  for_append p n = mk (data p ++ tail) sp /\ length tail = n.
Proof.
  intros p n. unfold for_append.
  destruct (Nat.leb_spec (len p + n) (cap p)) as [Hle|Hgt].
  - exists (firstn n (spare p)). eexists. split.
    + f_equal. unfold len in *. rewrite firstn_app, firstn_all2 by lia. do 2 f_equal. lia.
    + unfold cap, len in *. rewrite firstn_length. lia.
  - exists (repeat 0%N n). eexists. split; [|apply repeat_length].
    f_equal. unfold len. rewrite repeat_app. apply ow_here. apply repeat_length.
Qed.

Section WithEnv.
Context `{E : Env}.

Lemma data_append : forall p xs, data (append p xs) = data p ++ xs.
Proof. intros p xs. unfold append. destruct (_ <=? _); reflexivity. Qed.

Lemma append_spec : forall p xs, exists sp, append p xs = mk (data p ++ xs) sp.
Proof. intros p xs. unfold append. destruct (_ <=? _); eexists; reflexivity. Qed.

Lemma len_append : forall p xs, len (append p xs) = len p + length xs.
Proof. intros p xs. unfold len. rewrite data_append. apply app_length. Qed.

Lemma reslice_le : forall d sp n, n <= length d ->
  reslice (mk d sp) n = Ok (mk (firstn n d) (skipn n d ++ sp)).
Proof.
  intros d sp n Hn. unfold reslice, cap; simpl.
  destruct (Nat.leb_spec n (length d + length sp)); [|lia].
  rewrite firstn_app, skipn_app. replace (n - length d) with 0 by lia.
  rewrite firstn_O, app_nil_r. reflexivity.
Qed.

Lemma reslice_app : forall a b sp n, n = length a ->
  reslice (mk (a ++ b) sp) n = Ok (mk a (b ++ sp)).
Proof.
  intros a b sp n ->. rewrite reslice_le by (rewrite app_length; lia).
  rewrite firstn_app, skipn_app, Nat.sub_diag, firstn_all, skipn_all, app_nil_r. reflexivity.
Qed.

(* Insert opens a gap of n bytes of unknown content at pos. *)
Lemma insert_spec : forall a b sp pos n, pos = length a ->
  exists gap sp', insert (mk (a ++ b) sp) pos n = Ok (mk (a ++ gap ++ b) sp') /\ length gap = n.
Proof.
  intros a b sp pos n ->. unfold insert. destruct n as [|n].
  - exists [], sp. split; reflexivity.
  - set (m := S n). unfold from, len, cap; cbn [data spare]. rewrite app_length.
    destruct (Nat.leb_spec (length a) (length a + length b)); [|lia].
    rewrite skipn_app, skipn_all, Nat.sub_diag. cbn [app skipn].
    destruct (Nat.leb_spec (length a + m) (length a + length b + length sp)) as [Hle|Hgt].
    + unfold reslice, cap; simpl. rewrite app_length.
      destruct (Nat.leb_spec (length a + m) (length a + length b + length sp)); [|lia].
      simpl. rewrite <- app_assoc.
      destruct (append_spec (mk (firstn (length a + m) (a ++ b ++ sp)) (skipn (length a + m) (a ++ b ++ sp))) b) as [sp' ->].
      simpl. exists (firstn m (b ++ sp)), sp'. split.
      * do 2 f_equal. rewrite firstn_app_2. rewrite <- app_assoc. reflexivity.
      * rewrite firstn_length, app_length. lia.
    + cbn [bind]. unfold make.
      replace (firstn (length a) (a ++ b)) with a by (rewrite firstn_app, firstn_all, Nat.sub_diag, firstn_O, app_nil_r; reflexivity).
      replace (length a + length b + m) with (length a + (m + length b)) by lia.
      rewrite repeat_app.
      pose proof (copy_chunk [] (repeat 0%N (length a)) (repeat 0%N (m + length b))
        (repeat 0%N (length a + (m + length b) + 512 - (length a + (m + length b)))) 0 a
        eq_refl (repeat_length _ _)) as Hc.
      cbn [app] in Hc. rewrite Hc. clear Hc. cbn [bind]. rewrite repeat_app.
      exists (repeat 0%N m). eexists. split; [|apply repeat_length].
      rewrite app_assoc. rewrite <- (app_nil_r (repeat 0%N (length b))).
      rewrite copy_chunk by (rewrite ?app_length, ?repeat_length; reflexivity).
      rewrite app_nil_r, <- app_assoc. reflexivity.
Qed.

End WithEnv.

Lemma upd_chunk : forall a x b sp i f, i = length a ->
  upd (mk (a ++ x :: b) sp) i f = Ok (mk (a ++ f x :: b) sp).
Proof.
  intros a x b sp i f ->. unfold upd; simpl.
  rewrite nth_error_app2, Nat.sub_diag by lia. simpl.
  apply (put_chunk a [x] b sp (length a) [f x]); reflexivity.
Qed.
