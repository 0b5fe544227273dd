(* In-place writes into a slice seen as a sequence of chunks of known lengths. *)
From Coq Require Import List NArith ZArith Arith Lia ZifyN ZifyNat ZifyBool.
From Verif Require Import Base GoSlice SliceProofs Varint VarintProofs.
Import ListNotations.

Fixpoint rep {A} (l : list A) (n : nat) (x : A) : list A :=
  match l, n with
  | [], _ => []
  | _ :: l, O => x :: l
  | y :: l, S n => y :: rep l n x
  end.

Lemma rep_split : forall {A} (l1 : list A) y l2 x, rep (l1 ++ y :: l2) (length l1) x = l1 ++ x :: l2.
Proof. intros A l1 y l2 x. induction l1 as [|z l1 IH]; [reflexivity|]. cbn [app length rep]. f_equal. exact IH. Qed.

Lemma split_nth : forall {A} i (l : list A) c, nth_error l i = Some c ->
  l = firstn i l ++ c :: skipn (S i) l /\ length (firstn i l) = i.
Proof.
  intros A i l c H. pose proof H as H2. apply nth_error_split in H2. destruct H2 as (l1 & l2 & -> & <-).
  rewrite firstn_app, Nat.sub_diag, firstn_all. cbn [firstn]. rewrite app_nil_r.
  split; [|reflexivity]. f_equal. f_equal.
  rewrite skipn_app. rewrite skipn_all2 by lia. replace (S (length l1) - length l1)%nat with 1%nat by lia. reflexivity.
Qed.

Lemma rep_at : forall {A} i (l : list A) c x, nth_error l i = Some c -> rep l i x = firstn i l ++ x :: skipn (S i) l.
Proof.
  intros A i l c x H. destruct (split_nth i l c H) as [Hs Hi].
  pose proof (rep_split (firstn i l) c (skipn (S i) l) x) as R. rewrite <- Hs, Hi in R. exact R.
Qed.

Lemma concat_at : forall i (l : list bytes) c, nth_error l i = Some c ->
  concat l = concat (firstn i l) ++ c ++ concat (skipn (S i) l).
Proof.
  intros i l c H. destruct (split_nth i l c H) as [Hs _].
  rewrite Hs at 1. rewrite concat_app. reflexivity.
Qed.

Lemma put_nth : forall i cs c sp off xs,
  nth_error cs i = Some c -> off = length (concat (firstn i cs)) -> length c = length xs ->
  put (mk (concat cs) sp) off xs = Ok (mk (concat (rep cs i xs)) sp).
Proof.
  intros i cs c sp off xs Hc Ho Hl.
  rewrite (concat_at i cs c Hc), (rep_at i cs c _ Hc), concat_app. cbn [concat]. apply put_chunk; assumption.
Qed.

Lemma put_uvarint_nth : forall i cs c sp off x,
  nth_error cs i = Some c -> off = length (concat (firstn i cs)) -> (x < 2 ^ 64)%N -> length c = size_varint x ->
  put_uvarint (mk (concat cs) sp) off x = Ok (mk (concat (rep cs i (uvarint x))) sp, size_varint x).
Proof.
  intros i cs c sp off x Hc Ho Hx Hl.
  rewrite (concat_at i cs c Hc), (rep_at i cs c _ Hc), concat_app. cbn [concat]. apply put_uvarint_chunk; assumption.
Qed.

Lemma copy_nth : forall i cs c sp off xs,
  nth_error cs i = Some c -> off = length (concat (firstn i cs)) -> length c = length xs ->
  copy_at (mk (concat cs) sp) off xs = Ok (mk (concat (rep cs i xs)) sp).
Proof.
  intros i cs c sp off xs Hc Ho Hl.
  rewrite (concat_at i cs c Hc), (rep_at i cs c _ Hc), concat_app. cbn [concat]. apply copy_chunk; assumption.
Qed.

(* Cut a list into pieces of given lengths. *)
Lemma split_lens : forall lens (l : bytes), length l = list_sum lens ->
  exists cs, l = concat cs /\ map (@length N) cs = lens.
Proof.
  induction lens as [|n lens IH]; intros l Hl.
  - exists []. destruct l; [split; reflexivity|discriminate].
  - cbn [list_sum fold_right] in Hl.
    destruct (IH (skipn n l)) as (cs & Hc & Hm).
    { rewrite skipn_length. unfold list_sum. lia. }
    exists (firstn n l :: cs). cbn [concat map]. rewrite <- Hc, Hm, firstn_skipn. split; [reflexivity|].
    f_equal. rewrite firstn_length. unfold list_sum in *. lia.
Qed.

Lemma map_cons_inv : forall (cs : list bytes) n lens, map (@length N) cs = n :: lens ->
  exists c cs', cs = c :: cs' /\ length c = n /\ map (@length N) cs' = lens.
Proof. intros [|c cs] n lens H; [discriminate|]. cbn [map] in H. injection H as H1 H2. eauto. Qed.
Lemma map_nil_inv : forall (cs : list bytes), map (@length N) cs = [] -> cs = [].
Proof. intros [|c cs] H; [reflexivity|discriminate]. Qed.

(* [cut l lens] replaces the variable l, of length list_sum lens, by concat [c1; ...; cn]. *)
Ltac cut_rec H :=
  match type of H with
  | map _ _ = _ :: _ =>
      let c := fresh "c" in let cs := fresh "cs" in let Hl := fresh "Hc" in let Hm := fresh "Hm" in
      destruct (map_cons_inv _ _ _ H) as (c & cs & -> & Hl & Hm); clear H; cut_rec Hm
  | map _ ?cs = [] => apply map_nil_inv in H; subst cs
  end.

Lemma sizev_bounds : forall n, (N.of_nat n < 2 ^ 64)%N -> (1 <= sizev n <= 10)%nat.
Proof. intros n Hn. unfold sizev. apply (size_varint_bounds (N.of_nat n) Hn). Qed.
