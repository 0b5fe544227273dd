(* Building in a buffer that is large enough does not replace the buffer. *)
From Coq Require Import String List NArith ZArith Arith Bool Lia ZifyN ZifyNat ZifyBool.
From Coq Require Import List.
From Verif Require Import Base GoSlice SliceProofs Varint Text Values AnyModel ExprModel MsgModel Builder
  SpecValue SpecProg ValueProofs BuilderProofs UnitProofs ShapeProofs SpecReuse.
Import ListNotations.
Local Open Scope nat_scope.

(* ---- two runs of the same code, on slices of the same length ---- *)

(* What a result contains: the slice, whether it is a success, and what else two runs agree on. *)
Class View (R : Type) := { sl : R -> slice; fine : R -> Prop; alike : R -> R -> Prop }.
#[global] Instance view_slice : View slice := {| sl := fun p => p; fine := fun _ => True; alike := fun _ _ => True |}.
#[global] Instance view_err : View (slice * option err) := {| sl := fst; fine := fun r => snd r = None; alike := fun _ s => snd s = None |}.
#[global] Instance view_nat : View (slice * nat) := {| sl := fst; fine := fun _ => True; alike := fun r s => snd s = snd r |}.

(* q is as large as p, or has k bytes more than p uses *)
Definition roomy (k : nat) (p q : slice) : Prop := cap p <= cap q \/ len p + k <= cap q.

(* r1 is a run on p, r2 the same on q: the first does not shrink its slice, and the second stays in
   its array if that is roomy for what the first returned *)
Definition pairs {R} `{View R} (k : nat) (p q : slice) (r1 r2 : res R) : Prop :=
  match r1 with
  | Panic => True
  | Ok r => fine r -> len p <= len (sl r) /\ cap p <= cap (sl r) /\
      (roomy k (sl r) q -> match r2 with Ok s => alike r s /\ len (sl s) = len (sl r) /\ cap (sl s) = cap q | Panic => False end)
  end.

Lemma len_le_cap : forall p, len p <= cap p.
Proof. intros p. unfold len, cap. lia. Qed.

Lemma roomy_mono : forall k p p' q, len p <= len p' -> cap p <= cap p' -> roomy k p' q -> roomy k p q.
Proof. unfold roomy. intros. lia. Qed.

Lemma pairs_weaken : forall {R} `{View R} k k' p q r1 r2, k <= k' -> pairs k p q r1 r2 -> pairs k' p q r1 r2.
Proof.
  intros R V k k' p q r1 r2 Hk H. unfold pairs in *. destruct r1 as [r|]; [|exact I]. intros Hf. destruct (H Hf) as (A & B & C).
  split; [exact A|]. split; [exact B|]. intros Hr. apply C. unfold roomy in *. lia.
Qed.

(* The general step: a first part whose result is always fine or leads to a failure. *)
Lemma pairs_bind : forall {R S} `{View R} `{View S} k p q (m1 m2 : res R) (g1 g2 : R -> res S),
  pairs k p q m1 m2 ->
  (forall r s, fine r -> alike r s -> len (sl s) = len (sl r) -> len p <= len (sl r) -> pairs k (sl r) (sl s) (g1 r) (g2 s)) ->
  (forall r, ~ fine r -> match g1 r with Ok x => ~ fine x | Panic => True end) ->
  (forall r : R, fine r \/ ~ fine r) -> (forall r : R, fine r -> alike r r) ->
  pairs k p q (bind m1 g1) (bind m2 g2).
Proof.
  intros R S V W k p q m1 m2 g1 g2 Hm Hg Hbad Hdec Hre. destruct m1 as [r|]; [|exact I]. cbn [bind].
  destruct (Hdec r) as [Hf|Hf].
  2: { specialize (Hbad r Hf). unfold pairs. destruct (g1 r) as [x|]; [|exact I]. intros Hx. contradiction. }
  unfold pairs in Hm. destruct (Hm Hf) as (A & B & C).
  pose proof (Hg r r Hf (Hre r Hf) eq_refl A) as G0. unfold pairs in G0 |- *. destruct (g1 r) as [x|] eqn:Ex; [|exact I].
  intros Hx. destruct (G0 Hx) as (A1 & B1 & _). split; [lia|]. split; [lia|]. intros Hr.
  specialize (C (roomy_mono _ _ _ _ A1 B1 Hr)). destruct m2 as [s|]; [|contradiction]. destruct C as (C1 & C2 & C3). cbn [bind].
  pose proof (Hg r s Hf C1 C2 A) as G. unfold pairs in G. rewrite Ex in G. destruct (G Hx) as (_ & _ & G3).
  rewrite C3 in G3. unfold roomy in G3. rewrite C3 in G3. apply G3. exact Hr.
Qed.

Lemma bind_slice : forall {S} `{View S} k p q (m1 m2 : res slice) (g1 g2 : slice -> res S),
  pairs k p q m1 m2 -> (forall p1 q1, len q1 = len p1 -> len p <= len p1 -> pairs k p1 q1 (g1 p1) (g2 q1)) -> pairs k p q (bind m1 g1) (bind m2 g2).
Proof.
  intros S W k p q m1 m2 g1 g2 Hm Hg. apply pairs_bind; [exact Hm| | | |]; cbn; intros; auto. contradiction.
Qed.

Lemma bind_nat : forall {S} `{View S} k p q (m1 m2 : res (slice * nat)) (g1 g2 : slice * nat -> res S),
  pairs k p q m1 m2 -> (forall p1 q1 i, len q1 = len p1 -> len p <= len p1 -> pairs k p1 q1 (g1 (p1, i)) (g2 (q1, i))) -> pairs k p q (bind m1 g1) (bind m2 g2).
Proof.
  intros S W k p q m1 m2 g1 g2 Hm Hg. apply pairs_bind; [exact Hm| | | |]; cbn; intros; auto; [|contradiction].
  destruct r as [r i], s as [s j]. cbn [fst snd] in *. subst j. apply Hg; assumption.
Qed.

Lemma bind_err : forall {S} `{View S} k p q (m1 m2 : res (slice * option err)) (g1 g2 : slice * option err -> res S),
  pairs k p q m1 m2 -> (forall p1 q1, len q1 = len p1 -> len p <= len p1 -> pairs k p1 q1 (g1 (p1, None)) (g2 (q1, None))) ->
  (forall p1 e, match g1 (p1, Some e) with Ok x => ~ fine x | Panic => True end) -> pairs k p q (bind m1 g1) (bind m2 g2).
Proof.
  intros S W k p q m1 m2 g1 g2 Hm Hg Hb. apply pairs_bind; [exact Hm| | | |]; cbn; intros.
  - destruct r as [r e], s as [s f]. cbn [fst snd] in *. subst. apply Hg; assumption.
  - destruct r as [r [e|]]; cbn [snd] in *; [apply Hb|congruence].
  - destruct r as [r [e|]]; cbn; [right; discriminate|left; reflexivity].
  - assumption.
Qed.

(* the same for a part that cannot fail *)
Lemma pairs_pure : forall {S} `{View S} k p q p1 q1 (F G : slice -> res S),
  pairs k p q (Ok p1) (Ok q1) -> (forall p1 q1, len q1 = len p1 -> len p <= len p1 -> pairs k p1 q1 (F p1) (G q1)) -> pairs k p q (F p1) (G q1).
Proof. intros S W k p q p1 q1 F G H HG. exact (bind_slice k p q (Ok p1) (Ok q1) F G H HG). Qed.

Lemma pairs_okm : forall k p q m1 m2, pairs k p q m1 m2 -> pairs k p q (okm m1) (okm m2).
Proof. intros k p q m1 m2 H. unfold okm. apply bind_slice; [exact H|]. intros p1 q1 Hl _. cbn. intros _. split; [lia|]. split; [lia|]. auto. Qed.

Lemma pairs_ok : forall k p q p1 q1, pairs k p q (Ok p1) (Ok q1) -> pairs k p q (ok p1) (ok q1).
Proof. intros k p q p1 q1 H. exact (pairs_okm k p q (Ok p1) (Ok q1) H). Qed.

Lemma pairs_ret : forall k p q, len q = len p -> pairs k p q (Ok p) (Ok q).
Proof. intros k p q H. cbn. intros _. split; [lia|]. split; [lia|]. auto. Qed.

Lemma pairs_ret_none : forall k p q, len q = len p -> pairs k p q (Ok (p, @None err)) (Ok (q, None)).
Proof. intros k p q H. cbn. intros _. split; [lia|]. split; [lia|]. auto. Qed.

(* ---- the primitives ---- *)

Lemma len_append : forall (E : Env) p xs, len (append p xs) = len p + length xs.
Proof. intros E p xs. unfold append. destruct (_ <=? _)%nat; unfold len; cbn [data]; apply app_length. Qed.

Lemma cap_append_fits : forall (E : Env) p xs, len p + length xs <= cap p -> cap (append p xs) = cap p.
Proof.
  intros E p xs H. unfold append. destruct (Nat.leb_spec (len p + length xs) (cap p)); [|lia].
  unfold cap, len in *. cbn [data spare]. rewrite app_length, skipn_length. lia.
Qed.

Lemma cap_append_mono : forall (E : Env) p xs, cap p <= cap (append p xs) /\ len p + length xs <= cap (append p xs).
Proof.
  intros E p xs. unfold append. destruct (Nat.leb_spec (len p + length xs) (cap p)); unfold cap, len in *; cbn [data spare];
    rewrite app_length, ?skipn_length; lia.
Qed.

Lemma append_pairs : forall (E : Env) k p q xs, len q = len p -> pairs k p q (Ok (append p xs)) (Ok (append q xs)).
Proof.
  intros E k p q xs Hl. cbn. intros _. rewrite !len_append. destruct (cap_append_mono E p xs). split; [lia|]. split; [assumption|].
  unfold roomy. rewrite len_append. intros Hr. split; [exact I|]. split; [lia|]. apply cap_append_fits. lia.
Qed.

Lemma len_for_append : forall p n, len (for_append p n) = len p + n.
Proof.
  intros p n. unfold for_append. cbv zeta. destruct (Nat.leb_spec (len p + n) (cap p)); unfold cap, len in *; cbn [data].
  - rewrite firstn_length, app_length. lia.
  - rewrite ow_length; rewrite repeat_length; lia.
Qed.

Lemma cap_for_append : forall p n, cap (for_append p n) = if (len p + n <=? cap p) then cap p else 2 * (len p + n).
Proof.
  intros p n. unfold for_append. cbv zeta. destruct (Nat.leb_spec (len p + n) (cap p)); unfold cap, len in *; cbn [data spare].
  - rewrite firstn_length, skipn_length, app_length. lia.
  - rewrite ow_length by (rewrite repeat_length; lia). rewrite !repeat_length. lia.
Qed.

Lemma for_append_pairs : forall k p q n, len q = len p -> pairs k p q (Ok (for_append p n)) (Ok (for_append q n)).
Proof.
  intros k p q n Hl. cbn. intros _. rewrite !len_for_append, !cap_for_append. split; [lia|].
  split; [destruct (Nat.leb_spec (len p + n) (cap p)); lia|]. unfold roomy. rewrite len_for_append, cap_for_append. intros Hr. split; [exact I|].
  split; [lia|]. destruct (Nat.leb_spec (len q + n) (cap q)); [reflexivity|]. destruct (Nat.leb_spec (len p + n) (cap p)); lia.
Qed.

(* a write in place: same length, same capacity *)
Lemma put_shape : forall p off xs p', put p off xs = Ok p' -> off + length xs <= len p /\ len p' = len p /\ cap p' = cap p.
Proof.
  intros p off xs p' H. unfold put in H. destruct (Nat.leb_spec (off + length xs) (len p)); [|discriminate]. injection H as <-.
  unfold len, cap in *. cbn [data spare]. rewrite ow_length by assumption. auto.
Qed.

Lemma put_fits : forall p off xs, off + length xs <= len p -> exists p', put p off xs = Ok p' /\ len p' = len p /\ cap p' = cap p.
Proof.
  intros p off xs H. unfold put. destruct (Nat.leb_spec (off + length xs) (len p)); [|lia]. eexists. split; [reflexivity|].
  unfold len, cap in *. cbn [data spare]. rewrite ow_length by assumption. auto.
Qed.

Lemma put_pairs : forall k p q off xs, len q = len p -> pairs k p q (put p off xs) (put q off xs).
Proof.
  intros k p q off xs Hl. unfold pairs. destruct (put p off xs) as [p'|] eqn:H; [|exact I]. destruct (put_shape _ _ _ _ H) as (A & B & C).
  destruct (put_fits q off xs ltac:(lia)) as (q' & -> & D & F). cbn [sl view_slice]. intros _. repeat split; lia.
Qed.

Lemma copy_pairs : forall k p q off xs, len q = len p -> pairs k p q (copy_at p off xs) (copy_at q off xs).
Proof.
  intros k p q off xs Hl. unfold copy_at. rewrite Hl. destruct (Nat.leb_spec off (len p)); [|exact I]. cbn. intros _.
  unfold len, cap in *. cbn [data spare]. rewrite !ow_length; rewrite ?firstn_length; [|lia..]. repeat split; lia.
Qed.

Lemma upd_pairs : forall k p q i f, len q = len p -> pairs k p q (upd p i f) (upd q i f).
Proof.
  intros k p q i f Hl. unfold upd. destruct (nth_error (data p) i) as [x|] eqn:Hx; [|exact I].
  assert (Hi : i < len p) by (apply nth_error_Some; congruence).
  destruct (nth_error (data q) i) as [y|] eqn:Hy; [|apply nth_error_None in Hy; unfold len in *; lia].
  destruct (put_fits p i [f x] ltac:(cbn; lia)) as (p' & -> & A & B). destruct (put_fits q i [f y] ltac:(cbn; lia)) as (q' & -> & C & D).
  cbn. intros _. repeat split; lia.
Qed.

Lemma put_uvarint_pairs : forall k p q off x, len q = len p -> pairs k p q (put_uvarint p off x) (put_uvarint q off x).
Proof.
  intros k p q off x Hl. unfold put_uvarint. rewrite Hl. destruct (off <=? len p); [|exact I].
  destruct (N.ltb x 128); (apply bind_slice; [apply put_pairs; exact Hl|]); intros p1 q1 H1 _; cbn; intros _; repeat split; lia.
Qed.

Lemma patch_pairs : forall k p q n, len q = len p -> pairs k p q (patch_length p n) (patch_length q n).
Proof. intros k p q n Hl. unfold patch_length. rewrite Hl. apply put_pairs. exact Hl. Qed.

Lemma size_varint_pos : forall x, 1 <= size_varint x.
Proof. intros x. unfold size_varint. assert (H : (1 <= (9 * N.size x + 64) / 64)%N) by (apply N.div_le_lower_bound; lia). lia. Qed.

Lemma mask_shape : forall p n p', mask_truncate p n = Ok p' -> n - 1 < len p /\ len p' = n /\ cap p' = cap p.
Proof.
  intros p n p' H. unfold mask_truncate, upd in H. destruct (nth_error (data p) (n - 1)) as [x|] eqn:Hx; [|discriminate].
  assert (Hi : n - 1 < len p) by (apply nth_error_Some; congruence).
  destruct (put p (n - 1) _) as [p1|] eqn:Hp; [|discriminate]. cbn [bind] in H. destruct (put_shape _ _ _ _ Hp) as (_ & A & B).
  unfold reslice in H. destruct (Nat.leb_spec n (cap p1)); [|discriminate]. injection H as <-. split; [exact Hi|].
  unfold len, cap in *. cbn [data spare]. rewrite firstn_length, skipn_length, app_length. lia.
Qed.

Lemma mask_fits : forall p n, n - 1 < len p -> exists p', mask_truncate p n = Ok p' /\ len p' = n /\ cap p' = cap p.
Proof.
  intros p n Hn. unfold mask_truncate, upd. destruct (nth_error (data p) (n - 1)) as [x|] eqn:Hx; [|apply nth_error_None in Hx; unfold len in *; lia].
  destruct (put_fits p (n - 1) [N.land x 127] ltac:(cbn; lia)) as (p1 & -> & A & B). cbn [bind]. unfold reslice.
  pose proof (len_le_cap p). destruct (Nat.leb_spec n (cap p1)); [|lia]. eexists. split; [reflexivity|].
  unfold len, cap in *. cbn [data spare]. rewrite firstn_length, skipn_length, app_length. lia.
Qed.

(* append of more bytes than needed, and back: at most nine more *)
Lemma trunc_pairs : forall (E : Env) p q xs m, len q = len p -> len p <= m -> len p + length xs <= m + 9 ->
  pairs 9 p q (mask_truncate (append p xs) m) (mask_truncate (append q xs) m).
Proof.
  intros E p q xs m Hl Hm Hx. unfold pairs. destruct (mask_truncate (append p xs) m) as [p'|] eqn:H; [|exact I].
  destruct (mask_shape _ _ _ H) as (A & B & C). rewrite len_append in A. destruct (cap_append_mono E p xs) as [D F].
  destruct (mask_fits (append q xs) m) as (q' & -> & G & I'); [rewrite len_append; lia|]. cbn [sl view_slice]. intros _.
  split; [lia|]. split; [lia|]. unfold roomy. intros Hr. split; [exact I|]. split; [lia|]. rewrite I'. apply cap_append_fits. lia.
Qed.

Lemma reslice_shape : forall p n p', reslice p n = Ok p' -> n <= cap p /\ len p' = n /\ cap p' = cap p.
Proof.
  intros p n p' H. unfold reslice in H. destruct (Nat.leb_spec n (cap p)); [|discriminate]. injection H as <-.
  unfold len, cap in *. cbn [data spare]. rewrite firstn_length, skipn_length, app_length. lia.
Qed.
Lemma reslice_fits : forall p n, n <= cap p -> exists p', reslice p n = Ok p' /\ len p' = n /\ cap p' = cap p.
Proof.
  intros p n H. unfold reslice. destruct (Nat.leb_spec n (cap p)); [|lia]. eexists. split; [reflexivity|].
  unfold len, cap in *. cbn [data spare]. rewrite firstn_length, skipn_length, app_length. lia.
Qed.
Lemma from_shape : forall p n t, from p n = Ok t -> n <= len p /\ length t = len p - n.
Proof. intros p n t H. unfold from in H. destruct (Nat.leb_spec n (len p)); [|discriminate]. injection H as <-. rewrite skipn_length. auto. Qed.
Lemma from_fits : forall p n, n <= len p -> exists t, from p n = Ok t /\ length t = len p - n.
Proof. intros p n H. unfold from. destruct (Nat.leb_spec n (len p)); [|lia]. eexists. split; [reflexivity|]. apply skipn_length. Qed.

Lemma copy_shape : forall p off xs p', copy_at p off xs = Ok p' -> len p' = len p /\ cap p' = cap p.
Proof.
  intros p off xs p' H. unfold copy_at in H. destruct (Nat.leb_spec off (len p)); [|discriminate]. injection H as <-.
  unfold len, cap in *. cbn [data spare]. rewrite ow_length; rewrite ?firstn_length; lia.
Qed.

Lemma insert_shape : forall (E : Env) p pos n p', insert p pos n = Ok p' ->
  (n = 0 /\ p' = p) \/ (pos <= len p /\ len p' = len p + n /\ cap p <= cap p').
Proof.
  intros E p pos n p' H. unfold insert in H. destruct n as [|n]; [left; split; congruence|]. right.
  destruct (Nat.leb_spec (pos + S n) (cap p)).
  - destruct (reslice p (pos + S n)) as [h|] eqn:Hh; [|discriminate]. destruct (reslice_shape _ _ _ Hh) as (_ & A & B). cbn [bind] in H.
    destruct (from p pos) as [t|] eqn:Ht; [|discriminate]. destruct (from_shape _ _ _ Ht) as [C D]. cbn [bind] in H. injection H as <-.
    rewrite len_append. destruct (cap_append_mono E h t). lia.
  - destruct (from p pos) as [t|] eqn:Ht; [|discriminate]. destruct (from_shape _ _ _ Ht) as [C D]. cbn [bind] in H.
    destruct (copy_at (make _ _) 0 _) as [q|] eqn:Hq; [|discriminate]. cbn [bind] in H.
    destruct (copy_shape _ _ _ _ Hq) as [A1 A2]. destruct (copy_shape _ _ _ _ H) as [B1 B2].
    assert (M : len (make (len p + S n) (len p + S n + 512)) = len p + S n /\ cap (make (len p + S n) (len p + S n + 512)) = len p + S n + 512).
    { unfold make, len, cap. cbn [data spare]. rewrite !repeat_length. lia. }
    destruct M as [M1 M2]. lia.
Qed.

Lemma insert_pairs : forall (E : Env) k p q pos n, len q = len p -> pairs k p q (insert p pos n) (insert q pos n).
Proof.
  intros E k p q pos n Hl. unfold pairs. destruct (insert p pos n) as [p'|] eqn:H; [|exact I].
  destruct (insert_shape _ _ _ _ _ H) as [[-> ->]|(A & B & C)].
  - cbn. intros _. repeat split; lia.
  - cbn [sl view_slice]. intros _. split; [lia|]. split; [lia|]. unfold roomy. intros Hr. pose proof (len_le_cap p').
    unfold insert. destruct n as [|n]; [cbn; repeat split; lia|].
    destruct (Nat.leb_spec (pos + S n) (cap q)); [|lia]. destruct (reslice_fits q (pos + S n) ltac:(lia)) as (h & -> & D & F). cbn [bind].
    destruct (from_fits q pos ltac:(lia)) as (t & -> & G). cbn [bind]. rewrite len_append. split; [exact I|]. split; [lia|].
    rewrite cap_append_fits; lia.
Qed.

(* ---- stepping through the code ---- *)

Lemma pairs_assoc : forall {A B S} `{View S} k p q (a1 a2 : res A) (b1 b2 : A -> res B) (c1 c2 : B -> res S),
  pairs k p q (bind a1 (fun x => bind (b1 x) c1)) (bind a2 (fun x => bind (b2 x) c2)) -> pairs k p q (bind (bind a1 b1) c1) (bind (bind a2 b2) c2).
Proof. intros A B S W k p q a1 a2 b1 b2 c1 c2 H. destruct a1, a2; exact H. Qed.

Ltac same_len := repeat match goal with H : len ?q = len ?p |- context [len ?q] => rewrite H end.
Ltac mask_side := rewrite ?len_append; cbn [length]; repeat match goal with |- context [size_varint ?x] => pose proof (size_varint_pos x); generalize dependent (size_varint x); intros end; lia.
Ltac pure_for_append :=
  match goal with |- pairs ?k ?p ?q ?r1 ?r2 =>
    match r1 with context [for_append p ?n] =>
      let F := eval pattern (for_append p n) in r1 in let G := eval pattern (for_append q n) in r2 in
      match F with ?f _ => match G with ?g _ =>
        apply (pairs_pure k p q (for_append p n) (for_append q n) f g); [apply for_append_pairs; assumption|intros] end end end end.
Ltac pure_append :=
  match goal with |- pairs ?k ?p ?q ?r1 ?r2 =>
    match r1 with context [append p ?xs] =>
      let F := eval pattern (append p xs) in r1 in let G := eval pattern (append q xs) in r2 in
      match F with ?f _ => match G with ?g _ =>
        apply (pairs_pure k p q (append p xs) (append q xs) f g); [apply append_pairs; assumption|intros] end end end end.
Ltac trunc := apply trunc_pairs; [assumption|mask_side|mask_side].
Ltac st := cbv beta iota zeta; cbn [bind]; same_len; rewrite ?len_append; same_len;
  match goal with
  | |- pairs _ _ _ (bind (bind _ _) _) _ => apply pairs_assoc
  | |- pairs _ _ _ (put _ _ _) _ => apply put_pairs; assumption
  | |- pairs _ _ _ (upd _ _ _) _ => apply upd_pairs; assumption
  | |- pairs _ _ _ (copy_at _ _ _) _ => apply copy_pairs; assumption
  | |- pairs _ _ _ (patch_length _ _) _ => apply patch_pairs; assumption
  | |- pairs _ _ _ (mask_truncate (append _ _) _) _ => trunc
  | |- pairs _ ?p _ (Ok (append ?p _)) _ => apply append_pairs; assumption
  | |- pairs _ ?p _ (Ok ?p) _ => apply pairs_ret; assumption
  | |- pairs _ ?p _ (Ok (?p, None)) _ => apply pairs_ret_none; assumption
  | |- pairs _ _ _ (bind (put _ _ _) _) _ => apply bind_slice; [apply put_pairs; assumption|intros]
  | |- pairs _ _ _ (bind (upd _ _ _) _) _ => apply bind_slice; [apply upd_pairs; assumption|intros]
  | |- pairs _ _ _ (bind (copy_at _ _ _) _) _ => apply bind_slice; [apply copy_pairs; assumption|intros]
  | |- pairs _ _ _ (bind (patch_length _ _) _) _ => apply bind_slice; [apply patch_pairs; assumption|intros]
  | |- pairs _ _ _ (bind (insert _ _ _) _) _ => apply bind_slice; [apply insert_pairs; assumption|intros]
  | |- pairs _ _ _ (bind (mask_truncate (append _ _) _) _) _ => apply bind_slice; [trunc|intros]
  | |- pairs _ _ _ (bind (put_uvarint _ _ _) _) _ => apply bind_nat; [apply put_uvarint_pairs; assumption|intros]
  | _ => first [pure_for_append|pure_append]
  end.

Section Code.
Context `{E : Env}.

Lemma any_bytes_string_pairs : forall p q tag s c, len q = len p -> pairs 9 p q (append_any_bytes_string p tag s c) (append_any_bytes_string q tag s c).
Proof. intros p q tag s c Hl. unfold append_any_bytes_string. destruct (c =? ContentTypePlain)%N; repeat st. Qed.
Lemma any_string_pairs : forall p q tag s c, len q = len p -> pairs 9 p q (append_any_string p tag s c) (append_any_string q tag s c).
Proof. intros p q tag s c Hl. unfold append_any_string. destruct (c =? 0)%N; repeat st. Qed.
Lemma expr_bytes_string_pairs : forall p q tag s c, len q = len p -> pairs 9 p q (append_expr_bytes_string p tag s c) (append_expr_bytes_string q tag s c).
Proof. intros p q tag s c Hl. unfold append_expr_bytes_string. destruct (c =? 0)%N; repeat st. Qed.
Lemma expr_string_pairs : forall p q tag s c, len q = len p -> pairs 9 p q (append_expr_string p tag s c) (append_expr_string q tag s c).
Proof. intros p q tag s c Hl. unfold append_expr_string. destruct (c =? 0)%N; repeat st. Qed.
Lemma expr_column_pairs : forall p q tag s, len q = len p -> pairs 9 p q (append_expr_column p tag s) (append_expr_column q tag s).
Proof. intros p q tag s Hl. unfold append_expr_column. repeat st. Qed.
Lemma expr_variable_pairs : forall p q tag s, len q = len p -> pairs 9 p q (append_expr_variable p tag s) (append_expr_variable q tag s).
Proof. intros p q tag s Hl. unfold append_expr_variable. repeat st. Qed.
Lemma expr_placeholder_pairs : forall p q tag s, len q = len p -> pairs 9 p q (append_expr_placeholder p tag s) (append_expr_placeholder q tag s).
Proof. intros p q tag s Hl. unfold append_expr_placeholder. repeat st. Qed.
Lemma bump_pairs : forall p q i n, len q = len p -> pairs 9 p q (bump_lengths p i n) (bump_lengths q i n).
Proof. intros p q i n Hl. unfold bump_lengths. repeat st. Qed.

Ltac lem L := apply L; assumption.
Lemma any_bytes_pairs : forall p q tag b c, len q = len p -> pairs 9 p q (append_any_bytes p tag b c) (append_any_bytes q tag b c).
Proof. intros p q tag [b|] c Hl; cbn [append_any_bytes]; [lem any_bytes_string_pairs|unfold append_any_null; st]. Qed.
Lemma expr_bytes_pairs : forall p q tag b c, len q = len p -> pairs 9 p q (append_expr_bytes p tag b c) (append_expr_bytes q tag b c).
Proof. intros p q tag [b|] c Hl; cbn [append_expr_bytes]; [lem expr_bytes_string_pairs|unfold append_expr_null; st]. Qed.

Lemma duration_pairs : forall p q d, len q = len p -> pairs 9 p q (append_duration p d) (append_duration q d).
Proof.
  intros p q d Hl. unfold append_duration. destruct (d <? 0)%Z; cbv beta iota zeta.
  all: match goal with |- pairs _ _ _ (bind (smalls_at ?i) _) _ => destruct (smalls_at i); [|exact I]; cbn [bind] end.
  all: match goal with |- pairs _ _ _ (bind (smalls_at ?i) _) _ => destruct (smalls_at i); [|exact I]; cbn [bind] end.
  all: match goal with |- pairs _ _ _ (bind (smalls_at ?i) _) _ => destruct (smalls_at i); [|exact I]; cbn [bind] end.
  all: match goal with |- pairs _ _ _ (bind (smalls_at ?i) _) _ => destruct (smalls_at i); [|exact I]; cbn [bind] end.
  all: repeat st.
Qed.

Ltac any_case := match goal with
  | |- pairs _ _ _ (okm (append_any_string _ _ _ _)) _ => apply pairs_okm; lem any_string_pairs
  | |- pairs _ _ _ (okm (append_any_bytes _ _ _ _)) _ => apply pairs_okm; lem any_bytes_pairs
  | |- pairs _ _ _ (okm (append_any_bytes_string _ _ _ _)) _ => apply pairs_okm; lem any_bytes_string_pairs
  | |- pairs _ _ _ (ok _) _ => apply pairs_ok;
      unfold append_any_null, append_any_int8, append_any_uint8, append_any_bool, append_any_float32, append_any_float64; repeat match goal with |- context [if ?c then _ else _] => destruct c end; st
  | |- pairs _ _ _ (Ok (_, Some _)) _ => let Hx := fresh in cbn; intros Hx; discriminate
  end.

(* appendAny on a value: every case of the switch *)
Lemma any_method_pairs : forall v m, value_in_place v -> any_method v = Some m -> forall p q tag, len q = len p -> pairs 9 p q (m p tag) (m q tag).
Proof.
  intros v m Hv H p q tag Hl.
  destruct v as [|z|z|z|z|z|n|n|n|n|n|s|b|b|bits|bits|t|d|s c|b|s|b|s|b|f|i v|a e|a e0]; cbn [any_method] in H; try discriminate; try (injection H as <-; any_case).
  subst a. cbn in Hv. destruct Hv as [Hv _]. unfold pairs. destruct (m p tag) as [[p' [e|]]|] eqn:Hp; [intros Hx; discriminate| |exact I]. cbn.
  intros _. destruct (Hv p q tag p' Hl Hp) as (A & B & C). split; [exact A|]. split; [exact B|]. intros Hr. destruct (C Hr) as (q' & -> & D & F). cbn. auto.
Qed.

Lemma type_switch_pairs : forall v, value_in_place v -> forall p q tag, len q = len p -> pairs 9 p q (type_switch v p tag) (type_switch v q tag).
Proof.
  fix IH 1. intros v Hv p q tag Hl. destruct v as [|z|z|z|z|z|n|n|n|n|n|s|b|b|bits|bits|t|d|s c|b|s|b|s|b|f|i v|a e|a e]; cbn [type_switch any_method].
  all: try match goal with |- context [@word32 ?e] => destruct (@word32 e) end.
  all: try any_case.
  all: try match goal with |- pairs _ _ _ (okm (_ _ _ ?x)) _ => match type of x with N => idtac | Z => idtac end; apply pairs_okm;
    unfold append_any_int16, append_any_int32, append_any_int64, append_any_uint16, append_any_uint32, append_any_uint64; solve [repeat st] end.
  - apply pairs_okm. unfold append_any_time. repeat st. same_len. destruct (118 <=? _); [exact I|]. lem bump_pairs.
  - apply pairs_okm. unfold append_any_duration. st. cbv zeta. same_len. apply bind_slice; [lem duration_pairs|]. intros p2 q2 H2 _. same_len. lem bump_pairs.
  - cbn [value_in_place] in Hv. destruct i; [apply IH; assumption|]. destruct (any_method v) as [m|] eqn:Hm; [|apply IH; assumption].
    apply (any_method_pairs v m Hv Hm p q tag Hl).
  - destruct a; [exact I|]. apply pairs_ok. unfold append_any_null. st.
  - destruct a as [m|]; [|cbn; intros Hx; discriminate]. apply (any_method_pairs (VUser (Some m) e) m Hv eq_refl p q tag Hl).
Qed.

Lemma any_pairs : forall v, value_in_place v -> forall p q tag, len q = len p -> pairs 9 p q (append_any v p tag) (append_any v q tag).
Proof.
  intros v Hv p q tag Hl. destruct v; cbn [append_any]; try (apply type_switch_pairs; assumption). any_case.
Qed.

Lemma each_pairs : forall A (f : A -> slice -> res (slice * option err)) wrap xs j p q,
  (forall x p q, In x xs -> len q = len p -> pairs 9 p q (f x p) (f x q)) -> len q = len p -> pairs 9 p q (each f wrap j xs p) (each f wrap j xs q).
Proof.
  intros A f wrap xs. induction xs as [|x xs IH]; intros j p q Hf Hl; cbn [each]; [st|].
  apply bind_err; [apply Hf; [left; reflexivity|assumption]| |].
  - intros p1 q1 H1 _. cbv iota beta. apply IH; [|assumption]. intros y p2 q2 Hy. apply Hf. right. assumption.
  - intros p1 e. cbn. discriminate.
Qed.

Lemma expr_method_pairs : forall v m, value_in_place v -> expr_method v = Some m -> forall p q tag, len q = len p -> pairs 9 p q (m p tag) (m q tag).
Proof.
  intros v m Hv H p q tag Hl.
  destruct v as [|z|z|z|z|z|n|n|n|n|n|s|b|b|bits|bits|t|d|s c|b|s|b|s|b|f|i v|a e|a e0]; cbn [expr_method] in H; try discriminate.
  1: injection H as <-; apply pairs_okm; lem expr_string_pairs.
  1: injection H as <-; apply pairs_okm; lem expr_bytes_pairs.
  1: injection H as <-; apply pairs_okm; lem expr_bytes_string_pairs.
  1: injection H as <-; apply pairs_okm; lem expr_bytes_pairs.
  1: injection H as <-; apply pairs_okm; lem expr_bytes_string_pairs.
  1: injection H as <-; apply pairs_okm; lem expr_bytes_pairs.
  subst e0. cbn in Hv. destruct Hv as [_ Hv]. unfold pairs. destruct (m p tag) as [[p' [e|]]|] eqn:Hp; [intros Hx; discriminate| |exact I]. cbn.
  intros _. destruct (Hv p q tag p' Hl Hp) as (A & B & C). split; [exact A|]. split; [exact B|]. intros Hr. destruct (C Hr) as (q' & -> & D & F). cbn. auto.
Qed.

Lemma operator_header_pairs : forall p q i tag name, len q = len p -> pairs 9 p q (operator_header p i tag name) (operator_header q i tag name).
Proof. intros p q i tag name Hl. unfold operator_header. repeat st. Qed.
Lemma call_header_pairs : forall p q i tag name, len q = len p -> pairs 9 p q (call_header p i tag name) (call_header q i tag name).
Proof. intros p q i tag name Hl. unfold call_header. repeat st. Qed.
Lemma set_header_pairs : forall p q i name, len q = len p -> pairs 9 p q (set_header p i name) (set_header q i name).
Proof. intros p q i name Hl. unfold set_header. repeat st. Qed.

Definition expr_thrifty (v : gvalue) : Prop := value_in_place v -> forall p q tag, len q = len p -> pairs 9 p q (append_expr v p tag) (append_expr v q tag).
Definition fun_thrifty (f : exprfun) : Prop := fun_in_place f -> forall p q tag, len q = len p -> pairs 9 p q (run_fun f p tag) (run_fun f q tag).

Lemma params_pairs : forall ps (tag t1 : N) wrap hd, Forall expr_thrifty ps -> all value_in_place ps ->
  (forall p q i, len q = len p -> pairs 9 p q (hd p i) (hd q i)) ->
  forall p q, len q = len p ->
  pairs 9 p q
    (do (p1, e) <- each (fun v p => append_expr v p t1) wrap 0 ps p; match e with Some e => Ok (p1, Some e) | None => okm (hd p1 (len p)) end)
    (do (p1, e) <- each (fun v p => append_expr v p t1) wrap 0 ps q; match e with Some e => Ok (p1, Some e) | None => okm (hd p1 (len q)) end).
Proof.
  intros ps tag t1 wrap hd Hps Hv Hhd p q Hl. apply bind_err.
  - apply each_pairs; [|assumption]. intros x p1 q1 Hx H1. rewrite Forall_forall in Hps. apply Hps; [assumption| |assumption].
    apply all_Forall in Hv. rewrite Forall_forall in Hv. apply Hv. assumption.
  - intros p1 q1 H1 _. rewrite Hl. apply pairs_okm. apply Hhd. assumption.
  - intros p1 e. cbn. discriminate.
Qed.

Ltac expr_case := match goal with
  | |- pairs _ _ _ (okm (append_expr_string _ _ _ _)) _ => apply pairs_okm; lem expr_string_pairs
  | |- pairs _ _ _ (okm (append_expr_bytes _ _ _ _)) _ => apply pairs_okm; lem expr_bytes_pairs
  | |- pairs _ _ _ (okm (append_expr_bytes_string _ _ _ _)) _ => apply pairs_okm; lem expr_bytes_string_pairs
  | |- pairs _ _ _ (okm (append_expr_int64 _ _ _)) _ => apply pairs_okm; unfold append_expr_int64; repeat st
  | |- pairs _ _ _ (okm (append_expr_uint64 _ _ _)) _ => apply pairs_okm; unfold append_expr_uint64; repeat st
  | |- pairs _ _ _ (okm (append_expr_time _ _ _)) _ => apply pairs_okm; unfold append_expr_time; repeat st; same_len; destruct (128 <=? _); [exact I|]; lem bump_pairs
  | |- pairs _ _ _ (okm (append_expr_duration _ _ _)) _ => apply pairs_okm; unfold append_expr_duration; st; cbv zeta; same_len;
      apply bind_slice; [lem duration_pairs|]; let H := fresh in intros ? ? H _; same_len; lem bump_pairs
  | |- pairs _ _ _ (ok _) _ => apply pairs_ok; unfold append_expr_null, append_expr_bool, append_expr_float32, append_expr_float64; st
  | |- pairs _ _ _ (Ok (_, Some _)) _ => let Hx := fresh in cbn; intros Hx; discriminate
  | |- pairs _ _ _ Panic _ => exact I
  end.

Lemma expr_pairs : forall v, expr_thrifty v.
Proof.
  apply (gvalue_deep expr_thrifty fun_thrifty).
  - intros v Hleaf Hv p q tag Hl.
    destruct v as [|z|z|z|z|z|n|n|n|n|n|s|b|b|bits|bits|t|d|s c|b|s|b|s|b|[f|]|i v|a e|a e0]; try contradiction; cbn [append_expr expr_method]; try expr_case.
    + destruct e; expr_case.
    + destruct e0 as [m|]; [|expr_case]. apply (expr_method_pairs (VUser a (Some m)) m Hv eq_refl p q tag Hl).
  - intros f Hf Hv p q tag Hl. cbn [append_expr]. apply Hf; assumption.
  - intros i v Hi Hv p q tag Hl. cbn [append_expr]. cbn [value_in_place] in Hv. destruct i; [expr_case|].
    destruct (expr_method v) as [m|] eqn:Hm; [|expr_case]. apply (expr_method_pairs v m Hv Hm p q tag Hl).
  - intros f Hleaf Hv p q tag Hl. destruct f as [name|name ps|name ps|name|pos|u]; try contradiction; cbn [run_fun].
    + apply pairs_okm. lem expr_column_pairs.
    + apply pairs_okm. lem expr_variable_pairs.
    + apply pairs_okm. lem expr_placeholder_pairs.
    + apply (expr_method_pairs (VUser None (Some u)) u); [split; [exact I|exact Hv]|reflexivity|assumption].
  - intros name ps Hps Hv p q tag Hl. cbn [run_fun]. apply (params_pairs ps tag tagOperatorParam EParam (fun p i => operator_header p i tag name)); try assumption.
    intros. apply operator_header_pairs. assumption.
  - intros name ps Hps Hv p q tag Hl. cbn [run_fun]. apply (params_pairs ps tag tagFunctionCallParam EParam (fun p i => call_header p i tag name)); try assumption.
    intros. apply call_header_pairs. assumption.
Qed.

Lemma fun_pairs : forall f, fun_in_place f -> forall p q tag, len q = len p -> pairs 9 p q (run_fun f p tag) (run_fun f q tag).
Proof. intros f Hf p q tag Hl. exact (expr_pairs (VFunc (Some f)) Hf p q tag Hl). Qed.

(* ---- messages ---- *)

Lemma args_pairs : forall tag args p q, Forall value_in_place args -> len q = len p -> pairs 9 p q (append_args tag args p) (append_args tag args q).
Proof.
  intros tag args p q Ha Hl. unfold append_args. apply each_pairs; [|assumption]. intros x p1 q1 Hx H1. apply any_pairs; [|assumption].
  rewrite Forall_forall in Ha. apply Ha. assumption.
Qed.

Lemma stmt_execute_pairs : forall stmt args p q, Forall value_in_place args -> len q = len p -> pairs 9 p q (stmt_execute p stmt args) (stmt_execute q stmt args).
Proof.
  intros stmt args p q Ha Hl. unfold stmt_execute. st. st. cbv zeta. apply bind_err; [lem args_pairs| |intros; cbn; discriminate].
  intros p3 q3 H3 _. apply pairs_okm. same_len. lem patch_pairs.
Qed.

Lemma execute_pairs : forall id args p q, Forall value_in_place args -> len q = len p -> pairs 9 p q (msg_execute p id args) (msg_execute q id args).
Proof.
  intros id args p q Ha Hl. unfold msg_execute. st. cbv zeta. apply bind_err; [lem args_pairs| |intros; cbn; discriminate].
  intros p3 q3 H3 _. apply pairs_okm. same_len. lem patch_pairs.
Qed.

Lemma prepare_pairs : forall id stmt p q, len q = len p -> pairs 9 p q (msg_prepare p id stmt) (msg_prepare q id stmt).
Proof. intros id stmt p q Hl. unfold msg_prepare. repeat st. Qed.

Lemma deallocate_pairs : forall id p q, len q = len p -> pairs 9 p q (msg_deallocate p id) (msg_deallocate q id).
Proof. intros id p q Hl. unfold msg_deallocate. repeat st. Qed.

Lemma delete_pairs : forall name cr p q, opt fun_in_place cr -> len q = len p -> pairs 9 p q (msg_delete p name cr) (msg_delete q name cr).
Proof.
  intros name cr p q Hc Hl. unfold msg_delete. do 7 st. cbv beta iota zeta. apply bind_err.
  - destruct cr as [f|]; [apply fun_pairs; assumption|st].
  - intros p9 q9 Hl9 _. repeat st.
  - intros p9 e. destruct (patch_length p9 _); cbn; [discriminate|exact I].
Qed.

Lemma columns_pairs : forall names p q, len q = len p -> pairs 9 p q (insert_columns names p) (insert_columns names q).
Proof. intros names. induction names as [|n names IH]; intros p q Hl; cbn [insert_columns]; [st|]. do 6 st. apply IH. assumption. Qed.

Lemma msg_insert_pairs : forall name names p q, len q = len p -> pairs 9 p q (msg_insert p name names) (msg_insert q name names).
Proof. intros name names p q Hl. unfold msg_insert. do 9 st. lem columns_pairs. Qed.

Lemma msg_update_pairs : forall name cr p q, opt fun_in_place cr -> len q = len p -> pairs 9 p q (msg_update p name cr) (msg_update q name cr).
Proof.
  intros name cr p q Hc Hl. unfold msg_update. do 9 st. destruct cr as [f|]; [apply fun_pairs; assumption|st].
Qed.

Lemma update_set_pairs : forall name v p q, value_in_place v -> len q = len p -> pairs 9 p q (append_update_set p name v) (append_update_set q name v).
Proof.
  intros name v p q Hv Hl. unfold append_update_set. apply bind_err; [apply expr_pairs; assumption| |intros; cbn; discriminate].
  intros p1 q1 H1 _. rewrite Hl. apply pairs_okm. lem set_header_pairs.
Qed.

Lemma expect_open_pairs : forall ctx p q, len q = len p -> pairs 9 p q (expect_open p ctx [ONoError true]) (expect_open q ctx [ONoError true]).
Proof. intros ctx p q Hl. unfold expect_open. cbn [append_conditions append_condition bind]. repeat st. Qed.

(* The header of a row is written last, and may take a byte less than was left for it: ten more. *)
Lemma row_pairs : forall row p q, Forall value_in_place row -> len q = len p -> pairs 10 p q (append_insert_row p row) (append_insert_row q row).
Proof.
  intros row p q Hr Hl. unfold append_insert_row. cbv zeta.
  pose proof (len_append E p [hdr tagInsertRow wireBytes; 0%N; 0%N]) as Lp. pose proof (cap_append_mono E p [hdr tagInsertRow wireBytes; 0%N; 0%N]) as [Cp Dp].
  pose proof (len_append E q [hdr tagInsertRow wireBytes; 0%N; 0%N]) as Lq.
  pose proof (cap_append_fits E q [hdr tagInsertRow wireBytes; 0%N; 0%N]) as Fq.
  set (p1 := append p _) in *. set (q1 := append q _) in *. clearbody p1 q1. cbn [length] in *. assert (Hl1 : len q1 = len p1) by lia. rewrite Hl1.
  pose proof (each_pairs _ (fun v p => append_expr v p tagTypedRowField) EColumnErr row 0 p1 q1) as He.
  specialize (He ltac:(intros x a b Hx Hab; apply expr_pairs; [rewrite Forall_forall in Hr; apply Hr; assumption|assumption]) Hl1).
  unfold pairs. destruct (each _ _ 0 row p1) as [[p2 [e|]]|]; cbn [bind]; [intros Hx; discriminate| |exact I].
  destruct (He eq_refl) as (A & B & C). cbn [sl view_err fst] in A, B, C. clear He.
  pose proof (size_varint_pos (N.of_nat (len p2 - len p1))) as Hs. fold (sizev (len p2 - len p1)) in Hs.
  assert (F : forall r m, (if (sizev (len p2 - len p1) =? 2) then Ok r else do h <- reslice r (len p1 + sizev (len p2 - len p1) - 2); do t <- from r (len p1); Ok (append h t)) = Ok m ->
    len r = len p2 -> len m = len p2 + sizev (len p2 - len p1) - 2 /\ cap r <= cap m).
  { intros r m Hm Hlr. destruct (Nat.eqb_spec (sizev (len p2 - len p1)) 2) as [H2|H2]; [injection Hm as <-; lia|].
    destruct (reslice r _) as [h|] eqn:Hh; [|discriminate]. destruct (reslice_shape _ _ _ Hh) as (_ & U & V). cbn [bind] in Hm.
    destruct (from r _) as [t|] eqn:Ht; [|discriminate]. destruct (from_shape _ _ _ Ht) as (W & X). cbn [bind] in Hm. injection Hm as <-.
    rewrite len_append. destruct (cap_append_mono E h t). lia. }
  assert (G : forall r, len r = len p2 -> len p2 <= cap r -> len p2 + sizev (len p2 - len p1) - 2 <= cap r ->
    exists m, (if (sizev (len p2 - len p1) =? 2) then Ok r else do h <- reslice r (len p1 + sizev (len p2 - len p1) - 2); do t <- from r (len p1); Ok (append h t)) = Ok m /\ cap m = cap r).
  { intros r Hlr Hc Hc2. destruct (Nat.eqb_spec (sizev (len p2 - len p1)) 2) as [H2|H2]; [eauto|].
    destruct (reslice_fits r (len p1 + sizev (len p2 - len p1) - 2) ltac:(lia)) as (h & -> & U & V). cbn [bind].
    destruct (from_fits r (len p1) ltac:(lia)) as (t & -> & X). cbn [bind]. eexists. split; [reflexivity|]. rewrite cap_append_fits; lia. }
  destruct (if sizev (len p2 - len p1) =? 2 then Ok p2 else _) as [p3|] eqn:H3; [|exact I]. cbn [bind].
  destruct (F p2 p3 H3 eq_refl) as [L3 C3].
  destruct (put_uvarint p3 (len p1 - 2) (N.of_nat (len p2 - len p1))) as [[p4 i]|] eqn:H4; [|exact I]. cbn [bind sl fine alike view_err fst snd].
  pose proof (put_uvarint_pairs 0 p3 p3 (len p1 - 2) (N.of_nat (len p2 - len p1)) eq_refl) as Hp. unfold pairs in Hp. rewrite H4 in Hp. cbn in Hp.
  assert (S4 : len p4 = len p3 /\ cap p4 = cap p3).
  { unfold put_uvarint in H4. destruct (_ <=? _); [|discriminate]. destruct (N.ltb _ 128);
      destruct (put _ _ _) as [x|] eqn:Hx in H4; cbn [bind] in H4; try discriminate; injection H4 as <- <-; destruct (put_shape _ _ _ _ Hx) as (_ & ? & ?); auto. }
  destruct S4 as [L4 C4]. intros _. split; [lia|]. split; [lia|]. unfold roomy. intros Hroom. pose proof (len_le_cap p4) as Hc4.
  assert (Cq1 : cap q1 = cap q) by (apply Fq; lia).
  assert (R2 : roomy 9 p2 q1) by (unfold roomy; lia). specialize (C R2).
  destruct (each _ _ 0 row q1) as [[q2 e2]|]; [|contradiction]. cbn [alike view_err sl fst snd] in C. destruct C as (-> & L2 & C2). cbn [bind]. rewrite L2.
  cbn [fst] in L2, C2. pose proof (len_le_cap q2). destruct (G q2 L2 ltac:(lia) ltac:(lia)) as (q3 & H3q & C3q). rewrite H3q. cbn [bind]. destruct (F q2 q3 H3q L2) as [L3q _].
  pose proof (put_uvarint_pairs 0 p3 q3 (len p1 - 2) (N.of_nat (len p2 - len p1)) ltac:(lia)) as Hq. unfold pairs in Hq. rewrite H4 in Hq. cbn in Hq.
  destruct (Hq I) as (_ & _ & Q). specialize (Q ltac:(unfold roomy; lia)).
  destruct (put_uvarint q3 _ _) as [[q4 j]|]; [|contradiction]. cbn [bind]. cbn [fst snd sl] in *. split; [reflexivity|]. lia.
Qed.

Lemma insert_rows_pairs : forall ncols rows i p q, Forall (Forall value_in_place) rows -> len q = len p ->
  pairs 10 p q (insert_rows ncols i rows p) (insert_rows ncols i rows q).
Proof.
  intros ncols rows. induction rows as [|row rows IH]; intros i p q Hr Hl; cbn [insert_rows]; [st|]. inversion Hr as [|? ? H1 H2]; subst.
  destruct (length row =? ncols); [|intros Hx; discriminate]. apply bind_err; [lem row_pairs| |intros; cbn; discriminate].
  intros p1 q1 Hl1 _. apply IH; assumption.
Qed.

Lemma sets_pairs : forall set p q, Forall value_in_place (map snd set) -> len q = len p -> pairs 10 p q (update_sets set p) (update_sets set q).
Proof.
  induction set as [|[k v] set IH]; intros p q Hr Hl; cbn [update_sets]; [st|]. inversion Hr as [|? ? H1 H2]; subst.
  apply bind_err; [apply (pairs_weaken 9); [lia|]; apply update_set_pairs; assumption| |intros; cbn; discriminate]. intros p1 q1 Hl1 _. apply IH; assumption.
Qed.

Lemma iops_bad : forall dis ops p e, match run_iops dis ops p (Some e) with Ok x => snd x <> None | Panic => True end.
Proof.
  intros dis. induction ops as [|[row|lvl] ops IH]; intros p e; cbn [run_iops]; [discriminate|apply IH|].
  destruct (use_outer dis lvl); cbn [bind]; [apply IH|exact I].
Qed.
Lemma uops_bad : forall dis ops p e, match run_uops dis ops p (Some e) with Ok x => snd x <> None | Panic => True end.
Proof.
  intros dis. induction ops as [|[k v|lvl] ops IH]; intros p e; cbn [run_uops]; [discriminate|apply IH|].
  destruct (use_outer dis lvl); cbn [bind]; [apply IH|exact I].
Qed.

Lemma iops_pairs : forall dis ops p q, Forall (Forall value_in_place) (rows_of ops) -> len q = len p ->
  pairs 10 p q (run_iops dis ops p None) (run_iops dis ops q None).
Proof.
  intros dis. induction ops as [|[row|lvl] ops IH]; intros p q Hr Hl; cbn [run_iops rows_of] in *; [st| |].
  - inversion Hr as [|? ? H1 H2]; subst. apply bind_err; [lem row_pairs| |].
    + intros p1 q1 Hl1 _. apply IH; assumption.
    + intros p1 e. exact (iops_bad dis ops p1 e).
  - destruct (use_outer dis lvl); cbn [bind]; [apply IH; assumption|exact I].
Qed.
Lemma uops_pairs : forall dis ops p q, Forall value_in_place (map snd (sets_of ops)) -> len q = len p ->
  pairs 10 p q (run_uops dis ops p None) (run_uops dis ops q None).
Proof.
  intros dis. induction ops as [|[k v|lvl] ops IH]; intros p q Hr Hl; cbn [run_uops sets_of map] in *; [st| |].
  - inversion Hr as [|? ? H1 H2]; subst. apply bind_err; [apply (pairs_weaken 9); [lia|]; apply update_set_pairs; assumption| |].
    + intros p1 q1 Hl1 _. apply IH; assumption.
    + intros p1 e. exact (uops_bad dis ops p1 e).
  - destruct (use_outer dis lvl); cbn [bind]; [apply IH; assumption|exact I].
Qed.

Definition call_code (dis : list bool) (c : call) (p : slice) : res (slice * option err) :=
  match c with
  | CStmtExecute stmt args => stmt_execute p stmt args
  | CPrepare id stmt => okm (msg_prepare p id stmt)
  | CExecute id args => msg_execute p id args
  | CDeallocate id => okm (msg_deallocate p id)
  | CInsert name columns rows => do_insert name columns rows p
  | CInsertF name columns ops _ => do_insert_f dis name columns ops p
  | CUpdate name criteria set => do_update name criteria set p
  | CUpdateF name criteria ops _ => do_update_f dis name criteria ops p
  | CDelete name criteria => msg_delete p name criteria
  end.

Lemma call_code_pairs : forall dis c p q, call_in_place c -> len q = len p -> pairs 10 p q (call_code dis c p) (call_code dis c q).
Proof.
  assert (W : forall p q (r1 r2 : res (slice * option err)), pairs 9 p q r1 r2 -> pairs 10 p q r1 r2) by (intros; apply (pairs_weaken 9); [lia|assumption]).
  assert (W' : forall p q (r1 r2 : res slice), pairs 9 p q r1 r2 -> pairs 10 p q r1 r2) by (intros; apply (pairs_weaken 9); [lia|assumption]).
  intros dis c p q Hc Hl. destruct c as [stmt args|id stmt|id args|id|name cols rows|name cols ops e|name cr set|name cr ops e|name cr]; cbn [call_code call_in_place] in *.
  - apply W. lem stmt_execute_pairs.
  - apply W. apply pairs_okm. lem prepare_pairs.
  - apply W. lem execute_pairs.
  - apply W. apply pairs_okm. lem deallocate_pairs.
  - unfold do_insert. apply bind_slice; [apply W'; lem msg_insert_pairs|]. intros p1 q1 H1 _. apply bind_err; [lem insert_rows_pairs| |intros; cbn; discriminate].
    intros p2 q2 H2 _. rewrite Hl. apply pairs_okm. lem patch_pairs.
  - unfold do_insert_f. apply bind_slice; [apply W'; lem msg_insert_pairs|]. intros p1 q1 H1 _. apply bind_err; [lem iops_pairs| |].
    + intros p2 q2 H2 _. rewrite Hl. apply bind_slice; [lem patch_pairs|]. intros p3 q3 H3 _. st.
    + intros p2 x. destruct (patch_length p2 _); cbn; [discriminate|exact I].
  - destruct Hc as [Hc1 Hc2]. unfold do_update. apply bind_err; [apply W; lem msg_update_pairs| |intros; cbn; discriminate].
    intros p1 q1 H1 _. apply bind_err; [lem sets_pairs| |intros; cbn; discriminate]. intros p2 q2 H2 _. rewrite Hl. apply pairs_okm. lem patch_pairs.
  - destruct Hc as [Hc1 Hc2]. unfold do_update_f. apply bind_err; [apply W; lem msg_update_pairs| |].
    + intros p1 q1 H1 _. apply bind_err; [lem uops_pairs| |].
      * intros p2 q2 H2 _. rewrite Hl. apply bind_slice; [lem patch_pairs|]. intros p3 q3 H3 _. st.
      * intros p2 x. destruct (patch_length p2 _); cbn; [discriminate|exact I].
    + intros p1 x. pose proof (uops_bad dis ops p1 x) as Hb. destruct (run_uops dis ops p1 (Some x)) as [[p2 [y|]]|]; cbn [bind snd] in *; [|congruence|exact I].
      destruct (patch_length p2 _); cbn; [discriminate|exact I].
  - apply W. lem delete_pairs.
Qed.

(* ---- builders ---- *)

Definition usable (b : builder) : Prop := disabled b = false /\ berr b = None.
#[global] Instance view_builder : View builder := {| sl := buf; fine := fun b => usable b; alike := fun _ c => usable c |}.
#[global] Instance view_with {X} : View (builder * X) := {| sl := fun r => buf (fst r); fine := fun r => usable (fst r); alike := fun r s => usable (fst s) /\ snd s = snd r |}.

Lemma usable_dec : forall b, usable b \/ ~ usable b.
Proof. intros [p [e|] [|]]; unfold usable; cbn; try (left; split; reflexivity); right; intros [? ?]; discriminate. Qed.

Lemma call_bpairs : forall dis c b d, call_in_place c -> usable b -> usable d -> len (buf d) = len (buf b) -> pairs 10 (buf b) (buf d) (exec_call dis c b) (exec_call dis c d).
Proof.
  intros dis c b d Hc [B1 B2] [D1 D2] Hl. unfold exec_call, guarded. rewrite B1, B2, D1, D2.
  pose proof (call_code_pairs dis c (buf b) (buf d) Hc Hl) as H. unfold call_code in H.
  destruct (match c with CStmtExecute stmt args => _ | _ => _ end) as [[p' e]|] in H |- *; cbn [bind]; [|exact I].
  unfold pairs in *. cbn [sl fine alike view_builder view_err fst snd buf] in *. intros [_ He]. cbn [berr] in He. subst e.
  destruct (H eq_refl) as (A & B & C). split; [exact A|]. split; [exact B|]. intros Hr. specialize (C Hr).
  destruct (match c with CStmtExecute stmt args => _ | _ => _ end) as [[q' e]|]; [|contradiction]. cbn [bind fst snd] in *. destruct C as (-> & C1 & C2).
  split; [split; reflexivity|]. auto.
Qed.

Lemma stmt_bpairs : forall s b d, usable b -> usable d -> len (buf d) = len (buf b) -> pairs 10 (buf b) (buf d) (b_stmt_execute s [] b) (b_stmt_execute s [] d).
Proof. intros s b d Hb Hd Hl. exact (call_bpairs [] (CStmtExecute s []) b d (Forall_nil _) Hb Hd Hl). Qed.

Lemma bind_builder : forall {S} `{View S} k p q (m1 m2 : res builder) (g1 g2 : builder -> res S),
  pairs k p q m1 m2 -> (forall b d, usable b -> usable d -> len (buf d) = len (buf b) -> pairs k (buf b) (buf d) (g1 b) (g2 d)) ->
  (forall b, ~ usable b -> match g1 b with Ok x => ~ fine x | Panic => True end) -> pairs k p q (bind m1 g1) (bind m2 g2).
Proof.
  intros S W k p q m1 m2 g1 g2 Hm Hg Hb. apply pairs_bind; [exact Hm| | | |]; cbn [sl fine alike view_builder].
  - intros r s Hr Hs Hl _. apply Hg; assumption.
  - exact Hb.
  - apply usable_dec.
  - auto.
Qed.

Lemma pairs_ret_with : forall {X} k b d (x : X), usable b -> usable d -> len (buf d) = len (buf b) -> pairs k (buf b) (buf d) (Ok (b, x)) (Ok (d, x)).
Proof. intros X k b d x Hb Hd Hl. unfold pairs. cbn [sl fine alike view_with fst snd]. intros _. split; [lia|]. split; [lia|]. auto. Qed.

Lemma insert_row_bpairs : forall name cols row b d, Forall value_in_place row -> usable b -> usable d -> len (buf d) = len (buf b) ->
  pairs 10 (buf b) (buf d) (b_insert_row name cols row b) (b_insert_row name cols row d).
Proof.
  intros name cols row b d Hr [B1 B2] [D1 D2] Hl. unfold b_insert_row. rewrite B1, B2, D1, D2. rewrite Hl. cbv zeta.
  apply bind_slice; [apply (pairs_weaken 9); [lia|]; lem msg_insert_pairs|]. intros p1 q1 H1 _.
  apply bind_err; [lem row_pairs| |intros p2 e; cbn; unfold usable; cbn; intros [_ ?]; discriminate]. intros p2 q2 H2 _. cbv beta iota.
  apply bind_slice; [lem patch_pairs|]. intros p3 q3 H3 _.
  assert (Hid : insert_id q3 = insert_id p3) by (unfold insert_id; rewrite H3; reflexivity). rewrite Hid.
  apply bind_builder; [apply (stmt_bpairs _ (mkb p3 None false) (mkb q3 None false)); [split; reflexivity..|exact H3]| |].
  - intros b1 d1 U V Hl1. apply pairs_ret_with; assumption.
  - intros b1 U. cbn. exact U.
Qed.

Lemma block_begin_bpairs : forall k b d, usable b -> usable d -> len (buf d) = len (buf b) -> pairs 10 (buf b) (buf d) (block_begin k b) (block_begin k d).
Proof.
  intros k b d Hb Hd Hl. pose proof Hb as [B1 B2]. pose proof Hd as [D1 D2]. unfold block_begin. rewrite B1, B2, D1, D2. destruct k as [lvl|ctx].
  - assert (One : forall s b d, usable b -> usable d -> len (buf d) = len (buf b) ->
      pairs 10 (buf b) (buf d) (do b1 <- b_stmt_execute s [] b; Ok (b1, true)) (do b1 <- b_stmt_execute s [] d; Ok (b1, true))).
    { intros s b0 d0 U V Hl0. apply bind_builder; [apply stmt_bpairs; assumption| |intros b1 U1; cbn; exact U1]. intros b1 d1 U1 V1 Hl1. apply pairs_ret_with; assumption. }
    assert (Two : forall s s', pairs 10 (buf b) (buf d) (do b1 <- b_stmt_execute s [] b; do b2 <- b_stmt_execute s' [] b1; Ok (b2, true))
        (do b1 <- b_stmt_execute s [] d; do b2 <- b_stmt_execute s' [] b1; Ok (b2, true))).
    { intros s s'. apply bind_builder; [apply stmt_bpairs; assumption|intros b1 d1 U1 V1 Hl1; apply One; assumption|].
      intros b1 U1. unfold b_stmt_execute, guarded, usable in *. destruct (disabled b1) eqn:Hx; [exact I|]. destruct (berr b1) eqn:Hy; [|exfalso; apply U1; auto].
      cbn. intros [_ ?]. congruence. }
    unfold tx_begin. destruct lvl as [|[[[lvl|lvl|]|[lvl|lvl|]|]|[[lvl|lvl|]|[lvl|lvl|]|]|]]; cbv zeta; try (apply One; assumption); try apply Two.
    all: cbn; unfold usable; cbn; intros [_ ?]; discriminate.
  - apply bind_slice; [apply (pairs_weaken 9); [lia|]; lem expect_open_pairs|]. intros p1 q1 H1 _.
    apply (pairs_ret_with 10 (mkb p1 None false) (mkb q1 None false) true); [split; reflexivity..|exact H1].
Qed.

Lemma block_end_bpairs : forall k b d, usable b -> usable d -> len (buf d) = len (buf b) -> pairs 10 (buf b) (buf d) (block_end k b) (block_end k d).
Proof.
  intros [lvl|ctx] b d Hb Hd Hl; cbn [block_end]; [apply stmt_bpairs; assumption|]. destruct Hb as [B1 B2], Hd as [D1 D2]. rewrite B1, B2, D1, D2.
  pose proof (append_pairs E 10 (buf b) (buf d) [1; 0; 0; 0; EXPECT_CLOSE]%N Hl) as H. unfold pairs, expect_close in *. cbn [sl fine alike view_slice view_builder buf] in *.
  intros _. destruct (H I) as (A & B & C). split; [exact A|]. split; [exact B|]. intros Hr. destruct (C Hr) as (_ & C1 & C2). split; [split; reflexivity|]. auto.
Qed.

(* ---- programs ---- *)

Definition after (b d b1 : builder) (r2 : builder -> Prop) : Prop :=
  len (buf b) <= len (buf b1) /\ cap (buf b) <= cap (buf b1) /\
  (roomy 10 (buf b1) (buf d) -> exists d1, r2 d1 /\ usable d1 /\ len (buf d1) = len (buf b1) /\ cap (buf d1) = cap (buf d)).

Lemma pairs_after : forall (r1 r2 : res builder) b d b1, pairs 10 (buf b) (buf d) r1 r2 -> r1 = Ok b1 -> usable b1 -> after b d b1 (fun d1 => r2 = Ok d1).
Proof.
  intros r1 r2 b d b1 H -> U. unfold pairs in H. cbn [sl fine alike view_builder] in H. destruct (H U) as (A & B & C). split; [exact A|]. split; [exact B|]. intros Hr.
  specialize (C Hr). destruct r2 as [d1|]; [|contradiction]. destruct C as (V & C1 & C2). eauto.
Qed.
Lemma pairs_after_with : forall {X} (r1 r2 : res (builder * X)) b d b1 x, pairs 10 (buf b) (buf d) r1 r2 -> r1 = Ok (b1, x) -> usable b1 ->
  after b d b1 (fun d1 => r2 = Ok (d1, x)).
Proof.
  intros X r1 r2 b d b1 x H -> U. unfold pairs in H. cbn [sl fine alike view_with fst snd] in H. destruct (H U) as (A & B & C). split; [exact A|]. split; [exact B|]. intros Hr.
  specialize (C Hr). destruct r2 as [[d1 y]|]; [|contradiction]. cbn [fst snd] in C. destruct C as ((V & ->) & C1 & C2). eauto.
Qed.

Lemma after_then : forall b d b1 b2 (r1 r2 : builder -> Prop), after b d b1 r1 -> len (buf b1) <= len (buf b2) -> cap (buf b1) <= cap (buf b2) ->
  (forall d1, r1 d1 -> usable d1 -> len (buf d1) = len (buf b1) -> after b1 d1 b2 r2) -> after b d b2 r2.
Proof.
  intros b d b1 b2 r1 r2 (A & B & C) L2 C2 H. split; [lia|]. split; [lia|]. intros Hr. destruct C as (d1 & R & U & Ld & Cd); [exact (roomy_mono _ _ _ _ L2 C2 Hr)|].
  destruct (H d1 R U Ld) as (_ & _ & K). rewrite <- Cd. apply K. unfold roomy in *. lia.
Qed.

Lemma rest_usable : forall pr b outer b1 out, all_disabled outer -> disabled b = false -> run pr (b :: outer) = Ok (b1 :: outer, out) -> berr b1 = None -> usable b.
Proof.
  intros pr b outer b1 out Ho Hd H He. destruct (run_shape E pr b outer _ out Ho Hd H) as (b2 & Hb & _ & Hs). injection Hb as <-.
  split; [exact Hd|]. destruct (berr b) eqn:Hx; [|reflexivity]. rewrite Hs in He by congruence. congruence.
Qed.

Lemma run_after : forall pr b d outer1 outer2 b1 out, prog_in_place pr -> all_disabled outer1 -> all_disabled outer2 -> length outer1 = length outer2 ->
  usable b -> usable d -> len (buf d) = len (buf b) -> run pr (b :: outer1) = Ok (b1 :: outer1, out) -> berr b1 = None ->
  after b d b1 (fun d1 => run pr (d :: outer2) = Ok (d1 :: outer2, out)).
Proof.
  induction pr as [cberr out0|lvl c next IH|lvl name cols row next IH|lvl k body IHb next IHn];
    intros b d outer1 outer2 b1 out Hip Ho1 Ho2 Hlen Ub Ud Hl H He; cbn [run prog_in_place] in *.
  - assert (b1 = b /\ out = out0) by (split; congruence). destruct H0; subst. split; [lia|]. split; [lia|]. intros _. exists d. split; [reflexivity|]. auto.
  - destruct Hip as [Hc Hip]. destruct lvl as [|lvl].
    2: { destruct (nth_error (b :: outer1) (S lvl)) as [x|] eqn:Hx; [|discriminate]. apply only_inner in Hx; [|assumption].
         rewrite exec_disabled in H by assumption. discriminate. }
    cbn [nth_error set_nth map] in *. rewrite (disabled_flags outer2 outer1 Ho2 Ho1 (eq_sym Hlen)).
    destruct (exec_call _ c b) as [b3|] eqn:Hb; [|discriminate]. cbn [bind] in H.
    assert (D3 : disabled b3 = false). { unfold exec_call, guarded in Hb. destruct Ub as [U1 U2]. rewrite U1, U2 in Hb.
      destruct (match c with CStmtExecute stmt args => _ | _ => _ end) as [[p e]|] in Hb; [|discriminate]. cbn [bind] in Hb. injection Hb as <-. reflexivity. }
    pose proof (rest_usable _ _ _ _ _ Ho1 D3 H He) as U3.
    pose proof (IH b3 b3 outer1 outer1 b1 out Hip Ho1 Ho1 eq_refl U3 U3 eq_refl H He) as (L1 & C1 & _).
    apply (after_then b d b3 b1 _ _ (pairs_after _ _ b d b3 (call_bpairs (true :: map disabled outer1) c b d Hc Ub Ud Hl) Hb U3) L1 C1).
    intros d1 -> U1 Hl1. cbn [bind]. apply (IH _ _ outer1 outer2); assumption.
  - destruct Hip as [Hr Hip]. destruct lvl as [|lvl].
    2: { destruct (nth_error (b :: outer1) (S lvl)) as [x|] eqn:Hx; [|discriminate]. apply only_inner in Hx; [|assumption].
         rewrite insert_row_disabled in H by assumption. discriminate. }
    cbn [nth_error set_nth] in *. destruct (b_insert_row _ _ _ b) as [[b3 o]|] eqn:Hb; [|discriminate]. cbn [bind] in H.
    assert (D3 : disabled b3 = false).
    { destruct Ub as [U1 U2]. unfold b_insert_row in Hb. rewrite U1, U2 in Hb. destruct (msg_insert _ _ _) as [p1|]; [|discriminate]. cbn [bind] in Hb.
      destruct (append_insert_row p1 row) as [[p2 [e|]]|]; cbn [bind] in Hb; [injection Hb as <- <-; reflexivity| |discriminate].
      destruct (patch_length p2 _) as [p3|]; [|discriminate]. cbn [bind] in Hb. unfold b_stmt_execute, guarded in Hb. cbn [disabled berr buf] in Hb.
      destruct (stmt_execute p3 _ _) as [[p4 e]|]; [|discriminate]. cbn [bind] in Hb. injection Hb as <- <-. reflexivity. }
    pose proof (rest_usable _ _ _ _ _ Ho1 D3 H He) as U3.
    pose proof (IH o b3 b3 outer1 outer1 b1 out (Hip o) Ho1 Ho1 eq_refl U3 U3 eq_refl H He) as (L1 & C1 & _).
    apply (after_then b d b3 b1 _ _ (pairs_after_with _ _ b d b3 o (insert_row_bpairs name cols row b d Hr Ub Ud Hl) Hb U3) L1 C1).
    intros d1 -> U1 Hl1. cbn [bind]. apply (IH o _ _ outer1 outer2); [apply Hip|assumption..].
  - destruct Hip as [Hipb Hipn]. destruct lvl as [|lvl].
    2: { destruct (nth_error (b :: outer1) (S lvl)) as [x|] eqn:Hx; [|discriminate]. apply only_inner in Hx; [|assumption].
         rewrite block_disabled in H by assumption. discriminate. }
    cbn [nth_error set_nth] in *. destruct (block_begin k b) as [[b3 en]|] eqn:Hb; [|discriminate]. cbn [bind] in H.
    destruct en.
    + destruct (run body _) as [[st2 out1]|] eqn:Hrun in H; [|discriminate]. cbn [bind] in H.
      assert (Ho3 : all_disabled (mkb (buf b3) (berr b3) true :: outer1)) by (constructor; [reflexivity|assumption]).
      destruct (run_shape E body (mkb (buf b3) (berr b3) false) _ _ _ Ho3 eq_refl Hrun) as (b5 & -> & D5 & S5).
      destruct (block_end k _) as [b6|] eqn:Hend in H; [|discriminate]. cbn [bind set_nth] in H.
      assert (D6 : disabled b6 = false /\ (berr b5 <> None -> berr b6 <> None)).
      { destruct k as [l|ctx]; cbn [block_end] in Hend; [|injection Hend as <-; cbn; auto]. unfold b_stmt_execute, guarded in Hend. cbn [disabled berr buf] in Hend.
        destruct (berr b5) as [e|]; [injection Hend as <-; cbn; split; [reflexivity|congruence]|].
        destruct (stmt_execute _ _ _) as [[p4 e]|] in Hend; [|discriminate]. cbn [bind] in Hend. injection Hend as <-. cbn. split; [reflexivity|congruence]. }
      destruct D6 as [D6 N6]. pose proof (rest_usable _ _ _ _ _ Ho1 D6 H He) as U6.
      assert (E5 : berr b5 = None) by (destruct (berr b5) eqn:Hx; [exfalso; destruct U6 as [_ U6]; apply N6; congruence|reflexivity]).
      assert (E3 : berr b3 = None). { pose proof (rest_usable _ (mkb (buf b3) (berr b3) false) _ _ _ Ho3 eq_refl Hrun E5) as [_ U]. exact U. }
      pose proof (IHn out1 b6 b6 outer1 outer1 b1 out (Hipn out1) Ho1 Ho1 eq_refl U6 U6 eq_refl H He) as (L61 & C61 & _).
      assert (U5' : usable (mkb (buf b5) (berr b5) false)) by (split; [reflexivity|exact E5]).
      pose proof (pairs_after _ _ _ _ b6 (block_end_bpairs k _ _ U5' U5' eq_refl) Hend U6) as (L56 & C56 & _). cbn [buf] in L56, C56.
      assert (U3' : usable (mkb (buf b3) (berr b3) false)) by (split; [reflexivity|exact E3]).
      pose proof (IHb _ _ _ _ b5 out1 Hipb Ho3 Ho3 eq_refl U3' U3' eq_refl Hrun E5) as (L35 & C35 & _). cbn [buf] in L35, C35.
      assert (D3 : disabled b3 = false).
      { pose proof (block_begin_bpairs k b b Ub Ub eq_refl) as Hp. unfold block_begin in Hb. destruct Ub as [U1 U2]. rewrite U1, U2 in Hb. destruct k as [l|ctx].
        - assert (Q : forall s x y, disabled x = false -> berr x = None -> b_stmt_execute s [] x = Ok y -> disabled y = false).
          { intros s x y Dx Ex Hy. unfold b_stmt_execute, guarded in Hy. rewrite Dx, Ex in Hy. destruct (stmt_execute _ _ _) as [[p4 e]|] in Hy; [|discriminate]. cbn [bind] in Hy. injection Hy as <-. reflexivity. }
          assert (Q' : forall s x y, disabled x = false -> b_stmt_execute s [] x = Ok y -> disabled y = false).
          { intros s x y Dx Hy. destruct (berr x) eqn:Ex; [|apply (Q s x y); assumption]. unfold b_stmt_execute, guarded in Hy. rewrite Dx, Ex in Hy. injection Hy as <-. exact Dx. }
          unfold tx_begin in Hb. destruct l as [|[[[l|l|]|[l|l|]|]|[[l|l|]|[l|l|]|]|]]; cbv zeta in Hb; try discriminate.
          all: destruct (b_stmt_execute _ [] b) as [x|] eqn:Hx1 in Hb; cbn [bind] in Hb; try discriminate.
          all: try (injection Hb as <-; exact (Q' _ _ _ U1 Hx1)).
          all: destruct (b_stmt_execute _ [] x) as [y|] eqn:Hx2 in Hb; cbn [bind] in Hb; try discriminate.
          all: injection Hb as <-; exact (Q' _ _ _ (Q' _ _ _ U1 Hx1) Hx2).
        - destruct (expect_open _ _ _) as [p|] in Hb; [|discriminate]. cbn [bind] in Hb. injection Hb as <-. reflexivity. }
      assert (U3 : usable b3) by (split; assumption).
      apply (after_then b d b3 b1 _ _ (pairs_after_with _ _ b d b3 true (block_begin_bpairs k b d Ub Ud Hl) Hb U3)); [lia|lia|].
      intros d3 -> V3 Hl3. cbn [bind].
      assert (Ho4 : all_disabled (mkb (buf d3) (berr d3) true :: outer2)) by (constructor; [reflexivity|assumption]).
      assert (V3' : usable (mkb (buf d3) (berr d3) false)) by (split; [reflexivity|apply V3]).
      assert (A35 : after b3 d3 b5 (fun d5 => run body (mkb (buf d3) (berr d3) false :: mkb (buf d3) (berr d3) true :: outer2) = Ok (d5 :: mkb (buf d3) (berr d3) true :: outer2, out1))).
      { exact (IHb (mkb (buf b3) (berr b3) false) (mkb (buf d3) (berr d3) false) _ _ b5 out1 Hipb Ho3 Ho4 ltac:(cbn; congruence) U3' V3' Hl3 Hrun E5). }
      apply (after_then b3 d3 b5 b1 _ _ A35); [lia|lia|]. intros d5 -> V5 Hl5. cbn [bind].
      assert (V5' : usable (mkb (buf d5) (berr d5) false)) by (split; [reflexivity|apply V5]).
      assert (A56 : after b5 d5 b6 (fun d6 => block_end k (mkb (buf d5) (berr d5) false) = Ok d6)).
      { exact (pairs_after _ _ (mkb (buf b5) (berr b5) false) (mkb (buf d5) (berr d5) false) b6 (block_end_bpairs k _ _ U5' V5' Hl5) Hend U6). }
      apply (after_then b5 d5 b6 b1 _ _ A56); [lia|lia|]. intros d6 -> V6 Hl6. cbn [bind set_nth]. apply (IHn out1 _ _ outer1 outer2); [apply Hipn|assumption..].
    + exfalso. assert (Hx : disabled b3 = false /\ berr b3 <> None).
      { unfold block_begin in Hb. destruct Ub as [U1 U2]. rewrite U1, U2 in Hb. destruct k as [l|ctx].
        - unfold tx_begin in Hb. destruct l as [|[[[l|l|]|[l|l|]|]|[[l|l|]|[l|l|]|]|]]; cbv zeta in Hb;
            repeat (destruct (b_stmt_execute _ [] _) in Hb; cbn [bind] in Hb); try discriminate; injection Hb as <-; cbn; split; (exact U1 || congruence).
        - destruct (expect_open _ _ _) in Hb; discriminate. }
      destruct Hx as [D3 N3]. destruct (rest_usable _ _ _ _ _ Ho1 D3 H He) as [_ U]. contradiction.
Qed.

End Code.
