(* Proofs about Timed. *)
From Coq Require Import String List NArith ZArith Arith Bool Lia ZifyN ZifyNat ZifyBool.
From Coq Require Import List.
From Verif Require Import Base GoSlice SpecWire MsgModel Conn AuthModel Connector Timed SpecTime.
From Verif Require ConnProofs.
Import ListNotations.
Open Scope N_scope.
Open Scope list_scope.

(* ---- everything ends by the deadline ---- *)

Definition mu (D : N) (s : tconn) : N := (D - now s) * 4097 + nlen (buffered s).
Definition moved (D : N) (s s' : tconn) : Prop := due s' = due s /\ now s <= now s' <= N.max (now s) D /\ mu D s' <= mu D s.
Lemma moved_refl : forall D s, moved D s s.
Proof. intros. unfold moved. repeat split; lia. Qed.
Lemma moved_trans : forall D a b c, moved D a b -> moved D b c -> moved D a c.
Proof. intros D a b c (A1 & A2 & A3) (B1 & B2 & B3). unfold moved. repeat split; try lia. congruence. Qed.

Section Connection.
Variable w32 : bool.
Variable w : world.

Lemma net_read_ends : forall D room s, due s = Some D -> 0 < room -> exists x s', net_read w room s = Back x s' /\ due s' = due s /\ buffered s' = buffered s /\ kept s' = kept s /\
  now s <= now s' <= N.max (now s) D /\ (forall c, x = inl c -> now s < now s' < D /\ 0 < nlen c <= room).
Proof.
  intros D room s Hd Hr. unfold net_read. rewrite Hd. destruct (reads w (nreads s)) as [t x]. unfold ends.
  destruct t as [t|]; [destruct (N.ltb_spec (now s + 1 + t) D) as [L|L]|]; destruct x as [[b bs]|e]; cbn [fst snd];
    (eexists; eexists; split; [reflexivity|]; cbn [due buffered kept now]; (split; [congruence|]; split; [reflexivity|]; split; [reflexivity|]; split; [lia|])); intros c Hc; try discriminate.
  injection Hc as <-. split; [lia|]. unfold firstN, nlen. rewrite firstn_length. cbn [length]. lia.
Qed.

Lemma mu_eq : forall D s s', now s <= now s' -> buffered s' = buffered s -> mu D s' <= mu D s.
Proof. intros D s s' A B. unfold mu. rewrite B. apply N.add_le_mono_r, N.mul_le_mono_r. lia. Qed.
Lemma mu_read : forall D s s', now s < now s' < D -> nlen (buffered s') <= 4096 -> mu D s' <= mu D s.
Proof. intros D s s' A B. unfold mu. nia. Qed.

Lemma t_fill_ends : forall k D n s, due s = Some D -> D - now s < N.of_nat k -> exists s', t_fill w k n s = Back tt s' /\ moved D s s' /\
  (n <= nlen (buffered s') \/ 4096 <= nlen (buffered s') \/ kept s' <> None).
Proof.
  induction k as [|k IH]; intros D n s Hd Hk; [lia|]. cbn [t_fill]. destruct (kept s) as [e|] eqn:Ek.
  { exists s. split; [reflexivity|]. split; [apply moved_refl|]. right. right. congruence. }
  destruct (_ || _)%bool eqn:C.
  { exists s. split; [reflexivity|]. split; [apply moved_refl|]. unfold buf_size in C. lia. }
  unfold buf_size in *. destruct (net_read_ends D (4096 - nlen (buffered s)) s Hd ltac:(lia)) as (x & s1 & -> & A1 & A2 & A3 & A4 & A5). cbn [tbind].
  destruct x as [c|e].
  - destruct (A5 c eq_refl) as [B1 B2]. destruct (IH D n (with_buffer (buffered s1 ++ c) None s1)) as (s2 & -> & C1 & C2).
    + cbn [with_buffer due]. congruence.
    + cbn [with_buffer now]. lia.
    + exists s2. split; [reflexivity|]. split; [|exact C2]. eapply moved_trans; [|exact C1]. split; [exact A1|]. split; [exact A4|]. apply mu_read; [exact B1|].
      cbn [with_buffer buffered]. rewrite A2. unfold nlen in *. rewrite app_length. lia.
  - destruct k as [|k]; cbn [t_fill with_buffer kept]; (eexists; split; [reflexivity|]; split; [|right; right; cbn [kept]; discriminate]);
      (split; [exact A1|]; split; [exact A4|]; apply mu_eq; cbn [with_buffer now buffered]; [lia|exact A2]).
Qed.

Lemma with_buffer_moved : forall D s b k, nlen b <= nlen (buffered s) -> moved D s (with_buffer b k s).
Proof. intros D s b k H. split; [reflexivity|]. cbn [with_buffer now]. split; [lia|]. unfold mu. cbn [with_buffer now buffered]. lia. Qed.

Lemma t_peek_ends : forall k D n s, due s = Some D -> D - now s < N.of_nat k -> exists x s', t_peek w k n s = Back x s' /\ moved D s s' /\
  match x with Got _ => n <= nlen (buffered s') | Full => True | Failed _ => True end.
Proof.
  intros k D n s Hd Hk. unfold t_peek. destruct (t_fill_ends k D n s Hd Hk) as (s1 & -> & A & B). cbn [tbind]. unfold buf_size.
  destruct (4096 <? n); [eexists; eexists; split; [reflexivity|]; auto|]. destruct (N.ltb_spec (nlen (buffered s1)) n) as [L|L].
  - destruct (kept s1); (eexists; eexists; split; [reflexivity|]; split; [|exact I]); [|exact A]. eapply moved_trans; [exact A|]. apply with_buffer_moved. lia.
  - eexists; eexists; split; [reflexivity|]. split; [exact A|exact L].
Qed.

Lemma t_read_some_ends : forall D need s, due s = Some D -> 0 < need -> exists x s', t_read_some w need s = Back x s' /\ moved D s s' /\
  match x with inr _ => True | inl c => 0 < nlen c <= need /\ (buffered s' = [] \/ nlen c = need) /\ (buffered s = [] -> now s < now s' < D) end.
Proof.
  intros D need s Hd Hn. unfold t_read_some. destruct (buffered s) as [|b bs] eqn:Eb.
  - destruct (kept s) as [e|].
    { eexists; eexists; split; [reflexivity|]. split; [apply with_buffer_moved; cbn; lia|exact I]. }
    unfold buf_size. destruct (N.leb_spec 4096 need) as [L|L].
    + destruct (net_read_ends D need s Hd Hn) as (x & s1 & -> & A1 & A2 & A3 & A4 & A5). eexists; eexists; split; [reflexivity|]. split.
      { split; [exact A1|]. split; [exact A4|]. apply mu_eq; [lia|exact A2]. }
      destruct x as [c|]; [|exact I]. destruct (A5 c eq_refl). repeat split; try lia. left. congruence.
    + destruct (net_read_ends D 4096 s Hd ltac:(lia)) as (x & s1 & -> & A1 & A2 & A3 & A4 & A5). cbn [tbind]. destruct x as [c|e].
      * destruct (A5 c eq_refl) as [B1 B2]. eexists; eexists; split; [reflexivity|]. split.
        { split; [exact A1|]. split; [exact A4|]. apply mu_read; [exact B1|]. cbn [with_buffer buffered]. unfold skipN, nlen in *. rewrite skipn_length. lia. }
        cbn [with_buffer now buffered]. split; [|split; [|intros _; exact B1]].
        -- unfold firstN, nlen in *. rewrite firstn_length. lia.
        -- unfold firstN, skipN, nlen in *. rewrite firstn_length. destruct (N.le_gt_cases need (N.of_nat (length c))) as [M|M]; [right; lia|left; apply skipn_all2; lia].
      * eexists; eexists; split; [reflexivity|]. split; [|exact I]. split; [exact A1|]. split; [exact A4|]. apply mu_eq; [lia|exact A2].
  - eexists; eexists; split; [reflexivity|]. split.
    { apply with_buffer_moved. rewrite Eb. unfold skipN, nlen. rewrite skipn_length. lia. }
    split; [|split; [|discriminate]].
    + unfold firstN, nlen. rewrite firstn_length. cbn [length]. lia.
    + cbn [with_buffer buffered]. unfold firstN, skipN, nlen. rewrite firstn_length.
      destruct (N.le_gt_cases need (N.of_nat (length (b :: bs)))) as [M|M]; [right; lia|left; apply skipn_all2; lia].
Qed.

Lemma t_read_full_ends : forall k D need b s, due s = Some D -> D - now s + (if nlen (buffered s) =? 0 then 0 else 1) < N.of_nat k -> exists x s', t_read_full w k need b s = Back x s' /\ moved D s s'.
Proof.
  induction k as [|k IH]; intros D need b s Hd Hk; [lia|]. cbn [t_read_full]. destruct (N.eqb_spec need 0) as [Z|Z].
  { eexists; eexists; split; [reflexivity|apply moved_refl]. }
  destruct (t_read_some_ends D need s Hd ltac:(lia)) as (x & s1 & -> & A & B). cbn [tbind]. destruct x as [c|e]; [|eexists; eexists; split; [reflexivity|exact A]].
  destruct B as (B1 & B2 & B3). destruct (N.eq_dec (nlen c) need) as [Q|Q].
  - rewrite Q, N.sub_diag. destruct k; cbn [t_read_full N.eqb]; (eexists; eexists; split; [reflexivity|exact A]).
  - destruct B2 as [B2|B2]; [|lia]. destruct (IH D (need - nlen c) (b ++ c) s1) as (x & s2 & -> & C).
    + destruct A. congruence.
    + rewrite B2. cbn [nlen length N.of_nat N.eqb]. change (nlen [] =? 0) with true. cbn iota. destruct A as (_ & A & _).
      destruct (N.eqb_spec (nlen (buffered s)) 0) as [Z2|Z2]; [|lia]. assert (E : buffered s = []) by (destruct (buffered s); [reflexivity|cbn in Z2; lia]). specialize (B3 E). lia.
    + eexists; eexists; split; [reflexivity|]. eapply moved_trans; eassumption.
Qed.

Lemma t_discard_moved : forall D n s, moved D s (t_discard n s).
Proof. intros. apply with_buffer_moved. unfold skipN, nlen. rewrite skipn_length. lia. Qed.
Lemma mu_discard : forall D n s, n <= nlen (buffered s) -> mu D (t_discard n s) + n <= mu D s.
Proof. intros D n s H. unfold mu, t_discard. cbn [with_buffer now buffered]. unfold skipN, nlen in *. rewrite skipn_length. lia. Qed.

Lemma t_message_ends : forall k D s, due s = Some D -> D - now s + 1 < N.of_nat k -> exists x s', t_message w32 w k s = Back x s' /\ moved D s s' /\
  match x with inl _ => mu D s' + 5 <= mu D s | inr _ => True end.
Proof.
  intros k D s Hd Hk. unfold t_message. destruct (t_peek_ends k D 5 s Hd ltac:(lia)) as (x & s1 & -> & A & B). cbn [tbind].
  destruct x as [b| |e]; [|eexists; eexists; split; [reflexivity|]; auto..].
  pose proof (t_discard_moved D 5 s1) as A2. pose proof (mu_discard D 5 s1 B) as M. assert (A3 : moved D s (t_discard 5 s1)) by (eapply moved_trans; eassumption).
  destruct (_ <? 1)%Z; [eexists; eexists; split; [reflexivity|]; auto|]. destruct (0 <? _).
  2: { eexists; eexists; split; [reflexivity|]. split; [exact A3|]. destruct A as (_ & _ & A). lia. }
  set (n := Z.to_N _). set (s2 := t_discard 5 s1) in *. destruct A3 as (P1 & P2 & P3). destruct (t_peek_ends k D n s2 ltac:(congruence) ltac:(lia)) as (p & s3 & -> & A4 & _). cbn [tbind].
  assert (A5 : moved D s s3) by (eapply moved_trans; [|exact A4]; repeat split; try lia; congruence). destruct A as (_ & _ & A). destruct A4 as (A41 & A42 & A43).
  destruct p as [b2| |e].
  - eexists; eexists; split; [reflexivity|]. split; [exact A5|]. lia.
  - destruct (t_read_full_ends k D n [] s3) as (p & s4 & -> & A6); [congruence|destruct (_ =? 0); lia|]. cbn [tbind].
    assert (A7 : moved D s s4) by (eapply moved_trans; eassumption). destruct A6 as (_ & _ & A6). destruct p; (eexists; eexists; split; [reflexivity|]; split; [exact A7|]); [lia|exact I..].
  - eexists; eexists; split; [reflexivity|]. split; [exact A5|exact I].
Qed.

Lemma t_read_k_ends : forall k inner D ct s, due s = Some D -> mu D s < N.of_nat k -> D - now s + 1 < N.of_nat inner -> exists x s', t_read_k w32 w k inner ct s = Back x s' /\ moved D s s'.
Proof.
  induction k as [|k IH]; intros inner D ct s Hd Hk Hi; [lia|]. cbn [t_read_k]. destruct (t_message_ends inner D s Hd Hi) as (x & s1 & -> & A & B). cbn [tbind].
  destruct x as [[[st b] n]|e]; [|eauto]. assert (A2 : moved D s (t_discard n s1)) by (eapply moved_trans; [exact A|apply t_discard_moved]).
  destruct (dispatch ct st b) as [[resp o]|].
  - destruct o as [o|]; [destruct o|]; eauto.
  - pose proof (t_discard_moved D n s1) as (M1 & M2 & M3). destruct A as (A1 & A3 & A4). destruct (IH inner D ct (t_discard n s1)) as (x & s2 & -> & C).
    + congruence.
    + lia.
    + lia.
    + eexists; eexists; split; [reflexivity|]. eapply moved_trans; eassumption.
Qed.

(* The number of steps that are enough. *)
Definition enough (D : N) (s : tconn) (k : nat) : Prop := mu D s + 2 < N.of_nat k.
Lemma enough_moved : forall D s s' k, moved D s s' -> enough D s k -> enough D s' k.
Proof. intros D s s' k (A & B & C). unfold enough. lia. Qed.
Lemma t_read_ends : forall k D ct s, due s = Some D -> enough D s k -> exists x s', t_read w32 w k ct s = Back x s' /\ moved D s s'.
Proof. intros k D ct s Hd Hk. unfold enough, mu in Hk. apply t_read_k_ends; [exact Hd|unfold mu; lia|nia]. Qed.

(* over, and moved *)
Definition ends_moved {A} (D : N) (s : tconn) (x : outcome A) : Prop :=
  match x with Back _ s' | Panicked s' => moved D s s' | Waits | More => False end.
Lemma ends_trans : forall A D s s1 (x : outcome A), moved D s s1 -> ends_moved D s1 x -> ends_moved D s x.
Proof. intros A D s s1 [a s2|s2| |] H K; cbn in *; try contradiction; eapply moved_trans; eassumption. Qed.
Lemma t_write_ends : forall D b s, due s = Some D -> exists x s', t_write w b s = Back x s' /\ moved D s s' /\ (x = None -> now s < now s' < D).
Proof.
  intros D b s Hd. unfold t_write. destruct (writings w (nwrites s)) as [t x]. rewrite Hd. unfold ends.
  destruct t as [t|]; [destruct (N.ltb_spec (now s + 1 + t) D)|]; (eexists; eexists; split; [reflexivity|]);
    (split; [split; [cbn [due]; congruence|]; cbn [now]; split; [lia|]; apply mu_eq; cbn [now buffered]; [lia|reflexivity]|]); cbn [now]; intros; try discriminate; lia.
Qed.

Lemma t_read_responses_ends : forall l k D rest rs s, due s = Some D -> enough D s k -> ends_moved D s (t_read_responses w32 w l k rest rs s).
Proof.
  induction l as [|l IH]; intros k D rest rs s Hd Hk; destruct rest as [|b rest]; cbn [t_read_responses]; try apply moved_refl.
  destruct (nth_error _ 4) as [ct|]; [|apply moved_refl]. destruct (t_read_ends k D ct s Hd Hk) as (x & s1 & -> & A). cbn [tbind].
  destruct (snd x); [exact A|]. eapply ends_trans; [exact A|]. apply IH; [destruct A; congruence|exact (enough_moved _ _ _ _ A Hk)].
Qed.

(* Setting the deadline: if it worked it is that of the context. *)
Definition set_to (D : N) (s : tconn) : tconn := mkt (tkind s) (now s) (Some D) (buffered s) (kept s) (nreads s) (nwrites s) (nsets s) (got_so_far s) (broke s) (tlog s).
Lemma set_deadline_ends : forall D s, exists x s1, t_set_deadline w (Some D) s = (x, s1) /\ now s1 = now s /\ buffered s1 = buffered s /\ (x = None -> due s1 = Some D).
Proof. intros D s. unfold t_set_deadline. eexists; eexists; split; [reflexivity|]. cbn [now buffered due]. repeat split. intros ->. reflexivity. Qed.

(* over by then; if the connection can go on its deadline is set or was not touched *)
Definition ends_in {A} (D : N) (s : tconn) (x : outcome A) : Prop :=
  match x with Back _ s' | Panicked s' => now s <= now s' <= N.max (now s) D /\ mu D s' <= mu D s | Waits | More => False end.
Lemma ends_in_trans : forall A D s s1 (x : outcome A), now s <= now s1 <= N.max (now s) D -> mu D s1 <= mu D s -> ends_in D s1 x -> ends_in D s x.
Proof. intros A D s s1 [a s2|s2| |] H1 H2 K; cbn in *; try contradiction; lia. Qed.
Lemma moved_in : forall A D s (x : outcome A), ends_moved D s x -> ends_in D s x.
Proof. intros A D s [a s2|s2| |]; cbn; try contradiction; unfold moved; tauto. Qed.
Lemma mu_same : forall D s s', now s' = now s -> buffered s' = buffered s -> mu D s' = mu D s.
Proof. intros D s s' A B. unfold mu. congruence. Qed.

Lemma t_send_ends : forall k D c b s, enough D s k -> ends_in D s (t_send w32 w k (mkctx (Some D) c) b s).
Proof.
  intros k D c b s Hk. unfold t_send. cbn [ctx_deadline]. destruct (set_deadline_ends D s) as (x & s1 & -> & N1 & B1 & D1). pose proof (mu_same D s s1 N1 B1) as M1.
  destruct x as [e|]; [cbn [ends_in]; lia|]. specialize (D1 eq_refl). apply (ends_in_trans _ _ _ s1); [lia|lia|]. apply moved_in.
  destruct (t_write_ends D b s1 D1) as (x & s2 & -> & A & _). cbn [tbind]. destruct x as [e|]; [exact A|]. eapply ends_trans; [exact A|].
  apply t_read_responses_ends; [destruct A; congruence|]. apply (enough_moved _ _ _ _ A). unfold enough in *. lia.
Qed.
Lemma t_write_one_ends : forall k D c b s, enough D s k -> ends_in D s (t_write_one w32 w k (mkctx (Some D) c) b s).
Proof.
  intros k D c b s Hk. unfold t_write_one. cbn [ctx_deadline]. destruct (set_deadline_ends D s) as (x & s1 & -> & N1 & B1 & D1). pose proof (mu_same D s s1 N1 B1) as M1.
  destruct x as [e|]; [cbn [ends_in]; lia|]. specialize (D1 eq_refl). apply (ends_in_trans _ _ _ s1); [lia|lia|]. apply moved_in.
  destruct (t_write_ends D b s1 D1) as (x & s2 & -> & A & _). cbn [tbind]. destruct x as [e|]; [exact A|]. eapply ends_trans; [exact A|].
  destruct (nth_error b 4) as [ct|]; [|apply moved_refl]. destruct (t_read_ends k D ct s2) as (y & s3 & -> & A2); [destruct A; congruence| |exact A2].
  apply (enough_moved _ _ _ _ A). unfold enough in *. lia.
Qed.
Lemma t_authenticate_ends : forall k D c creds m s, enough D s k -> ends_in D s (t_authenticate w32 w k (mkctx (Some D) c) creds m s).
Proof.
  intros k D c creds m s Hk. unfold t_authenticate. assert (R : now s <= now s <= N.max (now s) D /\ mu D s <= mu D s) by lia.
  destruct (start m creds) as [b|]; [|exact R]. pose proof (t_write_one_ends k D c b s Hk) as A. destruct (t_write_one _ _ _ _ _ _) as [a s1|s1| |]; cbn [tbind]; try exact A.
  cbn [ends_in] in A. destruct (snd a) as [e|]; [|exact A]. destruct e; try exact A. destruct (continue m) as [f|]; [|exact A]. destruct (f creds data) as [b2|]; [|exact A].
  assert (Hk2 : enough D s1 k) by (unfold enough in *; lia). pose proof (t_write_one_ends k D c b2 s1 Hk2) as A2. apply (ends_in_trans _ _ _ s1); [lia|lia|].
  destruct (t_write_one _ _ _ _ _ _) as [a2 s2|s2| |]; exact A2.
Qed.

Lemma t_send_due : forall k D c b s r s', enough D s k -> t_send w32 w k (mkctx (Some D) c) b s = Back r s' -> snd r = None -> due s' = Some D.
Proof.
  intros k D c b s r s' Hk H Hr. unfold t_send in H. cbn [ctx_deadline] in H. destruct (set_deadline_ends D s) as (x & s1 & E1 & N1 & B1 & D1). rewrite E1 in H. pose proof (mu_same D s s1 N1 B1) as M1.
  destruct x as [e|]; [injection H as <- <-; discriminate|]. specialize (D1 eq_refl). destruct (t_write_ends D b s1 D1) as (x & s2 & E2 & A & _). rewrite E2 in H. cbn [tbind] in H.
  destruct x as [e|]; [injection H as <- <-; discriminate|]. assert (D2 : due s2 = Some D) by (destruct A; congruence). assert (Hk1 : enough D s1 k) by (unfold enough in *; lia).
  pose proof (t_read_responses_ends (length b) k D b [] s2 D2 (enough_moved _ _ _ _ A Hk1)) as R. rewrite H in R. destruct R as (R & _). congruence.
Qed.

(* ---- what is returned does not depend on how many steps were looked at ---- *)

Definition stable {A} (f : nat -> outcome A) : Prop := forall k k', (k <= k')%nat -> f k <> More -> f k' = f k.
Lemma more_bind : forall A B (x : outcome A) (f g : A -> tconn -> outcome B), tbind x f <> More -> (forall a s, x = Back a s -> f a s <> More -> g a s = f a s) -> tbind x g = tbind x f.
Proof. intros A B [a s|s| |] f g H K; cbn [tbind] in *; auto. Qed.
Lemma bind_not_more : forall A B (x : outcome A) (f : A -> tconn -> outcome B), tbind x f <> More -> x <> More.
Proof. intros A B x f H ->. apply H. reflexivity. Qed.

Lemma t_fill_stable : forall n s, stable (fun k => t_fill w k n s).
Proof.
  intros n s k. revert n s. induction k as [|k IH]; intros n s k' Hk H; destruct k' as [|k']; try lia; cbn [t_fill] in H |- *; try reflexivity.
  - destruct (kept s); [reflexivity|]. destruct (_ || _)%bool; [reflexivity|congruence].
  - destruct (kept s); [reflexivity|]. destruct (_ || _)%bool; [reflexivity|]. apply more_bind; [exact H|]. intros x s1 _ H1. destruct x; apply IH; (lia || exact H1).
Qed.
Lemma t_peek_stable : forall n s, stable (fun k => t_peek w k n s).
Proof. intros n s k k' Hk H. unfold t_peek in *. rewrite (t_fill_stable n s k k' Hk); [reflexivity|]. exact (bind_not_more _ _ _ _ H). Qed.
Lemma t_read_full_stable : forall need b s, stable (fun k => t_read_full w k need b s).
Proof.
  intros need b s k. revert need b s. induction k as [|k IH]; intros need b s k' Hk H; destruct k' as [|k']; try lia; cbn [t_read_full] in H |- *; try reflexivity.
  - destruct (need =? 0); [reflexivity|congruence].
  - destruct (need =? 0); [reflexivity|]. apply more_bind; [exact H|]. intros x s1 _ H1. destruct x; [|reflexivity]. apply IH; (lia || exact H1).
Qed.
Lemma t_message_stable : forall s, stable (fun k => t_message w32 w k s).
Proof.
  intros s k k' Hk H. unfold t_message in *. rewrite (t_peek_stable 5 s k k' Hk) by exact (bind_not_more _ _ _ _ H). apply more_bind; [exact H|]. intros x s1 _ H1.
  destruct x as [b| |e]; try reflexivity. destruct (_ <? 1)%Z; [reflexivity|]. destruct (0 <? _); [|reflexivity].
  rewrite (t_peek_stable _ _ k k' Hk) by exact (bind_not_more _ _ _ _ H1). apply more_bind; [exact H1|]. intros p s2 _ H2. destruct p; try reflexivity.
  rewrite (t_read_full_stable _ _ _ k k' Hk) by exact (bind_not_more _ _ _ _ H2). reflexivity.
Qed.
Lemma t_read_k_stable : forall k k' i i' ct s, (k <= k')%nat -> (i <= i')%nat -> t_read_k w32 w k i ct s <> More -> t_read_k w32 w k' i' ct s = t_read_k w32 w k i ct s.
Proof.
  induction k as [|k IH]; intros k' i i' ct s Hk Hi H; [cbn in H; congruence|]. destruct k' as [|k']; [lia|]. cbn [t_read_k] in *.
  rewrite (t_message_stable s i i' Hi) by exact (bind_not_more _ _ _ _ H). apply more_bind; [exact H|]. intros x s1 _ H1. destruct x as [[[st b] n]|e]; [|reflexivity].
  destruct (dispatch ct st b) as [[resp o]|]; [reflexivity|]. apply IH; (lia || exact H1).
Qed.
Lemma t_read_stable : forall ct s, stable (fun k => t_read w32 w k ct s).
Proof. intros ct s k k' Hk H. apply t_read_k_stable; auto. Qed.
Lemma t_read_responses_stable : forall l rest rs s, stable (fun k => t_read_responses w32 w l k rest rs s).
Proof.
  induction l as [|l IH]; intros rest rs s k k' Hk H; destruct rest as [|b rest]; cbn [t_read_responses] in *; try reflexivity.
  destruct (nth_error _ 4) as [ct|]; [|reflexivity]. rewrite (t_read_stable ct s k k' Hk) by exact (bind_not_more _ _ _ _ H). apply more_bind; [exact H|]. intros a s1 _ H1.
  destruct (snd a); [reflexivity|]. apply (IH _ _ _ k k'); auto.
Qed.
Lemma t_send_stable : forall ctx b s, stable (fun k => t_send w32 w k ctx b s).
Proof.
  intros ctx b s k k' Hk H. unfold t_send in *. destruct (t_set_deadline _ _ _) as [[e|] s1]; [reflexivity|]. apply more_bind; [exact H|]. intros x s2 _ H1.
  destruct x; [reflexivity|]. apply (t_read_responses_stable _ _ _ _ k k'); auto.
Qed.
Lemma t_write_one_stable : forall ctx b s, stable (fun k => t_write_one w32 w k ctx b s).
Proof.
  intros ctx b s k k' Hk H. unfold t_write_one in *. destruct (t_set_deadline _ _ _) as [[e|] s1]; [reflexivity|]. apply more_bind; [exact H|]. intros x s2 _ H1.
  destruct x; [reflexivity|]. destruct (nth_error b 4); [|reflexivity]. apply (t_read_stable _ _ k k'); auto.
Qed.
Lemma t_authenticate_stable : forall ctx creds m s, stable (fun k => t_authenticate w32 w k ctx creds m s).
Proof.
  intros ctx creds m s k k' Hk H. unfold t_authenticate in *. destruct (start m creds) as [b|]; [|reflexivity].
  rewrite (t_write_one_stable ctx b s k k' Hk) by exact (bind_not_more _ _ _ _ H). apply more_bind; [exact H|]. intros a s1 _ H1.
  destruct (snd a) as [e|]; [|reflexivity]. destruct e; try reflexivity. destruct (continue m) as [f|]; [|reflexivity]. destruct (f creds data) as [b2|]; [|reflexivity].
  rewrite (t_write_one_stable ctx b2 s1 k k' Hk) by exact (bind_not_more _ _ _ _ H1). reflexivity.
Qed.
End Connection.

Lemma stable_becomes : forall A (f : nat -> outcome A) k, stable f -> f k <> More -> becomes f (f k).
Proof. intros A f k S H. split; [exact H|]. exists k. intros k' Hk. apply S; auto. Qed.

Section Model.
Context `{E : Env}.
Variable w : world.

Lemma t_authenticate_or_close_stable : forall ctx cfg s, stable (fun k => t_authenticate_or_close w k ctx cfg s).
Proof.
  intros ctx cfg s k k' Hk H. unfold t_authenticate_or_close in *. rewrite (t_authenticate_stable word32 w ctx _ _ s k k' Hk) by exact (bind_not_more _ _ _ _ H). apply more_bind; [exact H|].
  intros r s1 _ H1. destruct r as [e|]; [|reflexivity]. cbn zeta in *. destruct (_ && _)%bool; [|reflexivity].
  rewrite (t_authenticate_stable word32 w ctx _ _ s1 k k' Hk) by exact (bind_not_more _ _ _ _ H1). reflexivity.
Qed.
Lemma t_new_stable : forall ctx cfg t, stable (fun k => t_new w k ctx cfg t).
Proof.
  intros ctx cfg t k k' Hk H. unfold t_new in *. destruct (ends (fst (dialling w)) _ t) as [[it t1]|]; [|reflexivity]. destruct (snd (dialling w)) as [kd|]; [|reflexivity]. destruct it; [|reflexivity].
  cbn zeta in *. destruct (_ && _)%bool.
  - rewrite (t_send_stable word32 w ctx _ _ k k' Hk) by exact (bind_not_more _ _ _ _ H). apply more_bind; [exact H|]. intros r s1 _ H1.
    destruct (snd r); [reflexivity|]. destruct (ends (fst (shaking w)) _ _) as [[it t2]|]; [|reflexivity]. destruct (_ && _)%bool; [|reflexivity]. apply (t_authenticate_or_close_stable _ _ _ k k'); auto.
  - apply (t_authenticate_or_close_stable _ _ _ k k'); auto.
Qed.
Lemma t_use_stable : forall ctx room b s, stable (fun k => t_use w k ctx room b s).
Proof. intros ctx room b s k k' Hk H. unfold t_use in *. rewrite (t_send_stable word32 w ctx b s k k' Hk) by exact (bind_not_more _ _ _ _ H). reflexivity. Qed.
Lemma t_pool_send_stable : forall ctx cfg f room b t, stable (fun k => t_pool_send w k ctx cfg f room b t).
Proof.
  intros ctx cfg f room b t k k' Hk H. unfold t_pool_send in *. destruct f as [s| | |]; try reflexivity; [apply (t_use_stable _ _ _ _ k k'); auto|].
  rewrite (t_new_stable ctx cfg t k k' Hk) by exact (bind_not_more _ _ _ _ H). apply more_bind; [exact H|]. intros r s _ H1. destruct r; [reflexivity|]. apply (t_use_stable _ _ _ _ k k'); auto.
Qed.

(* ---- New and Send of the pool end by the deadline, too ---- *)

Lemma ends_by : forall t D c now, exists b t', ends t (earlier (Some D) c) now = Some (b, t') /\ now <= t' <= N.max now D.
Proof.
  intros t D c now. unfold earlier, ends. destruct c as [c|], t as [t|]; try (destruct (N.ltb_spec (now + 1 + t) (N.min D c))); try (destruct (N.ltb_spec (now + 1 + t) D));
    (eexists; eexists; split; [reflexivity|]; lia).
Qed.

(* the same with the time Close takes *)
Definition ends_closed {A} (D : N) (s : tconn) (x : outcome A) : Prop :=
  match x with Back _ s' | Panicked s' => now s' <= N.max (now s) D + closings w | Waits | More => False end.

Lemma t_authenticate_or_close_ends : forall k D c cfg s, enough D s k -> ends_closed D s (t_authenticate_or_close w k (mkctx (Some D) c) cfg s) /\
  (forall s', t_authenticate_or_close w k (mkctx (Some D) c) cfg s = Back None s' -> now s' <= N.max (now s) D /\ mu D s' <= mu D s).
Proof.
  intros k D c cfg s Hk. unfold t_authenticate_or_close. pose proof (t_authenticate_ends word32 w k D c (credentials_of cfg) (authentication cfg) s Hk) as A.
  destruct (t_authenticate _ _ _ _ _ _ _) as [r s1|s1| |]; cbn [tbind ends_in ends_closed] in *; try contradiction; [|split; [lia|discriminate]].
  destruct r as [e|]; [|cbn [ends_closed]; split; [lia|intros s' Hs; injection Hs as <-; lia]]. cbn zeta. destruct (_ && _)%bool.
  - assert (Hk1 : enough D s1 k) by (unfold enough in *; lia). pose proof (t_authenticate_ends word32 w k D c (credentials_of cfg) plain s1 Hk1) as B.
    destruct (t_authenticate _ _ _ _ _ _ _) as [r s2|s2| |]; cbn [tbind ends_in ends_closed] in *; try contradiction; [|split; [lia|discriminate]].
    destruct r as [e2|]; cbn [ends_closed t_close now]; (split; [lia|]); [discriminate|]. intros s' Hs. injection Hs as <-. lia.
  - cbn [ends_closed t_close now]. split; [lia|discriminate].
Qed.

Lemma t_new_ends : forall D c cfg t, exists k0, forall k, (k0 <= k)%nat ->
  (match t_new w k (mkctx (Some D) c) cfg t with Back _ s' | Panicked s' => now s' <= N.max t D + closings w | Waits | More => False end) /\
  (forall s', t_new w k (mkctx (Some D) c) cfg t = Back None s' -> now s' <= N.max t D /\ mu D s' <= (D - t) * 4097).
Proof.
  intros D c cfg t. exists (N.to_nat ((D - t) * 4097 + 3)). intros k Hk. unfold t_new. cbn [ctx_deadline ctx_cancelled].
  destruct (ends_by (fst (dialling w)) D c t) as (it & t1 & -> & T1). assert (T0 : t1 <= N.max t D + closings w) by lia.
  destruct (snd (dialling w)) as [kd|]; [|cbn; split; [exact T0|discriminate]]. destruct it; [|cbn; split; [exact T0|discriminate]]. cbn zeta.
  set (s0 := new_tconn kd t1). assert (M0 : mu D s0 = (D - t1) * 4097) by (unfold mu, s0; cbn [new_tconn now buffered nlen length]; change (nlen []) with 0; lia).
  assert (K0 : enough D s0 k) by (unfold enough; rewrite M0; nia). assert (N0 : now s0 = t1) by reflexivity. assert (M1 : mu D s0 <= (D - t) * 4097) by (rewrite M0; nia).
  assert (J : forall s, now s <= N.max t D -> mu D s <= mu D s0 -> enough D s k ->
    (match t_authenticate_or_close w k (mkctx (Some D) c) cfg s with Back _ s' | Panicked s' => now s' <= N.max t D + closings w | Waits | More => False end) /\
    (forall s', t_authenticate_or_close w k (mkctx (Some D) c) cfg s = Back None s' -> now s' <= N.max t D /\ mu D s' <= (D - t) * 4097)).
  { intros s Hn Hm He. destruct (t_authenticate_or_close_ends k D c cfg s He) as [P Q]. split.
    - destruct (t_authenticate_or_close _ _ _ _ _); cbn [ends_closed] in P; try contradiction; lia.
    - intros s' Hs. specialize (Q s' Hs). lia. }
  destruct (_ && _)%bool; [|apply J; [lia|lia|exact K0]].
  pose proof (t_send_ends word32 w k D c (capability_set (s2b "tls") true) s0 K0) as A. pose proof (t_send_due word32 w k D c (capability_set (s2b "tls") true) s0) as AD.
  destruct (t_send _ _ _ _ _ _) as [r s1|s1| |]; cbn [tbind ends_in] in *; try contradiction; [|split; [lia|discriminate]].
  destruct (snd r) as [e|] eqn:Er; [split; [lia|discriminate]|]. specialize (AD r s1 K0 eq_refl Er). rewrite AD.
  destruct (ends_by (fst (shaking w)) D None (now s1)) as (it & t2 & Es & T2). cbn [earlier] in Es. rewrite Es. destruct (_ && _)%bool.
  - assert (Mr : mu D (t_reset (mkt (tkind s1) t2 (Some D) (buffered s1) (kept s1) (nreads s1) (nwrites s1) (nsets s1) (got_so_far s1) (broke s1) (tlog s1))) <= mu D s0).
    { etransitivity; [|exact (proj2 A)]. unfold mu. cbn [t_reset now buffered]. change (nlen []) with 0. nia. }
    apply J; [cbn [t_reset now]; lia|exact Mr|]. unfold enough in *. lia.
  - split; [cbn [t_close now]; lia|discriminate].
Qed.
End Model.
