(* Proofs: the lexer of proto.Unmarshal reads the grammar of SpecGroups, all of it and nothing else. *)
From Coq Require Import List NArith ZArith Arith Bool Lia ZifyN ZifyNat ZifyBool.
From Verif Require Import Base SpecWire SpecGroups Unmarshal WireProofs.
Import ListNotations.
Open Scope N_scope.

Lemma dvarint_k_split : forall k bs x r, dvarint_k k bs = Some (x, r) -> exists l, bs = l ++ r /\ dvarint_k k l = Some (x, []).
Proof.
  induction k as [|k IH]; intros bs x r H; [discriminate|]. destruct bs as [|b bs]; [discriminate|]. cbn [dvarint_k] in H.
  destruct (b <? 128) eqn:B; [injection H as <- <-; exists [b]; cbn [dvarint_k app]; rewrite B; auto|].
  destruct (b <? 256) eqn:C; [|discriminate]. destruct (dvarint_k k bs) as [[y s]|] eqn:D; [|discriminate]. injection H as <- <-.
  destruct (IH _ _ _ D) as (l & -> & E). exists (b :: l). cbn [dvarint_k app]. rewrite B, C, E. auto.
Qed.
Lemma dvarint_split : forall bs x r, dvarint bs = Some (x, r) -> exists l, bs = l ++ r /\ varint_of l x.
Proof.
  intros bs x r H. unfold varint_of, dvarint in *. destruct (dvarint_k 10 bs) as [[y s]|] eqn:D; [|discriminate]. destruct (y <? 2 ^ 64) eqn:L; [|discriminate].
  injection H as <- <-. destruct (dvarint_k_split _ _ _ _ D) as (l & -> & E). exists l. rewrite E, L. auto.
Qed.
Lemma varint_of_app : forall l x r, varint_of l x -> dvarint (l ++ r) = Some (x, r).
Proof. intros l x r H. apply (dvarint_app _ _ _ r) in H. exact H. Qed.
Lemma varint_of_nonempty : forall l x, varint_of l x -> (1 <= length l)%nat.
Proof. intros l x H. apply dvarint_shorter in H. cbn in H. lia. Qed.

Lemma tag_split : forall bs n typ r, consume_tag bs = Some (n, typ, r) ->
  exists key, bs = key ++ r /\ field_number n /\ varint_of key (8 * n + typ) /\ typ < 8.
Proof.
  intros bs n typ r H. unfold consume_tag in H. destruct (dvarint bs) as [[key s]|] eqn:D; [|discriminate]. destruct ((_ =? 0) || _) eqn:F; [discriminate|]. injection H as <- <- <-.
  destruct (dvarint_split _ _ _ D) as (l & -> & V). exists l. split; [reflexivity|]. unfold field_number. pose proof (N.div_mod key 8 ltac:(lia)) as E. pose proof (N.mod_lt key 8 ltac:(lia)).
  split; [change (2 ^ 31) with 2147483648; lia|]. rewrite <- E. split; [exact V|lia].
Qed.
Lemma tag_app : forall n typ key r, field_number n -> varint_of key (8 * n + typ) -> typ < 8 -> consume_tag (key ++ r) = Some (n, typ, r).
Proof.
  intros n typ key r F V T. unfold consume_tag. rewrite (varint_of_app _ _ r V). unfold field_number in F. change (2 ^ 31) with 2147483648 in F.
  assert (D : (8 * n + typ) / 8 = n) by (rewrite N.add_comm, N.mul_comm, N.div_add by lia; rewrite (N.div_small typ 8) by exact T; lia).
  assert (M : (8 * n + typ) mod 8 = typ) by (rewrite N.add_comm, N.mul_comm, N.mod_add by lia; apply N.mod_small; exact T).
  rewrite D, M. destruct (N.eqb_spec n 0); [lia|]. destruct (N.ltb_spec 2147483647 n); [lia|]. reflexivity.
Qed.

Lemma plain_split : forall typ bs w r, consume_plain typ bs = Some (w, r) -> exists a, bs = a ++ r /\ plain_value typ a w.
Proof.
  intros typ bs w r H. unfold consume_plain in H. destruct typ as [|[[|[|p|]|]|[p|[p|p|]|]|]]; try discriminate H.
  - destruct (dvarint bs) as [[x s]|] eqn:D; [|discriminate]. injection H as <- <-. destruct (dvarint_split _ _ _ D) as (l & -> & V). exists l. split; [reflexivity|constructor; exact V].
  - destruct (take 4 bs) as [[x s]|] eqn:D; [|discriminate]. injection H as <- <-. apply take_split in D. destruct D as [-> D]. exists x. split; [reflexivity|constructor; exact D].
  - destruct (dvarint bs) as [[x s]|] eqn:D; [|discriminate]. destruct (take x s) as [[y t]|] eqn:T; [|discriminate]. injection H as <- <-.
    destruct (dvarint_split _ _ _ D) as (l & -> & V). apply take_split in T. destruct T as [-> T]. exists (l ++ y). rewrite <- app_assoc. split; [reflexivity|]. constructor. rewrite T. exact V.
  - destruct (take 8 bs) as [[x s]|] eqn:D; [|discriminate]. injection H as <- <-. apply take_split in D. destruct D as [-> D]. exists x. split; [reflexivity|constructor; exact D].
Qed.
Lemma plain_app : forall typ a w r, plain_value typ a w -> consume_plain typ (a ++ r) = Some (w, r) /\ typ < 8 /\ typ <> 3 /\ typ <> 4.
Proof.
  intros typ a w r H. destruct H as [bs x V|bs L|l bs V|bs L]; cbn [consume_plain].
  - rewrite (varint_of_app _ _ r V). split; [reflexivity|lia].
  - rewrite take_exact by (symmetry; exact L). split; [reflexivity|lia].
  - rewrite <- app_assoc, (varint_of_app _ _ (bs ++ r) V). rewrite take_exact by reflexivity. split; [reflexivity|lia].
  - rewrite take_exact by (symmetry; exact L). split; [reflexivity|lia].
Qed.

(* What was consumed is of the grammar. *)
Lemma consumed : forall k,
  (forall n typ bs v r, consume_value k n typ bs = Some (v, r) -> exists a, bs = a ++ r /\
     match v with
     | Some w => plain_value typ a w
     | None => typ = 3 /\ exists body inside close, a = body ++ close /\ wire body inside /\ varint_of close (8 * n + 4)
     end) /\
  (forall n bs r, consume_group k n bs = Some r -> exists body inside close, bs = body ++ close ++ r /\ wire body inside /\ varint_of close (8 * n + 4)).
Proof.
  induction k as [|k [IHv IHg]]; (split; [intros n typ bs v r H|intros n bs r H]); try discriminate H.
  - cbn [consume_value] in H. destruct (N.eqb_spec typ 3) as [->|T].
    + destruct (consume_group k n bs) as [s|] eqn:G; [|discriminate]. injection H as <- <-. destruct (IHg _ _ _ G) as (body & inside & close & -> & W & V).
      exists (body ++ close). rewrite <- app_assoc. split; [reflexivity|]. split; [reflexivity|]. exists body, inside, close. auto.
    + destruct (consume_plain typ bs) as [[w s]|] eqn:P; [|discriminate]. injection H as <- <-. apply plain_split. exact P.
  - cbn [consume_group] in H. destruct (consume_tag bs) as [[[n2 typ2] s]|] eqn:T; [|discriminate]. destruct (tag_split _ _ _ _ T) as (key & -> & F & V & L).
    destruct (N.eqb_spec typ2 4) as [->|T4].
    + destruct (N.eqb_spec n2 n) as [->|]; [|discriminate]. injection H as <-. exists [], [], key. split; [reflexivity|]. split; [constructor|exact V].
    + destruct (consume_value k n2 typ2 s) as [[v t]|] eqn:C; [|discriminate]. destruct (IHv _ _ _ _ _ C) as (a & -> & A). destruct (IHg _ _ _ H) as (body & inside & close & -> & W & V2).
      destruct v as [w|].
      * exists (key ++ a ++ body), ((n2, w) :: inside), close. rewrite <- !app_assoc. split; [reflexivity|]. split; [eapply wire_field; eauto|exact V2].
      * destruct A as (-> & b2 & i2 & c2 & -> & W2 & V3). exists (key ++ b2 ++ c2 ++ body), inside, close. rewrite <- !app_assoc. split; [reflexivity|]. split; [eapply wire_group; eauto|exact V2].
Qed.

Lemma consumed_shorter : forall k n typ bs v r, consume_value k n typ bs = Some (v, r) -> (length r <= length bs)%nat.
Proof. intros k n typ bs v r H. destruct (proj1 (consumed k) _ _ _ _ _ H) as (a & -> & _). rewrite app_length. lia. Qed.

(* Enough fuel is enough. *)
Lemma fuel : forall k,
  (forall n typ bs x k', consume_value k n typ bs = Some x -> (2 * length bs < k')%nat -> consume_value k' n typ bs = Some x) /\
  (forall n bs r k', consume_group k n bs = Some r -> (2 * length bs <= k')%nat -> consume_group k' n bs = Some r).
Proof.
  induction k as [|k [IHv IHg]]; (split; [intros n typ bs v k' H L|intros n bs r k' H L]); try discriminate H.
  - cbn [consume_value] in H. destruct k' as [|k']; [lia|]. cbn [consume_value]. destruct (typ =? 3); [|exact H].
    destruct (consume_group k n bs) as [s|] eqn:G; [|discriminate]. rewrite (IHg _ _ _ k' G) by lia. exact H.
  - cbn [consume_group] in H. destruct (consume_tag bs) as [[[n2 typ2] s]|] eqn:T; [|discriminate]. destruct (tag_split _ _ _ _ T) as (key & E & _ & V & _).
    apply varint_of_nonempty in V. assert (S : (length bs = length key + length s)%nat) by (rewrite E, app_length; reflexivity).
    destruct k' as [|k']; [lia|]. cbn [consume_group]. rewrite T. destruct (typ2 =? 4); [exact H|].
    destruct (consume_value k n2 typ2 s) as [[v t]|] eqn:C; [|discriminate]. pose proof (consumed_shorter _ _ _ _ _ _ C). rewrite (IHv _ _ _ _ k' C) by lia. apply IHg; [exact H|lia].
Qed.
Lemma group_enough : forall k n bs r, consume_group k n bs = Some r -> consume_group (2 * length bs) n bs = Some r.
Proof. intros. apply (proj2 (fuel k)); [assumption|lia]. Qed.

Lemma group_S : forall k num bs, consume_group (S k) num bs =
  match consume_tag bs with
  | None => None
  | Some (num2, typ2, r) =>
      if typ2 =? 4 then (if num2 =? num then Some r else None)
      else match consume_value k num2 typ2 r with Some (_, r) => consume_group k num r | None => None end
  end.
Proof. reflexivity. Qed.
Lemma value_S : forall k num typ bs, consume_value (S k) num typ bs =
  if typ =? 3 then match consume_group k num bs with Some r => Some (None, r) | None => None end
  else match consume_plain typ bs with Some (w, r) => Some (Some w, r) | None => None end.
Proof. reflexivity. Qed.

(* All of the grammar is consumed. *)
Lemma group_over : forall body inside, wire body inside -> forall n tail r k, consume_group k n tail = Some r -> exists k', consume_group k' n (body ++ tail) = Some r.
Proof.
  induction 1 as [|m typ key a w rest fs F V P W IH|m key body inside close rest fs F V W1 IH1 C W2 IH2]; intros n tail r k H.
  - exists k. exact H.
  - destruct (IH _ _ _ _ H) as (k1 & E). rewrite <- !app_assoc. destruct (plain_app _ _ _ (rest ++ tail) P) as (P1 & P2 & P3 & P4).
    exists (S (S (2 * length (rest ++ tail)))). rewrite group_S. rewrite (tag_app m typ key _ F V P2). destruct (N.eqb_spec typ 4); [lia|].
    rewrite value_S. destruct (N.eqb_spec typ 3); [lia|]. rewrite P1. apply (proj2 (fuel k1)); [exact E|lia].
  - destruct (IH2 _ _ _ _ H) as (k2 & E2). rewrite <- !app_assoc.
    assert (G0 : consume_group 1 m (close ++ rest ++ tail) = Some (rest ++ tail)). { cbn [consume_group]. rewrite (tag_app m 4 close _ F C ltac:(lia)). rewrite !N.eqb_refl. reflexivity. }
    destruct (IH1 _ _ _ _ G0) as (k1 & E1). set (big := (2 * length (key ++ body ++ close ++ rest ++ tail))%nat).
    exists (S (S big)). rewrite group_S. rewrite (tag_app m 3 key _ F V ltac:(lia)). change (3 =? 4) with false. cbv iota.
    rewrite value_S. change (3 =? 3) with true. cbv iota. rewrite (proj2 (fuel k1) _ _ _ big E1) by (unfold big; rewrite !app_length; lia).
    apply (proj2 (fuel k2)); [exact E2|]. unfold big. rewrite !app_length. lia.
Qed.

Lemma ufields_k_fuel : forall k bs k', (length bs <= k)%nat -> (length bs <= k')%nat -> ufields_k k bs = ufields_k k' bs.
Proof.
  induction k as [|k IH]; intros bs k' L L'; destruct bs as [|b bs]; cbn [length] in *; try lia; [destruct k'; reflexivity|destruct k'; reflexivity|].
  destruct k' as [|k']; [lia|]. cbn [ufields_k]. destruct (consume_tag (b :: bs)) as [[[n typ] r]|] eqn:T; [|reflexivity].
  destruct (tag_split _ _ _ _ T) as (key & E & _ & V & _). apply varint_of_nonempty in V. apply (f_equal (@length N)) in E. rewrite app_length in E. cbn [length] in E.
  destruct (consume_value (S (2 * length r)) n typ r) as [[v s]|] eqn:C; [|reflexivity]. pose proof (consumed_shorter _ _ _ _ _ _ C). rewrite (IH s k') by lia. reflexivity.
Qed.

Lemma ufields_step : forall b bs, ufields (b :: bs) =
  match consume_tag (b :: bs) with
  | None => None
  | Some (num, typ, r) =>
      match consume_value (S (2 * length r)) num typ r with
      | None => None
      | Some (v, r) =>
          match ufields_k (length bs) r with
          | Some fs => Some (match v with Some w => (num, w) :: fs | None => fs end)
          | None => None
          end
      end
  end.
Proof. reflexivity. Qed.

Theorem ufields_wire : forall bs fs, ufields bs = Some fs <-> wire bs fs.
Proof.
  intros bs fs. split.
  - unfold ufields. generalize (length bs) as k. intros k. revert bs fs. induction k as [|k IH]; intros bs fs H; destruct bs as [|b bs]; cbn [ufields_k] in H; try discriminate H; try (injection H as <-; constructor).
    destruct (consume_tag (b :: bs)) as [[[n typ] r]|] eqn:T; [|discriminate]. destruct (tag_split _ _ _ _ T) as (key & -> & F & V & L).
    destruct (consume_value (S (2 * length r)) n typ r) as [[v s]|] eqn:C; [|discriminate]. destruct (ufields_k k s) as [gs|] eqn:U; [|discriminate]. apply IH in U.
    destruct (proj1 (consumed _) _ _ _ _ _ C) as (a & -> & A). destruct v as [w|]; injection H as <-.
    + eapply wire_field; eauto.
    + destruct A as (-> & body & inside & close & -> & W & V2). rewrite <- !app_assoc. eapply wire_group; eauto.
  - induction 1 as [|n typ key a w rest fs F V P W IH|n key body inside close rest fs F V W1 IH1 C W2 IH2]; [reflexivity| |].
    + destruct (plain_app _ _ _ rest P) as (P1 & P2 & P3 & P4). pose proof (varint_of_nonempty _ _ V) as K.
      destruct (key ++ a ++ rest) as [|b bs] eqn:E; [destruct key; [cbn in K; lia|discriminate E]|]. rewrite ufields_step.
      assert (L : (length rest <= length bs)%nat). { apply (f_equal (@length N)) in E. rewrite !app_length in E. cbn [length] in E. lia. }
      rewrite <- E. rewrite (tag_app n typ key _ F V P2). rewrite value_S. destruct (N.eqb_spec typ 3); [lia|]. rewrite P1.
      rewrite (ufields_k_fuel _ _ (length rest)) by lia. fold (ufields rest). rewrite IH. reflexivity.
    + pose proof (varint_of_nonempty _ _ V) as K.
      assert (G0 : consume_group 1 n (close ++ rest) = Some rest). { cbn [consume_group]. rewrite (tag_app n 4 close _ F C ltac:(lia)). rewrite !N.eqb_refl. reflexivity. }
      destruct (group_over _ _ W1 _ _ _ _ G0) as (k & G). apply group_enough in G.
      destruct (key ++ body ++ close ++ rest) as [|b bs] eqn:E; [destruct key; [cbn in K; lia|discriminate E]|]. rewrite ufields_step.
      assert (L : (length rest <= length bs)%nat). { apply (f_equal (@length N)) in E. rewrite !app_length in E. cbn [length] in E. lia. }
      rewrite <- E. rewrite (tag_app n 3 key _ F V ltac:(lia)).
      assert (CV : consume_value (S (2 * length (body ++ close ++ rest))) n 3 (body ++ close ++ rest) = Some (None, rest)).
      { cbn [consume_value]. change (3 =? 3) with true. cbv iota. rewrite G. reflexivity. }
      rewrite CV. rewrite (ufields_k_fuel _ _ (length rest)) by lia. fold (ufields rest). rewrite IH2. reflexivity.
Qed.

(* What the strict lexer of SpecWire reads it reads. *)
Lemma dfield_tag : forall bs n w r, dfield bs = Some (n, w, r) -> exists typ s, consume_tag bs = Some (n, typ, s) /\ consume_plain typ s = Some (w, r) /\ typ <> 3.
Proof.
  intros bs n w r H. unfold dfield in H. unfold consume_tag. destruct (dvarint bs) as [[key s]|]; [|discriminate].
  destruct (N.eqb_spec (key / 8) 0) as [|Z]; [discriminate|]. destruct (N.ltb_spec 536870911 (key / 8)) as [|L]; [discriminate|]. cbn [orb] in *. destruct (N.ltb_spec 2147483647 (key / 8)); [lia|].
  exists (key mod 8), s. destruct (mod8_cases key) as [E|[E|[E|[E|[E|[E|[E|E]]]]]]]; rewrite E in *; try discriminate H.
  - destruct (dvarint s) as [[x t]|] eqn:D; [|discriminate]. injection H as <- <- <-. cbn [consume_plain]. rewrite D. split; [reflexivity|]. split; [reflexivity|lia].
  - destruct (take 8 s) as [[x t]|] eqn:D; [|discriminate]. injection H as <- <- <-. cbn [consume_plain]. rewrite D. split; [reflexivity|]. split; [reflexivity|lia].
  - destruct (dvarint s) as [[x t]|] eqn:D; [|discriminate]. destruct (take x t) as [[y u]|] eqn:T; [|discriminate]. injection H as <- <- <-. cbn [consume_plain]. rewrite D, T. split; [reflexivity|]. split; [reflexivity|lia].
  - destruct (take 4 s) as [[x t]|] eqn:D; [|discriminate]. injection H as <- <- <-. cbn [consume_plain]. rewrite D. split; [reflexivity|]. split; [reflexivity|lia].
Qed.
Lemma dfields_ufields : forall bs fs, dfields bs = Some fs -> ufields bs = Some fs.
Proof.
  unfold dfields, ufields. intros bs. generalize (length bs) as k. intros k. revert bs. induction k as [|k IH]; intros bs fs H; destruct bs as [|b bs]; cbn [dfields_k] in H; cbn [ufields_k]; try exact H.
  destruct (dfield (b :: bs)) as [[[n w] r]|] eqn:D; [|discriminate]. destruct (dfields_k k r) as [gs|] eqn:U; [|discriminate]. injection H as <-.
  destruct (dfield_tag _ _ _ _ D) as (typ & s & T & P & N3). rewrite T. cbn [consume_value]. destruct (N.eqb_spec typ 3); [lia|]. rewrite P, (IH _ _ U). reflexivity.
Qed.
Lemma wire_dfields : forall bs fs, dfields bs = Some fs -> wire bs fs.
Proof. intros bs fs H. apply ufields_wire, dfields_ufields, H. Qed.
