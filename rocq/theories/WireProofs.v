(* Facts about the specification decoders of SpecWire: fuel is irrelevant, fields concatenate,
   and each canonical field encoding is read back. *)
From Coq Require Import List NArith ZArith Arith Bool Lia ZifyN ZifyNat ZifyBool.
From Verif Require Import Base GoSlice SliceProofs Varint VarintProofs SpecWire.
Import ListNotations.
Open Scope N_scope.

Ltac Zify.zify_post_hook ::= Z.div_mod_to_equations.

Lemma nlen_app : forall a b, nlen (a ++ b) = nlen a + nlen b.
Proof. intros. unfold nlen. rewrite app_length. lia. Qed.
Lemma nlen_cons : forall x a, nlen (x :: a) = 1 + nlen a.
Proof. intros. unfold nlen. cbn [length]. lia. Qed.
Lemma nlen_nil : nlen [] = 0.
Proof. reflexivity. Qed.

Lemma is_bytes_app : forall a b, is_bytes a -> is_bytes b -> is_bytes (a ++ b).
Proof. intros a b Ha Hb. apply Forall_app. split; assumption. Qed.
Lemma is_bytes_cons : forall x a, x < 256 -> is_bytes a -> is_bytes (x :: a).
Proof. intros x a Hx Ha. constructor; assumption. Qed.
Lemma is_bytes_nil : is_bytes [].
Proof. constructor. Qed.

(* ---- consumption and extension ---- *)

Lemma dvarint_k_app : forall k bs x r s, dvarint_k k bs = Some (x, r) ->
  dvarint_k k (bs ++ s) = Some (x, r ++ s).
Proof.
  induction k as [|k IH]; intros bs x r s H; [discriminate|].
  destruct bs as [|b bs]; [discriminate|]. cbn [app dvarint_k] in *.
  destruct (b <? 128); [inversion H; subst; reflexivity|].
  destruct (b <? 256); [|discriminate].
  destruct (dvarint_k k bs) as [[y r']|] eqn:Hd; [|discriminate].
  rewrite (IH _ _ _ s Hd). inversion H; subst. reflexivity.
Qed.

Lemma dvarint_app : forall bs x r s, dvarint bs = Some (x, r) -> dvarint (bs ++ s) = Some (x, r ++ s).
Proof.
  intros bs x r s H. unfold dvarint in *.
  destruct (dvarint_k 10 bs) as [[y r']|] eqn:Hd; [|discriminate].
  rewrite (dvarint_k_app _ _ _ _ s Hd). destruct (y <? 2 ^ 64); [|discriminate].
  inversion H; subst. reflexivity.
Qed.

Lemma dvarint_k_shorter : forall k bs x r, dvarint_k k bs = Some (x, r) -> (length r < length bs)%nat.
Proof.
  induction k as [|k IH]; intros bs x r H; [discriminate|].
  destruct bs as [|b bs]; [discriminate|]. cbn [dvarint_k] in H. cbn [length].
  destruct (b <? 128); [inversion H; subst; lia|].
  destruct (b <? 256); [|discriminate].
  destruct (dvarint_k k bs) as [[y r']|] eqn:Hd; [|discriminate].
  apply IH in Hd. inversion H; subst. lia.
Qed.

Lemma dvarint_shorter : forall bs x r, dvarint bs = Some (x, r) -> (length r < length bs)%nat.
Proof.
  intros bs x r H. unfold dvarint in H.
  destruct (dvarint_k 10 bs) as [[y r']|] eqn:Hd; [|discriminate].
  destruct (y <? 2 ^ 64); [|discriminate]. inversion H; subst. eapply dvarint_k_shorter; eassumption.
Qed.

Lemma take_app : forall n bs x r s, take n bs = Some (x, r) -> take n (bs ++ s) = Some (x, r ++ s).
Proof.
  intros n bs x r s H. unfold take in *. rewrite nlen_app.
  destruct (N.leb_spec n (nlen bs)) as [Hn|]; [|discriminate].
  destruct (N.leb_spec n (nlen bs + nlen s)); [|lia].
  inversion H; subst. unfold nlen in Hn. rewrite firstn_app, skipn_app.
  replace (N.to_nat n - length bs)%nat with 0%nat by lia. rewrite app_nil_r. reflexivity.
Qed.

Lemma take_exact : forall a r n, n = nlen a -> take n (a ++ r) = Some (a, r).
Proof.
  intros a r n ->. unfold take. rewrite nlen_app.
  destruct (N.leb_spec (nlen a) (nlen a + nlen r)); [|lia].
  unfold nlen. rewrite Nat2N.id. rewrite firstn_app, skipn_app, Nat.sub_diag, firstn_all, skipn_all, app_nil_r. reflexivity.
Qed.

Lemma take_shorter : forall n bs x r, take n bs = Some (x, r) -> (length r <= length bs)%nat.
Proof.
  intros n bs x r H. unfold take in H. destruct (n <=? nlen bs); [|discriminate].
  inversion H; subst. rewrite skipn_length. lia.
Qed.

Lemma take_split : forall n bs x r, take n bs = Some (x, r) -> bs = x ++ r /\ nlen x = n.
Proof.
  intros n bs x r H. unfold take in H. destruct (N.leb_spec n (nlen bs)) as [Hn|]; [|discriminate].
  apply Some_inj in H. apply pair_equal_spec in H. destruct H as [<- <-].
  split; [symmetry; apply firstn_skipn|]. unfold nlen in *. rewrite firstn_length. lia.
Qed.

Lemma mod8_cases : forall k, k mod 8 = 0 \/ k mod 8 = 1 \/ k mod 8 = 2 \/ k mod 8 = 3 \/ k mod 8 = 4 \/
  k mod 8 = 5 \/ k mod 8 = 6 \/ k mod 8 = 7.
Proof. intros. lia. Qed.

Lemma dfield_app : forall bs n v r s, dfield bs = Some (n, v, r) -> dfield (bs ++ s) = Some (n, v, r ++ s).
Proof.
  intros bs n v r s H. unfold dfield in *.
  destruct (dvarint bs) as [[key r1]|] eqn:Hk; [|discriminate].
  rewrite (dvarint_app _ _ _ s Hk). cbv zeta in *.
  destruct ((key / 8 =? 0) || (536870911 <? key / 8)); [discriminate|].
  destruct (mod8_cases key) as [E|[E|[E|[E|[E|[E|[E|E]]]]]]]; rewrite E in *; try discriminate.
  - destruct (dvarint r1) as [[x r2]|] eqn:Hx; [|discriminate]. rewrite (dvarint_app _ _ _ s Hx).
    inversion H; subst. reflexivity.
  - destruct (take 8 r1) as [[x r2]|] eqn:Hx; [|discriminate]. rewrite (take_app _ _ _ _ s Hx).
    inversion H; subst. reflexivity.
  - destruct (dvarint r1) as [[x r2]|] eqn:Hx; [|discriminate]. rewrite (dvarint_app _ _ _ s Hx).
    destruct (take x r2) as [[y r3]|] eqn:Hy; [|discriminate]. rewrite (take_app _ _ _ _ s Hy).
    inversion H; subst. reflexivity.
  - destruct (take 4 r1) as [[x r2]|] eqn:Hx; [|discriminate]. rewrite (take_app _ _ _ _ s Hx).
    inversion H; subst. reflexivity.
Qed.

Lemma dfield_shorter : forall bs n v r, dfield bs = Some (n, v, r) -> (length r < length bs)%nat.
Proof.
  intros bs n v r H. unfold dfield in *.
  destruct (dvarint bs) as [[key r1]|] eqn:Hk; [|discriminate].
  apply dvarint_shorter in Hk. cbv zeta in *.
  destruct ((key / 8 =? 0) || (536870911 <? key / 8)); [discriminate|].
  destruct (mod8_cases key) as [E|[E|[E|[E|[E|[E|[E|E]]]]]]]; rewrite E in *; try discriminate.
  - destruct (dvarint r1) as [[x r2]|] eqn:Hx; [|discriminate]. apply dvarint_shorter in Hx.
    inversion H; subst. lia.
  - destruct (take 8 r1) as [[x r2]|] eqn:Hx; [|discriminate]. apply take_shorter in Hx.
    inversion H; subst. lia.
  - destruct (dvarint r1) as [[x r2]|] eqn:Hx; [|discriminate]. apply dvarint_shorter in Hx.
    destruct (take x r2) as [[y r3]|] eqn:Hy; [|discriminate]. apply take_shorter in Hy.
    inversion H; subst. lia.
  - destruct (take 4 r1) as [[x r2]|] eqn:Hx; [|discriminate]. apply take_shorter in Hx.
    inversion H; subst. lia.
Qed.

(* ---- dfields ---- *)

Lemma dfields_fuel : forall k bs, (length bs <= k)%nat -> dfields_k k bs = dfields bs.
Proof.
  unfold dfields. intros k bs. remember (length bs) as m eqn:Hm.
  revert k bs Hm. induction m as [m IH] using lt_wf_ind. intros k bs Hm Hk.
  destruct bs as [|b bs]; [destruct k, m; reflexivity|].
  destruct k as [|k]; [simpl in Hm; lia|]. destruct m as [|m]; [discriminate|].
  cbn [dfields_k]. destruct (dfield (b :: bs)) as [[[n v] r]|] eqn:Hd; [|reflexivity].
  pose proof (dfield_shorter _ _ _ _ Hd) as Hs.
  rewrite (IH (length r)) by lia. rewrite <- (IH (length r) ltac:(lia) m r) by lia. reflexivity.
Qed.

Lemma dfields_nil : dfields [] = Some [].
Proof. reflexivity. Qed.

Lemma dfields_step : forall bs n v r fs, dfield bs = Some (n, v, r) -> dfields r = Some fs ->
  dfields bs = Some ((n, v) :: fs).
Proof.
  intros bs n v r fs Hd Hr. pose proof (dfield_shorter _ _ _ _ Hd) as Hs.
  unfold dfields. destruct bs as [|b bs]; [simpl in Hs; lia|].
  cbn [length dfields_k]. rewrite Hd. rewrite dfields_fuel by (simpl in Hs; lia). rewrite Hr. reflexivity.
Qed.

Lemma dfields_cons_inv : forall b bs fs, dfields (b :: bs) = Some fs ->
  exists n v r fs', dfield (b :: bs) = Some (n, v, r) /\ dfields r = Some fs' /\ fs = (n, v) :: fs'.
Proof.
  intros b bs fs H. unfold dfields in H. cbn [length dfields_k] in H.
  destruct (dfield (b :: bs)) as [[[n v] r]|] eqn:Hd; [|discriminate].
  pose proof (dfield_shorter _ _ _ _ Hd) as Hs. rewrite dfields_fuel in H by (simpl in Hs; lia).
  destruct (dfields r) as [fs'|] eqn:Hf; [|discriminate].
  exists n, v, r, fs'. repeat split; try assumption. inversion H. reflexivity.
Qed.

Lemma dfields_app : forall a b fa fb, dfields a = Some fa -> dfields b = Some fb ->
  dfields (a ++ b) = Some (fa ++ fb).
Proof.
  intros a. remember (length a) as m eqn:Hm. revert a Hm.
  induction m as [m IH] using lt_wf_ind. intros a Hm b fa fb Ha Hb.
  destruct a as [|x a].
  - rewrite dfields_nil in Ha. inversion Ha; subst. exact Hb.
  - destruct (dfields_cons_inv _ _ _ Ha) as (n & v & r & fs' & Hd & Hr & ->).
    pose proof (dfield_shorter _ _ _ _ Hd) as Hs.
    eapply dfields_step; [apply dfield_app; exact Hd|].
    cbn [app]. eapply (IH (length r)); [lia|reflexivity|exact Hr|exact Hb].
Qed.

(* [reads bs fs]: bs are bytes, and a receiver sees exactly the fields fs. *)
Definition reads (bs : bytes) (fs : list (N * wval)) : Prop := is_bytes bs /\ dfields bs = Some fs.

Lemma reads_nil : reads [] [].
Proof. split; [constructor|reflexivity]. Qed.
Lemma reads_app : forall a b fa fb, reads a fa -> reads b fb -> reads (a ++ b) (fa ++ fb).
Proof.
  intros a b fa fb [Ha1 Ha2] [Hb1 Hb2]. split; [apply is_bytes_app|apply dfields_app]; assumption.
Qed.
Lemma reads_concat : forall l fl, Forall2 reads l fl -> reads (concat l) (concat fl).
Proof.
  intros l fl H. induction H as [|a f l fl Ha H IH]; [apply reads_nil|].
  cbn [concat]. apply reads_app; assumption.
Qed.

Lemma dfield_key : forall t wt r, 0 < t < 16 -> wt < 8 ->
  dfield (8 * t + wt :: r) =
      match wt with
      | 0 => match dvarint r with Some (x, r') => Some (t, WVarint x, r') | None => None end
      | 1 => match take 8 r with Some (x, r') => Some (t, WI64 (le x), r') | None => None end
      | 2 => match dvarint r with
             | Some (n, r') => match take n r' with
                               | Some (x, r'') => Some (t, WLen x, r'')
                               | None => None end
             | None => None end
      | 5 => match take 4 r with Some (x, r') => Some (t, WI32 (le x), r') | None => None end
      | _ => None
      end.
Proof.
  intros t wt r Ht Hw. unfold dfield. rewrite dvarint_small by lia. cbv zeta.
  replace ((8 * t + wt) / 8) with t by lia. replace ((8 * t + wt) mod 8) with wt by lia.
  destruct (N.eqb_spec t 0); [lia|]. destruct (N.ltb_spec 536870911 t); [lia|]. reflexivity.
Qed.

Lemma reads_one : forall b bs n v, is_bytes (b :: bs) -> dfield (b :: bs) = Some (n, v, []) -> reads (b :: bs) [(n, v)].
Proof.
  intros b bs n v Hb Hd. split; [assumption|]. eapply dfields_step; [exact Hd|reflexivity].
Qed.

Lemma reads_varint : forall t x, 0 < t < 16 -> x < 2 ^ 64 -> reads (8 * t :: uvarint x) [(t, WVarint x)].
Proof.
  intros t x Ht Hx. apply reads_one.
  - apply is_bytes_cons; [lia|apply uvarint_bytes].
  - replace (8 * t) with (8 * t + 0) by lia. rewrite dfield_key by lia.
    rewrite <- (app_nil_r (uvarint x)), dvarint_uvarint by assumption. reflexivity.
Qed.

Lemma reads_len : forall t b, 0 < t < 16 -> nlen b < 2 ^ 64 -> is_bytes b ->
  reads (8 * t + 2 :: uvarint (nlen b) ++ b) [(t, WLen b)].
Proof.
  intros t b Ht Hl Hb. apply reads_one.
  - apply is_bytes_cons; [lia|]. apply is_bytes_app; [apply uvarint_bytes|assumption].
  - rewrite dfield_key by lia. rewrite dvarint_uvarint by assumption.
    rewrite <- (app_nil_r b) at 2. rewrite take_exact by reflexivity. reflexivity.
Qed.

Fixpoint lebytes (k : nat) (x : N) : bytes :=
  match k with O => [] | S k => x mod 256 :: lebytes k (x / 256) end.

Lemma lebytes_length : forall k x, length (lebytes k x) = k.
Proof. induction k as [|k IH]; intros x; cbn [lebytes length]; [reflexivity|]. rewrite IH. reflexivity. Qed.
Lemma lebytes_bytes : forall k x, is_bytes (lebytes k x).
Proof. induction k as [|k IH]; intros x; cbn [lebytes]; constructor; [unfold is_byte; lia|apply IH]. Qed.

Lemma le_lebytes : forall k x, x < 2 ^ (8 * N.of_nat k) -> le (lebytes k x) = x.
Proof.
  induction k as [|k IH]; intros x Hx; cbn [lebytes le].
  - change (2 ^ (8 * N.of_nat 0)) with 1 in Hx. lia.
  - rewrite IH.
    + lia.
    + apply N.div_lt_upper_bound; [lia|]. change 256 with (2 ^ 8). rewrite <- N.pow_add_r.
      replace (8 + 8 * N.of_nat k) with (8 * N.of_nat (S k)) by lia. exact Hx.
Qed.

Lemma reads_i64 : forall t x, 0 < t < 16 -> x < 2 ^ 64 -> reads (8 * t + 1 :: lebytes 8 x) [(t, WI64 x)].
Proof.
  intros t x Ht Hx. apply reads_one.
  - apply is_bytes_cons; [lia|apply lebytes_bytes].
  - rewrite dfield_key by lia. rewrite <- (app_nil_r (lebytes 8 x)).
    rewrite take_exact by (unfold nlen; rewrite lebytes_length; reflexivity).
    rewrite le_lebytes by exact Hx. reflexivity.
Qed.
Lemma reads_i32 : forall t x, 0 < t < 16 -> x < 2 ^ 32 -> reads (8 * t + 5 :: lebytes 4 x) [(t, WI32 x)].
Proof.
  intros t x Ht Hx. apply reads_one.
  - apply is_bytes_cons; [lia|apply lebytes_bytes].
  - rewrite dfield_key by lia. rewrite <- (app_nil_r (lebytes 4 x)).
    rewrite take_exact by (unfold nlen; rewrite lebytes_length; reflexivity).
    rewrite le_lebytes by exact Hx. reflexivity.
Qed.

(* ---- lists of repeated fields ---- *)

Lemma all_of_app : forall n a b, all_of n (a ++ b) = all_of n a ++ all_of n b.
Proof. intros n a b. unfold all_of. rewrite filter_app, map_app. reflexivity. Qed.
Lemma all_of_same : forall n ws, all_of n (map (fun w => (n, w)) ws) = ws.
Proof.
  intros n ws. unfold all_of. induction ws as [|w ws IH]; [reflexivity|].
  cbn [map filter fst]. rewrite N.eqb_refl. cbn [map snd]. f_equal. exact IH.
Qed.
Lemma all_of_other : forall n m ws, (m =? n) = false -> all_of n (map (fun w => (m, w)) ws) = [].
Proof.
  intros n m ws H. unfold all_of. induction ws as [|w ws IH]; [reflexivity|].
  cbn [map filter fst]. rewrite H. exact IH.
Qed.
Lemma only_app : forall ns a b, only ns (a ++ b) = andb (only ns a) (only ns b).
Proof. intros. unfold only. apply forallb_app. Qed.
Lemma only_same : forall ns n ws, existsb (N.eqb n) ns = true -> only ns (map (fun w => (n, w)) ws) = true.
Proof.
  intros ns n ws H. unfold only. apply forallb_forall. intros f Hf.
  apply in_map_iff in Hf. destruct Hf as (w & <- & _). exact H.
Qed.

Lemma omap_Forall2 : forall {A B} (f : A -> option B) l r, Forall2 (fun a b => f a = Some b) l r -> omap f l = Some r.
Proof.
  intros A B f l r H. induction H as [|a b l r Ha H IH]; [reflexivity|].
  cbn [omap]. rewrite Ha. cbn [obind]. rewrite IH. reflexivity.
Qed.
Lemma omap_map : forall {A B C} (g : A -> B) (f : B -> option C) l, omap f (map g l) = omap (fun a => f (g a)) l.
Proof. intros A B C g f l. induction l as [|a l IH]; [reflexivity|]. cbn [map omap]. rewrite IH. reflexivity. Qed.

(* ---- frames ---- *)

Lemma dframe_exact : forall n ty payload r, n = 1 + nlen payload -> n < 2 ^ 32 ->
  dframe (lebytes 4 n ++ ty :: payload ++ r) = Some (ty, payload, r).
Proof.
  intros n ty payload r Hn Hlt. unfold dframe.
  rewrite take_exact by (unfold nlen; rewrite lebytes_length; reflexivity). cbn [obind].
  rewrite le_lebytes by exact Hlt. destruct (N.leb_spec 1 n); [|lia].
  change (ty :: payload ++ r) with ((ty :: payload) ++ r).
  rewrite take_exact by (rewrite nlen_cons; exact Hn). reflexivity.
Qed.

Lemma dframe_shorter : forall bs ty pl r, dframe bs = Some (ty, pl, r) -> (length r < length bs)%nat.
Proof.
  intros bs ty pl r H. unfold dframe in H.
  destruct (take 4 bs) as [[h r1]|] eqn:Ht; [|discriminate]. cbn [obind] in H.
  destruct (1 <=? le h); [|discriminate].
  destruct (take (le h) r1) as [[f r2]|] eqn:Ht2; [|discriminate]. cbn [obind] in H.
  destruct f as [|t f]; [discriminate|]. inversion H; subst.
  apply take_split in Ht. destruct Ht as [-> Hh].
  apply take_shorter in Ht2. rewrite app_length. unfold nlen in Hh. lia.
Qed.

Lemma dframes_k_fuel : forall k bs, (length bs <= k)%nat -> dframes_k k bs = dframes_k (length bs) bs.
Proof.
  intros k bs. remember (length bs) as m eqn:Hm. revert k bs Hm.
  induction m as [m IH] using lt_wf_ind. intros k bs Hm Hk.
  destruct bs as [|b bs]; [destruct k, m; reflexivity|].
  destruct k as [|k]; [simpl in Hm; lia|]. destruct m as [|m]; [discriminate|].
  cbn [dframes_k]. destruct (dframe (b :: bs)) as [[[ty pl] r]|] eqn:Hd; [|reflexivity].
  pose proof (dframe_shorter _ _ _ _ Hd) as Hs. cbn [obind].
  rewrite (IH (length r)) by lia. rewrite <- (IH (length r) ltac:(lia) m r) by lia. reflexivity.
Qed.

(* A byte stream made of the frames fs. *)
Definition framed (bs : bytes) (fs : list (N * bytes)) : Prop :=
  is_bytes bs /\ dframes_k (length bs) bs = Some fs.

Lemma framed_dframes : forall bs fs, framed bs fs -> dframes bs = Some fs.
Proof.
  intros bs fs [Hb Hf]. unfold dframes.
  assert (forallb (fun b => b <? 256) bs = true) as ->; [|exact Hf].
  apply forallb_forall. intros x Hx. unfold is_bytes in Hb. rewrite Forall_forall in Hb.
  apply N.ltb_lt. apply Hb. exact Hx.
Qed.

Lemma framed_nil : framed [] [].
Proof. split; [constructor|reflexivity]. Qed.

Lemma framed_cons : forall n ty payload r fs, n = 1 + nlen payload -> n < 2 ^ 32 ->
  ty < 256 -> is_bytes payload -> framed r fs ->
  framed (lebytes 4 n ++ ty :: payload ++ r) ((ty, payload) :: fs).
Proof.
  intros n ty payload r fs Hn Hlt Hty Hp [Hr Hf]. split.
  - apply is_bytes_app; [apply lebytes_bytes|]. apply is_bytes_cons; [assumption|].
    apply is_bytes_app; assumption.
  - pose proof (dframe_exact n ty payload r Hn Hlt) as Hd.
    set (bs := lebytes 4 n ++ ty :: payload ++ r) in *.
    pose proof (dframe_shorter _ _ _ _ Hd) as Hs.
    destruct bs as [|b bs']; [simpl in Hs; lia|].
    cbn [length dframes_k]. rewrite Hd. cbn [obind].
    rewrite dframes_k_fuel by (simpl in Hs; lia). rewrite Hf. reflexivity.
Qed.

Lemma framed_app : forall a b fa fb, framed a fa -> framed b fb -> framed (a ++ b) (fa ++ fb).
Proof.
  intros a b fa fb [Ha Hfa] Hb. revert b fb Hb.
  remember (length a) as m eqn:Hm in Hfa.
  assert (Hgen : forall m a fa, is_bytes a -> dframes_k m a = Some fa ->
            forall b fb, framed b fb -> framed (a ++ b) (fa ++ fb)); [|eauto].
  clear. induction m as [|m IH]; intros a fa Ha Hfa b fb Hb.
  - destruct a; [|discriminate]. cbn in Hfa. inversion Hfa; subst. exact Hb.
  - destruct a as [|x a]; [cbn in Hfa; inversion Hfa; subst; exact Hb|].
    cbn [dframes_k] in Hfa.
    destruct (dframe (x :: a)) as [[[ty pl] r]|] eqn:Hd; [|discriminate]. cbn [obind] in Hfa.
    destruct (dframes_k m r) as [fs|] eqn:Hf; [|discriminate]. cbn [obind] in Hfa.
    inversion Hfa; subst. clear Hfa.
    (* extend the frame *)
    assert (Hd' : dframe ((x :: a) ++ b) = Some (ty, pl, r ++ b)).
    { unfold dframe in Hd |- *.
      destruct (take 4 (x :: a)) as [[h r1]|] eqn:Ht; [|discriminate].
      rewrite (take_app _ _ _ _ b Ht). cbn [obind] in *.
      destruct (1 <=? le h); [|discriminate].
      destruct (take (le h) r1) as [[f r2]|] eqn:Ht2; [|discriminate].
      rewrite (take_app _ _ _ _ b Ht2). cbn [obind] in *.
      destruct f as [|t f]; [discriminate|]. inversion Hd; subst. reflexivity. }
    assert (Hrb : is_bytes r).
    { unfold dframe in Hd. destruct (take 4 (x :: a)) as [[h r1]|] eqn:Ht; [|discriminate]. cbn [obind] in Hd.
      destruct (1 <=? le h); [|discriminate].
      destruct (take (le h) r1) as [[f r2]|] eqn:Ht2; [|discriminate]. cbn [obind] in Hd.
      destruct f as [|t f]; [discriminate|]. inversion Hd; subst.
      apply take_split in Ht. apply take_split in Ht2. destruct Ht as [Ht _]. destruct Ht2 as [-> _].
      rewrite Ht in Ha. unfold is_bytes in *. rewrite !Forall_app in Ha. apply Ha. }
    destruct (IH r fs Hrb Hf b fb Hb) as [Hb2 Hf2].
    split; [apply is_bytes_app; [assumption|apply Hb]|].
    pose proof (dframe_shorter _ _ _ _ Hd') as Hs.
    cbn [app length] in *. cbn [dframes_k]. rewrite Hd'. cbn [obind].
    rewrite dframes_k_fuel by lia. rewrite Hf2. reflexivity.
Qed.
