(* Every value is encoded as what it stands for, rejected, or too big to exist. *)
From Coq Require Import List NArith ZArith Arith Bool Lia ZifyN ZifyNat ZifyBool.
From Verif Require Import Base GoSlice SliceProofs Varint VarintProofs SpecWire SpecMsg WireProofs Pure
  Text Values AnyModel ExprModel AnyProofs StringProofs TextProofs HeaderProofs SpecValue.
Import ListNotations.
Open Scope N_scope.

Ltac Zify.zify_post_hook ::= Z.div_mod_to_equations.

(* ---- the decoder of expressions and its fuel ---- *)

Lemma omap_mono : forall {A B} (f g : A -> option B) l r,
  (forall a b, f a = Some b -> g a = Some b) -> omap f l = Some r -> omap g l = Some r.
Proof.
  intros A B f g l. induction l as [|a l IH]; intros r Hfg H; cbn [omap] in *; [exact H|].
  destruct (f a) as [b|] eqn:Ha; [|discriminate]. rewrite (Hfg _ _ Ha). cbn [obind] in *.
  destruct (omap f l) as [r'|] eqn:Hl; [|discriminate]. rewrite (IH r' Hfg eq_refl). exact H.
Qed.

Lemma dexpr_k_mono : forall k k' bs e, (k <= k')%nat -> dexpr_k k bs = Some e -> dexpr_k k' bs = Some e.
Proof.
  induction k as [|k IH]; intros k' bs e Hk H; [discriminate|].
  destruct k' as [|k']; [lia|]. cbn [dexpr_k] in *.
  assert (Hp : forall ws ps, omap (fun w => obind (as_len w) (dexpr_k k)) ws = Some ps ->
                             omap (fun w => obind (as_len w) (dexpr_k k')) ws = Some ps).
  { intros ws ps. apply omap_mono. intros w x Hw. destruct (as_len w) as [b|]; [|discriminate].
    cbn [obind] in *. apply IH; [lia|exact Hw]. }
  destruct (dfields bs) as [fs|]; [|discriminate]. cbn [obind] in *.
  destruct (obind (req_field 1 fs) as_varint) as [ty|]; [|discriminate]. cbn [obind] in *.
  destruct ty as [|p]; [discriminate|].
  destruct p as [[p|p|]|[[p|p|]|[p|p|]|]|]; try discriminate H; try exact H.
  - destruct p; try discriminate H. destruct (only [1; 6] fs); [|discriminate].
    destruct (obind (req_field 6 fs) as_len) as [b|]; [|discriminate]. cbn [obind] in *.
    destruct (dfields b) as [gs|]; [|discriminate]. cbn [obind] in *.
    destruct (only [1; 2] gs); [|discriminate].
    destruct (obind (req_field 1 gs) as_len) as [n|]; [|discriminate]. cbn [obind] in *.
    destruct (omap _ (all_of 2 gs)) as [ps|] eqn:Ho in H; [|discriminate]. rewrite (Hp _ _ Ho). exact H.
  - destruct (only [1; 5] fs); [|discriminate].
    destruct (obind (req_field 5 fs) as_len) as [b|]; [|discriminate]. cbn [obind] in *.
    destruct (dfields b) as [gs|]; [|discriminate]. cbn [obind] in *.
    destruct (only [1; 2] gs); [|discriminate].
    destruct (obind (obind (req_field 1 gs) as_len) (dname 1)) as [n|]; [|discriminate]. cbn [obind] in *.
    destruct (omap _ (all_of 2 gs)) as [ps|] eqn:Ho in H; [|discriminate]. rewrite (Hp _ _ Ho). exact H.
Qed.

Lemma dfield_inner : forall bs n b r, dfield bs = Some (n, WLen b, r) -> (length b + length r < length bs)%nat.
Proof.
  intros bs n b r H. unfold dfield in H.
  destruct (dvarint bs) as [[key r0]|] eqn:Hk; [|discriminate]. pose proof (dvarint_shorter _ _ _ Hk).
  destruct ((key / 8 =? 0) || (536870911 <? key / 8)); [discriminate|].
  destruct (mod8_cases key) as [E|[E|[E|[E|[E|[E|[E|E]]]]]]]; rewrite E in H; try discriminate H.
  - destruct (dvarint r0) as [[x r1]|]; discriminate H.
  - destruct (take 8 r0) as [[x r1]|]; discriminate H.
  - destruct (dvarint r0) as [[x r1]|] eqn:Hv; [|discriminate H]. pose proof (dvarint_shorter _ _ _ Hv).
    destruct (take x r1) as [[y r2]|] eqn:Hy; [|discriminate H]. apply take_split in Hy. destruct Hy as [-> _].
    injection H as _ <- <-. rewrite app_length in *. lia.
  - destruct (take 4 r0) as [[x r1]|]; discriminate H.
Qed.

Lemma dfields_inner : forall k bs fs n b, dfields_k k bs = Some fs -> In (n, WLen b) fs -> (length b < length bs)%nat.
Proof.
  induction k as [|k IH]; intros bs fs n b H Hi.
  - destruct bs; [injection H as <-; destruct Hi|discriminate].
  - destruct bs as [|x bs]; [injection H as <-; destruct Hi|]. cbn [dfields_k] in H.
    destruct (dfield (x :: bs)) as [[[n' v] r]|] eqn:Hf; [|discriminate].
    destruct (dfields_k k r) as [fs'|] eqn:Hr; [|discriminate]. injection H as <-.
    pose proof (dfield_shorter _ _ _ _ Hf). destruct Hi as [Hi|Hi].
    + injection Hi as -> ->. apply dfield_inner in Hf. lia.
    + pose proof (IH _ _ _ _ Hr Hi). lia.
Qed.

Lemma reads_inner : forall bs fs n b, reads bs fs -> In (n, WLen b) fs -> (length b < length bs)%nat.
Proof. intros bs fs n b [_ H] Hi. exact (dfields_inner _ _ _ _ _ H Hi). Qed.

Definition lens (tag : N) (pls : list bytes) : fields := map (fun pl => (tag, WLen pl)) pls.

Lemma lens_map : forall tag pls, lens tag pls = map (fun w => (tag, w)) (map WLen pls).
Proof. intros tag pls. unfold lens. rewrite map_map. reflexivity. Qed.

Lemma all_of_lens : forall tag pls, all_of tag (lens tag pls) = map WLen pls.
Proof. intros. rewrite lens_map. apply all_of_same. Qed.
Lemma all_of_lens_other : forall n tag pls, (tag =? n) = false -> all_of n (lens tag pls) = [].
Proof. intros n tag pls H. rewrite lens_map. apply all_of_other. exact H. Qed.
Lemma only_lens : forall ns tag pls, existsb (N.eqb tag) ns = true -> only ns (lens tag pls) = true.
Proof. intros ns tag pls H. rewrite lens_map. apply only_same. exact H. Qed.

Lemma omap_lens : forall {A} (d : bytes -> option A) pls es,
  Forall2 (fun pl e => d pl = Some e) pls es -> omap (fun w => obind (as_len w) d) (map WLen pls) = Some es.
Proof.
  intros A d pls es H. rewrite omap_map. apply omap_Forall2. exact H.
Qed.

(* The parameters, read with less fuel. *)
Lemma params_fuel : forall k pls es (ps : bytes) tag, reads ps (lens tag pls) -> (length ps <= k)%nat ->
  Forall2 (fun pl e => dexpr pl = Some e) pls es -> Forall2 (fun pl e => dexpr_k k pl = Some e) pls es.
Proof.
  intros k pls es ps tag Hr Hk H.
  assert (Hi : Forall (fun pl => (length pl < length ps)%nat) pls).
  { apply Forall_forall. intros pl Hpl. apply (reads_inner ps _ tag pl Hr). unfold lens. apply in_map_iff. exists pl. auto. }
  clear Hr. revert Hi. induction H as [|pl e pls es He H IH]; intros Hi; [constructor|].
  inversion Hi; subst. constructor; [|apply IH; assumption].
  apply (dexpr_k_mono (S (length pl))); [lia|exact He].
Qed.

Lemma poper_ok : forall tag name ps pls es, 0 < tag < 16 -> is_bytes name -> nlen name < 2 ^ 62 -> nlen ps < 2 ^ 62 ->
  reads ps (lens 2 pls) -> Forall2 (fun pl e => dexpr pl = Some e) pls es ->
  exists payload, reads (poper tag name ps) [(tag, WLen payload)] /\ dexpr payload = Some (XOperator name es).
Proof.
  intros tag name ps pls es Ht Hb Hn Hs Hr Hes.
  destruct (reads_app _ _ _ _ (reads_plen 1 name ltac:(lia) ltac:(lia) Hb) Hr) as [B1 D1].
  pose proof (nlen_plen 1 name ltac:(lia)). pose proof (nlen_app (plen 1 name) ps) as Ha.
  destruct (reads_app _ _ _ _ (reads_pvar 1 5 ltac:(lia) ltac:(lia)) (reads_plen 6 (plen 1 name ++ ps) ltac:(lia) ltac:(lia) B1)) as [B2 D2].
  pose proof (nlen_plen 6 (plen 1 name ++ ps) ltac:(lia)). pose proof (nlen_pvar 1 5 ltac:(lia)).
  eexists. split; [apply reads_plen; [assumption|szs; lia|exact B2]|].
  unfold dexpr. cbn [dexpr_k]. rewrite D2.
  set (k := length (pvar 1 5 ++ plen 6 (plen 1 name ++ ps))).
  assert (Hk : (length ps <= k)%nat).
  { unfold k. rewrite app_length, length_plen, app_length by lia. lia. }
  pose proof (params_fuel k pls es ps 2 Hr Hk Hes) as Hf. clearbody k.
  cbn -[plen dfields dexpr_k omap lens dname]. rewrite D1. cbn [obind app]. change ((1, WLen name) :: lens 2 pls) with ([(1, WLen name)] ++ lens 2 pls).
  rewrite only_app, only_lens by reflexivity. unfold req_field. rewrite !all_of_app, all_of_lens_other, all_of_lens by reflexivity.
  cbn -[plen omap dexpr_k dname]. rewrite (omap_lens _ _ _ Hf). reflexivity.
Qed.

Lemma pcall_ok : forall tag name ps pls es, 0 < tag < 16 -> is_bytes name -> nlen name < 2 ^ 62 -> nlen ps < 2 ^ 62 ->
  reads ps (lens 2 pls) -> Forall2 (fun pl e => dexpr pl = Some e) pls es ->
  exists payload, reads (pcall tag name ps) [(tag, WLen payload)] /\ dexpr payload = Some (XCall name es).
Proof.
  intros tag name ps pls es Ht Hb Hn Hs Hr Hes.
  destruct (reads_plen 1 name ltac:(lia) ltac:(lia) Hb) as [B0 D0].
  pose proof (nlen_plen 1 name ltac:(lia)).
  destruct (reads_app _ _ _ _ (reads_plen 1 (plen 1 name) ltac:(lia) ltac:(lia) B0) Hr) as [B1 D1].
  pose proof (nlen_plen 1 (plen 1 name) ltac:(lia)). pose proof (nlen_app (plen 1 (plen 1 name)) ps) as Ha.
  destruct (reads_app _ _ _ _ (reads_pvar 1 4 ltac:(lia) ltac:(lia)) (reads_plen 5 (plen 1 (plen 1 name) ++ ps) ltac:(lia) ltac:(lia) B1)) as [B2 D2].
  pose proof (nlen_plen 5 (plen 1 (plen 1 name) ++ ps) ltac:(lia)). pose proof (nlen_pvar 1 4 ltac:(lia)).
  eexists. split; [apply reads_plen; [assumption|szs; lia|exact B2]|].
  unfold dexpr. cbn [dexpr_k]. rewrite D2.
  set (k := length (pvar 1 4 ++ plen 5 (plen 1 (plen 1 name) ++ ps))).
  assert (Hk : (length ps <= k)%nat).
  { unfold k. rewrite app_length, length_plen, app_length by lia. lia. }
  pose proof (params_fuel k pls es ps 2 Hr Hk Hes) as Hf. clearbody k.
  cbn -[plen dfields dexpr_k omap lens dname]. rewrite D1. cbn [obind app]. change ((1, WLen (plen 1 name)) :: lens 2 pls) with ([(1, WLen (plen 1 name))] ++ lens 2 pls).
  rewrite only_app, only_lens by reflexivity. unfold req_field. rewrite !all_of_app, all_of_lens_other, all_of_lens by reflexivity.
  cbn -[plen omap dexpr_k dname]. unfold dname. rewrite D0. cbn -[omap dexpr_k]. rewrite (omap_lens _ _ _ Hf). reflexivity.
Qed.

(* ---- the three outcomes of an encoder ---- *)

(* An encoder, in every environment. *)
Definition enc := forall E : Env, slice -> res (slice * option err).

(* With int of the given width it always succeeds, appending bs. *)
Definition good (w32 : bool) (f : enc) (bs : bytes) : Prop :=
  forall E, @word32 E = w32 -> forall p, exists sp, f E p = Ok (mk (data p ++ bs) sp, None).
(* It never succeeds; if nothing it runs panics, it reports an error (and keeps its input). *)
Definition bad (w32 : bool) (f : enc) (quiet keep : Prop) : Prop :=
  (forall E, @word32 E = w32 -> forall p q, f E p <> Ok (q, None)) /\
  (quiet -> forall E, @word32 E = w32 -> forall p, exists q e, f E p = Ok (q, Some e) /\ (keep -> len p <= len q)%nat).
(* It only succeeds with more data than memory can hold. *)
Definition big (w32 : bool) (f : enc) : Prop :=
  forall E, @word32 E = w32 -> forall p q, f E p = Ok (q, None) -> (len p <= len q)%nat /\ 2 ^ 62 <= nlen (data q).

(* S: the value is accepted; W: a bound for the size of its encoding. *)
Definition outcome {A} (dec : bytes -> option A) (w32 : bool) (tag : N) (D : A -> Prop) (quiet keep : Prop) (S : Prop) (W : N) (f : enc) : Prop :=
  (exists x bs payload, D x /\ reads bs [(tag, WLen payload)] /\ dec payload = Some x /\ (nlen bs < 2 ^ 62 /\ nlen bs <= W) /\ good w32 f bs) \/
  (bad w32 f quiet keep /\ ~ S) \/ (big w32 f /\ 2 ^ 61 <= W).

Definition outcomes {A B} (dec : bytes -> option B) (w32 : bool) (tag : N) (D : A -> B -> Prop) (quiet : A -> Prop)
    (keep : Prop) (S : A -> Prop) (W : A -> N) (xs : list A) (f : enc) : Prop :=
  (exists ys bs pls, Forall2 D xs ys /\ reads bs (lens tag pls) /\ Forall2 (fun pl y => dec pl = Some y) pls ys /\
     nlen bs <= total_weight W xs /\ good w32 f bs) \/
  (bad w32 f (all quiet xs) keep /\ ~ all S xs) \/ (big w32 f /\ 2 ^ 61 <= total_weight W xs).

Lemma good_ext : forall w f g bs, (forall E, @word32 E = w -> forall p, f E p = g E p) -> good w f bs -> good w g bs.
Proof. intros w f g bs He Hg E HE p. rewrite <- He by assumption. apply Hg. assumption. Qed.
Lemma bad_ext : forall w f g Q K, (forall E, @word32 E = w -> forall p, f E p = g E p) -> bad w f Q K -> bad w g Q K.
Proof.
  intros w f g Q K He [H1 H2]. split.
  - intros E HE p q. rewrite <- He by assumption. apply H1. assumption.
  - intros HQ E HE p. rewrite <- He by assumption. apply H2; assumption.
Qed.
Lemma big_ext : forall w f g, (forall E, @word32 E = w -> forall p, f E p = g E p) -> big w f -> big w g.
Proof. intros w f g He H E HE p q. rewrite <- He by assumption. apply H. assumption. Qed.
Lemma outcome_ext : forall {A} (dec : bytes -> option A) w tag D Q K S W f g,
  (forall E, @word32 E = w -> forall p, f E p = g E p) -> outcome dec w tag D Q K S W f -> outcome dec w tag D Q K S W g.
Proof.
  intros A dec w tag D Q K S W f g He [(x & bs & pl & H1 & H2 & H3 & H4 & H5)|[[H N]|[H N]]].
  - left. exists x, bs, pl. repeat (split; [assumption|]). exact (good_ext _ _ _ _ He H5).
  - right. left. split; [exact (bad_ext _ _ _ _ _ He H)|exact N].
  - right. right. split; [exact (big_ext _ _ _ He H)|exact N].
Qed.

(* An encoder that always appends bs. *)
Lemma outcome_emits : forall {A} (dec : bytes -> option A) w tag (D : A -> Prop) Q K S W (m : forall E : Env, slice -> res slice) x bs payload,
  (forall E, @word32 E = w -> @emits (m E) bs) -> D x -> reads bs [(tag, WLen payload)] -> dec payload = Some x -> nlen bs <= W ->
  outcome dec w tag D Q K S W (fun E p => okm (m E p)).
Proof.
  intros A dec w tag D Q K S W m x bs payload Hm Hx Hr Hd HW.
  assert (Hg : good w (fun E p => okm (m E p)) bs).
  { intros E HE p. destruct (Hm E HE p) as [sp Hp]. exists sp. unfold okm. rewrite Hp. reflexivity. }
  destruct (N.lt_ge_cases (nlen bs) (2 ^ 62)) as [Hl|Hl].
  - left. exists x, bs, payload. repeat (split; [assumption|]). split; [split; assumption|]. exact Hg.
  - right. right. split; [|lia]. intros E HE p q H. destruct (Hg E HE p) as [sp Hp]. rewrite Hp in H. injection H as <-.
    unfold len. cbn [data]. rewrite app_length, nlen_app. split; lia.
Qed.

(* User code that keeps the contract. *)
Lemma outcome_user : forall {A} (dec : bytes -> option A) w tag (D : A -> Prop) (Q K S : Prop) W u,
  0 < tag < 16 -> honest dec u -> (forall x, appends dec u x -> D x) -> (Q -> total u) -> (Q -> K -> tidy u) ->
  (S -> exists x, appends dec u x) -> 2 ^ 32 <= W ->
  outcome dec w tag D Q K S W (fun _ p => u p tag).
Proof.
  intros A dec w tag D Q K S W u Ht [[x Hx]|Hx] HD HQ HK HS HW.
  - destruct (Hx tag ltac:(lia)) as (bs & pl & Hb & Hl & Hf & Hd & Hp).
    left. exists x, bs, pl. split; [apply HD; assumption|]. split; [split; assumption|]. split; [assumption|]. split; [lia|].
    intros E HE p. apply Hp.
  - right. left. split; [split|].
    3: { intros s. destruct (HS s) as [x Ha]. destruct (Ha tag ltac:(lia)) as (bs & pl & _ & _ & _ & _ & Hp).
         destruct (Hp nil_slice) as [sp Hq]. exact (Hx _ _ _ Hq). }
    + intros E HE p q. apply Hx.
    + intros q E HE p. specialize (HQ q p tag). specialize (Hx p tag). destruct (u p tag) as [[r [e|]]|] eqn:Hu.
      * exists r, e. split; [reflexivity|]. intros k. destruct (HK q k p tag) as (q' & e' & Hq' & Hl). rewrite Hu in Hq'. injection Hq' as <- _. exact Hl.
      * exfalso. apply (Hx r). reflexivity.
      * congruence.
Qed.

Lemma outcome_error : forall {A} (dec : bytes -> option A) w tag D Q (K S : Prop) W (f : enc), ~ S ->
  (forall E, @word32 E = w -> forall p, exists q e, f E p = Ok (q, Some e) /\ (K -> len p <= len q)%nat) -> outcome dec w tag D Q K S W f.
Proof.
  intros A dec w tag D Q K S W f HS H. right. left. split; [|exact HS]. split.
  - intros E HE p q Hq. destruct (H E HE p) as (r & e & Hr & _). congruence.
  - intros _. exact H.
Qed.
Lemma outcome_panic : forall {A} (dec : bytes -> option A) w tag D (Q K S : Prop) W (f : enc), ~ S ->
  (forall E p, f E p = Panic) -> (Q -> False) -> outcome dec w tag D Q K S W f.
Proof.
  intros A dec w tag D Q K S W f HS H HQ. right. left. split; [|exact HS]. split.
  - intros E HE p q Hq. rewrite H in Hq. discriminate.
  - intros q. destruct (HQ q).
Qed.

(* A loop over values. *)
Lemma each_cons : forall {A} f wrap j (x : A) xs p, each f wrap j (x :: xs) p =
  (do (p, e) <- f x p; match e with Some e => Ok (p, Some (wrap j e)) | None => each f wrap (S j) xs p end).
Proof. reflexivity. Qed.

Lemma total_cons : forall {A} (W : A -> N) x xs, total_weight W (x :: xs) = W x + total_weight W xs.
Proof. reflexivity. Qed.

Lemma each_outcomes : forall {A B} (dec : bytes -> option B) w tag (D : A -> B -> Prop) quiet keep Sup W
    (f : forall E : Env, A -> slice -> res (slice * option err)) wrap xs,
  Forall (fun x => outcome dec w tag (D x) (quiet x) keep (Sup x) (W x) (fun E p => f E x p)) xs ->
  forall j, outcomes dec w tag D quiet keep Sup W xs (fun E p => each (f E) wrap j xs p).
Proof.
  intros A B dec w tag D quiet keep Sup W f wrap xs H. induction H as [|x xs Hx H IH]; intros j.
  - left. exists [], [], []. split; [constructor|]. split; [apply reads_nil|]. split; [constructor|]. split; [cbn; lia|].
    intros E HE p. exists (spare p). cbn. rewrite app_nil_r. destruct p; reflexivity.
  - specialize (IH (S j)). destruct Hx as [(y & bs & pl & H1 & H2 & H3 & H4 & H5)|[[[Hb1 Hb2] HS]|[Hb HW]]]; unfold outcomes; rewrite total_cons; cbn [all].
    + destruct IH as [(ys & bss & pls & I1 & I2 & I3 & I5 & I4)|[[[I1 I2] HI]|[I HI]]].
      * left. exists (y :: ys), (bs ++ bss), (pl :: pls). split; [constructor; assumption|].
        split; [exact (reads_app _ _ _ _ H2 I2)|]. split; [constructor; assumption|]. split; [rewrite nlen_app; lia|].
        intros E HE p. destruct (H5 E HE p) as [sp Hp]. rewrite each_cons, Hp. cbn [bind].
        destruct (I4 E HE (mk (data p ++ bs) sp)) as [sp' Hp']. cbn beta in Hp'. rewrite Hp'. exists sp'. cbn [data]. rewrite app_assoc. reflexivity.
      * right. left. split; [|intros [_ s]; exact (HI s)]. split.
        -- intros E HE p q. destruct (H5 E HE p) as [sp Hp]. rewrite each_cons, Hp. cbn [bind]. apply I1. assumption.
        -- intros [_ Hq] E HE p. destruct (H5 E HE p) as [sp Hp]. rewrite each_cons, Hp. cbn [bind].
           destruct (I2 Hq E HE (mk (data p ++ bs) sp)) as (q & e & Hr & Hl). exists q, e. split; [exact Hr|]. intros k. specialize (Hl k).
           unfold len in *. cbn [data] in Hl. rewrite app_length in Hl. lia.
      * right. right. split; [|lia]. intros E HE p q. destruct (H5 E HE p) as [sp Hp]. rewrite each_cons, Hp. cbn [bind]. intros Hq.
        destruct (I E HE _ _ Hq) as [L1 L2]. split; [|exact L2]. unfold len in L1 |- *. cbn [data] in L1. rewrite app_length in L1. lia.
    + right. left. split; [|intros [s _]; exact (HS s)]. split.
      * intros E HE p q. rewrite each_cons. specialize (Hb1 E HE p). destruct (f E x p) as [[r [e|]]|]; cbn [bind]; try discriminate.
        exfalso. apply (Hb1 r). reflexivity.
      * intros [Hq _] E HE p. destruct (Hb2 Hq E HE p) as (r & e & Hr & Hl). rewrite each_cons, Hr. cbn [bind]. eauto.
    + right. right. split; [|lia]. intros E HE p q. rewrite each_cons. specialize (Hb E HE p).
      destruct (f E x p) as [[r [e|]]|]; cbn [bind]; try discriminate. intros Hq.
      destruct (Hb r eq_refl) as [L1 L2].
      destruct IH as [(ys & bss & pls & I1 & I2 & I3 & I5 & I4)|[[[I1 I2] HI]|[I HI]]].
      * destruct (I4 E HE r) as [sp Hp]. cbn beta in Hp. rewrite Hp in Hq. injection Hq as <-. unfold len in *. cbn [data]. rewrite app_length, nlen_app. split; lia.
      * exfalso. exact (I1 E HE r q Hq).
      * destruct (I E HE _ _ Hq) as [L3 L4]. split; [lia|assumption].
Qed.

(* ---- arguments ---- *)

Definition scalar_len (s : scalar) : N := match s with SOctets v _ | SString v _ => nlen v | _ => 0 end.
Lemma nlen_pscalar : forall s, scalar_ok s -> nlen (pscalar s) <= 70 + scalar_len s.
Proof.
  intros s Hs. assert (Ho : forall v c, nlen v < 2 ^ 62 -> match c with None => True | Some n => n < 2 ^ 64 end -> nlen (poct v c) <= 22 + nlen v).
  { intros v [c|] Hv Hc; unfold poct; pose proof (nlen_plen 1 v ltac:(lia)); [pose proof (nlen_pvar 2 c Hc)|]; szs; lia. }
  destruct s as [z|n| |v c|x|x|b|v c]; cbn [pscalar scalar_len scalar_ok] in *.
  - pose proof (nlen_pvar 1 1 ltac:(lia)). assert (zz z < 2 ^ 64) by (apply (zz_bound z 64); [lia|exact Hs]). pose proof (nlen_pvar 2 (zz z) ltac:(lia)). szs; lia.
  - pose proof (nlen_pvar 1 2 ltac:(lia)). pose proof (nlen_pvar 3 n ltac:(lia)). szs; lia.
  - pose proof (nlen_pvar 1 3 ltac:(lia)). szs; lia.
  - pose proof (nlen_pvar 1 4 ltac:(lia)). assert (Hc : match c with None => True | Some n => n < 2 ^ 64 end) by (destruct c; [lia|exact I]).
    pose proof (Ho v c ltac:(apply Hs) Hc). destruct Hs as (_ & Hl & _). pose proof (nlen_plen 5 (poct v c) ltac:(lia)). szs; lia.
  - cbn. lia.
  - cbn. lia.
  - destruct b; cbn; lia.
  - pose proof (nlen_pvar 1 8 ltac:(lia)). pose proof (Ho v c ltac:(apply Hs) ltac:(apply Hs)). destruct Hs as (_ & Hl & _). pose proof (nlen_plen 9 (poct v c) ltac:(lia)). szs; lia.
Qed.
Lemma nlen_pany : forall tag s, scalar_ok s -> nlen (pany tag s) <= 200 + scalar_len s.
Proof.
  intros tag s Hs. pose proof (nlen_pscalar s Hs). pose proof (scalar_ok_len s Hs) as Hl. fold (scalar_len s) in Hl. unfold pany. pose proof (nlen_pvar 1 1 ltac:(lia)).
  pose proof (nlen_plen 2 (pscalar s) ltac:(lia)). pose proof (nlen_app (pvar 1 1) (plen 2 (pscalar s))).
  pose proof (nlen_plen tag (pvar 1 1 ++ plen 2 (pscalar s)) ltac:(lia)). lia.
Qed.
Lemma nlen_plit : forall tag s, scalar_ok s -> nlen (plit tag s) <= 200 + scalar_len s.
Proof.
  intros tag s Hs. pose proof (nlen_pscalar s Hs). pose proof (scalar_ok_len s Hs) as Hl. fold (scalar_len s) in Hl. unfold plit. pose proof (nlen_pvar 1 2 ltac:(lia)).
  pose proof (nlen_plen 4 (pscalar s) ltac:(lia)). pose proof (nlen_app (pvar 1 2) (plen 4 (pscalar s))).
  pose proof (nlen_plen tag (pvar 1 2 ++ plen 4 (pscalar s)) ltac:(lia)). lia.
Qed.

Lemma any_scalar : forall w tag (D : scalar -> Prop) Q K S W (m : forall E : Env, slice -> res slice) s,
  0 < tag < 16 -> scalar_ok s -> (forall E, @word32 E = w -> @emits (m E) (pany tag s)) -> D s -> 200 + scalar_len s <= W ->
  outcome dany w tag D Q K S W (fun E p => okm (m E p)).
Proof.
  intros w tag D Q K S W m s Ht Hs Hm HD HW. destruct (pany_ok tag s Ht Hs) as (pl & Hr & Hd).
  apply (outcome_emits dany w tag D Q K S W m s _ pl Hm HD Hr Hd). pose proof (nlen_pany tag s Hs). lia.
Qed.
Lemma expr_scalar : forall w tag (D : expr -> Prop) Q K S W (m : forall E : Env, slice -> res slice) s,
  0 < tag < 16 -> scalar_ok s -> (forall E, @word32 E = w -> @emits (m E) (plit tag s)) -> D (XLiteral s) -> 200 + scalar_len s <= W ->
  outcome dexpr w tag D Q K S W (fun E p => okm (m E p)).
Proof.
  intros w tag D Q K S W m s Ht Hs Hm HD HW. destruct (plit_ok tag s Ht Hs) as (pl & Hr & Hd).
  apply (outcome_emits dexpr w tag D Q K S W m _ _ pl Hm HD Hr Hd). pose proof (nlen_plit tag s Hs). lia.
Qed.

Lemma go_string_split : forall s, go_string s -> is_bytes s /\ nlen s < 2 ^ 62.
Proof. intros s H. exact H. Qed.

Lemma octets_ok : forall b c, go_bytes b -> match c with None => True | Some n => n < 2 ^ 32 end -> scalar_ok (octets b c).
Proof. intros [s|] c Hb Hc; cbn; [|exact I]. destruct Hb. split; [assumption|]. split; assumption. Qed.
Lemma go_bytes_len : forall b, go_bytes b -> match b with Some s => nlen s < 2 ^ 62 | None => True end.
Proof. intros [s|] Hb; [exact (proj2 Hb)|exact I]. Qed.

Lemma clean_duration : forall w d, in_int 64 d -> d <> (- 2 ^ 63)%Z -> (w = true -> (Z.abs d < 2 ^ 32 * 1000000000)%Z) ->
  scalar_ok (SOctets (duration_text w d) None) /\ nlen (duration_text w d) < 90 /\ text_of_duration (duration_text w d) d.
Proof.
  intros w d H1 H2 H3. destruct (duration_text_bytes w d) as [B L]. split; [|split].
  - cbn. split; [assumption|]. split; [lia|exact I].
  - assumption.
  - apply duration_text_ok; assumption.
Qed.

Ltac wsz := try match goal with |- context [octets ?b _] => destruct b end; cbn [scalar_len weight octets]; lia.
Ltac ints := unfold in_int, in_uint in *; cbn in *; lia.

Lemma any_outcome_switch : forall w v tag, 0 < tag < 16 -> well_formed w v -> no_known_defect w v ->
  outcome dany w tag (any_denotes v) (panic_free v) False (arg_behind_pointer v) (weight v) (fun E p => type_switch v p tag).
Proof.
  intros w v tag Ht. induction v; intros Hw Hc; cbn [well_formed] in Hw; cbn [type_switch AnyModel.any_method].
  - apply outcome_error; [cbn; tauto|]. intros E HE p. do 2 eexists. split; [reflexivity|]; auto; try lia; try contradiction.
  - apply (outcome_ext _ _ _ _ _ _ _ _ (fun E p => okm (if w then append_any_int32 p tag z else append_any_int64 p tag z))).
    { intros E HE p. rewrite HE. destruct w; reflexivity. }
    apply any_scalar with (s := (SSint z)); [assumption| | |repeat constructor|wsz].
    + destruct w; ints.
    + intros E _. destruct w; [apply emits_any_int32|apply emits_any_int64]; try assumption; ints.
  - apply any_scalar with (s := (SSint z)) (m := fun E p => Ok (append_any_int8 p tag z)); [assumption|ints| |repeat constructor|wsz].
    intros E _. apply emits_any_int8; [assumption|ints].
  - apply any_scalar with (s := (SSint z)); [assumption|ints| |repeat constructor|wsz]. intros E _. apply emits_any_int16; [assumption|ints].
  - apply any_scalar with (s := (SSint z)); [assumption|ints| |repeat constructor|wsz]. intros E _. apply emits_any_int32; [assumption|ints].
  - apply any_scalar with (s := (SSint z)); [assumption|ints| |repeat constructor|wsz]. intros E _. apply emits_any_int64; [assumption|ints].
  - apply (outcome_ext _ _ _ _ _ _ _ _ (fun E p => okm (if w then append_any_uint32 p tag n else append_any_uint64 p tag n))).
    { intros E HE p. rewrite HE. destruct w; reflexivity. }
    apply any_scalar with (s := (SUint n)); [assumption| | |repeat constructor|wsz].
    + destruct w; ints.
    + intros E _. destruct w; [apply emits_any_uint32|apply emits_any_uint64]; try assumption; ints.
  - apply any_scalar with (s := (SUint n)) (m := fun E p => Ok (append_any_uint8 p tag n)); [assumption|ints| |repeat constructor|wsz].
    intros E _. apply emits_any_uint8; [assumption|ints].
  - apply any_scalar with (s := (SUint n)); [assumption|ints| |repeat constructor|wsz]. intros E _. apply emits_any_uint16; [assumption|ints].
  - apply any_scalar with (s := (SUint n)); [assumption|ints| |repeat constructor|wsz]. intros E _. apply emits_any_uint32; [assumption|ints].
  - apply any_scalar with (s := (SUint n)); [assumption|ints| |repeat constructor|wsz]. intros E _. apply emits_any_uint64; [assumption|ints].
  - destruct Hw as [Hb Hl]. apply any_scalar with (s := (SString s None)); [assumption|cbn; auto| |repeat constructor|wsz].
    intros E _. exact (emits_any_string tag s 0 Ht Hl eq_refl).
  - apply any_scalar with (s := (octets b None)); [assumption|apply octets_ok; auto| |repeat constructor|wsz].
    intros E _. exact (emits_any_bytes tag b 0 Ht (go_bytes_len _ Hw) eq_refl).
  - apply any_scalar with (s := (SBool b)) (m := fun E p => Ok (append_any_bool p tag b)); [assumption|exact I| |repeat constructor|wsz].
    intros E _. apply emits_any_bool. assumption.
  - apply any_scalar with (s := (SFloat bits)) (m := fun E p => Ok (append_any_float32 p tag bits)); [assumption|ints| |repeat constructor|wsz].
    intros E _. apply emits_any_float32. assumption.
  - apply any_scalar with (s := (SDouble bits)) (m := fun E p => Ok (append_any_float64 p tag bits)); [assumption|ints| |repeat constructor|wsz].
    intros E _. apply emits_any_float64. assumption.
  - destruct (format_time_ok t Hw) as (T1 & T2 & T3).
    apply any_scalar with (s := (SOctets (format_time t) None)); [assumption| | |constructor; constructor; assumption|wsz].
    + cbn. split; [assumption|]. split; [lia|exact I].
    + intros E _. apply emits_any_time; assumption.
  - destruct Hc as [C1 C2]. destruct (clean_duration w d Hw C1 C2) as (D1 & D2 & D3).
    apply any_scalar with (s := (SOctets (duration_text w d) None)); [assumption|assumption| |constructor; constructor; assumption|wsz].
    intros E HE. apply emits_any_duration; [assumption|assumption|]. intros p. rewrite <- HE. apply append_duration_text.
  - destruct Hw as [[Hb Hl] Hcol]. apply any_scalar with (s := (SString s (nonzero collation))); [assumption| | |repeat constructor|wsz].
    + cbn. split; [assumption|]. split; [assumption|]. unfold nonzero. destruct (collation =? 0); [exact I|ints].
    + intros E _. apply (emits_any_string tag s collation Ht Hl). ints.
  - apply any_scalar with (s := (octets b (Some 3))); [assumption|apply octets_ok; [assumption|reflexivity]| |repeat constructor|wsz].
    intros E _. exact (emits_any_bytes tag b 3 Ht (go_bytes_len _ Hw) eq_refl).
  - destruct Hw as [Hb Hl]. apply any_scalar with (s := (SOctets s (Some 3))); [assumption|cbn; split; [assumption|]; split; [assumption|reflexivity]| |repeat constructor|wsz].
    intros E _. exact (emits_any_bytes_string tag s 3 Ht Hl eq_refl).
  - apply any_scalar with (s := (octets b (Some 2))); [assumption|apply octets_ok; [assumption|reflexivity]| |repeat constructor|wsz].
    intros E _. exact (emits_any_bytes tag b 2 Ht (go_bytes_len _ Hw) eq_refl).
  - destruct Hw as [Hb Hl]. apply any_scalar with (s := (SOctets s (Some 2))); [assumption|cbn; split; [assumption|]; split; [assumption|reflexivity]| |repeat constructor|wsz].
    intros E _. exact (emits_any_bytes_string tag s 2 Ht Hl eq_refl).
  - apply any_scalar with (s := (octets b (Some 1))); [assumption|apply octets_ok; [assumption|reflexivity]| |repeat constructor|wsz].
    intros E _. exact (emits_any_bytes tag b 1 Ht (go_bytes_len _ Hw) eq_refl).
  - apply outcome_error; [cbn; tauto|]. intros E HE p. do 2 eexists. split; [reflexivity|]; auto; try lia; try contradiction.
  - specialize (IHv Hw Hc). apply (outcome_ext _ _ _ _ _ _ _ _ (fun E p => type_switch v p tag)).
    { intros E _ p. destruct iface; [reflexivity|]. destruct v as [| | | | | | | | | | | | | | | | | | | | | | | | | | |[]]; reflexivity. }
    cbn [panic_free]. destruct IHv as [(x & bs & pl & H1 & H2)|H]; [|right; exact H].
    left. exists x, bs, pl. split; [apply A_ptr; assumption|assumption].
  - destruct any_method.
    + apply outcome_panic; [cbn; tauto || discriminate|reflexivity|]. cbn. intros [H _]. discriminate.
    + apply any_scalar with (s := SNull) (m := fun E p => Ok (append_any_null p tag)); [assumption|exact I| |apply A_nilptr|wsz].
      intros E _. apply emits_any_null. assumption.
  - destruct any_method as [u|].
    + apply outcome_user; [assumption|exact (proj1 Hw)| | | |intros H; exact H|cbn; lia].
      * intros x Hx. apply A_user. exact Hx.
      * intros H. exact (proj1 H).
      * intros _ [].
    + apply outcome_error; [cbn; tauto|]. intros E HE p. do 2 eexists. split; [reflexivity|]; auto; try lia; try contradiction.
Qed.

Lemma outcome_accept : forall {A} (dec : bytes -> option A) w tag D Q K (S S' : Prop) W f,
  (S' -> S) -> outcome dec w tag D Q K S W f -> outcome dec w tag D Q K S' W f.
Proof.
  intros A dec w tag D Q K S S' W f HS [H|[[H N]|H]]; [left; exact H|right; left; split; [exact H|auto]|right; right; exact H].
Qed.

Lemma any_outcome : forall w v tag, 0 < tag < 16 -> well_formed w v -> no_known_defect w v ->
  outcome dany w tag (any_denotes v) (panic_free v) False (arg_accepted v) (weight v) (fun E p => append_any v p tag).
Proof.
  intros w v tag Ht Hw Hc. destruct v; try (eapply outcome_accept; [|exact (any_outcome_switch w _ tag Ht Hw Hc)]; intros [H|H]; [discriminate|exact H]).
  apply any_scalar with (s := SNull) (m := fun E p => Ok (append_any_null p tag)); [assumption|exact I| |repeat constructor|wsz].
  intros E _. apply emits_any_null. assumption.
Qed.

(* ---- expressions ---- *)

(* Induction over values, function values and the lists of their parameters. *)
Section GvalueInd.
Variables (P : gvalue -> Prop) (Q : exprfun -> Prop).
Hypothesis Hleaf : forall v, match v with VFunc (Some _) | VPtr _ _ => False | _ => True end -> P v.
Hypothesis Hfunc : forall f, Q f -> P (VFunc (Some f)).
Hypothesis Hptr : forall i v, P v -> P (VPtr i v).
Hypothesis Hfleaf : forall f, match f with EOperator _ _ | ECall _ _ => False | _ => True end -> Q f.
Hypothesis Hoper : forall name ps, Forall P ps -> Q (EOperator name ps).
Hypothesis Hcall : forall name ps, Forall P ps -> Q (ECall name ps).

Fixpoint gvalue_deep (v : gvalue) : P v :=
  match v return P v with
  | VFunc (Some f) => Hfunc f (exprfun_deep f)
  | VPtr i v => Hptr i v (gvalue_deep v)
  | v => Hleaf v I
  end
with exprfun_deep (f : exprfun) : Q f :=
  match f return Q f with
  | EOperator name ps => Hoper name ps
      ((fix go ps : Forall P ps := match ps with [] => Forall_nil _ | v :: ps => Forall_cons _ (gvalue_deep v) (go ps) end) ps)
  | ECall name ps => Hcall name ps
      ((fix go ps : Forall P ps := match ps with [] => Forall_nil _ | v :: ps => Forall_cons _ (gvalue_deep v) (go ps) end) ps)
  | f => Hfleaf f I
  end.
End GvalueInd.

Lemma all_Forall : forall {A} (P : A -> Prop) l, all P l <-> Forall P l.
Proof.
  intros A P l. induction l as [|x l IH]; cbn; split; intros H.
  - constructor.
  - exact I.
  - destruct H. constructor; [assumption|]. apply IH. assumption.
  - inversion H; subst. split; [assumption|]. apply IH. assumption.
Qed.

Definition expr_goal (w : bool) (v : gvalue) : Prop := forall tag, 0 < tag < 16 -> well_formed w v -> no_known_defect w v ->
  outcome dexpr w tag (expr_denotes v) (panic_free v) True (expr_accepted v) (weight v) (fun E p => append_expr v p tag).
Definition fun_goal (w : bool) (f : exprfun) : Prop := forall tag, 0 < tag < 16 -> well_formed_fun w f -> no_known_defect_fun w f ->
  outcome dexpr w tag (fun_denotes f) (panic_free_fun f) True (fun_accepted f) (fun_weight f) (fun E p => run_fun f p tag).

Lemma params_outcomes : forall w ps tag, 0 < tag < 16 -> Forall (expr_goal w) ps -> all (well_formed w) ps -> all (no_known_defect w) ps ->
  forall wrap, outcomes dexpr w tag expr_denotes panic_free True expr_accepted weight ps (fun E p => each (fun v p => append_expr v p tag) wrap 0 ps p).
Proof.
  intros w ps tag Ht HP Hw Hc wrap. apply (each_outcomes dexpr w tag expr_denotes panic_free True expr_accepted weight (fun E v p => append_expr v p tag)).
  apply all_Forall in Hw. apply all_Forall in Hc. rewrite Forall_forall in *. intros v Hv.
  apply (HP v Hv tag Ht (Hw v Hv) (Hc v Hv)).
Qed.

(* Parameters followed by a header written in front of them. *)
Lemma headed_outcome : forall w tag (ps : list gvalue) (D : expr -> Prop) (f : enc) (hd : forall E : Env, slice -> nat -> res slice)
    (pure : bytes -> bytes) (mkx : list expr -> expr) (extra : N),
  outcomes dexpr w 2 expr_denotes panic_free True expr_accepted weight ps f ->
  (forall b, nlen b < 2 ^ 62 -> nlen (pure b) <= extra + nlen b) ->
  (forall E a b sp, nlen b < 2 ^ 62 -> exists sp', hd E (mk (a ++ b) sp) (length a) = Ok (mk (a ++ pure b) sp')) ->
  (forall E p i q, hd E p i = Ok q -> (len p <= len q)%nat) ->
  (forall b pls es, nlen b < 2 ^ 62 -> reads b (lens 2 pls) -> Forall2 (fun pl e => dexpr pl = Some e) pls es ->
     exists payload, reads (pure b) [(tag, WLen payload)] /\ dexpr payload = Some (mkx es)) ->
  (forall es, Forall2 expr_denotes ps es -> D (mkx es)) ->
  outcome dexpr w tag D (all panic_free ps) True (all expr_accepted ps) (extra + total_weight weight ps)
    (fun E p => do (q, e) <- f E p; match e with Some e => Ok (q, Some e) | None => okm (hd E q (len p)) end).
Proof.
  intros w tag ps D f hd pure mkx extra Hf Hsz Hhd Hlen Hpure HD.
  destruct Hf as [(es & bs & pls & F1 & F2 & F3 & F5 & F4)|[[[F1 F2] HS]|[F HW]]].
  - destruct (N.lt_ge_cases (nlen bs) (2 ^ 62)) as [Hl|Hl].
    + destruct (Hpure bs pls es Hl F2 F3) as (pl & R1 & R2).
      assert (Hg : good w (fun E p => do (q, e) <- f E p; match e with Some e => Ok (q, Some e) | None => okm (hd E q (len p)) end) (pure bs)).
      { intros E HE p. destruct (F4 E HE p) as [sp Hp]. rewrite Hp. cbn [bind].
        destruct (Hhd E (data p) bs sp Hl) as [sp' Hq]. exists sp'. unfold okm, len. rewrite Hq. reflexivity. }
      destruct (N.lt_ge_cases (nlen (pure bs)) (2 ^ 62)) as [Hl2|Hl2].
      * left. exists (mkx es), (pure bs), pl. split; [apply HD; assumption|]. repeat (split; [assumption|]). specialize (Hsz bs Hl). split; [split; [assumption|lia]|]. exact Hg.
      * right. right. specialize (Hsz bs Hl). split; [|lia]. intros E HE p q H. destruct (Hg E HE p) as [sp Hp]. rewrite Hp in H. injection H as <-.
        unfold len. cbn [data]. rewrite app_length, nlen_app. split; lia.
    + right. right. split; [|lia]. intros E HE p q H. destruct (F4 E HE p) as [sp Hp]. rewrite Hp in H. cbn [bind] in H. unfold okm in H.
      destruct (hd E _ _) as [q'|] eqn:Hq; [|discriminate]. injection H as <-. apply Hlen in Hq.
      unfold len, nlen in *. cbn [data] in *. rewrite app_length in Hq. split; lia.
  - right. left. split; [|exact HS]. split.
    + intros E HE p q. specialize (F1 E HE p). destruct (f E p) as [[q' [e|]]|]; cbn [bind]; try discriminate.
      exfalso. apply (F1 q'). reflexivity.
    + intros Hq E HE p. destruct (F2 Hq E HE p) as (q & e & -> & Hl). cbn [bind]. eauto.
  - right. right. split; [|lia]. intros E HE p q H. specialize (F E HE p). destruct (f E p) as [[q' [e|]]|]; cbn [bind] in H; try discriminate.
    destruct (F q' eq_refl) as [L1 L2]. unfold okm in H. destruct (hd E q' (len p)) as [q2|] eqn:Hq; [|discriminate].
    injection H as <-. apply Hlen in Hq. unfold len, nlen in *. split; lia.
Qed.

Lemma nlen_poper : forall tag name ps, nlen name < 2 ^ 62 -> nlen ps < 2 ^ 62 -> nlen (poper tag name ps) <= 512 + nlen name + nlen ps.
Proof.
  intros tag name ps Hn Hp. unfold poper. pose proof (nlen_plen 1 name ltac:(lia)). pose proof (nlen_app (plen 1 name) ps).
  pose proof (nlen_plen 6 (plen 1 name ++ ps) ltac:(lia)). pose proof (nlen_pvar 1 5 ltac:(lia)).
  pose proof (nlen_app (pvar 1 5) (plen 6 (plen 1 name ++ ps))). pose proof (nlen_plen tag (pvar 1 5 ++ plen 6 (plen 1 name ++ ps)) ltac:(lia)). lia.
Qed.
Lemma nlen_pcall : forall tag name ps, nlen name < 2 ^ 62 -> nlen ps < 2 ^ 62 -> nlen (pcall tag name ps) <= 512 + nlen name + nlen ps.
Proof.
  intros tag name ps Hn Hp. unfold pcall. pose proof (nlen_plen 1 name ltac:(lia)). pose proof (nlen_plen 1 (plen 1 name) ltac:(lia)).
  pose proof (nlen_app (plen 1 (plen 1 name)) ps).
  pose proof (nlen_plen 5 (plen 1 (plen 1 name) ++ ps) ltac:(lia)). pose proof (nlen_pvar 1 4 ltac:(lia)).
  pose proof (nlen_app (pvar 1 4) (plen 5 (plen 1 (plen 1 name) ++ ps))). pose proof (nlen_plen tag (pvar 1 4 ++ plen 5 (plen 1 (plen 1 name) ++ ps)) ltac:(lia)). lia.
Qed.
Lemma nlen_plen_after : forall tag a t b, a < 2 ^ 64 -> nlen b < 2 ^ 63 -> nlen (plen tag (pvar 1 a ++ plen t b)) <= 64 + nlen b.
Proof.
  intros tag a t b Ha Hb. pose proof (nlen_pvar 1 a Ha). pose proof (nlen_plen t b ltac:(lia)). pose proof (nlen_app (pvar 1 a) (plen t b)).
  pose proof (nlen_plen tag (pvar 1 a ++ plen t b) ltac:(lia)). lia.
Qed.

Lemma fun_leaf : forall w f, match f with EOperator _ _ | ECall _ _ => False | _ => True end -> fun_goal w f.
Proof.
  intros w f Hf tag Ht Hw Hc. destruct f as [name|name ps|name ps|name|pos|u]; try contradiction; cbn [run_fun].
  - destruct Hw as [Hb Hl]. destruct (pcolumn_ok tag name Ht Hb Hl) as (pl & Hr & Hd).
    apply (outcome_emits dexpr w tag _ _ _ _ _ _ (XColumn name) (pcolumn tag name) pl); [|constructor|exact Hr|exact Hd|cbn [fun_weight]].
    + intros E _. apply emits_expr_column; assumption.
    + unfold pcolumn. pose proof (nlen_plen 2 name ltac:(lia)). pose proof (nlen_plen_after tag 1 2 (plen 2 name) ltac:(lia) ltac:(lia)). lia.
  - destruct Hw as [Hb Hl]. destruct (pvariable_ok tag name Ht Hb Hl) as (pl & Hr & Hd).
    apply (outcome_emits dexpr w tag _ _ _ _ _ _ (XVariable name) (pvariable tag name) pl); [|constructor|exact Hr|exact Hd|cbn [fun_weight]].
    + intros E _. apply emits_expr_variable; assumption.
    + unfold pvariable. pose proof (nlen_plen_after tag 3 3 name ltac:(lia) ltac:(lia)). lia.
  - destruct (pplaceholder_ok tag pos Ht Hw) as (pl & Hr & Hd).
    apply (outcome_emits dexpr w tag _ _ _ _ _ _ (XPlaceholder pos) (pplaceholder tag pos) pl); [|constructor|exact Hr|exact Hd|cbn [fun_weight]].
    + intros E _. apply emits_expr_placeholder; assumption.
    + unfold pplaceholder. cbn [well_formed_fun] in Hw. unfold in_uint in Hw. pose proof (nlen_pvar 1 6 ltac:(lia)). pose proof (nlen_pvar 7 pos ltac:(lia)).
      pose proof (nlen_app (pvar 1 6) (pvar 7 pos)). pose proof (nlen_plen tag (pvar 1 6 ++ pvar 7 pos) ltac:(lia)). lia.
  - apply outcome_user; [assumption|exact Hw| | | |intros H; exact H|cbn; lia].
    + intros x Hx. apply F_user. exact Hx.
    + intros H p t Hp. destruct (H p t) as (q & e & Hq & _). congruence.
    + intros H _. exact H.
Qed.

Lemma value_leaf : forall w v, match v with VFunc (Some _) | VPtr _ _ => False | _ => True end -> expr_goal w v.
Proof.
  intros w v Hv tag Ht Hw Hc.
  destruct v as [|z|z|z|z|z|n|n|n|n|n|s|b|b|bits|bits|t|d|s collation|b|s|b|s|b|[f|]|i v|a e|a e];
    try contradiction; cbn [well_formed] in Hw; cbn [append_expr expr_method].
  - apply expr_scalar with (s := SNull) (m := fun E p => Ok (append_expr_null p tag)); [assumption|exact I| |repeat constructor|wsz].
    intros E _. apply emits_expr_null. assumption.
  - apply expr_scalar with (s := SSint z); [assumption|destruct w; ints| |repeat constructor|wsz]. intros E _. apply emits_expr_int64; [assumption|destruct w; ints].
  - apply expr_scalar with (s := SSint z); [assumption|ints| |repeat constructor|wsz]. intros E _. apply emits_expr_int64; [assumption|ints].
  - apply expr_scalar with (s := SSint z); [assumption|ints| |repeat constructor|wsz]. intros E _. apply emits_expr_int64; [assumption|ints].
  - apply expr_scalar with (s := SSint z); [assumption|ints| |repeat constructor|wsz]. intros E _. apply emits_expr_int64; [assumption|ints].
  - apply expr_scalar with (s := SSint z); [assumption|ints| |repeat constructor|wsz]. intros E _. apply emits_expr_int64; [assumption|ints].
  - apply expr_scalar with (s := SUint n); [assumption|destruct w; ints| |repeat constructor|wsz]. intros E _. apply emits_expr_uint64; [assumption|destruct w; ints].
  - apply expr_scalar with (s := SUint n); [assumption|ints| |repeat constructor|wsz]. intros E _. apply emits_expr_uint64; [assumption|ints].
  - apply expr_scalar with (s := SUint n); [assumption|ints| |repeat constructor|wsz]. intros E _. apply emits_expr_uint64; [assumption|ints].
  - apply expr_scalar with (s := SUint n); [assumption|ints| |repeat constructor|wsz]. intros E _. apply emits_expr_uint64; [assumption|ints].
  - apply expr_scalar with (s := SUint n); [assumption|ints| |repeat constructor|wsz]. intros E _. apply emits_expr_uint64; [assumption|ints].
  - destruct Hw as [Hb Hl]. apply expr_scalar with (s := SString s None); [assumption|cbn; auto| |repeat constructor|wsz].
    intros E _. exact (emits_expr_string tag s 0 Ht Hl eq_refl).
  - apply expr_scalar with (s := octets b None); [assumption|apply octets_ok; auto| |repeat constructor|wsz].
    intros E _. exact (emits_expr_bytes tag b 0 Ht (go_bytes_len _ Hw) eq_refl).
  - apply expr_scalar with (s := SBool b) (m := fun E p => Ok (append_expr_bool p tag b)); [assumption|exact I| |repeat constructor|wsz].
    intros E _. apply emits_expr_bool. assumption.
  - apply expr_scalar with (s := SFloat bits) (m := fun E p => Ok (append_expr_float32 p tag bits)); [assumption|ints| |repeat constructor|wsz].
    intros E _. apply emits_expr_float32. assumption.
  - apply expr_scalar with (s := SDouble bits) (m := fun E p => Ok (append_expr_float64 p tag bits)); [assumption|ints| |repeat constructor|wsz].
    intros E _. apply emits_expr_float64. assumption.
  - destruct (format_time_ok t Hw) as (T1 & T2 & T3).
    apply expr_scalar with (s := SOctets (format_time t) None); [assumption| | |constructor; constructor; assumption|wsz].
    + cbn. split; [assumption|]. split; [lia|exact I].
    + intros E _. apply emits_expr_time; assumption.
  - destruct Hc as [C1 C2]. destruct (clean_duration w d Hw C1 C2) as (D1 & D2 & D3).
    apply expr_scalar with (s := SOctets (duration_text w d) None); [assumption|assumption| |constructor; constructor; assumption|wsz].
    intros E HE. apply emits_expr_duration; [assumption|assumption|]. intros p. rewrite <- HE. apply append_duration_text.
  - destruct Hw as [[Hb Hl] Hcol]. apply expr_scalar with (s := SString s (nonzero collation)); [assumption| | |repeat constructor|wsz].
    + cbn. split; [assumption|]. split; [assumption|]. unfold nonzero. destruct (collation =? 0); [exact I|ints].
    + intros E _. apply (emits_expr_string tag s collation Ht Hl). ints.
  - apply expr_scalar with (s := octets b (Some 3)); [assumption|apply octets_ok; [assumption|reflexivity]| |repeat constructor|wsz].
    intros E _. exact (emits_expr_bytes tag b 3 Ht (go_bytes_len _ Hw) eq_refl).
  - destruct Hw as [Hb Hl]. apply expr_scalar with (s := SOctets s (Some 3)); [assumption|cbn; split; [assumption|]; split; [assumption|reflexivity]| |repeat constructor|wsz].
    intros E _. exact (emits_expr_bytes_string tag s 3 Ht Hl eq_refl).
  - apply expr_scalar with (s := octets b (Some 2)); [assumption|apply octets_ok; [assumption|reflexivity]| |repeat constructor|wsz].
    intros E _. exact (emits_expr_bytes tag b 2 Ht (go_bytes_len _ Hw) eq_refl).
  - destruct Hw as [Hb Hl]. apply expr_scalar with (s := SOctets s (Some 2)); [assumption|cbn; split; [assumption|]; split; [assumption|reflexivity]| |repeat constructor|wsz].
    intros E _. exact (emits_expr_bytes_string tag s 2 Ht Hl eq_refl).
  - apply expr_scalar with (s := octets b (Some 1)); [assumption|apply octets_ok; [assumption|reflexivity]| |repeat constructor|wsz].
    intros E _. exact (emits_expr_bytes tag b 1 Ht (go_bytes_len _ Hw) eq_refl).
  - apply outcome_panic; [cbn; tauto || discriminate|reflexivity|]. intros H. exact H.
  - destruct e.
    + apply outcome_panic; [cbn; tauto || discriminate|reflexivity|]. cbn. intros [_ H]. discriminate.
    + apply outcome_error; [cbn; tauto|]. intros E HE p. do 2 eexists. split; [reflexivity|]; auto; try lia; try contradiction.
  - destruct e as [u|].
    + apply outcome_user; [assumption|exact (proj2 Hw)| | | |intros H; exact H|cbn; lia].
      * intros x Hx. apply E_user. exact Hx.
      * intros [_ H] p t Hp. destruct (H p t) as (q & e & Hq & _). congruence.
      * intros H _. exact (proj2 H).
    + apply outcome_error; [cbn; tauto|]. intros E HE p. do 2 eexists. split; [reflexivity|]; auto; try lia; try contradiction.
Qed.

Lemma outcome_weaken : forall {A} (dec : bytes -> option A) w tag (D D' : A -> Prop) Q K S W f,
  (forall x, D x -> D' x) -> outcome dec w tag D Q K S W f -> outcome dec w tag D' Q K S W f.
Proof.
  intros A dec w tag D D' Q K S W f HD [(x & bs & pl & H1 & H2)|H]; [|right; exact H].
  left. exists x, bs, pl. split; [apply HD; exact H1|exact H2].
Qed.

Lemma expr_outcomes_all : forall w, (forall v, expr_goal w v) /\ (forall f, fun_goal w f).
Proof.
  intros w.
  assert (Hfunc : forall f, fun_goal w f -> expr_goal w (VFunc (Some f))).
  { intros f Hf tag Ht Hw Hc. exact (outcome_weaken _ _ _ _ _ _ _ _ _ _ (E_func f) (Hf tag Ht Hw Hc)). }
  assert (Hptr : forall i v, expr_goal w v -> expr_goal w (VPtr i v)).
  { intros i v Hv tag Ht Hw Hc. specialize (Hv tag Ht Hw Hc). cbn [append_expr panic_free].
    destruct i; [apply outcome_error; [cbn; tauto|intros E HE p; do 2 eexists; split; [reflexivity|]; auto; lia]|].
    destruct v as [|z|z|z|z|z|n|n|n|n|n|s|b|b|bits|bits|t|d|s collation|b|s|b|s|b|f|i v|a e|a [e|]];
      cbn [expr_method]; try (apply outcome_error; [cbn; tauto|intros E HE p; do 2 eexists; split; [reflexivity|]; auto; lia]; fail);
      exact (outcome_weaken _ _ _ _ _ _ _ _ _ _ (E_ptr false _) Hv). }
  assert (Hoper : forall name ps, Forall (expr_goal w) ps -> fun_goal w (EOperator name ps)).
  { intros name ps Hps tag Ht [[Hb Hn] Hw] Hc. cbn [run_fun panic_free_fun].
    apply (headed_outcome w tag ps _ (fun E p => each (fun v p => append_expr v p tagOperatorParam) EParam 0 ps p)
      (fun E p i => operator_header p i tag name) (poper tag name) (XOperator name) (512 + nlen name)).
    - apply params_outcomes; try assumption. unfold tagOperatorParam. lia.
    - intros b Hl. apply nlen_poper; assumption.
    - intros E a b sp Hl. apply operator_header_ok; assumption.
    - intros E p i q. apply operator_header_len.
    - intros b pls es Hl Hr He. apply (poper_ok tag name b pls es); assumption.
    - intros es He. apply F_operator. exact He. }
  assert (Hcall : forall name ps, Forall (expr_goal w) ps -> fun_goal w (ECall name ps)).
  { intros name ps Hps tag Ht [[Hb Hn] Hw] Hc. cbn [run_fun panic_free_fun].
    apply (headed_outcome w tag ps _ (fun E p => each (fun v p => append_expr v p tagFunctionCallParam) EParam 0 ps p)
      (fun E p i => call_header p i tag name) (pcall tag name) (XCall name) (512 + nlen name)).
    - apply params_outcomes; try assumption. unfold tagFunctionCallParam. lia.
    - intros b Hl. apply nlen_pcall; assumption.
    - intros E a b sp Hl. apply call_header_ok; assumption.
    - intros E p i q. apply call_header_len.
    - intros b pls es Hl Hr He. apply (pcall_ok tag name b pls es); assumption.
    - intros es He. apply F_call. exact He. }
  split.
  - exact (gvalue_deep _ _ (value_leaf w) Hfunc Hptr (fun_leaf w) Hoper Hcall).
  - exact (exprfun_deep _ _ (value_leaf w) Hfunc Hptr (fun_leaf w) Hoper Hcall).
Qed.

Lemma expr_outcome : forall w v tag, 0 < tag < 16 -> well_formed w v -> no_known_defect w v ->
  outcome dexpr w tag (expr_denotes v) (panic_free v) True (expr_accepted v) (weight v) (fun E p => append_expr v p tag).
Proof. intros w v. exact (proj1 (expr_outcomes_all w) v). Qed.

Lemma fun_outcome : forall w f tag, 0 < tag < 16 -> well_formed_fun w f -> no_known_defect_fun w f ->
  outcome dexpr w tag (fun_denotes f) (panic_free_fun f) True (fun_accepted f) (fun_weight f) (fun E p => run_fun f p tag).
Proof. intros w f. exact (proj2 (expr_outcomes_all w) f). Qed.
