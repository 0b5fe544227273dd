(* Proofs about MemRead: the buffered reader over memory reads the same stream. *)
From Coq Require Import List NArith ZArith Arith Bool Lia ZifyN ZifyNat ZifyBool.
From Verif Require Import Base SpecWire SpecUnit Conn SpecReply ConnProofs MemRead SpecRead.
Import ListNotations.
Open Scope N_scope.

(* ---- arrays ---- *)
Lemma nlen_put : forall i d b, i + nlen d <= nlen b -> nlen (put i d b) = nlen b.
Proof. intros i d b H. unfold put. rewrite !nlen_app, nlen_firstN, nlen_skipN. lia. Qed.
Lemma firstN_all : forall n l, nlen l <= n -> firstN n l = l.
Proof. intros n l H. unfold firstN, nlen in *. apply firstn_all2. lia. Qed.
Lemma sub_skip_first : forall r w b, r <= w -> sub r (w - r) b = skipN r (firstN w b).
Proof.
  intros r w b H. unfold sub, firstN, skipN. rewrite skipn_firstn_comm. f_equal. lia.
Qed.
Lemma first_put : forall i d b, i + nlen d <= nlen b -> firstN (i + nlen d) (put i d b) = firstN i b ++ d.
Proof.
  intros i d b H. unfold put. rewrite app_assoc, firstN_app1 by (rewrite nlen_app, nlen_firstN; lia). apply firstN_all. rewrite nlen_app, nlen_firstN. lia.
Qed.
Lemma sub_put_more : forall r w d b, r <= w -> w + nlen d <= nlen b -> sub r (w + nlen d - r) (put w d b) = sub r (w - r) b ++ d.
Proof.
  intros r w d b H1 H2. rewrite !sub_skip_first by lia. rewrite first_put by lia. rewrite skipN_app1; [reflexivity|]. rewrite nlen_firstN. lia.
Qed.
Lemma sub_put_0 : forall d b, nlen d <= nlen b -> sub 0 (nlen d) (put 0 d b) = d.
Proof. intros d b H. unfold sub. rewrite skipN_0. pose proof (first_put 0 d b ltac:(lia)) as F. rewrite N.add_0_l in F. exact F. Qed.
Lemma nlen_sub : forall i n b, i + n <= nlen b -> nlen (sub i n b) = n.
Proof. intros. unfold sub. rewrite nlen_firstN, nlen_skipN. lia. Qed.
Lemma sub_first : forall i m n b, m <= n -> firstN m (sub i n b) = sub i m b.
Proof. intros. unfold sub, firstN. rewrite firstn_firstn. f_equal. lia. Qed.
Lemma sub_skip : forall i m n b, m <= n -> skipN m (sub i n b) = sub (i + m) (n - m) b.
Proof. intros i m n b H. unfold sub. rewrite <- skipN_add. unfold firstN, skipN. rewrite skipn_firstn_comm. f_equal. lia. Qed.

(* ---- the net.Conn ---- *)
Lemma stall_tail : forall c cs (a z : list bytes), cs = a ++ repeat [] 100 ++ z -> c :: cs = (c :: a) ++ repeat [] 100 ++ z.
Proof. intros. subst. reflexivity. Qed.

Lemma src_read_spec : forall room s d e s', 0 < room -> src_read room s = ((d, e), s') ->
  d ++ src_bytes s' = src_bytes s /\ nlen d <= room /\ fails_with s' = fails_with s /\
  (never_stalls s -> never_stalls s') /\
  match e with
  | Some e => e = fails_with s /\ exhausted s'
  | None => (nlen d = 0 -> chunks s = [] :: chunks s') /\ (nlen d < room -> (length (chunks s') < length (chunks s))%nat) /\ (length (chunks s') <= length (chunks s))%nat
  end.
Proof.
  intros room s d e s' R H. unfold src_read in H. unfold src_bytes, exhausted, never_stalls. destruct (chunks s) as [|c cs] eqn:E.
  - destruct (N.leb_spec (nlen (final_chunk s)) room) as [L|L]; apply pair_equal_spec in H; destruct H as [H <-]; apply pair_equal_spec in H; destruct H as [<- <-]; cbn [chunks final_chunk fails_with concat app].
    + rewrite app_nil_r. intuition.
    + rewrite firstN_skipN, nlen_firstN. split; [reflexivity|]. split; [lia|]. split; [reflexivity|]. split; [auto|]. split; [lia|]. split; [lia|cbn; lia].
  - destruct (N.leb_spec (nlen c) room) as [L|L]; apply pair_equal_spec in H; destruct H as [H <-]; apply pair_equal_spec in H; destruct H as [<- <-]; cbn [chunks final_chunk fails_with concat length].
    + rewrite app_assoc. split; [reflexivity|]. split; [exact L|]. split; [reflexivity|]. split; [|split; [|split; lia]].
      * intros N a z F. apply (N (c :: a) z). cbn. f_equal. exact F.
      * intros Z. destruct c; [reflexivity|unfold nlen in Z; cbn in Z; lia].
    + rewrite !app_assoc, firstN_skipN, nlen_firstN. split; [reflexivity|]. split; [lia|]. split; [reflexivity|]. split; [|split; [lia|split; lia]].
      intros N a z F. destruct a as [|x a].
      * cbn in F. injection F as F _. assert (nlen (skipN room c) = 0) by (rewrite F; reflexivity). rewrite nlen_skipN in H. lia.
      * cbn in F. injection F as F1 F2. apply (N (c :: a) z). cbn. f_equal. exact F2.
Qed.

(* What every operation keeps. *)
Definition kept_ok (b : bufrd) : Prop :=
  forall e, kept b = Some e -> (e = fails_with (src b) /\ exhausted (src b)) \/ e = no_progress.

Lemma pending_eq : forall b, pending b = sub (pos_r b) (buffered b) (buf b) ++ src_bytes (src b).
Proof. reflexivity. Qed.

Lemma exhausted_bytes : forall s, exhausted s <-> src_bytes s = [].
Proof.
  intros s. unfold exhausted, src_bytes. split; [intros [-> ->]; reflexivity|]. intros H. apply app_eq_nil in H. exact H.
Qed.

(* How a reader changes: the same bytes are pending, and a calm one stays calm. *)
Definition goes_to (b b' : bufrd) : Prop :=
  well_formed b' /\ fails_with (src b') = fails_with (src b) /\ (calm b -> calm b').
Lemma goes_trans : forall a b c, goes_to a b -> goes_to b c -> goes_to a c.
Proof. unfold goes_to. intros a b c (A1 & A2 & A3) (B1 & B2 & B3). split; [exact B1|]. split; [congruence|auto]. Qed.
Lemma goes_refl : forall a, well_formed a -> goes_to a a.
Proof. unfold goes_to. auto. Qed.

Lemma repeat_shift : forall {A} (x : A) n l, repeat x n ++ x :: l = x :: repeat x n ++ l.
Proof. induction n; intros; cbn; [reflexivity|]. f_equal. apply IHn. Qed.

Lemma fill_loop_spec : forall i b, well_formed b -> kept b = None -> pos_w b < 4096 ->
  let b' := fill_loop i b in
  well_formed b' /\ fails_with (src b') = fails_with (src b) /\ pending b' = pending b /\
  (never_stalls (src b) -> never_stalls (src b')) /\
  ((kept b' = None /\ (length (src_bytes (src b')) < length (src_bytes (src b)))%nat) \/
   (kept b' = Some (fails_with (src b)) /\ exhausted (src b')) \/
   (kept b' = Some no_progress /\ chunks (src b) = repeat [] i ++ chunks (src b'))).
Proof.
  induction i as [|i IH]; intros b W K P; cbn [fill_loop].
  - destruct W as (W1 & W2 & W3). cbv zeta. cbn [kept src fails_with]. repeat split; auto; cbn [buf pos_r pos_w kept src]; try assumption; try lia.
    + intros e He. injection He as <-. auto.
  - destruct (src_read (nlen (buf b) - pos_w b) (src b)) as [[d e] s] eqn:E. cbv zeta.
    destruct W as (W1 & W2 & W3). assert (RM : 0 < nlen (buf b) - pos_w b) by lia. pose proof (src_read_spec _ _ _ _ _ RM E) as (A & B & C & D & F). rewrite W1 in B.
    assert (PEND : forall k, pending (mkb (put (pos_w b) d (buf b)) (pos_r b) (pos_w b + nlen d) k s) = pending b).
    { intros k. rewrite !pending_eq. unfold buffered. cbn [buf pos_r pos_w src]. rewrite sub_put_more by lia. rewrite <- app_assoc, A. reflexivity. }
    assert (LEN : nlen (put (pos_w b) d (buf b)) = 4096) by (rewrite nlen_put by lia; exact W1).
    destruct e as [e|].
    + destruct F as [-> F]. cbn [buf pos_r pos_w kept src]. split; [|split; [exact C|split; [apply PEND|split; [exact D|]]]].
      * unfold well_formed. cbn [buf pos_r pos_w kept src]. split; [exact LEN|]. split; [lia|]. intros e He. injection He as <-. left. split; [symmetry; exact C|exact F].
      * right. left. split; [reflexivity|exact F].
    + destruct F as (F1 & F2 & F3). destruct (N.ltb_spec 0 (nlen d)) as [L|L].
      * cbn [buf pos_r pos_w kept src]. split; [|split; [exact C|split; [apply PEND|split; [exact D|]]]].
        -- unfold well_formed. cbn [buf pos_r pos_w kept src]. rewrite K. split; [exact LEN|]. split; [lia|]. discriminate.
        -- left. split; [exact K|]. rewrite <- A, app_length. unfold nlen in L. lia.
      * assert (Z : nlen d = 0) by lia. specialize (F1 Z).
        set (b1 := mkb (put (pos_w b) d (buf b)) (pos_r b) (pos_w b + nlen d) (kept b) s).
        assert (Wb : well_formed b1).
        { unfold well_formed, b1. cbn [buf pos_r pos_w kept src]. rewrite K. split; [exact LEN|]. split; [lia|]. discriminate. }
        destruct (IH b1 Wb K ltac:(cbn; lia)) as (I1 & I2 & I3 & I4 & I5).
        assert (SB : src_bytes (src b1) = src_bytes (src b)).
        { cbn [src b1]. rewrite <- A. destruct d; [reflexivity|unfold nlen in Z; cbn in Z; lia]. }
        change (src b1) with s in *. split; [exact I1|]. split; [congruence|]. split; [rewrite I3; apply PEND|]. split; [auto|].
        rewrite SB in I5. rewrite C in I5. destruct I5 as [I5|[I5|[I5 I6]]]; auto. right. right. split; [exact I5|]. rewrite F1, I6. reflexivity.
Qed.

Lemma fill_loop_eq : forall i b b', well_formed b -> kept b = None -> pos_w b < 4096 -> fill_loop i b = b' ->
  well_formed b' /\ fails_with (src b') = fails_with (src b) /\ pending b' = pending b /\
  (never_stalls (src b) -> never_stalls (src b')) /\
  ((kept b' = None /\ (length (src_bytes (src b')) < length (src_bytes (src b)))%nat) \/
   (kept b' = Some (fails_with (src b)) /\ exhausted (src b')) \/
   (kept b' = Some no_progress /\ chunks (src b) = repeat [] i ++ chunks (src b'))).
Proof. intros i b b' W K P <-. exact (fill_loop_spec i b W K P). Qed.

(* What filling does. *)
Definition filled (b b' : bufrd) : Prop :=
  goes_to b b' /\ pending b' = pending b /\
  ((kept b' = None /\ (length (src_bytes (src b')) < length (src_bytes (src b)))%nat) \/ exists e, kept b' = Some e).

Lemma slide_spec : forall b, well_formed b -> kept b = None -> buffered b < 4096 ->
  well_formed (slide b) /\ kept (slide b) = None /\ pos_w (slide b) < 4096 /\ src (slide b) = src b /\ pending (slide b) = pending b.
Proof.
  intros b (W1 & W2 & W3) K P. unfold slide, buffered in *. destruct (N.ltb_spec 0 (pos_r b)) as [L|L].
  - assert (S : nlen (sub (pos_r b) (pos_w b - pos_r b) (buf b)) = pos_w b - pos_r b) by (apply nlen_sub; lia).
    assert (LEN : nlen (put 0 (sub (pos_r b) (pos_w b - pos_r b) (buf b)) (buf b)) = 4096) by (rewrite nlen_put by lia; exact W1).
    split; [|split; [exact K|split; [cbn [pos_w]; lia|split; [reflexivity|]]]].
    + unfold well_formed. cbn [buf pos_r pos_w kept src]. split; [exact LEN|]. split; [lia|exact W3].
    + rewrite !pending_eq. unfold buffered. cbn [buf pos_r pos_w kept src]. f_equal. rewrite N.sub_0_r.
      rewrite <- S at 1. apply sub_put_0. lia.
  - split; [exact (conj W1 (conj W2 W3))|]. split; [exact K|]. split; [lia|]. auto.
Qed.

Lemma fill_loop_filled : forall i b b1, i = 100%nat -> well_formed b1 -> kept b1 = None -> pos_w b1 < 4096 -> src b1 = src b -> pending b1 = pending b ->
  filled b (fill_loop i b1).
Proof.
  intros i b b1 I H1 H2 H3 H4 H5. destruct (fill_loop_spec i b1 H1 H2 H3) as (A & B & C & D & E).
  rewrite H4 in B, D, E. set (b' := fill_loop i b1) in *. clearbody b'.
  assert (G : calm b -> calm b').
  { intros [C1 C2]. split; [auto|]. destruct E as [[E _]|[[E E']|[E E']]]; [auto|rewrite B; auto|]. exfalso. rewrite I in E'. apply (C1 [] (chunks (src b'))). exact E'. }
  split; [split; [exact A|split; [exact B|exact G]]|]. split; [congruence|]. destruct E as [E|[[E _]|[E _]]]; eauto.
Qed.

Lemma m_fill_spec : forall b, well_formed b -> kept b = None -> buffered b < 4096 -> exists b', m_fill b = Ok b' /\ filled b b'.
Proof.
  intros b W K P. destruct (slide_spec b W K P) as (H1 & H2 & H3 & H4 & H5). unfold m_fill. cbv zeta. set (b1 := slide b) in *. clearbody b1.
  pose proof H1 as (H6 & _). destruct (N.leb_spec (nlen (buf b1)) (pos_w b1)) as [L|L]; [lia|].
  exists (fill_loop max_empty b1). split; [reflexivity|]. apply fill_loop_filled; auto.
Qed.

(* The loop of Peek. *)
Lemma peek_loop_spec : forall k n b, well_formed b -> (length (src_bytes (src b)) < k)%nat ->
  exists b', peek_loop k n b = Ok b' /\ goes_to b b' /\ pending b' = pending b /\
    (n <= buffered b' \/ buffered b' = 4096 \/ exists e, kept b' = Some e).
Proof.
  induction k as [|k IH]; intros n b W L; [lia|]. cbn [peek_loop]. pose proof W as (W1 & W2 & W3). rewrite W1.
  destruct (N.ltb_spec (buffered b) n) as [A|A]; cbn [andb]; [|exists b; split; [reflexivity|]; split; [apply goes_refl; exact W|]; auto].
  destruct (N.ltb_spec (buffered b) 4096) as [B|B]; cbn [andb].
  2:{ exists b. split; [reflexivity|]. split; [apply goes_refl; exact W|]. split; [reflexivity|]. right. left. unfold buffered in *. lia. }
  destruct (kept b) as [e|] eqn:K.
  - exists b. split; [reflexivity|]. split; [apply goes_refl; exact W|]. split; [reflexivity|]. eauto.
  - destruct (m_fill_spec b W K B) as (b1 & -> & G & P & F). cbn [bind].
    destruct F as [[F1 F2]|[e F]].
    + destruct (IH n b1 ltac:(apply G) ltac:(lia)) as (b2 & -> & G2 & P2 & X). exists b2. split; [reflexivity|]. split; [eapply goes_trans; eauto|]. split; [congruence|exact X].
    + assert (Q : peek_loop k n b1 = Ok b1). { destruct k; cbn [peek_loop]; rewrite F; rewrite !andb_false_r; reflexivity. }
      rewrite Q. exists b1. split; [reflexivity|]. split; [exact G|]. split; [exact P|]. right. right. exists e. exact F.
Qed.

Lemma buffered_pending : forall b, well_formed b -> nlen (pending b) = buffered b + nlen (src_bytes (src b)) /\
  forall n, n <= buffered b -> firstN n (pending b) = sub (pos_r b) n (buf b).
Proof.
  intros b (W1 & W2 & W3). rewrite pending_eq. assert (S : nlen (sub (pos_r b) (buffered b) (buf b)) = buffered b) by (apply nlen_sub; unfold buffered; lia).
  split; [rewrite nlen_app, S; reflexivity|]. intros n L. rewrite firstN_app1 by lia. apply sub_first. exact L.
Qed.

(* What the errors that are returned can be. *)
Definition failing (b : bufrd) (e : ioerr) (right : Prop) : Prop :=
  (e = fails_with (src b) /\ right \/ e = no_progress) /\ (calm b -> e = fails_with (src b) /\ right).

Lemma m_peek_spec : forall n b, well_formed b -> 0 < n ->
  exists x b', m_peek n b = Ok (x, b') /\ goes_to b b' /\ pending b' = pending b /\
    match x with
    | PGot s => n <= 4096 /\ s = Buffered (pos_r b') n /\ n <= buffered b' /\ n <= nlen (pending b)
    | PFull => 4096 < n
    | PFailed e => n <= 4096 /\ failing b e (nlen (pending b) < n)
    end.
Proof.
  intros n b W N0. unfold m_peek. destruct (peek_loop_spec (S (length (src_bytes (src b)))) n b W ltac:(lia)) as (b1 & -> & G & P & X). cbn [bind].
  pose proof G as (G1 & G2 & G3). pose proof G1 as (W1 & W2 & W3). rewrite W1. pose proof (buffered_pending b1 G1) as [L _]. rewrite P in L.
  destruct (N.ltb_spec 4096 n) as [A|A]; [exists PFull, b1; auto|]. destruct (N.ltb_spec (buffered b1) n) as [B|B].
  - destruct X as [X|[X|[e X]]]; [lia|lia|]. unfold read_err. rewrite X. eexists. eexists. split; [reflexivity|].
    assert (G' : goes_to b (mkb (buf b1) (pos_r b1) (pos_w b1) None (src b1))).
    { split; [|split; [exact G2|]].
      - unfold well_formed. cbn [buf pos_r pos_w kept src]. split; [exact W1|]. split; [exact W2|]. discriminate.
      - intros C. destruct (G3 C) as [C1 _]. split; [exact C1|]. left. reflexivity. }
    split; [exact G'|]. split; [rewrite <- P; reflexivity|]. split; [exact A|].
    assert (Z : exhausted (src b1) -> nlen (pending b) < n). { intros Z. apply exhausted_bytes in Z. rewrite Z in L. change (nlen []) with 0 in L. lia. }
    split.
    + destruct (W3 e X) as [[E1 E2]|E]; [left|right; exact E]. split; [congruence|auto].
    + intros C. destruct (G3 C) as [_ [C2|[C2 C3]]]; [congruence|]. split; [congruence|auto].
  - exists (PGot (Buffered (pos_r b1) n)), b1. split; [reflexivity|]. split; [exact G|]. split; [exact P|]. split; [exact A|]. split; [reflexivity|]. split; [exact B|lia].
Qed.

Lemma m_discard_spec : forall n b, well_formed b -> n <= buffered b ->
  exists b', m_discard n b = Ok b' /\ goes_to b b' /\ pending b' = skipN n (pending b) /\ buf b' = buf b /\ pos_r b' = pos_r b + n.
Proof.
  intros n b W L. unfold m_discard. destruct (N.eqb_spec n 0) as [Z|Z].
  - subst n. exists b. split; [reflexivity|]. split; [apply goes_refl; exact W|]. rewrite skipN_0. split; [reflexivity|]. split; [reflexivity|lia].
  - cbn [discard_loop]. destruct (N.eqb_spec (buffered b) 0) as [Y|Y]; [lia|]. cbn [bind]. rewrite N.min_r by exact L. rewrite N.sub_diag. change (0 =? 0) with true. cbv iota.
    eexists. split; [reflexivity|]. destruct W as (W1 & W2 & W3). unfold buffered in L. split; [|split; [|split; reflexivity]].
    + split; [|split; [reflexivity|]].
      * unfold well_formed. cbn [buf pos_r pos_w kept src]. split; [exact W1|]. split; [lia|exact W3].
      * unfold calm. cbn [kept src]. auto.
    + rewrite !pending_eq. unfold buffered. cbn [buf pos_r pos_w src]. rewrite skipN_app1 by (rewrite nlen_sub; lia). rewrite sub_skip by lia. f_equal. f_equal. lia.
Qed.

(* ---- io.ReadFull ---- *)
Definition measure (b : bufrd) : nat := (length (chunks (src b)) + length (pending b))%nat.

Lemma m_read_into_spec : forall at_ l b, well_formed b -> at_ < nlen l ->
  exists nn e d b', m_read_into at_ l b = ((nn, e, put at_ d l), b') /\ goes_to b b' /\ nlen d = nn /\ at_ + nn <= nlen l /\
    pending b = d ++ pending b' /\
    match e with
    | None => (measure b' < measure b)%nat
    | Some e => failing b e (pending b' = [])
    end.
Proof.
  intros at_ l b W L. pose proof W as (W1 & W2 & W3). unfold m_read_into. set (room := nlen l - at_).
  assert (R : 0 < room) by (unfold room; lia).
  assert (COPY : forall c, well_formed c -> 0 < buffered c ->
    exists d b', ((N.min (buffered c) room, @None ioerr, put at_ (sub (pos_r c) (N.min (buffered c) room) (buf c)) l),
                  mkb (buf c) (pos_r c + N.min (buffered c) room) (pos_w c) (kept c) (src c)) =
                 ((N.min (buffered c) room, None, put at_ d l), b') /\ goes_to c b' /\ nlen d = N.min (buffered c) room /\
                 pending c = d ++ pending b' /\ chunks (src b') = chunks (src c)).
  { intros c (V1 & V2 & V3) B. set (n := N.min (buffered c) room). assert (Nn : n <= buffered c /\ 0 < n) by (unfold n; lia). clearbody n. unfold buffered in *.
    eexists. eexists. split; [reflexivity|]. split; [|split; [apply nlen_sub; lia|split; [|reflexivity]]].
    - split; [|split; [reflexivity|]].
      + unfold well_formed. cbn [buf pos_r pos_w kept src]. split; [exact V1|]. split; [lia|exact V3].
      + unfold calm. cbn [kept src]. auto.
    - rewrite !pending_eq. unfold buffered. cbn [buf pos_r pos_w src]. rewrite app_assoc. f_equal.
      rewrite <- (firstN_skipN n (sub (pos_r c) (pos_w c - pos_r c) (buf c))). rewrite sub_first, sub_skip by lia. f_equal. f_equal. lia. }
  destruct (N.eqb_spec (pos_r b) (pos_w b)) as [E|E].
  - assert (SE : pending b = src_bytes (src b)). { rewrite pending_eq. unfold buffered. rewrite E, N.sub_diag. reflexivity. }
    destruct (kept b) as [e|] eqn:K.
    + exists 0, (Some e), []. eexists. split.
      { unfold put. change (nlen []) with 0. rewrite N.add_0_r. cbn [app]. rewrite firstN_skipN. unfold read_err. cbn [snd]. reflexivity. }
      assert (G : goes_to b (mkb (buf b) (pos_r b) (pos_w b) None (src b))).
      { split; [|split; [reflexivity|]].
        - unfold well_formed. cbn [buf pos_r pos_w kept src]. split; [exact W1|]. split; [lia|discriminate].
        - intros [C1 _]. split; [exact C1|]. left. reflexivity. }
      split; [exact G|]. split; [reflexivity|]. split; [lia|]. split; [reflexivity|].
      change (pending (mkb (buf b) (pos_r b) (pos_w b) None (src b))) with (pending b). rewrite SE. split.
      * destruct (W3 e eq_refl) as [[E1 E2]|E1]; [left|right; exact E1]. split; [exact E1|]. apply exhausted_bytes. exact E2.
      * intros [_ [C|[C1 C2]]]; [congruence|]. split; [congruence|]. apply exhausted_bytes. exact C2.
    + rewrite W1. destruct (N.leb_spec 4096 room) as [B|B].
      * destruct (src_read room (src b)) as [[d e] s] eqn:Q. destruct (src_read_spec _ _ _ _ _ R Q) as (A1 & A2 & A3 & A4 & A5).
        assert (PE : pending (mkb (buf b) (pos_r b) (pos_w b) None s) = src_bytes s).
        { rewrite pending_eq. unfold buffered. cbn [buf pos_r pos_w src]. rewrite E, N.sub_diag. reflexivity. }
        exists (nlen d), e, d. eexists. split; [reflexivity|]. split; [|split; [reflexivity|split; [unfold room in *; lia|split]]].
        -- split; [|split; [exact A3|]].
           ++ unfold well_formed. cbn [buf pos_r pos_w kept src]. split; [exact W1|]. split; [lia|discriminate].
           ++ intros [C1 _]. split; [auto|]. left. reflexivity.
        -- rewrite PE, SE. symmetry. exact A1.
        -- rewrite PE. destruct e as [e|].
           ++ destruct A5 as [A5 A6]. apply exhausted_bytes in A6. split; auto.
           ++ unfold measure. rewrite PE, SE. cbn [src]. rewrite <- A1, app_length. destruct A5 as (B1 & B2 & B3). destruct d as [|x d].
              ** rewrite (B1 eq_refl). cbn [length]. lia.
              ** cbn [length]. lia.
      * destruct (src_read 4096 (src b)) as [[d e] s] eqn:Q. destruct (src_read_spec 4096 _ _ _ _ ltac:(lia) Q) as (A1 & A2 & A3 & A4 & A5).
        destruct (N.eqb_spec (nlen d) 0) as [Z|Z].
        -- assert (d = []) by (destruct d; [reflexivity|unfold nlen in Z; cbn in Z; lia]). subst d.
           exists 0, e, []. eexists. split.
           { unfold put. change (nlen []) with 0. rewrite N.add_0_r. cbn [app]. rewrite firstN_skipN. reflexivity. }
           assert (PE : pending (mkb (buf b) 0 0 None s) = src_bytes s) by reflexivity.
           split; [|split; [reflexivity|split; [lia|split]]].
           ++ split; [|split; [exact A3|]].
              ** unfold well_formed. cbn [buf pos_r pos_w kept src]. split; [exact W1|]. split; [lia|discriminate].
              ** intros [C1 _]. split; [auto|]. left. reflexivity.
           ++ rewrite PE, SE. symmetry. exact A1.
           ++ rewrite PE. destruct e as [e|].
              ** destruct A5 as [A5 A6]. apply exhausted_bytes in A6. split; auto.
              ** unfold measure. rewrite PE, SE. cbn [src]. rewrite <- A1. destruct A5 as (B1 & B2 & B3). rewrite (B1 eq_refl). cbn [length app]. lia.
        -- set (c := mkb (put 0 d (buf b)) 0 (nlen d) e s).
           assert (Wc : well_formed c).
           { unfold well_formed, c. cbn [buf pos_r pos_w kept src]. rewrite nlen_put by lia. split; [exact W1|]. split; [lia|]. intros e' He. left. subst e. destruct A5 as [A5 A6]. split; congruence || auto. }
           assert (PC : pending c = src_bytes (src b)).
           { rewrite pending_eq. unfold buffered, c. cbn [buf pos_r pos_w kept src]. rewrite N.sub_0_r, sub_put_0 by lia. exact A1. }
           assert (Gc : goes_to b c).
           { split; [exact Wc|]. split; [exact A3|]. intros [C1 _]. split; [auto|]. change (kept c) with e. change (src c) with s. destruct e as [e|]; [right|left; reflexivity]. destruct A5 as [A5 A6]. split; [congruence|exact A6]. }
           destruct (COPY c Wc ltac:(unfold buffered, c; cbn [pos_r pos_w]; lia)) as (d' & b' & Eq & G & D1 & D2 & D3). rewrite Eq.
           exists (N.min (buffered c) room), None, d', b'. split; [reflexivity|]. split; [eapply goes_trans; eauto|]. split; [exact D1|]. split; [unfold room in *; lia|].
           split; [rewrite SE, <- PC; exact D2|]. unfold measure. rewrite SE, <- PC, D2, D3, app_length.
           assert (0 < nlen d') by (rewrite D1; unfold buffered, c; cbn [pos_r pos_w]; lia). unfold nlen in H.
           assert ((length (chunks (src c)) <= length (chunks (src b)))%nat); [|lia]. change (src c) with s.
           destruct e as [e|]; [|apply A5].
           unfold src_read in Q. destruct (chunks (src b)) as [|x xs]; [destruct (_ <=? _); injection Q as _ _ <-; cbn; lia|destruct (_ <=? _); injection Q as _ _ <-; cbn; lia].
  - destruct (COPY b W ltac:(unfold buffered; lia)) as (d' & b' & Eq & G & D1 & D2 & D3). rewrite Eq.
    exists (N.min (buffered b) room), None, d', b'. split; [reflexivity|]. split; [exact G|]. split; [exact D1|]. split; [unfold room in *; lia|].
    split; [exact D2|]. unfold measure. rewrite D2, D3, app_length. assert (0 < nlen d') by (rewrite D1; unfold buffered; lia). unfold nlen in H. lia.
Qed.

(* EOF becomes ErrUnexpectedEOF when some bytes were read. *)
Definition late_eof (n : N) (e : ioerr) : ioerr := if 0 <? n then match e with IoEOF => IoUnexpectedEOF | e => e end else e.

Lemma skip_put : forall i d l k, i + nlen d <= nlen l -> i + nlen d <= k -> skipN k (put i d l) = skipN k l.
Proof.
  intros i d l k H1 H2. unfold put. rewrite app_assoc. rewrite skipN_app2 by (rewrite nlen_app, nlen_firstN; lia). rewrite nlen_app, nlen_firstN, skipN_add. f_equal. lia.
Qed.
Lemma put_put : forall i d e l, i + nlen d + nlen e <= nlen l -> put (i + nlen d) e (put i d l) = put i (d ++ e) l.
Proof.
  intros i d e l H. unfold put at 1. rewrite first_put by lia. rewrite skip_put by lia. unfold put. rewrite nlen_app, <- !app_assoc, N.add_assoc. reflexivity.
Qed.

Lemma read_full_loop_spec : forall k n l b, well_formed b -> n <= nlen l -> (measure b < k)%nat ->
  exists e d b', read_full_loop k n l b = Ok ((e, put n d l), b') /\ goes_to b b' /\ n + nlen d <= nlen l /\
    match e with
    | None => nlen d = nlen l - n /\ pending b = d ++ pending b'
    | Some e => (e = late_eof (n + nlen (pending b)) (fails_with (src b)) /\ nlen (pending b) < nlen l - n /\ pending b' = [] \/ e = no_progress) /\
                (calm b -> e = late_eof (n + nlen (pending b)) (fails_with (src b)) /\ nlen (pending b) < nlen l - n /\ pending b' = [])
    end.
Proof.
  induction k as [|k IH]; intros n l b W L M; [lia|]. cbn [read_full_loop]. destruct (N.ltb_spec n (nlen l)) as [A|A].
  - destruct (m_read_into_spec n l b W A) as (nn & e & d & b1 & -> & G & D & B & P & X). subst nn. destruct e as [e|].
    + rewrite nlen_put by exact B. destruct (N.leb_spec (nlen l) (n + nlen d)) as [F|F].
      * exists None, d, b1. split; [reflexivity|]. split; [exact G|]. split; [exact B|]. split; [lia|exact P].
      * eexists. exists d, b1. split; [reflexivity|]. split; [exact G|]. split; [exact B|]. cbv beta iota.
        assert (Y : pending b1 = [] -> nlen (pending b) = nlen d) by (intros Y; rewrite P, Y, app_nil_r; reflexivity).
        destruct X as [X1 X2]. split.
        -- destruct X1 as [[X1 X3]|X1]; [left|right].
           ++ rewrite (Y X3). unfold late_eof. rewrite <- X1. split; [reflexivity|]. split; [lia|exact X3].
           ++ subst e. destruct (0 <? n + nlen d); reflexivity.
        -- intros C. destruct (X2 C) as [X3 X4]. rewrite (Y X4). unfold late_eof. rewrite <- X3. split; [reflexivity|]. split; [lia|exact X4].
    + destruct (IH (n + nlen d) (put n d l) b1 ltac:(apply G) ltac:(rewrite nlen_put by exact B; exact B) ltac:(lia)) as (e & d2 & b2 & -> & G2 & B2 & X2).
      rewrite nlen_put in B2, X2 by exact B. exists e, (d ++ d2), b2. rewrite put_put by lia. split; [reflexivity|]. split; [eapply goes_trans; eauto|].
      rewrite nlen_app. split; [lia|]. destruct e as [e|].
      * destruct G as (G1 & G3 & G4). rewrite G3 in X2. rewrite P, nlen_app. rewrite !N.add_assoc.
        destruct X2 as [X2 X3]. split.
        -- destruct X2 as [(X2 & X4 & X5)|X2]; [left|right; exact X2]. split; [exact X2|]. split; [lia|exact X5].
        -- intros C. destruct (X3 (G4 C)) as (Y1 & Y2 & Y3). split; [exact Y1|]. split; [lia|exact Y3].
      * destruct X2 as [X2 X3]. split; [lia|]. rewrite P, X3. apply app_assoc.
  - exists None, [], b. split.
    { unfold put. change (nlen []) with 0. rewrite N.add_0_r. cbn [app]. rewrite firstN_skipN. reflexivity. }
    split; [apply goes_refl; exact W|]. change (nlen []) with 0. split; [lia|]. split; [lia|reflexivity].
Qed.

(* ---- Read ---- *)
Lemma put_whole : forall n d l, n <= nlen l -> nlen d = n -> firstN n (put 0 d l) = d.
Proof. intros n d l H <-. pose proof (first_put 0 d l ltac:(lia)) as F. rewrite N.add_0_l in F. exact F. Qed.

(* m_message against ConnProofs.amessage, which reads from a list of bytes. *)
Definition agrees (w32 : bool) (b : bufrd) (x : N * slice * N + cerr) (large : bytes) (b' : bufrd) : Prop :=
  let y := amessage w32 (fails_with (src b)) (pending b) in
  match x with
  | inl (st, s, n) => y = (inl (st, contents large b' s, n), pending b') /\ n <= buffered b'
  | inr e => (y = (inr e, pending b') \/ e = CRead no_progress) /\ (calm b -> y = (inr e, pending b'))
  end.

Lemma eof_in_frame_late : forall e bs, late_eof (nlen bs) e = eof_in_frame e bs.
Proof. intros e bs. unfold late_eof, eof_in_frame. destruct (N.eqb_spec (nlen bs) 0) as [->|H]; [destruct e; reflexivity|]. destruct (N.ltb_spec 0 (nlen bs)); [|lia]. destruct e; reflexivity. Qed.

Lemma m_message_spec : forall w32 large b, well_formed b ->
  exists x large' b', m_message w32 large b = Ok (x, large', b') /\ goes_to b b' /\ agrees w32 b x large' b'.
Proof.
  intros w32 large b W. unfold m_message. destruct (m_peek_spec 5 b W ltac:(lia)) as (p & b1 & -> & G1 & P1 & X). cbn [bind]. destruct p as [h| |e].
  2:{ lia. }
  2:{ exists (inr (CRead e)), large, b1. split; [reflexivity|]. split; [exact G1|]. destruct X as [_ [X1 X2]].
      assert (F : e = fails_with (src b) /\ nlen (pending b) < 5 -> amessage w32 (fails_with (src b)) (pending b) = (inr (CRead e), pending b1)).
      { intros [-> L]. unfold amessage. destruct (N.ltb_spec (nlen (pending b)) 5); [|lia]. rewrite P1. reflexivity. }
      split; [|intros C; apply F; auto]. destruct X1 as [X1| ->]; [left; apply F; exact X1|right; reflexivity]. }
  destruct X as (_ & -> & B1 & L). assert (W1 : well_formed b1) by apply G1.
  pose proof (proj2 (buffered_pending b1 W1) 5 B1) as H5. rewrite P1 in H5.
  change (contents large b1 (Buffered (pos_r b1) 5)) with (sub (pos_r b1) 5 (buf b1)). rewrite <- H5. destruct (firstn_5_4 (pending b)) as [-> ->].
  destruct (m_discard_spec 5 b1 W1 B1) as (b2 & -> & G2 & P2 & U2 & R2). cbn [bind]. rewrite P1 in P2.
  pose proof (goes_trans _ _ _ G1 G2) as G. clear G1 G2.
  unfold agrees, amessage. destruct (N.ltb_spec (nlen (pending b)) 5) as [?|_]; [lia|].
  set (u := int_of_u32 w32 (le (firstn 4 (pending b)))). destruct (u <? 1)%Z.
  { eexists. exists large, b2. split; [reflexivity|]. split; [exact G|]. cbv beta iota. rewrite P2. auto. }
  set (n := Z.to_N (u - 1)). destruct (N.ltb_spec 0 n) as [N0|N0].
  2:{ eexists. exists large, b2. split; [reflexivity|]. split; [exact G|]. cbv beta iota. unfold contents. rewrite U2, <- H5, P2. split; [reflexivity|lia]. }
  assert (W2 : well_formed b2) by apply G. pose proof G as (_ & E2 & C2).
  destruct (m_peek_spec n b2 W2 N0) as (p & b3 & -> & G3 & P3 & X). cbn [bind]. pose proof (goes_trans _ _ _ G G3) as G4. rewrite P2 in P3, X. unfold buf_size.
  destruct p as [s| |e].
  - destruct X as (X1 & -> & X2 & X3). eexists. exists large, b3. split; [reflexivity|]. split; [exact G4|]. cbv beta iota.
    destruct (N.leb_spec n 4096); [|lia]. destruct (N.leb_spec n (nlen (skipN 5 (pending b)))); [|lia]. cbn [contents].
    rewrite <- (proj2 (buffered_pending b3 (proj1 G3)) n X2). rewrite P3. auto.
  - destruct (N.leb_spec n 4096); [lia|]. set (lg := if nlen large <? n then repeat 0 (N.to_nat n) else large).
    assert (LG : n <= nlen lg). { unfold lg. destruct (N.ltb_spec (nlen large) n); [|assumption]. unfold nlen. rewrite repeat_length. lia. }
    clearbody lg. unfold m_read_full. assert (W3 : well_formed b3) by apply G3.
    assert (FL : nlen (firstN n lg) = n) by (rewrite nlen_firstN; lia).
    destruct (buffered_pending b3 W3) as [BP _].
    edestruct (read_full_loop_spec (S (length (chunks (src b3)) + length (src_bytes (src b3)) + N.to_nat (buffered b3))) 0 (firstN n lg) b3 W3) as (e & d & b4 & -> & G5 & D & Y).
    { lia. } { unfold measure. unfold nlen in BP. lia. }
    cbn [bind]. rewrite FL, N.add_0_l, N.sub_0_r in *. pose proof (goes_trans _ _ _ G4 G5) as G6.
    assert (E3 : fails_with (src b3) = fails_with (src b)) by apply G4. assert (C3 : calm b -> calm b3) by apply G4.
    destruct e as [e|].
    + eexists. eexists. exists b4. split; [reflexivity|]. split; [exact G6|]. cbv beta iota. rewrite P3, E3 in Y.
      rewrite ?N.add_0_l, eof_in_frame_late in Y.
      assert (F : e = eof_in_frame (fails_with (src b)) (skipN 5 (pending b)) /\ nlen (skipN 5 (pending b)) < n /\ pending b4 = [] ->
        (if n <=? nlen (skipN 5 (pending b)) then (inl (nth 4 (pending b) 0, firstN n (skipN 5 (pending b)), 0), skipN n (skipN 5 (pending b)))
         else (inr (CRead (eof_in_frame (fails_with (src b)) (skipN 5 (pending b)))), [])) = (inr (CRead e) : N * bytes * N + cerr, pending b4)).
      { intros (-> & F1 & ->). destruct (N.leb_spec n (nlen (skipN 5 (pending b)))); [lia|reflexivity]. }
      destruct Y as [Y1 Y2]. split; [|intros C; apply F, Y2, C3, C]. destruct Y1 as [Y1| ->]; [left; apply F; exact Y1|right; reflexivity].
    + destruct Y as [Y1 Y2]. eexists. eexists. exists b4. split; [reflexivity|]. split; [exact G6|]. cbv beta iota. split; [|lia]. cbn [contents].
      rewrite P3 in Y2. rewrite Y2, nlen_app. destruct (N.leb_spec n (nlen d + nlen (pending b4))); [|lia].
      rewrite firstN_app1, skipN_app1 by lia. rewrite (firstN_all n d), (skipN_all n d) by lia. cbn [app].
      assert (PW : put 0 d (firstN n lg) = d).
      { unfold put. change (firstN 0 (firstN n lg)) with (@nil N). cbn [app]. rewrite skipN_all by lia. apply app_nil_r. }
      rewrite PW. rewrite put_whole by lia. reflexivity.
  - destruct X as [X1 [X2 X3]]. eexists. exists large, b3. split; [reflexivity|]. split; [exact G4|]. cbv beta iota. rewrite E2 in X2, X3.
    destruct (N.leb_spec n 4096); [|lia].
    assert (F : e = fails_with (src b) /\ nlen (skipN 5 (pending b)) < n ->
      (if n <=? nlen (skipN 5 (pending b)) then (inl (nth 4 (pending b) 0, firstN n (skipN 5 (pending b)), n), skipN 5 (pending b))
       else (inr (CRead (fails_with (src b))), skipN 5 (pending b))) = (inr (CRead e) : N * bytes * N + cerr, pending b3)).
    { intros (-> & F1). rewrite P3. destruct (N.leb_spec n (nlen (skipN 5 (pending b)))); [lia|reflexivity]. }
    split; [|intros C; apply F, X3, C2, C]. destruct X2 as [X2| ->]; [left; apply F; exact X2|right; reflexivity].
Qed.

(* Read against ConnProofs.aread *)
Definition read_agrees (w32 : bool) (ct : N) (b : bufrd) (a : response * option cerr) (b' : bufrd) : Prop :=
  (aread w32 ct (fails_with (src b)) (pending b) = (a, pending b') \/ a = (None, Some (CRead no_progress))) /\
  (calm b -> aread w32 ct (fails_with (src b)) (pending b) = (a, pending b')).

Lemma m_read_k_spec : forall k w32 ct large b, well_formed b -> (length (pending b) < k)%nat ->
  exists a b', m_read_k k w32 ct large b = Ok (a, b') /\ goes_to b b' /\ read_agrees w32 ct b a b'.
Proof.
  induction k as [|k IH]; intros w32 ct large b W L; [lia|]. cbn [m_read_k].
  destruct (m_message_spec w32 large b W) as (x & lg & b1 & -> & G & A). cbn [bind]. unfold agrees in A. cbv zeta in A. unfold read_agrees. rewrite aread_eq.
  destruct x as [[[st s] n]|e].
  - destruct A as [A B]. rewrite A. destruct (m_discard_spec n b1 ltac:(apply G) B) as (b2 & D & G2 & P2 & _).
    pose proof (goes_trans _ _ _ G G2) as G3. destruct (dispatch ct st (contents lg b1 s)) as [[resp o]|].
    + destruct o as [[]|]; rewrite ?D; cbn [bind];
        (eexists; eexists; split; [reflexivity|]; first [split; [exact G3|]; rewrite P2; auto | split; [exact G|]; auto]).
    + rewrite D. cbn [bind]. apply amessage_consumes in A. rewrite <- P2 in A |- *.
      destruct (IH w32 ct lg b2 ltac:(apply G3) ltac:(lia)) as (a & b3 & -> & G4 & R1 & R2). destruct G3 as (G5 & G6 & G7). rewrite G6 in R1, R2.
      exists a, b3. split; [reflexivity|]. split; [eapply goes_trans; [split; [exact G5|split; [exact G6|exact G7]]|exact G4]|]. split; [exact R1|auto].
  - eexists. eexists. split; [reflexivity|]. split; [exact G|]. destruct A as [A1 A2]. split.
    + destruct A1 as [A1| ->]; [left; rewrite A1; reflexivity|right; reflexivity].
    + intros C. rewrite (A2 C). reflexivity.
Qed.

Lemma m_read_spec : forall w32 ct b, well_formed b -> exists a b', m_read w32 ct b = Ok (a, b') /\ goes_to b b' /\ read_agrees w32 ct b a b'.
Proof.
  intros w32 ct b W. apply m_read_k_spec; [exact W|]. destruct (buffered_pending b W) as [L _]. unfold nlen in L. lia.
Qed.

(* ---- connections ---- *)
Lemma c_read_same : forall w32 ct m c, stands_for m c -> same_outcome (m_c_read w32 ct m) (Ok (c_read w32 ct c)).
Proof.
  intros w32 ct m c (W & K & P & F & R). unfold m_c_read, c_read. destruct (m_read_spec w32 ct (m_rd m) W) as (a & b & -> & G & _ & A). cbn [bind]. specialize (A K).
  destruct (conn_read_spec w32 ct (rd c)) as (r & -> & B1 & B2). change (unread c) with (flat (rd c)) in P. rewrite F, P in A. rewrite A in B1 |- *. cbn [fst snd] in *.
  destruct G as (G1 & G2 & G3). split; [reflexivity|]. unfold stands_for, unread. cbn [m_rd m_kind m_deadlines m_writes m_log rd ckind deadlines writes log]. split; [exact G1|]. split; [auto|].
  split; [rewrite <- B1; reflexivity|]. split; [congruence|]. exact R.
Qed.

Lemma set_deadline_same : forall d m c, stands_for m c -> fst (m_set_deadline d m) = fst (set_deadline d c) /\ stands_for (snd (m_set_deadline d m)) (snd (set_deadline d c)).
Proof.
  intros d m c (W & K & P & F & R1 & R2 & R3 & R4). unfold m_set_deadline, set_deadline. rewrite R2. destruct (next_result (deadlines c)) as [x l]. cbn [fst snd]. split; [reflexivity|].
  unfold stands_for, unread. cbn [m_rd m_kind m_deadlines m_writes m_log rd ckind deadlines writes log]. rewrite R1, R4. auto 10.
Qed.
Lemma write_same : forall b m c, stands_for m c -> fst (m_write b m) = fst (write b c) /\ stands_for (snd (m_write b m)) (snd (write b c)).
Proof.
  intros d m c (W & K & P & F & R1 & R2 & R3 & R4). unfold m_write, write. rewrite R3. destruct (next_result (writes c)) as [x l]. cbn [fst snd]. split; [reflexivity|].
  unfold stands_for, unread. cbn [m_rd m_kind m_deadlines m_writes m_log rd ckind deadlines writes log]. rewrite R1, R4. auto 10.
Qed.

Lemma write_one_same : forall w32 d b m c, stands_for m c -> same_outcome (m_write_one w32 d b m) (write_one w32 d b c).
Proof.
  intros w32 d b m c S. unfold m_write_one, write_one. destruct (set_deadline_same d m c S) as [E1 S1]. destruct (m_set_deadline d m) as [x m1], (set_deadline d c) as [y c1]. cbn [fst snd] in *. subst y.
  destruct x as [e|]; [cbn; auto|]. destruct (write_same b m1 c1 S1) as [E2 S2]. destruct (m_write b m1) as [x m2], (write b c1) as [y c2]. cbn [fst snd] in *. subst y.
  destruct x as [e|]; [cbn; auto|]. destruct (nth_error b 4); [|exact I]. apply c_read_same. exact S2.
Qed.

Lemma responses_same : forall k w32 rest rs m c, stands_for m c -> same_outcome (m_responses w32 k rest rs m) (read_responses w32 k rest rs c).
Proof.
  induction k as [|k IH]; intros w32 rest rs m c S; destruct rest as [|x rest]; cbn [m_responses read_responses]; try (cbn; auto; fail).
  destruct (nth_error (x :: rest) 4) as [ct|]; [|exact I]. pose proof (c_read_same w32 ct m c S) as H. destruct (m_c_read w32 ct m) as [[a m1]|]; [|destruct H].
  destruct (c_read w32 ct c) as [a' c1]. destruct H as [<- S1]. cbn [bind]. destruct (snd a); [cbn; auto|]. apply IH. exact S1.
Qed.

Lemma send_same : forall w32 d b m c, stands_for m c -> same_outcome (m_send w32 d b m) (conn_send w32 d b c).
Proof.
  intros w32 d b m c S. unfold m_send, conn_send. destruct (set_deadline_same d m c S) as [E1 S1]. destruct (m_set_deadline d m) as [x m1], (set_deadline d c) as [y c1]. cbn [fst snd] in *. subst y.
  destruct x as [e|]; [cbn; auto|]. destruct (write_same b m1 c1 S1) as [E2 S2]. destruct (m_write b m1) as [x m2], (write b c1) as [y c2]. cbn [fst snd] in *. subst y.
  destruct x as [e|]; [cbn; auto|]. apply responses_same. exact S2.
Qed.

Lemma authenticate_same : forall w32 d creds a m c, stands_for m c -> same_outcome (m_authenticate w32 d creds a m) (authenticate w32 d creds a c).
Proof.
  intros w32 d creds a m c S. unfold m_authenticate, authenticate. destruct (start a creds) as [b|]; [|exact I]. cbn [bind].
  pose proof (write_one_same w32 d b m c S) as H. destruct (m_write_one w32 d b m) as [[x m1]|], (write_one w32 d b c) as [[y c1]|]; try destruct H as [<- S1]; try (destruct H; fail); cbn [bind]; [|exact I].
  destruct (snd x) as [[]|]; try (cbn; auto; fail). destruct (continue a) as [k|]; [|cbn; auto]. destruct (k creds data) as [b2|]; [|exact I]. cbn [bind].
  pose proof (write_one_same w32 d b2 m1 c1 S1) as H. destruct (m_write_one w32 d b2 m1) as [[z m2]|], (write_one w32 d b2 c1) as [[z' c2]|]; try destruct H as [<- S2]; try (destruct H; fail); cbn; auto.
Qed.
