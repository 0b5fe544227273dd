(* Proofs about netx/connection: the buffered reader reads a byte stream. *)
From Coq Require Import List NArith ZArith Arith Bool Lia ZifyN ZifyNat ZifyBool.
From Verif Require Import Base SpecWire SpecUnit Conn SpecReply.
Import ListNotations.
Open Scope N_scope.
Ltac Zify.zify_post_hook ::= Z.div_mod_to_equations.

Lemma nlen_app : forall a b, nlen (a ++ b) = nlen a + nlen b.
Proof. intros. unfold nlen. rewrite app_length. lia. Qed.
Lemma nlen_firstN : forall n l, nlen (firstN n l) = N.min n (nlen l).
Proof. intros. unfold nlen, firstN. rewrite firstn_length. lia. Qed.
Lemma nlen_skipN : forall n l, nlen (skipN n l) = nlen l - n.
Proof. intros. unfold nlen, skipN. rewrite skipn_length. lia. Qed.
Lemma firstN_skipN : forall n l, firstN n l ++ skipN n l = l.
Proof. intros. apply firstn_skipn. Qed.
Lemma firstN_app1 : forall n a b, n <= nlen a -> firstN n (a ++ b) = firstN n a.
Proof.
  intros n a b H. unfold firstN, nlen in *. rewrite firstn_app. replace (N.to_nat n - length a)%nat with 0%nat by lia. apply app_nil_r.
Qed.
Lemma skipN_app1 : forall n a b, n <= nlen a -> skipN n (a ++ b) = skipN n a ++ b.
Proof. intros n a b H. unfold skipN, nlen in *. rewrite skipn_app. replace (N.to_nat n - length a)%nat with 0%nat by lia. reflexivity. Qed.
Lemma firstN_app2 : forall n a b, nlen a <= n -> firstN n (a ++ b) = a ++ firstN (n - nlen a) b.
Proof.
  intros n a b H. unfold firstN, nlen in *. rewrite firstn_app. rewrite firstn_all2 by lia. do 2 f_equal. lia.
Qed.
Lemma skipN_app2 : forall n a b, nlen a <= n -> skipN n (a ++ b) = skipN (n - nlen a) b.
Proof.
  intros n a b H. unfold skipN, nlen in *. rewrite skipn_app. rewrite skipn_all2 by lia. cbn. f_equal. lia.
Qed.
Lemma skipN_all : forall n l, nlen l <= n -> skipN n l = [].
Proof. intros. unfold skipN, nlen in *. apply skipn_all2. lia. Qed.
Lemma skipN_0 : forall l, skipN 0 l = l.
Proof. reflexivity. Qed.
Lemma skipN_add : forall a b l, skipN a (skipN b l) = skipN (b + a) l.
Proof.
  intros. unfold skipN. replace (N.to_nat (b + a)) with (N.to_nat b + N.to_nat a)%nat by lia. generalize (N.to_nat a), (N.to_nat b). clear.
  intros a b. revert l. induction b; intros l; cbn [skipn plus]; [reflexivity|]. destruct l; [now rewrite skipn_nil|]. apply IHb.
Qed.

Definition flat (r : reader) : bytes := held r ++ concat (inbound r).

Lemma fill_spec : forall n inb h h' inb', fill n h inb = (h', inb') ->
  h' ++ concat inb' = h ++ concat inb /\ (n <= nlen h' \/ buf_size <= nlen h' \/ concat inb' = []).
Proof.
  intros n inb. induction inb as [|c cs IH]; intros h h' inb' H; cbn [fill] in H; unfold buf_size in *.
  - destruct (N.leb_spec n (nlen h)); cbn [orb] in H; [|destruct (N.leb_spec 4096 (nlen h)); cbn [orb] in H]; injection H as <- <-; auto.
  - destruct (N.leb_spec n (nlen h)); cbn [orb] in H; [injection H as <- <-; auto|].
    destruct (N.leb_spec 4096 (nlen h)); cbn [orb] in H; [injection H as <- <-; auto|].
    destruct (N.leb_spec (nlen c) (4096 - nlen h)) as [L|L].
    + destruct (IH _ _ _ H) as [A B]. cbn [concat]. rewrite A, <- app_assoc. auto.
    + apply pair_equal_spec in H; destruct H as [<- <-]. cbn [concat]. rewrite <- app_assoc. split.
      * rewrite (app_assoc (firstN _ c)), firstN_skipN. reflexivity.
      * right. left. rewrite nlen_app, nlen_firstN. unfold buf_size in *. lia.
Qed.

Lemma peek_full : forall n r, buf_size < n -> exists r', peek n r = (Full, r') /\ flat r' = flat r /\ ended r' = ended r.
Proof.
  intros n r H. unfold peek. destruct (fill n (held r) (inbound r)) as [h inb] eqn:E. destruct (fill_spec _ _ _ _ _ E) as [A _].
  destruct (N.ltb_spec buf_size n); [|lia]. eexists. split; [reflexivity|]. unfold flat. cbn. auto.
Qed.
Lemma peek_got : forall n r, n <= buf_size -> n <= nlen (flat r) ->
  exists r', peek n r = (Got (firstN n (flat r)), r') /\ flat r' = flat r /\ ended r' = ended r /\ n <= nlen (held r').
Proof.
  intros n r H1 H2. unfold peek. destruct (fill n (held r) (inbound r)) as [h inb] eqn:E. destruct (fill_spec _ _ _ _ _ E) as [A B].
  destruct (N.ltb_spec buf_size n); [lia|]. assert (n <= nlen h).
  { destruct B as [B|[B|B]]; [exact B|lia|]. unfold flat in H2. rewrite <- A, B, app_nil_r in H2. exact H2. }
  cbn [held ended]. destruct (N.ltb_spec (nlen h) n); [lia|]. exists (mkr h inb (ended r)). unfold flat; cbn [held inbound ended]. split; [|split; [exact A|split; [reflexivity|lia]]].
  rewrite <- A, firstN_app1 by lia. reflexivity.
Qed.
Lemma peek_failed : forall n r, n <= buf_size -> nlen (flat r) < n ->
  exists r', peek n r = (Failed (ended r), r') /\ flat r' = flat r /\ ended r' = ended r.
Proof.
  intros n r H1 H2. unfold peek. destruct (fill n (held r) (inbound r)) as [h inb] eqn:E. destruct (fill_spec _ _ _ _ _ E) as [A B].
  destruct (N.ltb_spec buf_size n); [lia|]. assert (nlen h < n).
  { unfold flat in H2. rewrite <- A, nlen_app in H2. lia. }
  cbn [held ended]. destruct (N.ltb_spec (nlen h) n); [|lia]. eexists. split; [reflexivity|]. unfold flat. cbn. auto.
Qed.

Lemma discard_spec : forall n r, n <= nlen (held r) -> flat (discard n r) = skipN n (flat r) /\ ended (discard n r) = ended r.
Proof. intros n r H. unfold discard, flat. cbn [held inbound ended]. rewrite skipN_app1 by exact H. auto. Qed.

Lemma read_more_spec : forall inb need, 0 < need ->
  match read_more need inb with
  | Some (b, h, inb') => need <= nlen (concat inb) /\ b = firstN need (concat inb) /\ h ++ concat inb' = skipN need (concat inb)
  | None => nlen (concat inb) < need
  end.
Proof.
  induction inb as [|c cs IH]; intros need H; cbn [read_more concat]; [unfold nlen; cbn; lia|].
  assert (K : nlen c < need ->
    match match read_more (need - nlen c) cs with Some (b, h, i) => Some (c ++ b, h, i) | None => None end with
    | Some (b, h, inb') => need <= nlen (c ++ concat cs) /\ b = firstN need (c ++ concat cs) /\ h ++ concat inb' = skipN need (c ++ concat cs)
    | None => nlen (c ++ concat cs) < need
    end).
  { intros L. specialize (IH (need - nlen c) ltac:(lia)). destruct (read_more (need - nlen c) cs) as [[[b h] i]|].
    - destruct IH as (A & B & C). rewrite nlen_app, firstN_app2, skipN_app2 by lia. subst b. split; [lia|]. split; [reflexivity|exact C].
    - rewrite nlen_app. lia. }
  destruct (N.leb_spec buf_size need); destruct (N.ltb_spec (nlen c) need); try (apply K; assumption).
  - rewrite nlen_app, firstN_app1, skipN_app1 by lia. cbn. split; [lia|auto].
  - rewrite nlen_app, firstN_app1, skipN_app1 by lia. cbn [concat]. split; [lia|]. split; [reflexivity|].
    rewrite app_assoc. f_equal. rewrite <- (firstN_skipN buf_size c) at 3. destruct (N.le_gt_cases need (nlen (firstN buf_size c))) as [L|L].
    + rewrite skipN_app1 by exact L. reflexivity.
    + rewrite nlen_firstN in L. lia.
Qed.

Definition eof_in_frame (fin : ioerr) (bs : bytes) : ioerr :=
  match fin with IoEOF => if negb (nlen bs =? 0) then IoUnexpectedEOF else IoEOF | e => e end.

Lemma read_full_spec : forall n r, 0 < n ->
  exists r', read_full n r = ((if n <=? nlen (flat r) then Got (firstN n (flat r)) else Failed (eof_in_frame (ended r) (flat r))), r') /\
    flat r' = (if n <=? nlen (flat r) then skipN n (flat r) else []) /\ ended r' = ended r.
Proof.
  intros n r H. unfold read_full. destruct (N.leb_spec n (nlen (held r))) as [L|L].
  - destruct (N.leb_spec n (nlen (flat r))) as [M|M]; [|unfold flat in M; rewrite nlen_app in M; lia].
    eexists. split; [unfold flat; rewrite firstN_app1 by exact L; reflexivity|]. unfold flat. cbn [held inbound ended]. rewrite skipN_app1 by exact L. auto.
  - pose proof (read_more_spec (inbound r) (n - nlen (held r)) ltac:(lia)) as S. destruct (read_more _ _) as [[[b h] i]|].
    + destruct S as (A & B & C). destruct (N.leb_spec n (nlen (flat r))) as [M|M]; [|unfold flat in M; rewrite nlen_app in M; lia].
      eexists. split; [unfold flat; rewrite firstN_app2 by lia; rewrite <- B; reflexivity|]. unfold flat. cbn [held inbound ended].
      rewrite skipN_app2 by lia. auto.
    + destruct (N.leb_spec n (nlen (flat r))) as [M|M]; [unfold flat in M; rewrite nlen_app in M; lia|].
      exists (mkr [] [] (ended r)). unfold eof_in_frame, flat. split; [destruct (ended r); reflexivity|]. auto.
Qed.

(* ---- reading from a stream ---- *)

Definition amessage (w32 : bool) (fin : ioerr) (bs : bytes) : (N * bytes * N + cerr) * bytes :=
  if nlen bs <? 5 then (inr (CRead fin), bs)
  else
    let n := int_of_u32 w32 (le (firstn 4 bs)) in
    let st := nth 4 bs 0 in
    let r := skipN 5 bs in
    if (n <? 1)%Z then (inr (CShort n), r)
    else
      let n := Z.to_N (n - 1) in
      if 0 <? n then
        if n <=? buf_size then if n <=? nlen r then (inl (st, firstN n r, n), r) else (inr (CRead fin), r)
        else if n <=? nlen r then (inl (st, firstN n r, 0), skipN n r) else (inr (CRead (eof_in_frame fin r)), [])
      else (inl (st, firstn 5 bs, 0), r).

Fixpoint aread_k (k : nat) (w32 : bool) (ct : N) (fin : ioerr) (bs : bytes) : (response * option cerr) * bytes :=
  match k with
  | O => ((None, Some CNever), bs)
  | S k =>
      match amessage w32 fin bs with
      | (inr e, r) => ((None, Some e), r)
      | (inl (st, b, n), r) =>
          match dispatch ct st b with
          | Some (resp, Some CBadMeta) => ((resp, Some CBadMeta), r)
          | Some a => (a, skipN n r)
          | None => aread_k k w32 ct fin (skipN n r)
          end
      end
  end.

Lemma firstn_5_4 : forall (bs : bytes), firstn 4 (firstN 5 bs) = firstn 4 bs /\ nth 4 (firstN 5 bs) 0 = nth 4 bs 0.
Proof. intros bs. destruct bs as [|a [|b [|c [|d [|e r]]]]]; cbn; auto. Qed.

Lemma read_message_spec : forall w32 r, exists r', read_message w32 r = (fst (amessage w32 (ended r) (flat r)), r') /\
  flat r' = snd (amessage w32 (ended r) (flat r)) /\ ended r' = ended r /\
  match fst (amessage w32 (ended r) (flat r)) with inl (_, _, n) => n <= nlen (held r') | inr _ => True end.
Proof.
  intros w32 r. unfold read_message, amessage. destruct (N.ltb_spec (nlen (flat r)) 5) as [L|L].
  - destruct (peek_failed 5 r ltac:(unfold buf_size; lia) L) as (r' & -> & A & B). exists r'. cbn. auto.
  - destruct (peek_got 5 r ltac:(unfold buf_size; lia) L) as (r1 & -> & A & B & C). destruct (firstn_5_4 (flat r)) as [-> ->].
    destruct (discard_spec 5 r1 C) as [D1 D2]. rewrite A in D1. rewrite B in D2.
    set (n := int_of_u32 w32 (le (firstn 4 (flat r)))). destruct (n <? 1)%Z.
    { eexists. split; [reflexivity|]. cbn [fst snd]. auto. }
    set (m := Z.to_N (n - 1)). destruct (N.ltb_spec 0 m) as [Hm|Hm].
    + destruct (N.leb_spec m buf_size) as [S|S].
      * destruct (N.leb_spec m (nlen (skipN 5 (flat r)))) as [F|F].
        -- rewrite <- D1 in F. destruct (peek_got m (discard 5 r1) S F) as (r2 & -> & E1 & E2 & E3). exists r2. cbn [fst snd].
           rewrite E1, E2, D1, D2. auto.
        -- rewrite <- D1 in F. destruct (peek_failed m (discard 5 r1) S F) as (r2 & -> & E1 & E2). exists r2. cbn [fst snd].
           rewrite E1, E2, D1, D2. auto.
      * destruct (peek_full m (discard 5 r1) S) as (r2 & -> & E1 & E2). destruct (read_full_spec m r2 Hm) as (r3 & -> & F1 & F2).
        rewrite E1, D1 in *. rewrite E2, D2 in *. exists r3. destruct (m <=? nlen (skipN 5 (flat r))); cbn [fst snd]; (split; [reflexivity|]); split; auto; split; auto. lia.
    + eexists. split; [reflexivity|]. cbn [fst snd]. split; [exact D1|]. split; [exact D2|lia].
Qed.

Lemma read_k_spec : forall k w32 ct r, exists r', read_k k w32 ct r = (fst (aread_k k w32 ct (ended r) (flat r)), r') /\
  flat r' = snd (aread_k k w32 ct (ended r) (flat r)) /\ ended r' = ended r.
Proof.
  induction k as [|k IH]; intros w32 ct r; cbn [read_k aread_k]; [exists r; auto|].
  destruct (read_message_spec w32 r) as (r1 & -> & A & B & C). destruct (amessage w32 (ended r) (flat r)) as [[[[st b] n]|e] rest]; cbn [fst snd] in *.
  - destruct (discard_spec n r1 C) as [D1 D2]. rewrite A in D1. rewrite B in D2.
    destruct (dispatch ct st b) as [[resp o]|].
    + destruct o as [[]|]; eexists; (split; [reflexivity|]); cbn [fst snd]; auto.
    + specialize (IH w32 ct (discard n r1)). rewrite D1, D2 in IH. exact IH.
  - exists r1. auto.
Qed.

Lemma int_of_u32_bound : forall w32 u, (int_of_u32 w32 u <= Z.of_N u)%Z.
Proof. intros. unfold int_of_u32. destruct (_ && _)%bool; lia. Qed.

Lemma amessage_consumes : forall w32 fin bs st b n r, amessage w32 fin bs = (inl (st, b, n), r) -> (length (skipN n r) + 5 <= length bs)%nat.
Proof.
  intros w32 fin bs st b n r H. unfold amessage in H. destruct (N.ltb_spec (nlen bs) 5) as [L|L]; [discriminate|].
  assert (Hs : (length (skipN 5 bs) + 5 <= length bs)%nat) by (unfold skipN, nlen in *; rewrite skipn_length; lia).
  destruct (_ <? 1)%Z; [discriminate|]. destruct (0 <? _).
  - destruct (_ <=? buf_size); (destruct (_ <=? nlen (skipN 5 bs)); [|discriminate]); injection H as <- <- <- <-; cbn; unfold skipN at 1; try unfold skipN at 2; rewrite ?skipn_length in *; unfold skipN in *; rewrite ?skipn_length in *; lia.
  - injection H as <- <- <- <-. cbn. exact Hs.
Qed.

Lemma aread_k_enough : forall k1 k2 w32 ct fin bs, (length bs < k1)%nat -> (length bs < k2)%nat ->
  aread_k k1 w32 ct fin bs = aread_k k2 w32 ct fin bs.
Proof.
  induction k1 as [|k1 IH]; intros k2 w32 ct fin bs H1 H2; [lia|]. destruct k2 as [|k2]; [lia|]. cbn [aread_k].
  destruct (amessage w32 fin bs) as [[[[st b] n]|e] r] eqn:E; [|reflexivity]. apply amessage_consumes in E.
  destruct (dispatch ct st b) as [[resp o]|]; [reflexivity|]. apply IH; lia.
Qed.

Definition aread (w32 : bool) (ct : N) (fin : ioerr) (bs : bytes) := aread_k (S (length bs)) w32 ct fin bs.

Lemma aread_eq : forall w32 ct fin bs, aread w32 ct fin bs =
  match amessage w32 fin bs with
  | (inr e, r) => ((None, Some e), r)
  | (inl (st, b, n), r) =>
      match dispatch ct st b with
      | Some (resp, Some CBadMeta) => ((resp, Some CBadMeta), r)
      | Some a => (a, skipN n r)
      | None => aread w32 ct fin (skipN n r)
      end
  end.
Proof.
  intros. unfold aread at 1. cbn [aread_k]. destruct (amessage w32 fin bs) as [[[[st b] n]|e] r] eqn:E; [|reflexivity]. apply amessage_consumes in E.
  destruct (dispatch ct st b) as [[resp o]|]; [reflexivity|]. apply aread_k_enough; lia.
Qed.

Lemma conn_read_spec : forall w32 ct r, exists r', conn_read w32 ct r = (fst (aread w32 ct (ended r) (flat r)), r') /\
  flat r' = snd (aread w32 ct (ended r) (flat r)) /\ ended r' = ended r.
Proof. intros. apply read_k_spec. Qed.
