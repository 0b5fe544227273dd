(* C118: which responses belong to which call. *)
From Coq Require Import String List NArith ZArith Arith Bool Lia.
From Coq Require Import List.
From Verif Require Import Base GoSlice SpecWire SpecMsg Values SpecValue MsgModel Builder SpecProg SpecUnit Conn SpecReply SpecServer SpecCommit SpecPlace.
From Verif Require System SpecSystem ShapeProofs ReplyProofs ThmConn ThmSystem MsgProofs ThmCommit ThmTx ThmServer ThmBuilder.
Import ListNotations.
Open Scope list_scope.
Open Scope nat_scope.

Lemma asks_width : forall d ms, asks d ms -> List.length ms = width d.
Proof.
  intros [c|name cols row|k|k] ms H; cbn in H.
  - destruct H as (m & -> & _). reflexivity.
  - destruct H as (es & id & _ & ->). reflexivity.
  - destruct k as [level|context]; cbn in H.
    + unfold width. destruct level as [|p]; cbn in H; [injection H as <-; reflexivity|].
      do 3 (try destruct p as [p|p|]); cbn in H; try discriminate; injection H as <-; reflexivity.
    + injection H as <-. reflexivity.
  - subst ms. reflexivity.
Qed.

(* The messages of a program, deed by deed. *)
Lemma made_msgs : forall pr ms ids out, prog_msgs pr ms ids out -> exists ds mss, made pr ds out /\ Forall2 asks ds mss /\ ms = concat mss.
Proof.
  intros pr ms ids out H. induction H as [cberr out|c next m ms ids out Hc H (ds & mss & A & B & ->)|name cols row next id es ms ids out He H (ds & mss & A & B & ->)|k body next op ms1 ids1 out1 ms2 ids2 out Ho H1 (ds1 & mss1 & A1 & B1 & ->) H2 (ds2 & mss2 & A2 & B2 & ->)].
  - exists [], []. split; [constructor|]. split; [constructor|reflexivity].
  - exists (ACall c :: ds), ([m] :: mss). split; [constructor; exact A|]. split; [constructor; [exists m; auto|exact B]|reflexivity].
  - exists (ARow name cols row :: ds), ([MInsert name (Some table_model) cols [es]; set_last_id id] :: mss). split; [econstructor; exact A|]. split; [constructor; [exists es, id; auto|exact B]|reflexivity].
  - exists (AEnter k :: ds1 ++ ALeave k :: ds2), (op :: mss1 ++ [closing k] :: mss2). split; [econstructor; eassumption|]. split.
    + constructor; [exact Ho|]. apply Forall2_app; [exact B1|]. constructor; [reflexivity|exact B2].
    + cbn [concat]. rewrite concat_app. cbn [concat]. reflexivity.
Qed.

Lemma part_asks : forall ds mss k d, Forall2 asks ds mss -> nth_error ds k = Some d -> asks d (part ds k (concat mss)).
Proof.
  intros ds mss k d H Hk. unfold part. rewrite Hk. revert k d Hk. induction H as [|d0 m0 ds mss Ha H IH]; intros [|k] d Hk; try discriminate.
  - injection Hk as <-. unfold place. cbn [firstn map list_sum fold_right skipn concat]. cbn. rewrite firstn_app, <- (asks_width _ _ Ha), Nat.sub_diag, firstn_all. cbn. rewrite app_nil_r. exact Ha.
  - specialize (IH k d Hk). unfold place in *. cbn [firstn map concat]. cbn [list_sum fold_right]. fold (list_sum (map width (firstn k ds))). rewrite skipn_app, skipn_all2 by (rewrite (asks_width _ _ Ha); lia). cbn [app].
    rewrite (asks_width _ _ Ha). replace (width d0 + list_sum (map width (firstn k ds)) - width d0) with (list_sum (map width (firstn k ds))) by lia. exact IH.
Qed.
Lemma concat_width : forall ds mss, Forall2 asks ds mss -> List.length (concat mss) = list_sum (map width ds).
Proof. intros ds mss H. induction H as [|d m ds mss Ha H IH]; [reflexivity|]. cbn [concat map]. rewrite app_length, IH, (asks_width _ _ Ha). reflexivity. Qed.
Lemma place_le : forall ds k d, nth_error ds k = Some d -> place ds k + width d <= list_sum (map width ds).
Proof.
  induction ds as [|d0 ds IH]; intros [|k] d H; try discriminate.
  - injection H as <-. unfold place. cbn. lia.
  - specialize (IH k d H). unfold place in *. cbn [firstn map]. change (list_sum (width d0 :: map width (firstn k ds))) with (width d0 + list_sum (map width (firstn k ds))). change (list_sum (width d0 :: map width ds)) with (width d0 + list_sum (map width ds)). lia.
Qed.

Lemma window : forall {A B} (R : A -> B -> Prop) w p (l : list A) (l' : list B),
  (forall i y, p <= i -> i < p + w -> nth_error l' i = Some y -> exists x, nth_error l i = Some x /\ R x y) -> p + w <= List.length l' ->
  Forall2 R (firstn w (skipn p l)) (firstn w (skipn p l')).
Proof.
  intros A B R w p l l'. revert w l l'. induction p as [|p IHp]; intros w l l' H L.
  - cbn [skipn]. revert l l' H L. induction w as [|w IHw]; intros l l' H L; [constructor|]. destruct l' as [|y l']; [cbn in L; lia|].
    destruct (H 0 y) as (x & Hx & Hr); [lia|lia|reflexivity|]. destruct l as [|x' l]; [discriminate|]. injection Hx as ->. cbn [firstn]. constructor; [exact Hr|].
    apply IHw; [|cbn in L; lia]. intros i z _ Hi Hz. destruct (H (S i) z) as (x' & A1 & A2); [lia|lia|exact Hz|]. eauto.
  - destruct l' as [|y l']; [cbn in L; lia|]. destruct l as [|x l].
    + destruct w as [|w]; [constructor|]. cbn in L. destruct (nth_error (y :: l') (S p)) as [z|] eqn:Z; [|apply nth_error_None in Z; cbn in Z; lia].
      destruct (H (S p) z) as (x & X & _); [lia|lia|exact Z|]. discriminate.
    + cbn [skipn]. apply IHp; [|cbn in L; lia]. intros i z H1 H2 Hz. destruct (H (S i) z) as (x' & A1 & A2); [lia|lia|exact Hz|]. eauto.
Qed.
Lemma all_true : forall tr rs, Forall2 truth tr rs -> (Forall (eq None) rs <-> Forall executed tr).
Proof.
  intros tr rs H. induction H as [|t r tr rs Ht H IH]; [split; constructor|]. split; intros X; inversion X; subst; constructor; try (apply IH; assumption).
  - apply Ht. reflexivity.
  - symmetry. apply Ht. assumption.
Qed.
Lemma map_part : forall {A B} (f : A -> B) ds k l, map f (part ds k l) = part ds k (map f l).
Proof. intros A B f ds k l. unfold part. destruct (nth_error ds k) as [d|]; [|reflexivity]. rewrite skipn_map, firstn_map. reflexivity. Qed.
Lemma part_firstn : forall {A} ds k d n (l : list A), nth_error ds k = Some d -> place ds k + width d <= List.length (firstn n l) -> part ds k (firstn n l) = part ds k l.
Proof.
  intros A ds k d n l H L. unfold part. rewrite H. rewrite firstn_length in L. rewrite firstn_skipn_comm, firstn_firstn, Nat.min_l by lia. rewrite <- firstn_skipn_comm. reflexivity.
Qed.

(* What the deeds of a unit are, and which of its messages ask for which, says where their responses are. The server answers the messages, or the first n
   of them, in whatever way, telling the truth about each; of its replies some bytes may never arrive. For every deed all of whose responses were read (Send
   returned no error, or a further response), they are all nil exactly if the server executed all that the deed asked for. *)
Theorem C118_responses_of_a_call : forall (E : Env) b pr bs, empty b -> prog_ok word32 pr -> delivers b pr bs -> (nlen bs < 2 ^ 32)%N ->
  exists ds out ms, made pr ds out /\ dstream bs = Some ms /\ List.length ms = list_sum (map width ds) /\
    forall n tr ps deadline c missing rs e c',
      map fst tr = firstn n ms -> Forall2 (acknowledges word32) tr ps -> unread c ++ missing = concat (map reply_bytes ps) -> is_bytes (unread c) ->
      conn_send word32 deadline bs c = Ok ((rs, e), c') ->
      (e = None -> List.length rs = list_sum (map width ds)) /\
      forall k d, nth_error ds k = Some d -> e = None \/ place ds k + width d < List.length rs ->
        asks d (map fst (part ds k tr)) /\ List.length (part ds k rs) = width d /\ (Forall (eq None) (part ds k rs) <-> Forall executed (part ds k tr)).
Proof.
  intros E b pr bs He Hok Hd Hl. destruct (ShapeProofs.delivers_step E b pr bs He Hok Hd Hl) as (b' & out0 & ms & ids & _ & _ & _ & _ & Hsay & Hm & _).
  pose proof (MsgProofs.says_dstream bs ms Hsay) as Hds. destruct (made_msgs _ _ _ _ Hm) as (ds & mss & A & B & Ems).
  exists ds, out0, ms. split; [exact A|]. split; [exact Hds|]. assert (Lm : List.length ms = list_sum (map width ds)) by (rewrite Ems; apply concat_width; exact B). split; [exact Lm|].
  intros n tr ps dl c missing rs e c' Htr Hk Hu Hb Hsend. destruct (ThmCommit.sent_or_not E b pr bs dl c rs e c' He Hok Hd Hl Hsend) as (ms' & M1 & M2). rewrite Hds in M1. injection M1 as <-.
  destruct M2 as [[-> M2]|(cts & q & M2 & M3)].
  { split; [intros X; contradiction|]. intros k d _ [X|X]; [contradiction|cbn in X; lia]. }
  destruct (ThmCommit.areads_truth word32 (ended (rd c)) tr ps Hk cts (unread c) missing rs e q Hb Hu M3) as [T1 T2].
  pose proof (ThmConn.areads_length word32 (ended (rd c)) cts (unread c)) as [_ L2]. rewrite M3 in L2. cbn [fst snd] in L2.
  split; [intros X; rewrite <- Lm, <- M2; exact (L2 X)|]. intros k d Hd' Hcert. pose proof (place_le _ _ _ Hd') as Pl.
  assert (Lr : place ds k + width d <= List.length rs) by (destruct Hcert as [X|X]; [rewrite (L2 X), M2, Lm; exact Pl|lia]).
  assert (W : Forall2 truth (part ds k tr) (part ds k rs)).
  { unfold part. rewrite Hd'. apply window; [|exact Lr]. intros i r _ Hi Hr. apply (T2 i r Hr). destruct Hcert as [X|X]; [left; exact X|right; lia]. }
  assert (Lp : List.length (part ds k rs) = width d) by (unfold part; rewrite Hd', firstn_length, skipn_length; lia).
  split; [|split; [exact Lp|apply all_true; exact W]].
  rewrite map_part, Htr, (part_firstn ds k d n ms Hd').
  - rewrite Ems. apply part_asks; assumption.
  - rewrite <- Htr, map_length. assert (0 < width d) by (destruct d as [| |[level|]|]; cbn; try lia; destruct ((1 <=? level)%N && (level <=? 4)%N); lia).
    destruct (nth_error rs (place ds k + width d - 1)) as [r|] eqn:Z; [|apply nth_error_None in Z; lia].
    destruct (T2 _ _ Z) as (t & Ht & _); [destruct Hcert as [X|X]; [left; exact X|right; lia]|]. assert (nth_error tr (place ds k + width d - 1) <> None) by congruence. apply nth_error_Some in H0. lia.
Qed.

(* The same through a pool, with any number of callers. *)
Theorem C118_through_the_pool : forall (E : Env) b pr bs, empty b -> prog_ok word32 pr -> delivers b pr bs -> (nlen bs < 2 ^ 32)%N ->
  exists ds out ms, made pr ds out /\ dstream bs = Some ms /\
    forall size acts sys said i rs tr,
      System.run word32 acts (System.new_system size) = Some sys -> SpecSystem.sends said sys -> Forall (SpecSystem.serves word32 said) acts ->
      SpecSystem.unit_is sys i bs -> SpecSystem.got sys i rs None ->
      map fst tr = ms -> Forall2 truth tr (map seen_as (said i)) ->
      List.length rs = list_sum (map width ds) /\
      forall k d, nth_error ds k = Some d ->
        asks d (map fst (part ds k tr)) /\ List.length (part ds k rs) = width d /\ (Forall (eq None) (part ds k rs) <-> Forall executed (part ds k tr)).
Proof.
  intros E b pr bs He Hok Hd Hl. destruct (ShapeProofs.delivers_step E b pr bs He Hok Hd Hl) as (b' & out0 & ms & ids & _ & _ & _ & _ & Hsay & Hm & _).
  pose proof (MsgProofs.says_dstream bs ms Hsay) as Hds. destruct (made_msgs _ _ _ _ Hm) as (ds & mss & A & B & Ems).
  exists ds, out0, ms. split; [exact A|]. split; [exact Hds|]. intros size acts sys said i rs tr R S1 S2 _ G Htr Ht.
  destruct (ThmSystem.C61_own_responses word32 size acts sys said i rs None R S1 S2 G) as [Hrs _]. rewrite <- (Hrs eq_refl) in Ht. clear Hrs.
  assert (Lm : List.length ms = list_sum (map width ds)) by (rewrite Ems; apply concat_width; exact B).
  assert (Lr : List.length rs = List.length tr) by (clear - Ht; induction Ht; cbn; congruence). assert (Lt : List.length tr = List.length ms) by (rewrite <- Htr, map_length; reflexivity).
  split; [lia|]. intros k d Hk. pose proof (place_le _ _ _ Hk) as Pl. split; [|split].
  - rewrite map_part, Htr, Ems. apply part_asks; assumption.
  - unfold part. rewrite Hk, firstn_length, skipn_length. lia.
  - apply all_true. unfold part. rewrite Hk. apply window; [|lia]. intros j r _ _ Hr. clear - Ht Hr. revert j Hr. induction Ht as [|t r0 tr rs H Ht IH]; intros [|j] Hr; try discriminate; [injection Hr as <-; exists t; auto|exact (IH j Hr)].
Qed.

(* A case that meets the hypotheses: a transaction that is serializable with a row, and a statement after it. The row exists already, the rest is executed. *)
Import ThmTx.
Definition row_and_more : prog :=
  PBlock 0 (KTx 4%N) (PInsertRow 0 (s2b "t") [s2b "a"] [VInt 1%Z] (fun _ => Ret None [])) (fun _ => PCall 0 (CDeallocate 7%N) (Ret None [])).
Definition row_messages : list msg := match dstream (sent_by row_and_more) with Some ms => ms | None => [] end.
Definition row_trace : list (msg * SpecServer.outcome) := combine row_messages [Executed; Executed; Failed; Executed; Executed; Executed].
Definition row_conn : conn := mkc Tcp (mkr [] (ThmConn.pieces 60 3 (concat (map reply_bytes (map reply_for (map snd row_trace))))) IoEOF) [] [] [].
Definition row_deeds : list deed := [AEnter (KTx 4%N); ARow (s2b "t") [s2b "a"] [VInt 1%Z]; ALeave (KTx 4%N); ACall (CDeallocate 7%N)].
Example place_meets : @delivers ThmBuilder.plain (new_pipe 0) row_and_more (sent_by row_and_more) /\ prog_ok false row_and_more /\ made row_and_more row_deeds [] /\
  dstream (sent_by row_and_more) = Some row_messages /\ map fst row_trace = firstn 6 row_messages /\
  Forall2 (acknowledges false) row_trace (map reply_for (map snd row_trace)) /\ unread row_conn ++ [] = concat (map reply_bytes (map reply_for (map snd row_trace))) /\
  exists rs c', conn_send false None (sent_by row_and_more) row_conn = Ok ((rs, None), c') /\
    part row_deeds 0 rs = [None; None] /\ part row_deeds 1 rs = [Some ThmConn.dup; None] /\ part row_deeds 2 rs = [None] /\ part row_deeds 3 rs = [None].
Proof.
  split; [unfold delivers; eexists _, _; split; vm_compute; reflexivity|]. split; [cbn; repeat split; try constructor; intros; repeat constructor; try solve [cbn; unfold go_string; vm_compute; try reflexivity; intuition discriminate]|].
  split; [apply (A_block _ _ _ [ARow (s2b "t") [s2b "a"] [VInt 1%Z]] [] [ACall (CDeallocate 7%N)]); [apply (A_row _ _ _ _ (s2b "@id$1")); apply A_ret|apply A_call; apply A_ret]|].
  split; [vm_compute; reflexivity|]. split; [vm_compute; reflexivity|]. split; [apply ThmCommit.replies_tell|]. split; [vm_compute; reflexivity|].
  eexists _, _. split; [vm_compute; reflexivity|]. repeat split.
Qed.

Print Assumptions C118_responses_of_a_call.
Print Assumptions C118_through_the_pool.
