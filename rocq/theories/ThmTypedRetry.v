(* What failed can be sent again (C108), when arguments may also be values that are encoded wrongly. *)
From Coq Require Import String List NArith ZArith Arith Bool Lia ZifyN ZifyNat ZifyBool.
From Coq Require Import List.
From Verif Require Import Base GoSlice SpecWire SpecMsg WireProofs Text Values MsgModel Builder
  SpecValue SpecProg SpecUnit SpecTyped Conn SpecReply SpecServer SpecSession SpecCommit SpecRetry ThmValues ThmDefects ThmTyped ThmServer ThmTypedServe ThmTypedWork ThmTypedReplies ShapeProofs.
From Verif Require ThmBuilder ThmTx ThmCommit ThmRetry ReplyProofs ConnProofs.
Import ListNotations.
Open Scope N_scope.
Open Scope list_scope.

(* SpecRetry.try_of, for a server that takes the frames of the unit for the messages ms: of those whose frames arrived whole it did what it does. *)
Definition try_taken (w32 propagates : bool) (unit : bytes) (ms : list msg) (s : session) (reached : nat) (rs : list response) (e : option cerr) (s' : session) : Prop :=
  exists deadline c c' arrived tr ps missing,
    conn_send w32 deadline unit c = Ok ((rs, e), c') /\
    dframes (firstn reached (given c c')) = Some arrived /\ serve propagates [] (firstn (List.length arrived) ms) tr /\ s' = play tr s /\
    Forall2 (acknowledges w32) tr ps /\ unread c ++ missing = concat (map reply_bytes ps) /\ is_bytes (unread c).

Lemma frames_arrived j bs fs fa : dframes bs = Some fs -> dframes (firstn j bs) = Some fa -> exists rest, fs = fa ++ rest /\ framed (skipn j bs) rest.
Proof.
  intros F1 F2. destruct (ThmRetry.dframes_framed _ _ F1) as [B1 D1]. destruct (ThmRetry.dframes_framed _ _ F2) as [_ D2]. rewrite <- (firstn_skipn j bs) in D1.
  destruct (ThmRetry.dframes_split _ _ _ _ _ (le_n _) D2 D1) as (fb & -> & D3). exists fb. split; [reflexivity|]. split; [|exact D3].
  rewrite <- (firstn_skipn j bs) in B1. apply Forall_app in B1. apply B1.
Qed.

Lemma taken_told w32 p fs0 z bs ms s j rs e s' : bs = concat (map frame (fs0 ++ [z])) -> Forall (fun f => 1 + nlen (snd f) < 2 ^ 32) (fs0 ++ [z]) -> dframes bs = Some (fs0 ++ [z]) -> reads z MExpectClose ->
  List.length (fs0 ++ [z]) = List.length ms -> try_taken w32 p bs ms s j rs e s' -> ThmRetry.try_told p bs ms s j rs e s'.
Proof.
  intros Eb Hf Hm Hz Lm (d & c & c' & fa & tr & ps & missing & H1 & H2 & H3 & H4 & H5 & H6 & H7). rewrite Eb in H1.
  destruct (ThmRetry.send_cases w32 d _ c rs e c' Hf H1) as [(G & -> & x & ->)|G'].
  - rewrite G, firstn_nil in H2. injection H2 as <-. exists 0%nat, tr. cbn [List.length] in H3. split; [exact H3|]. split; [exact H4|]. split; [lia|]. split; [reflexivity|]. split; [intros [|i] ? X; discriminate X|]. split; [intros [|i] X; discriminate X|]. intros. lia.
  - assert (G : given c c' = bs) by (rewrite Eb; destruct G' as [[G _]|[G _]]; exact G). rewrite G in H2. destruct (frames_arrived j bs _ fa Hm H2) as (rest & Er & R).
    pose proof (f_equal (@List.length _) Er) as Le. rewrite (app_length fa rest), Lm in Le.
    exists (List.length fa), tr. split; [exact H3|]. split; [exact H4|]. split; [lia|]. split.
    { intros [x ->]. exfalso. destruct G' as [(_ & _ & y & Y)|(_ & q & Q)]; [discriminate|]. exact (ThmRetry.areads_other _ _ _ _ _ _ _ Q). }
    split.
    { intros i x Hi. destruct G' as [(_ & -> & _)|(_ & q & Q)]; [destruct i; discriminate|].
      destruct (ThmRetry.areads_error w32 (ended (rd c)) tr ps H5 _ _ missing rs e q H7 H6 Q i x Hi) as (t & T1 & T2). exists t. split; [exact T1|]. intros X. apply T2 in X. discriminate. }
    split.
    { intros i Hi Hc. destruct G' as [(_ & -> & _)|(_ & q & Q)]; [destruct i; discriminate|].
      destruct (ThmCommit.areads_truth w32 (ended (rd c)) tr ps H5 _ _ missing rs e q H7 H6 Q) as [_ T]. destruct (T i None Hi Hc) as (t & T1 & T2). exists t. split; [exact T1|]. apply T2. reflexivity. }
    intros i m Hi Hl Ll Hj. destruct (Nat.le_gt_cases (List.length fa) i) as [L|L]; [exact L|exfalso].
    assert (Lr : (List.length rest <= 1)%nat) by lia. destruct (framed_frame _ _ R) as [Ek _].
    assert (Lk : (List.length (skipn j bs) <= 5)%nat).
    { destruct rest as [|r [|r' rest]]; [rewrite Ek; cbn; lia| |cbn in Lr; lia]. apply app_inj_tail in Er as [_ <-]. unfold reads in Hz. rewrite Ek. destruct z as [ty pl]. cbn [fst snd] in Hz.
      rewrite (ThmRetry.dmsg_close _ _ Hz). cbn. lia. }
    rewrite skipn_length in Lk. lia.
Qed.

(* C108: whatever the arguments, and whatever the server takes the frames for that it cannot read: whatever becomes of the connection, all changes of the unit are durable
   or none; and there are results from which one knows which. *)
Theorem C108_result_whatever_the_values_partial : forall (E : Env) b context cs level body bs, empty b -> Forall ThmTx.prepares cs ->
  typed_prog word32 (ThmTx.unit_of_work context cs level body) -> delivers b (ThmTx.unit_of_work context cs level body) bs -> nlen bs < 2 ^ 32 ->
  exists fs mp opening inner, dframes bs = Some fs /\ work_frames word32 context cs level body fs mp opening inner /\
    forall mi, Forall2 taken_for inner mi -> Forall2 taken_for fs (ThmTx.unit_messages context mp opening mi) /\
    forall propagates s reached rs e s', Forall SpecSession.plain mi -> propagates = true \/ Forall ordinary mi -> in_progress s = None ->
      try_taken word32 propagates bs (ThmTx.unit_messages context mp opening mi) s reached rs e s' ->
      let position := (1 + List.length mp + List.length opening + List.length inner)%nat in
      (durable s' = durable s \/ durable s' = durable s ++ changes mi) /\
      (surely_undone bs position reached rs e -> durable s' = durable s) /\
      (surely_done position rs e -> s' = mksess None (durable s ++ changes mi)).
Proof.
  intros E b context cs level body bs He Hc Hok Hd Hl. destruct (work_delivered_frames E b context cs level body bs He Hc Hok Hd Hl) as (fs & mp & l & inner & Hdf & A1 & A2 & A3 & A4).
  exists fs, mp, l, inner. split; [exact Hdf|]. split; [exact A3|]. intros mi T. destruct (work_taken _ _ _ _ _ _ _ _ _ A3 mi T) as [T1 T2]. split; [exact T1|].
  intros p s j rs e s' Hi Hpr Hn Tr. cbv zeta. destruct (ThmTx.opening_shape level l (w_opening _ _ _ _ _ _ _ _ _ A3)) as (lv & st & -> & B1 & B2 & _).
  destruct A3 as [_ _ _ (o & prepared & fs0 & g & z & Ef & _ & _ & _ & _ & Hz)].
  assert (Ef' : fs = (o :: prepared ++ fs0 ++ inner ++ [g]) ++ [z]) by (rewrite Ef; cbn [app]; rewrite <- !app_assoc; reflexivity). pose proof (taken_length _ _ T1) as Lt. rewrite (taken_length _ _ T). clear Ef. rewrite Ef' in *.
  pose proof (taken_told word32 p _ z bs _ s j rs e s' A1 A2 Hdf Hz Lt Tr) as Tt.
  destruct (ThmRetry.told_result p bs context mp lv st mi s j rs e s' A4 B1 B2 Hi T2 Hpr Hn Tt) as (R1 & R2 & R3). cbv zeta in *.
  split; [destruct R3 as [R3|R3]; [auto|right; rewrite R3; reflexivity]|]. split; [exact R1|exact R2].
Qed.

(* C108: after any number of tries that surely did nothing, a last one that surely did the work leaves it done once. What a server takes a frame for that it cannot read may
   differ from try to try. *)
Theorem C108_repeated_whatever_the_values_partial : forall (E : Env) b context cs level body bs, empty b -> Forall ThmTx.prepares cs ->
  typed_prog word32 (ThmTx.unit_of_work context cs level body) -> delivers b (ThmTx.unit_of_work context cs level body) bs -> nlen bs < 2 ^ 32 ->
  exists fs mp opening inner, dframes bs = Some fs /\ work_frames word32 context cs level body fs mp opening inner /\
    forall propagates s s1 reached rs e s' mi, in_progress s = None ->
      let takes mi := Forall2 taken_for inner mi /\ Forall SpecSession.plain mi /\ (propagates = true \/ Forall ordinary mi) in
      let try mi := try_taken word32 propagates bs (ThmTx.unit_messages context mp opening mi) in
      let position := (1 + List.length mp + List.length opening + List.length inner)%nat in
      tries (fun s j rs e s' => exists mi, takes mi /\ try mi s j rs e s') (surely_undone bs position) s s1 ->
      durable s1 = durable s /\
      (takes mi -> try mi s1 reached rs e s' -> surely_done position rs e -> s' = mksess None (durable s ++ changes mi)).
Proof.
  intros E b context cs level body bs He Hc Hok Hd Hl. destruct (C108_result_whatever_the_values_partial E b context cs level body bs He Hc Hok Hd Hl) as (fs & mp & l & inner & Hdf & W & K).
  exists fs, mp, l, inner. split; [exact Hdf|]. split; [exact W|]. intros p s s1 j rs e s' mi Hn. cbv zeta. intros T.
  assert (G : durable s1 = durable s /\ in_progress s1 = None).
  { induction T as [s|s k r x s2 s3 (m & (M1 & M2 & M3) & T1) T2 T3 IH]; [auto|]. destruct (K m M1) as [_ R]. destruct (R p s k r x s2 M2 M3 Hn T1) as (_ & R1 & _). specialize (R1 T2). specialize (IH eq_refl). cbn [gone durable] in IH. rewrite R1 in IH. exact IH. }
  destruct G as [G1 G2]. split; [exact G1|]. intros (M1 & M2 & M3) T1 T2. destruct (K mi M1) as [_ R]. destruct (R p s1 j rs e s' M2 M3 G2 T1) as (_ & _ & R2). rewrite (R2 T2), G1. reflexivity.
Qed.

(* ---- the hypotheses can be met ---- *)

(* ThmTypedServe.wrong_unit, by a server that takes the criteria it cannot read for none: a try of which only the first three messages arrive and no reply comes
   back, and one that goes well. *)
Definition wrong_taken : list msg := ThmTx.unit_messages 0 [MPrepare 1 (s2b "SELECT 1")] [s2b "START TRANSACTION"] [MDelete (s2b "u") (Some 2) None].

Lemma taken_try w32 p fs bs s ms j fa n fin k : bs = concat (map frame fs) -> Forall (fun f => 1 + nlen (snd f) < 2 ^ 32) fs -> (n < List.length fs)%nat ->
  dframes (firstn j bs) = Some fa -> serve p [] (firstn (List.length fa) ms) (ThmRetry.done (firstn (List.length fa) ms)) -> List.length (firstn (List.length fa) ms) = (n + k)%nat ->
  try_taken w32 p bs ms s j (repeat None (S n)) (Some (CRead fin)) (play (ThmRetry.done (firstn (List.length fa) ms)) s).
Proof.
  intros Eb Hf Ln Hd Hs Lh. set (c := mkc Tcp (mkr [] [ThmRetry.goods n] fin) [] [] []).
  destruct (ReplyProofs.send_spec w32 None fs c Hf) as (c' & A & _ & _ & _ & L & _); [split; reflexivity|]. cbv zeta in A.
  assert (U : unread c = ThmRetry.goods n) by (unfold unread, ConnProofs.flat; cbn; apply app_nil_r). rewrite U in A. cbn [ended rd c] in A. rewrite ThmRetry.areads_goods in A by (rewrite map_length; exact Ln). cbn [fst] in A.
  set (handled := firstn (List.length fa) ms) in *.
  exists None, c, c', fa, (ThmRetry.done handled), (repeat ThmRetry.good (List.length handled)), (ThmRetry.goods k). rewrite Eb in *. split; [exact A|]. split.
  { rewrite (ThmRetry.given_app c c' _ L). cbn [rev map concat app]. rewrite app_nil_r. exact Hd. }
  split; [exact Hs|]. split; [reflexivity|]. split; [apply ThmRetry.good_acknowledges|]. split; [rewrite U, <- ThmRetry.goods_app, Lh; reflexivity|]. rewrite U. apply ThmRetry.goods_bytes.
Qed.
Lemma taken_whole_try w32 p fs bs s ms : bs = concat (map frame fs) -> Forall (fun f => 1 + nlen (snd f) < 2 ^ 32) fs -> List.length fs = List.length ms ->
  dframes bs = Some fs -> serve p [] ms (ThmRetry.done ms) -> try_taken w32 p bs ms s (List.length bs) (repeat None (List.length ms)) None (play (ThmRetry.done ms) s).
Proof.
  intros Eb Hf Lf Hd Hs. set (c := mkc Tcp (mkr [] [ThmRetry.goods (List.length ms)] IoEOF) [] [] []).
  destruct (ReplyProofs.send_spec w32 None fs c Hf) as (c' & A & _ & _ & _ & L & _); [split; reflexivity|]. cbv zeta in A.
  assert (U : unread c = ThmRetry.goods (List.length ms)) by (unfold unread, ConnProofs.flat; cbn; apply app_nil_r). rewrite U in A. cbn [ended rd c] in A.
  replace (List.length ms) with (List.length (map fst fs)) in A by (rewrite map_length; exact Lf). rewrite ThmRetry.areads_all in A. cbn [fst] in A. rewrite map_length, Lf in A.
  exists None, c, c', fs, (ThmRetry.done ms), (repeat ThmRetry.good (List.length ms)), []. rewrite Lf, (firstn_all ms). rewrite Eb in *. split; [exact A|]. split.
  { rewrite (ThmRetry.given_app c c' _ L). cbn [rev map concat app]. rewrite app_nil_r, firstn_all. exact Hd. }
  split; [exact Hs|]. split; [reflexivity|]. split; [apply ThmRetry.good_acknowledges|]. split; [rewrite U; apply app_nil_r|]. rewrite U. apply ThmRetry.goods_bytes.
Qed.

Example wrong_retry_meets : exists bs fs, @delivers ThmBuilder.plain (new_pipe 0) wrong_unit bs /\ nlen bs < 2 ^ 32 /\ dframes bs = Some fs /\ Forall2 taken_for fs wrong_taken /\
  exists j s1 s2, try_taken false true bs wrong_taken (mksess None []) j [None] (Some (CRead IoEOF)) s1 /\ surely_undone bs 4 j [None] (Some (CRead IoEOF)) /\
    try_taken false true bs wrong_taken (gone s1) (List.length bs) [None; None; None; None; None; None] None s2 /\ surely_done 4 [None; None; None; None; None; None] None /\
    s2 = mksess None [MDelete (s2b "u") (Some 2) None].
Proof.
  destruct wrong_unit_sent as (bs & fs & o & p & st & d & c & e & Hd & Hl & Hdf & Ef & _ & Ht & _). exists bs, fs. split; [exact Hd|]. split; [exact Hl|]. split; [exact Hdf|]. split; [exact Ht|].
  pose proof (ThmRetry.dframes_framed _ _ Hdf) as Fr. destruct (framed_frame _ _ Fr) as [F1 F2]. destruct Fr as [Fb Fk].
  destruct (ThmRetry.first_frames 3 bs fs Fk) as (j & Hj & Jf).
  assert (J : dframes (firstn j bs) = Some (firstn 3 fs)). { apply framed_dframes. split; [|exact Jf]. rewrite <- (firstn_skipn j bs) in Fb. apply Forall_app in Fb. apply Fb. }
  assert (D1 : serve true [] wrong_taken (ThmRetry.done wrong_taken)).
  { unfold wrong_taken, ThmTx.unit_messages, ThmRetry.done. cbn [map app]. apply S_open; [reflexivity|]. do 4 (apply S_exec; [exact Logic.I|reflexivity|]). apply S_close; [reflexivity|]. constructor. }
  assert (Lf : List.length fs = 6%nat) by (rewrite Ef; reflexivity).
  exists j, (play (ThmRetry.done (firstn 3 wrong_taken)) (mksess None [])), (play (ThmRetry.done wrong_taken) (gone (play (ThmRetry.done (firstn 3 wrong_taken)) (mksess None [])))).
  assert (L3 : List.length (firstn 3 fs) = 3%nat) by (rewrite firstn_length, Lf; reflexivity).
  split.
  { pose proof (taken_try false true fs bs (mksess None []) wrong_taken j (firstn 3 fs) 0 IoEOF 3 F1 F2 ltac:(lia) J) as X. rewrite L3 in X. apply X; [|reflexivity].
    pose proof (ThmRetry.serve_first _ _ _ _ D1 3) as S3. exact S3. }
  split.
  { right. right. destruct (frames_arrived j bs fs _ Hdf J) as (rest & Er & R). destruct (framed_frame _ _ R) as [Ek _]. rewrite Ef in Er. cbn [firstn app] in Er. injection Er as <-.
    apply (f_equal (@List.length _)) in Ek. rewrite skipn_length in Ek. cbn [map concat] in Ek. rewrite !app_length in Ek.
    assert (Lfr : forall f, (5 <= List.length (frame f))%nat). { intros f. unfold frame. rewrite ?app_length. cbn. lia. } pose proof (Lfr d). pose proof (Lfr c). pose proof (Lfr e). lia. }
  split; [exact (taken_whole_try false true fs bs _ wrong_taken F1 F2 Lf Hdf D1)|]. split; [split; [reflexivity|left; reflexivity]|]. vm_compute. reflexivity.
Qed.

Print Assumptions C108_result_whatever_the_values_partial.
Print Assumptions C108_repeated_whatever_the_values_partial.
