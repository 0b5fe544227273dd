(* C93 The session messages are made in place, in the buffer the caller gives, without damage to what is being encoded, to
   what is in the buffer already, or to any other memory. *)
From Coq Require Import String List NArith ZArith Arith Bool Lia.
From Coq Require Import List.
From Verif Require Import Base GoSlice SpecWire SpecMsg Varint SpecValue MsgModel SpecProg SpecUnit Conn SpecAuth AuthModel SpecMem Mem MemModel MemAuth MemProofs MemUse MemAuthProofs.
From Verif Require Import ThmSession.
From Verif Require ThmBuilder ThmAuth.
Import ListNotations.
Local Open Scope nat_scope.
Local Notation length := List.length.

(* What a call that was given buf leaves: the slice it returns, q, holds a message; what buf showed before, it shows still;
   so does every slice that has no element in common with buf. *)
Definition made_in (m : mem) (buf : hslice) (h : hres hslice) (type : N) (mg : msg) : Prop :=
  exists q m', h = HOk q m' /\ valid m' q /\ one_message (contents m' q) type mg /\
    contents m' buf = contents m buf /\
    forall t, valid m t -> apart buf t -> contents m' t = contents m t.

Lemma own_contents m buf m' : wf m buf -> outside m buf (hlen buf) m' -> contents m' buf = contents m buf.
Proof.
  intros [W1 W2] [L O]. unfold contents. destruct (Nat.lt_ge_cases (arr buf) (length m)) as [La|La].
  - destruct (O _ La) as [O1 O2]. apply list_ext; [rewrite !sub_length by lia; reflexivity|]. rewrite sub_length by lia.
    intros i I. rewrite !nth_sub by exact I. apply O2. intros [_ Hi]. lia.
  - rewrite (array_out m) in * by exact La. cbn [length] in W2. replace (hlen buf) with 0 by lia. reflexivity.
Qed.

Lemma made m buf r h bs type mg : wf m buf -> refines m buf (hlen buf) r h (left_by m buf) ->
  r = Ok bs -> one_message bs type mg -> made_in m buf h type mg.
Proof.
  intros W R -> M. destruct R as (q & m' & -> & Wq & <- & O). exists q, m'. split; [reflexivity|]. split; [exact Wq|]. split; [exact M|].
  split; [apply own_contents; assumption|]. intros t Wt A. eapply outside_contents; eassumption.
Qed.

Section Theorems.
Context `{E : Env}.
Variables sha1 sha256 : bytes -> bytes.

(* ---- C93 ---- *)

Theorem C93_mysql41_start : forall m buf c, valid m buf ->
  made_in m buf (h_mysql41_start buf c m) 4 (MAuthStart (s2b "MYSQL41") None).
Proof.
  intros m buf c W. destruct (ThmAuth.C32_mysql41_start E (view m buf) c) as (bs & Eq & M).
  eapply made; [exact W|apply empty_name; exact W|exact Eq|exact M].
Qed.

Theorem C93_sha256_start : forall m buf c, valid m buf ->
  made_in m buf (h_sha256_start buf c m) 4 (MAuthStart (s2b "SHA256_MEMORY") None).
Proof.
  intros m buf c W. destruct (ThmAuth.C33_sha256_start E (view m buf) c) as (bs & Eq & M).
  eapply made; [exact W|apply empty_name; exact W|exact Eq|exact M].
Qed.

(* The digests, the proof and its hexadecimal digits are computed on top of each other, and the message is put behind them. *)
Theorem C93_mysql41_response : forall m buf c challenge, valid m buf -> valid m challenge -> apart buf challenge ->
  digests sha1 20 -> ThmAuth.creds_ok c ->
  made_in m buf (h_mysql41_continue sha1 buf c challenge m) 5
    (MAuthContinue (database c ++ [0%N] ++ user_name c ++ [0%N] ++ mysql41_proof sha1 (password c) (contents m challenge))).
Proof.
  intros m buf c v W Wv A Hd Hc. destruct (ThmAuth.C32_mysql41_response E sha1 (view m buf) c (contents m v) Hd Hc) as (bs & Eq & M).
  eapply made; [exact W|apply ref_mysql41_continue; [exact W|apply Hd|]|exact Eq|exact M].
  intros m' O. eapply outside_contents; eassumption.
Qed.

Theorem C93_sha256_response : forall m buf c challenge, valid m buf -> valid m challenge -> apart buf challenge ->
  digests sha256 32 -> ThmAuth.creds_ok c ->
  made_in m buf (h_sha256_continue sha256 buf c challenge m) 5
    (MAuthContinue (database c ++ [0%N] ++ user_name c ++ [0%N] ++ sha256_proof sha256 (password c) (contents m challenge))).
Proof.
  intros m buf c v W Wv A Hd Hc. destruct (ThmAuth.C33_sha256_response E sha256 (view m buf) c (contents m v) Hd Hc) as (bs & Eq & M).
  eapply made; [exact W|apply ref_sha256_continue; [exact W|apply Hd|]|exact Eq|exact M].
  intros m' O. eapply outside_contents; eassumption.
Qed.

Theorem C93_plain_start : forall m buf c, valid m buf -> ThmAuth.creds_ok c ->
  made_in m buf (h_plain_start buf c m) 4
    (MAuthStart (s2b "PLAIN") (Some (database c ++ [0%N] ++ user_name c ++ [0%N] ++ password c))).
Proof.
  intros m buf c W Hc. destruct (ThmAuth.C34_plain_start E (view m buf) c Hc) as (bs & Eq & M).
  eapply made; [exact W|apply ref_plain_start; exact W|exact Eq|exact M].
Qed.

(* AuthenticateStart and AuthenticateContinue of any data that is not in the spare memory of the buffer. *)
Theorem C93_authenticate_start : forall m p name d, valid m p -> valid m d -> apart p d ->
  go_string name -> go_string (contents m d) -> (nlen name + nlen (contents m d) < 2 ^ 31)%N ->
  made_in m p (h_authenticate_start p name d m) 4
    (MAuthStart name (match contents m d with [] => None | _ => Some (contents m d) end)).
Proof.
  intros m p name d W Wd A Gn Gd L. destruct (ThmSession.C50_authenticate_start E (view m p) name (contents m d) Gn Gd L) as (q & Eq & M).
  eapply made; [exact W|apply message_only; [exact W|apply ref_auth_start; [exact W| |]]|rewrite Eq; reflexivity|exact M].
  - unfold contents. rewrite sub_length; [reflexivity|]. destruct Wd. lia.
  - intros m' O. eapply outside_contents; [exact O|exact Wd|]. unfold apart, rest in *. cbn. lia.
Qed.

Theorem C93_authenticate_continue : forall m p d, valid m p -> valid m d -> apart p d ->
  go_string (contents m d) -> (nlen (contents m d) < 2 ^ 31)%N ->
  made_in m p (h_authenticate_continue p d m) 5 (MAuthContinue (contents m d)).
Proof.
  intros m p d W Wd A Gd L. destruct (ThmSession.C50_authenticate_continue E (view m p) (contents m d) Gd L) as (q & Eq & M).
  eapply made; [exact W|apply message_only; [exact W|apply ref_auth_continue; [exact W| |]]|rewrite Eq; reflexivity|exact M].
  - unfold contents. rewrite sub_length; [reflexivity|]. destruct Wd. lia.
  - intros m' O. eapply outside_contents; [exact O|exact Wd|]. unfold apart, rest in *. cbn. lia.
Qed.

(* xproto.Reset appends: what it returns starts with what it was given. *)
Theorem C93_reset : forall m p keepOpen, valid m p ->
  exists q m', h_msg_reset p keepOpen m = HOk q m' /\ valid m' q /\
    (exists bs, contents m' q = contents m p ++ bs /\ one_message bs 6 (MReset keepOpen)) /\
    contents m' p = contents m p /\
    forall t, valid m t -> apart p t -> contents m' t = contents m t.
Proof.
  intros m p keep W. destruct (ThmSession.C50_reset E (view m p) keep) as (bs & Eq & M).
  assert (R : exists q m', h_msg_reset p keep m = HOk q m' /\ sl m p (hlen p) m' (msg_reset (view m p) keep) q).
  { unfold h_msg_reset, msg_reset. destruct keep;
      match goal with |- context [append ?s ?xs] => destruct (ref_append m p (hlen p) m s p xs (sl_start m p (hlen p) W) ltac:(lia)) as (q & m' & Er & Sq & _) end;
      exists q, m'; auto. }
  destruct R as (q & m' & Er & Sq). exists q, m'. split; [exact Er|]. split; [apply Sq|]. split; [|split].
  - exists bs. split; [|exact M]. rewrite (sl_contents _ _ _ _ _ _ Sq), Eq, (contents_data m p W). reflexivity.
  - apply own_contents; [exact W|eapply sl_outside; exact Sq].
  - intros t Wt A. eapply outside_contents; [eapply sl_outside; exact Sq|exact Wt|exact A].
Qed.

(* ---- the exchange: one array for both messages ---- *)

Definition same_outcome {A} (m : mem) (r : res A) (h : hres A) : Prop :=
  exists m', (forall t, valid m t -> contents m' t = contents m t) /\
    h = match r with Ok a => HOk a m' | Panic => HPanic m' end.

(* the mechanism over memory agrees with the one over values *)
Definition agrees (hm : h_mechanism) (mech : bytes -> mechanism) : Prop :=
  (forall m buf c left, wf m buf -> hlen buf = 0 -> spare (view m buf) = repeat 0%N 128 ->
    refines m buf 0 (start (mech left) c) (h_start hm buf c m) (left_by m buf)) /\
  match h_continue hm with
  | None => forall left, continue (mech left) = None
  | Some k => forall left, exists kv, continue (mech left) = Some kv /\
      forall m buf c v, wf m buf -> hlen buf = 0 -> spare (view m buf) = left ->
        (forall m', outside m buf 0 m' -> contents m' v = contents m v) ->
        refines m buf 0 (kv c (contents m v)) (k buf c v m) (left_by m buf)
  end.

Lemma old_untouched m l s lo m' t : arr s = length m -> outside (m ++ [l]) s lo m' -> wf m t -> contents m' t = contents m t.
Proof.
  intros As [L O] [W1 W2]. unfold contents. destruct (Nat.lt_ge_cases (arr t) (length m)) as [La|La].
  - destruct (O (arr t) ltac:(rewrite app_length; cbn; lia)) as [O1 O2]. rewrite array_app_old in O1, O2 by exact La.
    apply list_ext; [rewrite !sub_length by lia; reflexivity|]. rewrite sub_length by lia.
    intros i I. rewrite !nth_sub by exact I. apply O2. intros [Ha _]. lia.
  - rewrite (array_out m) in * by exact La. cbn [length] in W2. replace (hlen t) with 0 by lia. reflexivity.
Qed.

Lemma outside_trans m s lo m1 m2 : outside m s lo m1 -> outside m1 s lo m2 -> outside m s lo m2.
Proof.
  intros [L O] [L2 O2]. split; [lia|]. intros a A. destruct (O a A) as [O1 O1x]. destruct (O2 a ltac:(lia)) as [O3 O4].
  split; [congruence|]. intros i I. rewrite O4, O1x by exact I. reflexivity.
Qed.

Lemma view_empty m s : hlen s = 0 -> view m s = mk [] (spare (view m s)).
Proof. intros Z. unfold view. rewrite Z. reflexivity. Qed.

Lemma exchange w32 deadline creds hm mech c m : agrees hm mech ->
  exists left, same_outcome m (authenticate w32 deadline creds (mech left) c) (h_authenticate w32 deadline creds hm c m).
Proof.
  intros [As Ac].
  set (buf := mkh (length m) 0 0 128). set (m1 := m ++ [repeat 0%N 128]).
  assert (W : wf m1 buf). { split; cbn [hlen hcap off arr buf]; [lia|]. unfold m1. rewrite array_app_new, repeat_length. lia. }
  assert (V : spare (view m1 buf) = repeat 0%N 128). { unfold view, buf, m1. cbn [arr off hlen hcap spare skipn]. rewrite array_app_new. reflexivity. }
  assert (H1 : forall left, h_authenticate w32 deadline creds hm c m = HPanic (mem_after (h_start hm buf creds m1)) /\
      start (mech left) creds = Panic /\ outside m1 buf 0 (mem_after (h_start hm buf creds m1)) \/
    exists bs b m2, h_start hm buf creds m1 = HOk b m2 /\ start (mech left) creds = Ok bs /\ contents m2 b = bs /\ outside m1 buf 0 m2).
  { intros left. specialize (As m1 buf creds left W eq_refl V). destruct (start (mech left) creds) as [bs|].
    - right. destruct As as (b & m2 & Eq & _ & Cb & O). exists bs, b, m2. auto.
    - left. destruct As as (m2 & Eq & O). split; [|split; [reflexivity|rewrite Eq; exact O]].
      unfold h_authenticate, h_new, hbind, h_reslice. cbn [hcap arr off]. rewrite repeat_length. cbn [Nat.leb hret].
      change (m ++ [repeat 0%N 128]) with m1. fold buf. rewrite Eq. reflexivity. }
  set (left := spare (view (mem_after (h_start hm buf creds m1)) buf)). exists left.
  destruct (H1 left) as [(Er & Es & O)|(bs & b & m2 & Eh & Es & Cb & O)].
  - exists (mem_after (h_start hm buf creds m1)). split; [intros t Wt; eapply old_untouched; [|exact O|exact Wt]; reflexivity|].
    rewrite Er. unfold authenticate. rewrite Es. reflexivity.
  - assert (Ea : h_authenticate w32 deadline creds hm c m =
      (match write_one w32 deadline bs c with
       | Panic => HPanic m2
       | Ok (a, c) =>
          match snd a with
          | None => HOk (None, c) m2
          | Some (CChallenge d) =>
              match h_continue hm with
              | None => HOk (Some CUnexpectedContinue, c) m2
              | Some k =>
                  match k buf creds (mkh (length m2) 0 (length d) (length d)) (m2 ++ [d]) with
                  | HOk b m3 => match write_one w32 deadline (contents m3 b) c with Ok (a, c) => HOk (snd a, c) m3 | Panic => HPanic m3 end
                  | HPanic m3 => HPanic m3
                  end
              end
          | Some e => HOk (Some e, c) m2
          end
       end)).
    { unfold h_authenticate, h_new, hbind, h_reslice, h_read, h_lift. cbn [hcap arr off]. rewrite repeat_length. cbn [Nat.leb hret].
      change (m ++ [repeat 0%N 128]) with m1. fold buf. rewrite Eh, Cb. destruct (write_one w32 deadline bs c) as [[[rs er] c']|]; [|reflexivity]. cbn [snd].
      destruct er as [[]|]; try reflexivity. destruct (h_continue hm); [|reflexivity].
      match goal with |- context [h buf creds ?x ?y] => destruct (h buf creds x y) as [b' m3|m3]; [|reflexivity] end.
      destruct (write_one w32 deadline _ c') as [[[? ?] ?]|]; reflexivity. }
    rewrite Ea. unfold authenticate. rewrite Es. cbn [bind]. clear Ea.
    assert (K2 : forall t, valid m t -> contents m2 t = contents m t) by (intros t Wt; eapply old_untouched; [|exact O|exact Wt]; reflexivity).
    destruct (write_one w32 deadline bs c) as [[[rs er] c']|]; cbn [bind snd]; [|exists m2; auto].
    destruct er as [[]|]; try (exists m2; split; [exact K2|reflexivity]).
    destruct (h_continue hm) as [k|]; [|rewrite Ac; exists m2; split; [exact K2|reflexivity]].
    destruct (Ac left) as (kv & -> & Ak).
    match goal with |- context [kv creds ?x] => rename x into d; set (ch := mkh (length m2) 0 (length d) (length d)); set (m2' := m2 ++ [d]) end.
    assert (W2 : wf m2' buf). { pose proof (wf_outside _ _ _ _ buf O W) as [Wa Wb]. split; [exact Wa|].
      unfold m2'. rewrite array_app_old; [exact Wb|]. destruct O as [L _]. unfold m1 in L. rewrite app_length in L. cbn [length arr buf] in *. lia. }
    assert (Lb : length m < length m2). { destruct O as [L _]. unfold m1 in L. rewrite app_length in L. cbn [length] in L. lia. }
    assert (Vl : spare (view m2' buf) = left).
    { unfold left. rewrite Eh. cbn [mem_after]. unfold view, m2'. rewrite array_app_old by exact Lb. reflexivity. }
    assert (Wc : wf m2' ch). { split; cbn [hlen hcap off arr ch]; [lia|]. unfold m2'. rewrite array_app_new. lia. }
    assert (Cc : contents m2' ch = d). { unfold contents, ch, m2'. cbn [arr off hlen]. rewrite array_app_new. unfold sub. cbn [skipn]. apply firstn_all. }
    specialize (Ak m2' buf creds ch W2 eq_refl Vl). rewrite Cc in Ak.
    specialize (Ak ltac:(intros m' O'; rewrite <- Cc; eapply outside_contents; [exact O'|exact Wc|unfold apart; cbn; lia])).
    assert (K3 : forall m3, outside m2' buf 0 m3 -> forall t, valid m t -> contents m3 t = contents m t).
    { intros m3 O3 t Wt. eapply old_untouched; [|exact (outside_trans _ _ _ _ _ (outside_new _ _ _ _ d O) O3)|exact Wt]. reflexivity. }
    destruct (kv creds d) as [bs2|]; cbn [bind].
    + destruct Ak as (b3 & m3 & -> & _ & -> & O3). exists m3. split; [apply K3; exact O3|].
      destruct (write_one w32 deadline bs2 c') as [[[? ?] ?]|]; reflexivity.
    + destruct Ak as (m3 & -> & O3). exists m3. split; [apply K3; exact O3|reflexivity].
Qed.

Lemma at_zero {A} m buf (r : res A) (h : hres hslice) R : hlen buf = 0 -> refines m buf (hlen buf) r h R -> refines m buf 0 r h R.
Proof. intros ->. auto. Qed.

Lemma mysql41_agrees : (forall x, length (sha1 x) = 20) -> agrees (h_mysql41 sha1) (mysql41 sha1).
Proof.
  intros Hd. split.
  - intros m buf c left W Z V. apply at_zero; [exact Z|]. cbn [start mysql41]. rewrite <- V. rewrite <- (view_empty m buf Z). apply empty_name; exact W.
  - cbn [h_continue h_mysql41]. intros left. eexists. split; [reflexivity|]. intros m buf c v W Z V C. apply at_zero; [exact Z|].
    rewrite <- V, <- (view_empty m buf Z). apply ref_mysql41_continue; [exact W|exact Hd|]. rewrite Z. exact C.
Qed.

Lemma sha256_agrees : (forall x, length (sha256 x) = 32) -> agrees (h_sha256_memory sha256) (sha256_memory sha256).
Proof.
  intros Hd. split.
  - intros m buf c left W Z V. apply at_zero; [exact Z|]. cbn [start sha256_memory]. rewrite <- V. rewrite <- (view_empty m buf Z). apply empty_name; exact W.
  - cbn [h_continue h_sha256_memory]. intros left. eexists. split; [reflexivity|]. intros m buf c v W Z V C. apply at_zero; [exact Z|].
    rewrite <- V, <- (view_empty m buf Z). apply ref_sha256_continue; [exact W|exact Hd|]. rewrite Z. exact C.
Qed.

Lemma plain_agrees : agrees h_plain (fun _ => plain).
Proof.
  split.
  - intros m buf c left W Z V. apply at_zero; [exact Z|]. cbn [start plain]. rewrite <- V. rewrite <- (view_empty m buf Z). apply ref_plain_start; exact W.
  - intros left. reflexivity.
Qed.

(* Authenticate, with both messages made in one array of 128 bytes that the first leaves something in (left), whether they fit
   it or not, does what it does when each is made in a buffer of its own, and leaves all memory there was alone. *)
Theorem C93_exchange_mysql41 : forall w32 deadline creds c m, digests sha1 20 ->
  exists left, same_outcome m (authenticate w32 deadline creds (mysql41 sha1 left) c)
                              (h_authenticate w32 deadline creds (h_mysql41 sha1) c m).
Proof. intros w32 d creds c m Hd. apply exchange. apply mysql41_agrees. intros x. apply Hd. Qed.

Theorem C93_exchange_sha256 : forall w32 deadline creds c m, digests sha256 32 ->
  exists left, same_outcome m (authenticate w32 deadline creds (sha256_memory sha256 left) c)
                              (h_authenticate w32 deadline creds (h_sha256_memory sha256) c m).
Proof. intros w32 d creds c m Hd. apply exchange. apply sha256_agrees. intros x. apply Hd. Qed.

Theorem C93_exchange_plain : forall w32 deadline creds c m,
  same_outcome m (authenticate w32 deadline creds plain c) (h_authenticate w32 deadline creds h_plain c m).
Proof. intros w32 d creds c m. destruct (exchange w32 d creds h_plain (fun _ => plain) c m plain_agrees) as [_ H]. exact H. Qed.

End Theorems.

(* ---- samples ---- *)

#[local] Existing Instance ThmBuilder.plain.

(* memory of two arrays: in the first a buffer of four bytes with room for 120 more, between other bytes; in the second a challenge *)
Definition here : mem := [repeat 9%N 10 ++ repeat 7%N 124 ++ repeat 8%N 20; s2b "0123456789"].
Definition room : hslice := mkh 0 10 4 124.
Definition chal : hslice := mkh 1 0 10 10.
Example response_meets : valid here room /\ valid here chal /\ apart room chal /\ digests (ThmAuth.toy 20) 20 /\ ThmAuth.creds_ok ThmAuth.me.
Proof.
  split; [split; vm_compute; lia|]. split; [split; vm_compute; lia|]. split; [unfold apart; cbn; auto|].
  split; [apply ThmAuth.toy_digests|exact ThmAuth.me_ok].
Qed.
(* The message is behind the data in the same array; only what follows the four bytes is written. *)
Example response_in_place : exists q m', h_mysql41_continue (ThmAuth.toy 20) room ThmAuth.me chal here = HOk q m' /\ arr q = 0 /\ off q = 63 /\
  dstream (contents m' q) = Some [MAuthContinue (s2b "test" ++ [0%N] ++ s2b "me" ++ [0%N] ++ s2b "*40463031363734353a3b72750000000000000000")] /\
  firstn 14 (array m' 0) = repeat 9%N 10 ++ repeat 7%N 4 /\ firstn 8 (skipn 14 (array m' 0)) = s2b "test" ++ [0%N] ++ s2b "me" ++ [0%N].
Proof. eexists _, _. split; [vm_compute; reflexivity|]. vm_compute. repeat split; reflexivity. Qed.

Print Assumptions C93_mysql41_start.
Print Assumptions C93_sha256_start.
Print Assumptions C93_mysql41_response.
Print Assumptions C93_sha256_response.
Print Assumptions C93_plain_start.
Print Assumptions C93_authenticate_start.
Print Assumptions C93_authenticate_continue.
Print Assumptions C93_reset.
Print Assumptions C93_exchange_mysql41.
Print Assumptions C93_exchange_sha256.
Print Assumptions C93_exchange_plain.
