(* C68: builders, *Insert and *Update used after their callback. *)
From Coq Require Import String List NArith ZArith Arith Bool Lia.
From Coq Require Import List.
From Verif Require Import Base GoSlice SpecWire SpecMsg Text Values MsgModel Builder SpecValue SpecProg SpecUnit WireProofs MsgProofs BuilderProofs UnitProofs
  SpecMem Mem MemModel MemProofs MemRef MemBuild MemUse MemKept SpecKept MemKeptProofs.
From Verif Require ThmBuilder ThmMem.
Import ListNotations.
Local Open Scope nat_scope.

Section Theorems.
Context `{E : Env}.

(* ------------------------------------------------------------ lemmas *)

Lemma run_length pr : forall st m st' out m', h_run pr st m = HOk (st', out) m' -> length st' = length st.
Proof.
  assert (Sn : forall l n (x : hbuilder), length (set_nth l n x) = length l).
  { induction l as [|y l IH]; intros [|n] x; cbn [set_nth length]; auto. }
  induction pr as [e o|lvl c next IH|lvl name columns row next IH|lvl k body IHb next IH]; intros st m st' out m' Hr; cbn [h_run] in Hr.
  - injection Hr as <- _ _. reflexivity.
  - destruct (nth_error st lvl); [|discriminate]. unfold hbind in Hr. destruct (h_exec_call _ _ _ m) as [b1 m1|m1]; [|discriminate].
    apply IH in Hr. rewrite Hr. apply Sn.
  - destruct (nth_error st lvl); [|discriminate]. unfold hbind in Hr. destruct (h_b_insert_row _ _ _ _ m) as [[b1 f] m1|m1]; [|discriminate].
    apply IH in Hr. rewrite Hr. apply Sn.
  - destruct (nth_error st lvl); [|discriminate]. unfold hbind in Hr. destruct (h_block_begin _ _ m) as [[b1 [|]] m1|m1]; [| |discriminate].
    + cbv zeta in Hr. destruct (h_run body _ m1) as [[st2 o2] m2|m2] eqn:Eb; [|discriminate]. apply IHb in Eb. cbn [length] in Eb. rewrite Sn in Eb.
      destruct st2 as [|c st2]; [discriminate|]. destruct (h_block_end _ _ m2) as [b2 m3|m3]; [|discriminate].
      apply IH in Hr. rewrite Hr, Sn. cbn [length] in Eb. lia.
    + apply IH in Hr. rewrite Hr. apply Sn.
Qed.

Lemma contents_length m s : wf m s -> length (contents m s) = hlen s.
Proof. intros [W1 W2]. unfold contents. apply sub_length. lia. Qed.

Lemma kept_beside m b i j a os m1 c b1 :
  valid m (hbuf b) -> i <> j -> subject a = i -> made a = Some j -> act_users leaves_alone a ->
  k_do a (set_obj (fun _ => None) i (OBuilder b)) m = HOk os m1 ->
  os i = Some (OBuilder b1) -> os j = Some c ->
  valid m1 (hbuf b1) /\ valid m1 (obj_buf c) /\ (begins (obj_buf c) (hbuf b1) \/ apart (hbuf b1) (obj_buf c)) /\
  forall k o, os k = Some o -> k = i \/ k = j.
Proof.
  intros W N Ei Ej U Hd Hi Hj.
  assert (Sf : set_obj (fun _ => None) i (OBuilder b) i = Some (OBuilder b)) by (unfold set_obj; rewrite Nat.eqb_refl; reflexivity).
  assert (A0 : all_placed (hbuf b) m (set_obj (fun _ => None) i (OBuilder b))).
  { intros k o. unfold set_obj. destruct (k =? i); [|discriminate]. intros [= <-]. split; [exact W|left; unfold begins; auto]. }
  destruct (do_safe (hbuf b) a _ m W A0 U) as [_ [_ [_ A1]]]. specialize (A1 _ _ Hd).
  split; [apply (A1 i _ Hi)|]. split; [apply (A1 j _ Hj)|]. clear A1 A0.
  assert (No : forall os1 o o' x m', (HOk (set_obj (set_obj (set_obj os1 i o) j o') i x) m' = HOk os m1) -> 
     (forall k, os1 k = None) -> o' = c /\ x = OBuilder b1 /\ m' = m1 /\ forall k y, os k = Some y -> k = i \/ k = j).
  { clear - Hi Hj N. intros os1 o o' x m' [= <- <-] Hn. unfold set_obj in *. rewrite Nat.eqb_refl in *.
    destruct (Nat.eqb_spec j i); [congruence|]. injection Hi as ->. injection Hj as ->. repeat (split; [reflexivity|]).
    intros k y. destruct (Nat.eqb_spec k i); auto. destruct (Nat.eqb_spec k j); auto. rewrite Hn. discriminate. }
  assert (Ni : forall o x m', HOk (set_obj (set_obj (fun _ => None) i o) i x) m' = HOk os m1 -> False).
  { clear - Hj N. intros o x m' [= <- <-]. unfold set_obj in *. destruct (Nat.eqb_spec j i); [congruence|discriminate]. }
  destruct a as [i' pr|i' j' k' pr|i' j' name columns ops|i' j' name cr ops|j' row|j' name v]; cbn [subject made] in *; try discriminate; subst i'; injection Ej as ->;
    cbn [k_do act_users] in *; rewrite Sf in Hd; unfold hbind at 1 in Hd.
  - destruct (h_keep_block k' pr b m) as [[b' [c'|]] m'|m'] eqn:Ek; try discriminate; [|destruct (Ni _ _ _ Hd)].
    destruct (No _ _ _ _ _ Hd ltac:(reflexivity)) as [<- [[= <-] [-> On]]]. split; [|exact On]. cbn [obj_buf].
    (* the builder as the callback left it is where the end of the block starts *)
    pose proof (safe_block_begin (hbuf b) k' b m W W (or_introl (conj eq_refl (conj eq_refl (conj eq_refl (le_n _)))))) as S1.
    unfold h_keep_block, hbind in Ek. destruct (h_block_begin k' b m) as [[b2 [|]] m2|m2]; try discriminate.
    destruct S1 as [_ [W1 [_ [_ F1]]]]. cbn [fst mem_after] in *. inversion F1 as [|? ? [Wb2 K2] _]; subst.
    pose proof (safe_child (hbuf b) pr (hbuf b2) (hberr b2) m2 W1 Wb2 K2 U) as S2.
    destruct (h_run pr _ m2) as [[st out] m3|m3]; [|discriminate]. destruct st as [|c2 st]; [discriminate|].
    destruct S2 as [_ [_ [_ [_ F2]]]]. cbn [fst] in F2. inversion F2 as [|? ? [Wc2 _] _]; subst.
    pose proof (safe_block_end (hbuf c2) k' (mkhb (hbuf c2) (hberr c2) false) m3 Wc2 Wc2 (or_introl (conj eq_refl (conj eq_refl (conj eq_refl (le_n _))))) eq_refl) as S3.
    destruct (h_block_end k' _ m3) as [b3 m4|m4]; [|discriminate]. injection Ek as <- <- <-.
    destruct S3 as [_ [_ [_ [_ F3]]]]. inversion F3 as [|? ? [_ K3] _]; subst. exact K3.
  - destruct (h_keep_insert_f name columns ops b m) as [[b' [[p e]|]] m'|m'] eqn:Ek; try discriminate; [|destruct (Ni _ _ _ Hd)].
    destruct (No _ _ _ _ _ Hd ltac:(reflexivity)) as [<- [[= <-] [-> On]]]. split; [|exact On]. cbn [obj_buf].
    unfold h_keep_insert_f, hbind, h_patch_length in Ek. destruct (hdisabled b); [discriminate|]. destruct (hberr b); [discriminate|]. cbv zeta in Ek.
    destruct (h_msg_insert _ _ _ m) as [p1 m2|m2]; [|discriminate]. destruct (h_run_iops _ _ _ _ m2) as [[p2 e2] m3|m3]; [|discriminate].
    unfold hbind in Ek. destruct (h_put _ _ _ m3) as [u m4|m4]; [|discriminate]. unfold hret in Ek. injection Ek as <- <- <- <-. left. unfold begins; cbn; auto.
  - destruct (h_keep_update_f name cr ops b m) as [[b' [[p e]|]] m'|m'] eqn:Ek; try discriminate; [|destruct (Ni _ _ _ Hd)].
    destruct (No _ _ _ _ _ Hd ltac:(reflexivity)) as [<- [[= <-] [-> On]]]. split; [|exact On]. cbn [obj_buf].
    unfold h_keep_update_f, hbind, h_patch_length in Ek. destruct (hdisabled b); [discriminate|]. destruct (hberr b); [discriminate|]. cbv zeta in Ek.
    destruct (h_msg_update _ _ _ m) as [[p1 e1] m2|m2]; [|discriminate]. destruct (h_run_uops _ _ _ _ m2) as [[p2 e2] m3|m3]; [|discriminate].
    unfold hbind in Ek. destruct (h_put _ _ _ m3) as [u m4|m4]; [|discriminate]. unfold hret in Ek. injection Ek as <- <- <- <-. left. unfold begins; cbn; auto.
Qed.

Lemma child_usable pr p e m : wf m p -> prog_users leaves_alone pr ->
  forall c st out m', h_run pr [mkhb p e false; mkhb p e true] m = HOk (c :: st, out) m' -> hdisabled c = false.
Proof.
  intros Wp U c st out m' Hr.
  pose proof (ref_run m p (floor p p) leaves_alone (leaves_floor _ _) pr U m [bview m (mkhb p e false); mkb (view m p) e true] [mkhb p e false; mkhb p e true]) as R.
  unfold refines in R. rewrite Hr in R. destruct (run pr _).
  - destruct R as [h [m2 [[= <- <-] [[R _] _]]]].
    + exists (bview m (mkhb p e false)), [mkb (view m p) e true], (mkhb p e false), [mkhb p e true].
      split; [reflexivity|]. split; [reflexivity|]. split; [apply (rb_floor p m (mkhb p e false)); [exact Wp|reflexivity]|]. repeat (split; [constructor; auto|]). reflexivity.
    + destruct R as [b1 [o [hb [ho [_ [Eh [[_ [_ [D _]]] _]]]]]]]. cbn [fst] in Eh. injection Eh as -> _. exact D.
  - destruct R as [m2 [[=] _]].
    exists (bview m (mkhb p e false)), [mkb (view m p) e true], (mkhb p e false), [mkhb p e true].
    split; [reflexivity|]. split; [reflexivity|]. split; [apply (rb_floor p m (mkhb p e false)); [exact Wp|reflexivity]|]. repeat (split; [constructor; auto|]). reflexivity.
Qed.

(* Writing after p what t also shows. *)
Lemma over m p q m' t r : wf m p -> wf m' q -> arr t = arr p -> off t = off p -> hlen p <= hlen t -> arr q = arr p -> off q = off p ->
  contents m' q = contents m p ++ r ->
  hlen q = hlen p + length r /\ firstn (hlen q) (contents m' t) = firstn (hlen t) (contents m p ++ r).
Proof.
  intros Wp Wq Ta To Tl Qa Qo C. split.
  - apply (f_equal (@length _)) in C. rewrite app_length, !contents_length in C by assumption. exact C.
  - rewrite <- C. unfold contents, sub. rewrite Ta, To, Qa, Qo, !firstn_firstn, Nat.min_comm. reflexivity.
Qed.

Lemma appends m p (r : res (slice * option err)) (h : hres (hslice * option err)) q e m' : wf m p ->
  refines m p 0 r h (sl2 m p 0) -> h = HOk (q, e) m' -> r = Ok (view m' q, e) /\ wf m' q.
Proof.
  intros W R ->. unfold refines in R. destruct r as [[v e']|].
  - destruct R as [[q' e2] [m2 [[= <- <- <-] [[Wq [V _]] [Ee _]]]]]. cbn [fst snd] in *. subst. auto.
  - destruct R as [m2 [[=] _]].
Qed.

Lemma any_row row : Forall (value_users any_user) row.
Proof. exact (proj1 (users_all any_user (fun _ => I) (PInsertRow 0 [] [] row (fun _ => Ret None [])))). Qed.

(* ------------------------------------------------------------ theorems *)

(* Any number of builders, *Insert and *Update, all of them in s's array with at least s's bytes or in other memory. However
   they are used, whatever their callbacks keep, and whichever uses panic: s shows the same bytes. *)
Theorem C68_written_before_is_kept : forall w w' s,
  valid (kmem w) s ->
  (forall i o, kobj w i = Some o -> valid (kmem w) (obj_buf o) /\ (begins s (obj_buf o) \/ apart (obj_buf o) s)) ->
  acts w w' ->
  contents (kmem w') s = contents (kmem w) s.
Proof. intros w w' s W A H. apply (acts_safe s w w' W A H). Qed.

(* A pipe alone, and one call whose callback keeps what it was given, as object j. What the pipe has by then, up to the
   length the kept object has, is in the pipe ever after, however the two, and others that are kept later, are used. *)
Theorem C68_written_before_it_returned_is_kept : forall m b i j a os m1 c b1 w2,
  valid m (hbuf b) -> i <> j -> subject a = i -> made a = Some j -> act_users leaves_alone a ->
  k_do a (set_obj (fun _ => None) i (OBuilder b)) m = HOk os m1 ->
  os i = Some (OBuilder b1) -> os j = Some c ->
  acts (mkk m1 os) w2 ->
  firstn (hlen (obj_buf c)) (contents (kmem w2) (hbuf b1)) = firstn (hlen (obj_buf c)) (contents m1 (hbuf b1)).
Proof.
  intros m b i j a os m1 c b1 w2 W N Ei Ej U Hd Hi Hj H.
  destruct (kept_beside m b i j a os m1 c b1 W N Ei Ej U Hd Hi Hj) as [V1 [V2 [K On]]].
  destruct K as [K|K].
  - pose proof K as [Ka [Ko [_ Kl]]].
    assert (Ef : forall m, firstn (hlen (obj_buf c)) (contents m (hbuf b1)) = contents m (obj_buf c)).
    { intros m9. unfold contents, sub. rewrite Ka, Ko, firstn_firstn, Nat.min_l by lia. reflexivity. }
    rewrite !Ef. apply (C68_written_before_is_kept (mkk m1 os) w2); [exact V2| |exact H].
    intros k o Hk. cbn [kobj kmem] in *. destruct (On k o Hk) as [->| ->].
    + rewrite Hi in Hk. injection Hk as <-. split; [exact V1|left; exact K].
    + rewrite Hj in Hk. injection Hk as <-. split; [exact V2|left; unfold begins; auto].
  - f_equal. apply (C68_written_before_is_kept (mkk m1 os) w2); [exact V1| |exact H].
    intros k o Hk. cbn [kobj kmem] in *. destruct (On k o Hk) as [->| ->].
    + rewrite Hi in Hk. injection Hk as <-. split; [exact V1|left; unfold begins; auto].
    + rewrite Hj in Hk. injection Hk as <-. split; [exact V2|right; apply apart_sym; exact K].
Qed.

(* Keeping what the callback was given does not change what the call does. *)
Theorem C68_keeping_changes_nothing : forall m b i j os,
  os i = Some (OBuilder b) ->
  let same a pr := match k_do a os m, h_run pr [b] m with
    | HOk os' m1, HOk (st, out) m2 => m1 = m2 /\ exists b', st = [b'] /\ os' i = Some (OBuilder b')
    | HPanic m1, HPanic m2 => m1 = m2
    | _, _ => False
    end in
  (forall k body, same (KBlock i j k body) (one_block k body)) /\
  (forall name columns ops e, same (KInsertF i j name columns ops) (one_call (CInsertF name columns ops e))) /\
  (forall name cr ops e, same (KUpdateF i j name cr ops) (one_call (CUpdateF name cr ops e))).
Proof.
  intros m b i j os Hi same. subst same. cbv beta.
  assert (Sf : forall os o, set_obj os i o i = Some o) by (intros; unfold set_obj; rewrite Nat.eqb_refl; reflexivity).
  split; [|split].
  - intros k body. cbn [k_do]. rewrite Hi. unfold one_block. cbn [h_run nth_error]. unfold h_keep_block, hbind, hret.
    destruct (h_block_begin k b m) as [[b1 [|]] m1|m1]; [| |reflexivity].
    + cbn [set_nth]. cbv zeta.
      assert (Len : forall st out m2, h_run body [mkhb (hbuf b1) (hberr b1) false; mkhb (hbuf b1) (hberr b1) true] m1 = HOk (st, out) m2 -> length st = 2).
      { intros st out m2 Er. eapply (run_length body) in Er. exact Er. }
      destruct (h_run body _ m1) as [[st out] m2|m2]; [|reflexivity]. specialize (Len _ _ _ eq_refl).
      destruct st as [|c [|c2 [|]]]; try discriminate.
      destruct (h_block_end k _ m2) as [b2 m3|m3]; [|reflexivity]. cbn [set_nth h_run hret]. split; [reflexivity|]. exists b2. rewrite Sf. auto.
    + cbn [set_nth h_run hret]. split; [reflexivity|]. exists b1. rewrite Sf. auto.
  - intros name columns ops e. cbn [k_do]. rewrite Hi. unfold one_call. cbn [h_run nth_error map set_nth].
    unfold h_keep_insert_f, h_exec_call, h_guarded, h_do_insert_f, hbind, hret.
    destruct (hdisabled b) eqn:D; [reflexivity|]. destruct (hberr b) eqn:Be; [cbn; split; [reflexivity|]; exists b; rewrite Sf; auto|].
    destruct (h_msg_insert _ _ _ m) as [p1 m1|m1]; [|reflexivity].
    destruct (h_run_iops _ _ _ _ m1) as [[p2 e2] m2|m2]; [|reflexivity].
    destruct (h_patch_length _ _ m2) as [p3 m3|m3]; [|reflexivity]. cbn [h_run hret]. split; [reflexivity|]. eexists. rewrite Sf. auto.
  - intros name cr ops e. cbn [k_do]. rewrite Hi. unfold one_call. cbn [h_run nth_error map set_nth].
    unfold h_keep_update_f, h_exec_call, h_guarded, h_do_update_f, hbind, hret.
    destruct (hdisabled b) eqn:D; [reflexivity|]. destruct (hberr b) eqn:Be; [cbn; split; [reflexivity|]; exists b; rewrite Sf; auto|].
    destruct (h_msg_update _ _ _ m) as [[p1 e1] m1|m1]; [|reflexivity].
    destruct (h_run_uops _ _ _ _ m1) as [[p2 e2] m2|m2]; [|reflexivity].
    destruct (h_patch_length _ _ m2) as [p3 m3|m3]; [|reflexivity]. cbn [h_run hret]. split; [reflexivity|]. eexists. rewrite Sf. auto.
Qed.

(* Nothing stops a callback from keeping its builder: it can be used, and does not panic for having been kept. *)
Theorem C68_kept_builder_stays_usable : forall m b i j k body os os' m' c,
  os i = Some (OBuilder b) -> i <> j -> os j = None ->
  k_do (KBlock i j k body) os m = HOk os' m' -> os' j = Some c ->
  valid m (hbuf b) -> prog_users leaves_alone body ->
  exists x, c = OBuilder x /\ hdisabled x = false.
Proof.
  intros m b i j k body os os' m' c Hi N Hj Hd Hc W U. cbn [k_do] in Hd. rewrite Hi in Hd. unfold hbind at 1 in Hd.
  assert (Nj : forall o o' x, set_obj (set_obj o j x) i o' j = Some x) by (intros; unfold set_obj; rewrite Nat.eqb_refl; destruct (Nat.eqb_spec j i); [congruence|reflexivity]).
  destruct (h_keep_block k body b m) as [[b' [x|]] m1|m1] eqn:Ek; try discriminate; injection Hd as <- <-.
  - rewrite Nj in Hc. injection Hc as <-. exists x. split; [reflexivity|].
    pose proof (safe_block_begin (hbuf b) k b m W W (or_introl (conj eq_refl (conj eq_refl (conj eq_refl (le_n _)))))) as S1.
    unfold h_keep_block, hbind in Ek. destruct (h_block_begin k b m) as [[b2 [|]] m2|m2]; try discriminate.
    destruct S1 as [_ [W1 [_ [_ F1]]]]. cbn [fst mem_after] in *. inversion F1 as [|? ? [Wb2 K2] _]; subst.
    pose proof (child_usable body (hbuf b2) (hberr b2) m2 Wb2 U) as S2.
    destruct (h_run body _ m2) as [[st out] m3|m3]; [|discriminate]. destruct st as [|c2 st]; [discriminate|]. specialize (S2 _ _ _ _ eq_refl).
    destruct (h_block_end k _ m3) as [b3 m4|m4]; [|discriminate]. injection Ek as <- <- <-. exact S2.
  - exfalso. unfold set_obj in Hc. destruct (Nat.eqb_spec j i); congruence.
Qed.

(* Row on a kept *Insert that has an error, and Set on such an *Update, does nothing: memory and all the objects stay. *)
Theorem C68_failed_stays_failed : forall m os j p e,
  (os j = Some (OInsert p (Some e)) -> forall row, exists os', k_do (KRow j row) os m = HOk os' m /\ forall i, os' i = os i) /\
  (os j = Some (OUpdate p (Some e)) -> forall name value, exists os', k_do (KSet j name value) os m = HOk os' m /\ forall i, os' i = os i).
Proof.
  intros m os j p e. split; intros Hj; intros; (eexists; split; [cbn [k_do]; rewrite Hj; reflexivity|]);
    intros i; unfold set_obj; destruct (Nat.eqb_spec i j) as [->|]; auto.
Qed.

(* The kept *Insert or *Update has, when the call returns, the slice and the error the pipe has. *)
Theorem C68_kept_as_the_pipe : forall m b i j a os os' m' c,
  os i = Some (OBuilder b) -> i <> j -> os j = None ->
  (exists name columns ops, a = KInsertF i j name columns ops) \/ (exists name cr ops, a = KUpdateF i j name cr ops) ->
  k_do a os m = HOk os' m' -> os' j = Some c ->
  exists b', os' i = Some (OBuilder b') /\ (c = OInsert (hbuf b') (hberr b') \/ c = OUpdate (hbuf b') (hberr b')).
Proof.
  intros m b i j a os os' m' c Hi N Hj Ha Hd Hc.
  assert (Ni : forall o x, set_obj o i x i = Some x) by (intros; unfold set_obj; rewrite Nat.eqb_refl; reflexivity).
  assert (Nj : forall o o' x, set_obj (set_obj o j x) i o' j = Some x) by (intros; unfold set_obj; rewrite Nat.eqb_refl; destruct (Nat.eqb_spec j i); [congruence|reflexivity]).
  assert (No : forall o, set_obj os i o j = None) by (intros; unfold set_obj; destruct (Nat.eqb_spec j i); congruence).
  destruct Ha as [(name & columns & ops & ->)|(name & cr & ops & ->)]; cbn [k_do] in Hd; rewrite Hi in Hd; unfold hbind at 1 in Hd.
  - destruct (h_keep_insert_f name columns ops b m) as [[b' [[p e]|]] m1|m1] eqn:Ek; try discriminate; unfold hret in Hd; injection Hd as <- <-;
      [|rewrite No in Hc; discriminate]. rewrite Nj in Hc. injection Hc as <-. exists b'. split; [apply Ni|left].
    unfold h_keep_insert_f, h_patch_length, hbind, hret in Ek. destruct (hdisabled b); [discriminate|]. destruct (hberr b); [discriminate|].
    destruct (h_msg_insert _ _ _ m) as [p1 m2|m2]; [|discriminate]. destruct (h_run_iops _ _ _ _ m2) as [[p2 e2] m3|m3]; [|discriminate].
    destruct (h_put _ _ _ m3) as [u m4|m4]; [|discriminate]. injection Ek as <- <- <- <-. reflexivity.
  - destruct (h_keep_update_f name cr ops b m) as [[b' [[p e]|]] m1|m1] eqn:Ek; try discriminate; unfold hret in Hd; injection Hd as <- <-;
      [|rewrite No in Hc; discriminate]. rewrite Nj in Hc. injection Hc as <-. exists b'. split; [apply Ni|right].
    unfold h_keep_update_f, h_patch_length, hbind, hret in Ek. destruct (hdisabled b); [discriminate|]. destruct (hberr b); [discriminate|].
    destruct (h_msg_update _ _ _ m) as [[p1 e1] m2|m2]; [|discriminate]. destruct (h_run_uops _ _ _ _ m2) as [[p2 e2] m3|m3]; [|discriminate].
    destruct (h_put _ _ _ m3) as [u m4|m4]; [|discriminate]. injection Ek as <- <- <- <-. reflexivity.
Qed.

(* C68 fails for builders whenever the array has room: the messages of the kept builder are written after what it has, over what the
   pipe t has got there since; and the pipe is no longer than before. *)
Theorem C68_overwritten_whenever_it_fits_refuted : forall pr m c t c' out m',
  prog_ok word32 pr -> valid m (hbuf c) -> hdisabled c = false -> hberr c = None -> begins (hbuf c) t ->
  h_run pr [c] m = HOk ([c'], out) m' ->
  arr (hbuf c') = arr (hbuf c) -> off (hbuf c') = off (hbuf c) ->
  hberr c' = None -> (N.of_nat (hlen (hbuf c')) < 2 ^ 32)%N ->
  exists ws ms ids, dstream ws = Some ms /\ prog_msgs pr ms ids out /\
    hlen (hbuf c') = hlen (hbuf c) + length ws /\
    firstn (hlen (hbuf c')) (contents m' t) = firstn (hlen t) (contents m (hbuf c) ++ ws).
Proof.
  intros pr m c t c' out m' Hp W D He [Ba [Bo [Bc Bl]]] Hr Ea Eo He' Hl.
  pose proof (run_memory any_user 0 pr m c any_low (users_all any_user (fun _ => I) pr) W D ltac:(lia)) as R.
  unfold refines in R. destruct (run pr [bview m c]) as [[st o]|] eqn:Er.
  - destruct R as [[hst o'] [m2 [Er2 [b2 [E1 [E2 [E3 [W2 _]]]]]]]]. rewrite Hr in Er2. injection Er2 as <- <- <-. cbn [fst snd] in *. injection E1 as <-. subst st o.
    destruct (run_step pr (bview m c) [] _ _ Hp (Forall_nil _) eq_refl Er) as (_ & c2 & Hc2 & _ & _ & Sg). injection Hc2 as <-.
    destruct (Sg He He') as [_ Hg]. destruct Hg as (ws & Hw & ms & ids & Hm & Hpm & _).
    { cbn [bview buf]. rewrite <- contents_data by exact W2. unfold nlen. rewrite contents_length by exact W2. exact Hl. }
    exists ws, ms, ids. split; [exact (says_dstream _ _ Hm)|]. split; [exact Hpm|].
    apply (over m (hbuf c) (hbuf c') m' t ws); auto. cbn [bview buf] in Hw. rewrite !contents_data by assumption. exact Hw.
  - destruct R as [m2 [Er2 _]]. congruence.
Qed.

(* C68 fails for *Insert whenever the array has room: Row on the kept *Insert encodes the row after what the *Insert has, over
   what the pipe has got there since; and the pipe is no longer than before. The same for Set on the kept *Update. *)
Theorem C68_row_overwrites_whenever_it_fits_refuted : forall m p row q m' t,
  values_ok word32 row -> valid m p -> begins p t ->
  h_row row p None m = HOk (q, None) m' ->
  arr q = arr p -> off q = off p -> (N.of_nat (hlen q) < 2 ^ 32)%N ->
  exists r pl es, is_bytes r /\ dfields r = Some [(4%N, WLen pl)] /\ drow pl = Some es /\ Forall2 expr_denotes row es /\
    hlen q = hlen p + length r /\
    firstn (hlen q) (contents m' t) = firstn (hlen t) (contents m p ++ r).
Proof.
  intros m p row q m' t V W [Ba [Bo [Bc Bl]]] Hr Ea Eo Hl. cbn [h_row] in Hr.
  assert (Sg : sg m p 0 m (view m p) p) by (split; [apply sl_start; exact W|lia]).
  destruct (appends m p _ _ _ _ _ W (ref_append_insert_row m p 0 any_user any_low m (view m p) p row (any_row row) Sg) Hr) as [R Wq].
  destruct (row_parts word32 row V) as [(bs & fs & [Ib Rd] & (es & pl & -> & D1 & D2) & _ & G)|[[[B _] _]|[B _]]].
  - destruct (G E eq_refl (view m p)) as [sp Hg]. rewrite Hg in R. assert (Rv : view m' q = mk (data (view m p) ++ bs) sp) by congruence.
    exists bs, pl, es. split; [exact Ib|]. split; [exact Rd|]. split; [exact D1|]. split; [exact D2|].
    apply (over m p q m' t bs); auto. rewrite contents_data, Rv by exact Wq. cbn [data]. rewrite <- contents_data by exact W. reflexivity.
  - exfalso. exact (B E eq_refl _ _ R).
  - exfalso. destruct (B E eq_refl _ _ R) as [_ Big]. rewrite <- contents_data in Big by exact Wq.
    unfold nlen in Big. rewrite contents_length in Big by exact Wq. lia.
Qed.

Theorem C68_set_overwrites_whenever_it_fits_refuted : forall m p name v q m' t,
  go_string name -> well_formed word32 v -> no_known_defect word32 v -> valid m p -> begins p t ->
  h_set name v p None m = HOk (q, None) m' ->
  arr q = arr p -> off q = off p -> (N.of_nat (hlen q) < 2 ^ 32)%N ->
  exists r pl x, is_bytes r /\ dfields r = Some [(7%N, WLen pl)] /\ dset pl = Some x /\ set_denotes (name, v) x /\
    hlen q = hlen p + length r /\
    firstn (hlen q) (contents m' t) = firstn (hlen t) (contents m p ++ r).
Proof.
  intros m p name v q m' t Vn Vw Vd W [Ba [Bo [Bc Bl]]] Hr Ea Eo Hl. cbn [h_set] in Hr.
  assert (Sg : sg m p 0 m (view m p) p) by (split; [apply sl_start; exact W|lia]).
  destruct (appends m p _ _ _ _ _ W (ref_append_update_set m p 0 any_user any_low m (view m p) p name v (Forall_inv (any_row [v])) Sg) Hr) as [R Wq].
  destruct (set_parts word32 name v Vn Vw Vd) as [(bs & fs & [Ib Rd] & (es & pl & -> & D1 & D2) & _ & G)|[[[B _] _]|[B _]]].
  - destruct (G E eq_refl (view m p)) as [sp Hg]. rewrite Hg in R. assert (Rv : view m' q = mk (data (view m p) ++ bs) sp) by congruence.
    exists bs, pl, es. split; [exact Ib|]. split; [exact Rd|]. split; [exact D1|]. split; [exact D2|].
    apply (over m p q m' t bs); auto. rewrite contents_data, Rv by exact Wq. cbn [data]. rewrite <- contents_data by exact W. reflexivity.
  - exfalso. exact (B E eq_refl _ _ R).
  - exfalso. destruct (B E eq_refl _ _ R) as [_ Big]. rewrite <- contents_data in Big by exact Wq.
    unfold nlen in Big. rewrite contents_length in Big by exact Wq. lia.
Qed.

End Theorems.

(* ---- the hypotheses can be met ---- *)

#[local] Existing Instance ThmBuilder.plain.

Definition pipe_of (n : nat) : mem * (nat -> option obj) :=
  match h_new_pipe n [] with HOk b m => (m, set_obj (fun _ => None) 0 (OBuilder b)) | HPanic m => (m, fun _ => None) end.

(* Acts one after the other, and what Send then gives a Sender. *)
Fixpoint do_all (l : list kact) (os : nat -> option obj) : H (nat -> option obj) :=
  match l with [] => hret os | a :: l => let* os := k_do a os in do_all l os end.
Definition sent_after (n : nat) (l : list kact) : option (bytes + err) :=
  match do_all l (snd (pipe_of n)) (fst (pipe_of n)) with
  | HOk os m =>
      match os 0 with
      | Some (OBuilder b) => match h_send b m with HOk (inl s) m => Some (inl (contents m s)) | HOk (inr e) _ => Some (inr e) | HPanic _ => None end
      | _ => None
      end
  | HPanic _ => None
  end.

Definition one_row : kact := KInsertF 0 1 (s2b "t") [s2b "a"] [IRow [VInt 5%Z]].
Definition one_set : kact := KUpdateF 0 1 (s2b "t") None [USet (s2b "a") (VInt 5%Z)].

(* C68: Tx with a callback that keeps its builder, and then a statement on that: no error, and the statement is sent in place of the COMMIT. *)
Theorem C68_kept_builder_overwrites_refuted : exists bs,
  sent_after 256 [KBlock 0 1 (KTx 0) (ThmMem.stmt "DELETE FROM a"); KUse 1 (ThmMem.stmt "DO 1,2")] = Some (inl bs) /\
  dstream bs = Some [statement (s2b "START TRANSACTION"); statement (s2b "DELETE FROM a"); statement (s2b "DO 1,2")].
Proof. eexists. split; [vm_compute; reflexivity|]. vm_compute. reflexivity. Qed.

(* C68: InsertF with a callback that keeps its *Insert, a statement, and then Row on the *Insert: no error, and what is sent are not
   messages any more. Row right after InsertF: no error, and the row is not sent. The same for UpdateF and Set. *)
Theorem C68_kept_insert_breaks_the_stream_refuted : exists bs bs',
  sent_after 256 [one_row; KUse 0 (ThmMem.stmt "DO 1")] = Some (inl bs) /\
  (exists ms, dstream bs = Some ms /\ length ms = 2) /\
  sent_after 256 [one_row; KUse 0 (ThmMem.stmt "DO 1"); KRow 1 [VInt 6%Z]] = Some (inl bs') /\
  length bs' = length bs /\ dstream bs' = None /\
  sent_after 256 [one_row; KRow 1 [VInt 6%Z]] = sent_after 256 [one_row].
Proof.
  do 2 eexists. split; [vm_compute; reflexivity|]. split; [eexists; split; [vm_compute; reflexivity|reflexivity]|].
  split; [vm_compute; reflexivity|]. split; [reflexivity|]. split; vm_compute; reflexivity.
Qed.

Theorem C68_kept_update_breaks_the_stream_refuted : exists bs bs',
  sent_after 256 [one_set; KUse 0 (ThmMem.stmt "DO 1")] = Some (inl bs) /\
  (exists ms, dstream bs = Some ms /\ length ms = 2) /\
  sent_after 256 [one_set; KUse 0 (ThmMem.stmt "DO 1"); KSet 1 (s2b "b") (VInt 6%Z)] = Some (inl bs') /\
  length bs' = length bs /\ dstream bs' = None /\
  sent_after 256 [one_set; KSet 1 (s2b "b") (VInt 6%Z)] = sent_after 256 [one_set].
Proof.
  do 2 eexists. split; [vm_compute; reflexivity|]. split; [eexists; split; [vm_compute; reflexivity|reflexivity]|].
  split; [vm_compute; reflexivity|]. split; [reflexivity|]. split; vm_compute; reflexivity.
Qed.

(* A transaction whose callback keeps its builder as object 1; then uses of the pipe and of the kept builder, an InsertF that keeps its
   *Insert as object 2, a Row on that, and a panic in user code of the kept builder. *)
Definition kept_tx : kact := KBlock 0 1 (KTx 0) (ThmMem.stmt "DO 1").
Example history_meets : exists b m os m1 b1 c w2,
  h_new_pipe 512 [] = HOk b m /\
  valid m (hbuf b) /\ act_users leaves_alone kept_tx /\
  k_do kept_tx (set_obj (fun _ => None) 0 (OBuilder b)) m = HOk os m1 /\
  os 0 = Some (OBuilder b1) /\ os 1 = Some c /\
  acts (mkk m1 os) w2 /\
  hlen (obj_buf c) = 35 /\ hlen (hbuf b1) = 48 /\
  contents (kmem w2) (hbuf b1) <> contents m1 (hbuf b1) /\
  (exists x, kobj w2 0 = Some (OBuilder x) /\ 100 < hlen (hbuf x)) /\ (exists y, kobj w2 1 = Some y /\ 48 < hlen (obj_buf y)) /\ kobj w2 2 <> None.
Proof.
  do 7 eexists. split; [vm_compute; reflexivity|]. split; [split; vm_compute; lia|]. split; [split; exact (Forall_nil _)|].
  split; [vm_compute; reflexivity|]. split; [reflexivity|]. split; [reflexivity|]. split.
  - eapply acts_panic with (a := KUse 1 (ThmMem.with_arg ThmMem.panicking)) (o := OBuilder (mkhb (mkh 0 0 48 512) None false)).
    + eapply acts_done with (a := KRow 2 [VInt 6%Z]).
      * eapply acts_done with (a := KInsertF 0 2 (s2b "t") [s2b "a"] [IRow [VInt 5%Z]]).
        -- eapply acts_done with (a := KUse 1 (ThmMem.stmt "DO 1,2")).
           ++ eapply acts_done with (a := KUse 0 (ThmMem.with_arg ThmMem.tidy_user)); [apply acts_none| |vm_compute; reflexivity].
              apply ThmMem.one_arg. exact (ThmMem.C92_appending_leaves_alone ThmMem.truth).
           ++ split; exact (Forall_nil _).
           ++ vm_compute; reflexivity.
        -- constructor; [|constructor]. constructor; [exact I|constructor].
        -- vm_compute; reflexivity.
      * constructor; [exact I|constructor].
      * vm_compute; reflexivity.
    + apply ThmMem.one_arg. exact ThmMem.panicking_leaves_alone.
    + vm_compute; reflexivity.
    + reflexivity.
    + instantiate (1 := set_obj _ 1 (OBuilder (mkhb (mkh 0 0 55 512) None false))).
      intros i. unfold set_obj at 1 2. destruct (Nat.eqb_spec i 1) as [->|]; [right|left; reflexivity].
      split; [left; reflexivity|]. eexists. split; [reflexivity|]. split; [split; vm_compute; lia|left; vm_compute; lia].
  - split; [reflexivity|]. split; [reflexivity|]. split; [vm_compute; discriminate|]. split; [eexists; split; [reflexivity|vm_compute; lia]|].
    split; [eexists; split; [reflexivity|vm_compute; lia]|discriminate].
Qed.

(* A statement on a kept builder, after the pipe got a COMMIT. *)
Example over_meets : prog_ok false (ThmMem.stmt "DO 1,2") /\ exists m c t, valid m (hbuf c) /\ hdisabled c = false /\ hberr c = None /\ begins (hbuf c) t /\
  hlen (hbuf c) < hlen t /\ exists c' m', h_run (ThmMem.stmt "DO 1,2") [c] m = HOk ([c'], []) m' /\ arr (hbuf c') = arr (hbuf c) /\ off (hbuf c') = off (hbuf c) /\
  hberr c' = None /\ (N.of_nat (hlen (hbuf c')) < 2 ^ 32)%N.
Proof.
  split; [unfold ThmMem.stmt; ThmBuilder.ok|].
  exists [repeat 0%N 128], (mkhb (mkh 0 0 35 128) None false), (mkh 0 0 48 128).
  split; [split; vm_compute; lia|]. split; [reflexivity|]. split; [reflexivity|]. split; [unfold begins; cbn; lia|]. split; [cbn; lia|].
  do 2 eexists. split; [vm_compute; reflexivity|]. split; [reflexivity|]. split; [reflexivity|]. split; reflexivity.
Qed.

(* Row and Set on what was kept, after the pipe got a statement, in the same array. *)
Example row_meets : exists m p t, values_ok false [VInt 6%Z] /\ valid m p /\ begins p t /\ exists q m',
  h_row [VInt 6%Z] p None m = HOk (q, None) m' /\ arr q = arr p /\ off q = off p /\ (N.of_nat (hlen q) < 2 ^ 32)%N /\ hlen p < hlen t.
Proof.
  exists [repeat 0%N 128], (mkh 0 0 35 128), (mkh 0 0 48 128).
  split; [constructor; [split; [vm_compute; split; [discriminate|reflexivity]|exact I]|constructor]|]. split; [split; vm_compute; lia|]. split; [unfold begins; cbn; lia|].
  do 2 eexists. split; [vm_compute; reflexivity|]. split; [reflexivity|]. split; [reflexivity|]. split; [reflexivity|cbn; lia].
Qed.
Example set_meets : exists m p t, go_string (s2b "b") /\ well_formed false (VInt 6%Z) /\ no_known_defect false (VInt 6%Z) /\ valid m p /\ begins p t /\ exists q m',
  h_set (s2b "b") (VInt 6%Z) p None m = HOk (q, None) m' /\ arr q = arr p /\ off q = off p /\ (N.of_nat (hlen q) < 2 ^ 32)%N /\ hlen p < hlen t.
Proof.
  exists [repeat 0%N 128], (mkh 0 0 35 128), (mkh 0 0 48 128).
  split; [split; [repeat constructor|reflexivity]|]. split; [vm_compute; split; [discriminate|reflexivity]|]. split; [exact I|]. split; [split; vm_compute; lia|]. split; [unfold begins; cbn; lia|].
  do 2 eexists. split; [vm_compute; reflexivity|]. split; [reflexivity|]. split; [reflexivity|]. split; [reflexivity|cbn; lia].
Qed.

(* InsertF with a callback whose second row fails, and that keeps its *Insert; then one more Row. *)
Definition failing_row : kact := KInsertF 0 1 (s2b "t") [s2b "a"] [IRow [VInt 5%Z]; IRow [VUser None None]].
Example failed_meets : exists os m p e, k_do failing_row (snd (pipe_of 256)) (fst (pipe_of 256)) = HOk os m /\
  snd (pipe_of 256) 1 = None /\ os 1 = Some (OInsert p (Some e)) /\ 10 < hlen p.
Proof. do 4 eexists. split; [vm_compute; reflexivity|]. split; [reflexivity|]. split; [reflexivity|vm_compute; lia]. Qed.

Print Assumptions C68_written_before_is_kept.
Print Assumptions C68_written_before_it_returned_is_kept.
Print Assumptions C68_kept_builder_stays_usable.
Print Assumptions C68_failed_stays_failed.
Print Assumptions C68_kept_as_the_pipe.
Print Assumptions C68_overwritten_whenever_it_fits_refuted.
Print Assumptions C68_kept_builder_overwrites_refuted.
Print Assumptions C68_keeping_changes_nothing.
Print Assumptions C68_row_overwrites_whenever_it_fits_refuted.
Print Assumptions C68_set_overwrites_whenever_it_fits_refuted.
Print Assumptions C68_kept_insert_breaks_the_stream_refuted.
Print Assumptions C68_kept_update_breaks_the_stream_refuted.
