(* Objects that share an array from some length on leave what is before alone. *)
From Coq Require Import String List NArith ZArith Arith Bool Lia.
From Coq Require Import List.
From Verif Require Import Base GoSlice Values SpecValue MsgModel Builder SpecMem Mem MemModel MemKept SpecKept MemProofs MemRef MemBuild MemUse.
Import ListNotations.
Local Open Scope nat_scope.

Section Kept.
Context `{E : Env}.
Variable s : hslice.

(* t is s grown, or in other memory. *)
Definition place (t : hslice) : Prop := begins s t \/ apart t s.

(* From what length on a use of c may write. *)
Definition floor (c : hslice) : nat := if hlen s <=? hlen c then hlen s else 0.
Lemma floor_le c : floor c <= hlen c.
Proof. unfold floor. destruct (Nat.leb_spec (hlen s) (hlen c)); lia. Qed.

(* The memory of c and objects made from c after code that appends to c. *)
Definition kept_by (m : mem) (c : hslice) (m' : mem) : Prop := outside m c (floor c) m'.
Definition made_from (m : mem) (c : hslice) (m' : mem) (t : hslice) : Prop :=
  wf m' t /\ within m c t /\ (floor c <= hlen t \/ length m <= arr t \/ hcap t = 0).

Lemma fresh_apart m t : wf m s -> length m <= arr t \/ hcap t = 0 -> apart t s.
Proof.
  intros W [F|F]; [|unfold apart; auto]. destruct (Nat.eq_dec (hcap s) 0) as [Z|Z]; [unfold apart; auto|].
  pose proof (wf_arr _ _ W ltac:(lia)). unfold apart. lia.
Qed.

Lemma kept_contents m c m' : wf m s -> wf m c -> place c -> kept_by m c m' -> contents m' s = contents m s.
Proof.
  intros Ws Wc [[Ka [Ko [Kc Kl]]]|K] O; [|eapply outside_contents; eassumption].
  destruct (Nat.eq_dec (hlen s) 0) as [Z|Z]; [unfold contents, sub; rewrite Z; reflexivity|].
  destruct O as [L O]. pose proof (wf_arr _ _ Ws ltac:(destruct Ws; lia)) as Ar. destruct (O _ Ar) as [O1 O2]. destruct Ws as [W1 W2].
  unfold contents. apply list_ext; rewrite !sub_length by lia; [reflexivity|]. intros i Hi. rewrite !nth_sub by lia.
  apply O2. unfold owns, floor. rewrite (proj2 (Nat.leb_le _ _) Kl). lia.
Qed.

Lemma made_place m c m' t : wf m s -> place c -> made_from m c m' t -> place t.
Proof.
  intros Ws K [W' [Wi Kl]]. destruct K as [[Ka [Ko [Kc K]]]|K]; [|right; eapply within_apart; eassumption].
  unfold floor in Kl. rewrite (proj2 (Nat.leb_le _ _) K) in Kl. destruct Kl as [Kl|Kl]; [|right; apply (fresh_apart m); assumption].
  destruct Wi as [[Wa [Wo Wc']]|Wi]; [left; unfold begins; rewrite Wa, Wo, Wc'; auto|right; apply (fresh_apart m); assumption].
Qed.

(* ------------------------------------------------------------ one step after another *)

(* Code run on memory m and slice c: what it may have done to the memory, and where the slices it gives are. *)
Definition safe {A} (m : mem) (c : hslice) (h : hres A) (bufs : A -> list hslice) : Prop :=
  contents (mem_after h) s = contents m s /\ wf (mem_after h) s /\ (forall t, wf m t -> wf (mem_after h) t) /\ length m <= length (mem_after h) /\
  match h with HOk a m' => Forall (fun t => wf m' t /\ place t) (bufs a) | HPanic _ => True end.

Lemma refines_safe {A B} m c lo (r : res A) (h : hres B) R (bufs : B -> list hslice) :
  wf m s -> wf m c -> place c -> lo = floor c ->
  refines m c lo r h R ->
  (forall m' a b, R m' a b -> kept_by m c m' /\ Forall (made_from m c m') (bufs b)) ->
  safe m c h bufs.
Proof.
  intros Ws Wc K -> Hr Hb. unfold safe. unfold refines in Hr. destruct r as [a|].
  - destruct Hr as [b [m' [-> HR]]]. destruct (Hb _ _ _ HR) as [O F]. cbn [mem_after].
    split; [eapply kept_contents; eassumption|]. split; [eapply wf_outside; eassumption|]. split; [intros t Wt; eapply wf_outside; eassumption|].
    split; [apply O|]. eapply Forall_impl; [|exact F]. cbv beta. intros t M. split; [apply M|]. eapply made_place; eassumption.
  - destruct Hr as [m' [-> O]]. cbn [mem_after].
    split; [eapply kept_contents; eassumption|]. split; [eapply wf_outside; eassumption|]. split; [intros t Wt; eapply wf_outside; eassumption|]. split; [apply O|auto].
Qed.

Lemma safe_ret {A} m c (a : A) bufs : wf m s -> Forall (fun t => wf m t /\ place t) (bufs a) -> safe m c (hret a m) bufs.
Proof. intros Ws F. unfold safe, hret; cbn. auto. Qed.

Lemma safe_panic {A} m c bufs : wf m s -> safe m c (HPanic m : hres A) bufs.
Proof. intros Ws. unfold safe; cbn. auto. Qed.

Lemma safe_bind {A B} m c (h : H A) (f : A -> H B) bufs bufs' c' :
  safe m c (h m) bufs ->
  (forall a m', h m = HOk a m' -> wf m' s -> (forall t, wf m t -> wf m' t) -> Forall (fun t => wf m' t /\ place t) (bufs a) -> safe m' (c' a) (f a m') bufs') ->
  safe m c (hbind h f m) bufs'.
Proof.
  intros Sh Sf. unfold hbind. unfold safe in *. destruct (h m) as [a m1|m1] eqn:Em; cbn [mem_after] in *.
  - destruct Sh as [C [Ws [Wt [L F]]]]. destruct (Sf a m1 eq_refl Ws Wt F) as [C2 [Ws2 [Wt2 [L2 F2]]]].
    split; [congruence|]. split; [exact Ws2|]. split; [auto|]. split; [lia|]. exact F2.
  - destruct Sh as [C [Ws [Wt [L F]]]]. auto.
Qed.

Lemma safe_weaken {A} m c (h : hres A) bufs bufs' : safe m c h bufs -> (forall a t, In t (bufs' a) -> In t (bufs a)) -> safe m c h bufs'.
Proof.
  intros [C [Ws [Wt [L F]]]] I. unfold safe. repeat (split; [assumption|]). destruct h; [|exact F].
  rewrite Forall_forall in *. auto.
Qed.

(* ------------------------------------------------------------ the uses *)

Lemma rb_floor m b : wf m (hbuf b) -> hdisabled b = false -> rb m (hbuf b) (floor (hbuf b)) m (bview m b) b.
Proof.
  intros W D. unfold rb, bview; cbn [berr disabled buf]. pose proof (floor_le (hbuf b)).
  repeat (split; [auto; fail|]). split; [apply sl_start; exact W|auto].
Qed.

Lemma rb_made m c m' b hb : rb m c (floor c) m' b hb -> kept_by m c m' /\ Forall (made_from m c m') [hbuf hb].
Proof.
  intros [_ [_ [_ [[W [_ [O I]]] [_ K]]]]]. split; [exact O|]. constructor; [|constructor]. split; auto.
Qed.

Lemma sl2_made m c m' a b : sl2 m c (floor c) m' a b -> kept_by m c m' /\ Forall (made_from m c m') [fst b].
Proof. intros [[W [_ [O I]]] [_ [_ K]]]. split; [exact O|]. constructor; [|constructor]. split; auto. Qed.

Lemma sg_floor m c : wf m c -> sg m c (floor c) m (view m c) c.
Proof. intros W. split; [apply sl_start; exact W|apply floor_le]. Qed.

Lemma leaves_floor c u : leaves_alone u -> low (floor c) u.
Proof. apply leaves_low. Qed.

Lemma disabled_run pr b m : hdisabled b = true ->
  h_run pr [b] m = HPanic m \/ exists out, h_run pr [b] m = HOk ([b], out) m.
Proof.
  intros D. destruct pr as [e out|lvl c next|lvl name columns row next|lvl k body next]; cbn [h_run].
  - right. exists out. reflexivity.
  - left. destruct lvl as [|[|]]; cbn [nth_error]; try reflexivity. unfold hbind, h_exec_call, h_guarded. rewrite D. reflexivity.
  - left. destruct lvl as [|[|]]; cbn [nth_error]; try reflexivity. unfold hbind, h_b_insert_row. rewrite D. reflexivity.
  - left. destruct lvl as [|[|]]; cbn [nth_error]; try reflexivity. unfold hbind, h_block_begin. rewrite D. reflexivity.
Qed.

Lemma safe_run pr b m : wf m s -> wf m (hbuf b) -> place (hbuf b) -> prog_users leaves_alone pr ->
  safe m (hbuf b) (h_run pr [b] m) (fun r => map hbuf (fst r)).
Proof.
  intros Ws Wb K U. destruct (hdisabled b) eqn:D.
  - destruct (disabled_run pr b m D) as [->|[out ->]]; [apply safe_panic; exact Ws|].
    apply safe_ret; [exact Ws|]. cbn. auto.
  - eapply refines_safe; [exact Ws|exact Wb|exact K|reflexivity|apply (run_memory leaves_alone (floor (hbuf b)) pr m b (leaves_floor _) U Wb D (floor_le _))|].
    cbv beta. intros m' a h [b' [E1 [_ [_ [W' [_ [O [Wi Kl]]]]]]]]. split; [exact O|]. rewrite E1. constructor; [|constructor]. split; auto.
Qed.

Lemma safe_block_begin k b m : wf m s -> wf m (hbuf b) -> place (hbuf b) ->
  safe m (hbuf b) (h_block_begin k b m) (fun r => [hbuf (fst r)]).
Proof.
  intros Ws Wb K. destruct (hdisabled b) eqn:D.
  - unfold h_block_begin. rewrite D. apply safe_panic; exact Ws.
  - eapply refines_safe; [exact Ws|exact Wb|exact K|reflexivity|eapply (ref_block_begin m (hbuf b) (floor (hbuf b)) leaves_alone (leaves_floor _)), rb_floor; [exact Wb|exact D]|].
    cbv beta. intros m' [a e] [h e'] [R _]. cbn [fst] in *. apply (rb_made _ _ _ _ _ R).
Qed.

Lemma safe_block_end k b m : wf m s -> wf m (hbuf b) -> place (hbuf b) -> hdisabled b = false ->
  safe m (hbuf b) (h_block_end k b m) (fun r => [hbuf r]).
Proof.
  intros Ws Wb K D.
  eapply refines_safe; [exact Ws|exact Wb|exact K|reflexivity|eapply (ref_block_end m (hbuf b) (floor (hbuf b)) leaves_alone (leaves_floor _)), rb_floor; [exact Wb|exact D]|].
  cbv beta. intros m' a h R. apply (rb_made _ _ _ _ _ R).
Qed.

Lemma safe_child pr p e m : wf m s -> wf m p -> place p -> prog_users leaves_alone pr ->
  safe m p (h_run pr [mkhb p e false; mkhb p e true] m) (fun r => match fst r with c :: _ => [hbuf c] | [] => [] end).
Proof.
  intros Ws Wb K U.
  eapply refines_safe; [exact Ws|exact Wb|exact K|reflexivity|apply (ref_run m p (floor p) leaves_alone (leaves_floor _) pr U m [bview m (mkhb p e false); mkb (view m p) e true])|].
  - exists (bview m (mkhb p e false)), [mkb (view m p) e true], (mkhb p e false), [mkhb p e true].
    split; [reflexivity|]. split; [reflexivity|]. split; [apply (rb_floor m (mkhb p e false)); [exact Wb|reflexivity]|]. repeat (split; [constructor; auto|]). reflexivity.
  - cbv beta. intros m' [st out] [hst out'] [[R _] _]. cbn [fst snd] in *.
    destruct R as [b1 [o [hb [ho [-> [-> [R _]]]]]]]. apply (rb_made _ _ _ _ _ R).
Qed.

Lemma safe_keep_block k pr b m : wf m s -> wf m (hbuf b) -> place (hbuf b) -> prog_users leaves_alone pr ->
  safe m (hbuf b) (h_keep_block k pr b m) (fun r => hbuf (fst r) :: match snd r with Some c => [hbuf c] | None => [] end).
Proof.
  intros Ws Wb K U. unfold h_keep_block.
  eapply (safe_bind _ _ _ _ _ _ (fun a => hbuf (fst a))); [apply safe_block_begin; assumption|].
  intros [b1 entered] m1 _ Ws1 _ F1. cbn [fst] in *. inversion F1 as [|? ? [W1 K1] _]; subst. destruct entered.
  - eapply (safe_bind _ _ _ _ _ _ (fun a => match fst a with c :: _ => hbuf c | [] => hnil end)); [apply safe_child; assumption|].
    intros [st out] m2 _ Ws2 _ F2. cbn [fst] in *. destruct st as [|c st]; [apply safe_panic; exact Ws2|].
    inversion F2 as [|? ? [W2 K2] _]; subst.
    eapply (safe_bind _ _ _ _ _ _ (fun a => hbuf a)); [apply (safe_block_end k (mkhb (hbuf c) (hberr c) false)); auto|].
    intros b2 m3 _ Ws3 Wt F3. inversion F3; subst. apply safe_ret; [exact Ws3|]. cbn. constructor; [assumption|]. constructor; [|constructor]. split; [apply Wt; exact W2|exact K2].
  - apply safe_ret; [exact Ws1|]. cbn. auto.
Qed.

Lemma safe_sl2 m p (r : res (slice * option err)) h : wf m s -> wf m p -> place p ->
  refines m p (floor p) r h (sl2 m p (floor p)) -> safe m p h (fun q => [fst q]).
Proof.
  intros Ws Wp K R. eapply refines_safe; [exact Ws|exact Wp|exact K|reflexivity|exact R|].
  intros m' a b. apply sl2_made.
Qed.

Lemma safe_keep_insert_f name columns ops b m : wf m s -> wf m (hbuf b) -> place (hbuf b) -> Forall (iop_users leaves_alone) ops ->
  safe m (hbuf b) (h_keep_insert_f name columns ops b m) (fun r => hbuf (fst r) :: match snd r with Some x => [fst x] | None => [] end).
Proof.
  intros Ws Wb K U. unfold h_keep_insert_f. destruct (hdisabled b); [apply safe_panic; exact Ws|]. destruct (hberr b); [apply safe_ret; [exact Ws|cbn; auto]|].
  cbv zeta. set (c := hbuf b) in *. set (lo := floor c).
  eapply (refines_safe m c lo (do p <- msg_insert (view m c) name columns; do (p, e) <- run_iops [true] ops p None; do q <- patch_length p (hlen c); Ok (q, (p, e)))
    _ (fun m' _ r => outside m c lo m' /\ wf m' (hbuf (fst r)) /\ within m c (hbuf (fst r)) /\ (lo <= hlen (hbuf (fst r)) \/ length m <= arr (hbuf (fst r)) \/ hcap (hbuf (fst r)) = 0) /\ exists e, snd r = Some (hbuf (fst r), e)));
    [exact Ws|exact Wb|exact K|reflexivity| |].
  - eapply ref_bind; [apply ref_msg_insert; apply sg_floor; exact Wb|]. cbv beta. intros m1 p1 s1 [S1 L1].
    eapply ref_bind; [apply (ref_run_iops m c lo leaves_alone (leaves_floor _)); [exact U|exact S1|auto|auto]|]. cbv beta. intros m2 [p2 e2] [s2 e2'] [S2 [Ee [_ K2]]]. cbn [fst snd] in *. subst e2'.
    eapply ref_bind; [apply ref_patch; [exact S2|apply floor_le]|]. cbv beta. intros m3 p3 s3 [S3 ->].
    apply ref_ret. cbn [fst snd hbuf]. destruct S3 as [W3 [_ [O3 I3]]]. eauto 10.
  - cbv beta. intros m' a [b' r] [O [W [I [L [e He]]]]]. cbn [fst snd] in *. subst r. split; [exact O|]. cbn [fst].
    assert (M : made_from m c m' (hbuf b')) by (split; auto). auto.
Qed.

Lemma safe_keep_update_f name cr ops b m : wf m s -> wf m (hbuf b) -> place (hbuf b) -> opt (fun_users leaves_alone) cr -> Forall (uop_users leaves_alone) ops ->
  safe m (hbuf b) (h_keep_update_f name cr ops b m) (fun r => hbuf (fst r) :: match snd r with Some x => [fst x] | None => [] end).
Proof.
  intros Ws Wb K Uc U. unfold h_keep_update_f. destruct (hdisabled b); [apply safe_panic; exact Ws|]. destruct (hberr b); [apply safe_ret; [exact Ws|cbn; auto]|].
  cbv zeta. set (c := hbuf b) in *. set (lo := floor c).
  eapply (refines_safe m c lo (do (p, e) <- msg_update (view m c) name cr; do (p, e) <- run_uops [true] ops p e; do q <- patch_length p (hlen c); Ok (q, (p, e)))
    _ (fun m' _ r => outside m c lo m' /\ wf m' (hbuf (fst r)) /\ within m c (hbuf (fst r)) /\ (lo <= hlen (hbuf (fst r)) \/ length m <= arr (hbuf (fst r)) \/ hcap (hbuf (fst r)) = 0) /\ exists e, snd r = Some (hbuf (fst r), e)));
    [exact Ws|exact Wb|exact K|reflexivity| |].
  - eapply ref_bind; [apply (ref_msg_update m c lo leaves_alone (leaves_floor _)); [exact Uc|apply sg_floor; exact Wb]|]. cbv beta. intros m1 [p1 e1] [s1 e1'] [S1 [Ee1 [L1 K1]]]. cbn [fst snd] in *. subst e1'.
    eapply ref_bind; [apply (ref_run_uops m c lo leaves_alone (leaves_floor _)); [exact U|exact S1|auto|auto]|]. cbv beta. intros m2 [p2 e2] [s2 e2'] [S2 [Ee [_ K2]]]. cbn [fst snd] in *. subst e2'.
    eapply ref_bind; [apply ref_patch; [exact S2|apply floor_le]|]. cbv beta. intros m3 p3 s3 [S3 ->].
    apply ref_ret. cbn [fst snd hbuf]. destruct S3 as [W3 [_ [O3 I3]]]. eauto 10.
  - cbv beta. intros m' a [b' r] [O [W [I [L [e He]]]]]. cbn [fst snd] in *. subst r. split; [exact O|]. cbn [fst].
    assert (M : made_from m c m' (hbuf b')) by (split; auto). auto.
Qed.

Lemma safe_row row p e m : wf m s -> wf m p -> place p -> Forall (value_users leaves_alone) row -> safe m p (h_row row p e m) (fun q => [fst q]).
Proof.
  intros Ws Wp K U. destruct e; cbn [h_row]; [apply safe_ret; [exact Ws|cbn; auto]|].
  eapply safe_sl2; [exact Ws|exact Wp|exact K|]. apply (ref_append_insert_row m p (floor p) leaves_alone (leaves_floor _)); [exact U|apply sg_floor; exact Wp].
Qed.

Lemma safe_set name v p e m : wf m s -> wf m p -> place p -> value_users leaves_alone v -> safe m p (h_set name v p e m) (fun q => [fst q]).
Proof.
  intros Ws Wp K U. destruct e; cbn [h_set]; [apply safe_ret; [exact Ws|cbn; auto]|].
  eapply safe_sl2; [exact Ws|exact Wp|exact K|]. apply (ref_append_update_set m p (floor p) leaves_alone (leaves_floor _)); [exact U|apply sg_floor; exact Wp].
Qed.

(* ------------------------------------------------------------ all objects *)

Definition all_placed (m : mem) (os : nat -> option obj) : Prop :=
  forall i o, os i = Some o -> wf m (obj_buf o) /\ place (obj_buf o).

Lemma placed_set m m' os i o : all_placed m os -> (forall t, wf m t -> wf m' t) -> wf m' (obj_buf o) /\ place (obj_buf o) -> all_placed m' (set_obj os i o).
Proof.
  intros A M N j x. unfold set_obj. destruct (j =? i); [intros [= <-]; exact N|]. intros Hx. destruct (A j x Hx). auto.
Qed.

(* What an act leaves of the memory and of the objects. *)
Lemma do_safe a os m : wf m s -> all_placed m os -> act_users leaves_alone a ->
  contents (mem_after (k_do a os m)) s = contents m s /\ wf (mem_after (k_do a os m)) s /\ (forall t, wf m t -> wf (mem_after (k_do a os m)) t) /\
  forall os' m', k_do a os m = HOk os' m' -> all_placed m' os'.
Proof.
  intros Ws A U.
  assert (Id : contents m s = contents m s /\ wf m s /\ (forall t, wf m t -> wf m t) /\ forall os' m', HOk os m = HOk os' m' -> all_placed m' os').
  { repeat (split; [auto; fail|]). intros os' m' [= <- <-]. exact A. }
  assert (Go : forall {X} (h : H X) (f : X -> H (nat -> option obj)) c bufs, safe m c (h m) bufs ->
     (forall x m', h m = HOk x m' -> wf m' s -> (forall t, wf m t -> wf m' t) -> Forall (fun t => wf m' t /\ place t) (bufs x) ->
        mem_after (f x m') = m' /\ forall os' m2, f x m' = HOk os' m2 -> m2 = m' /\ all_placed m' os') ->
     contents (mem_after (hbind h f m)) s = contents m s /\ wf (mem_after (hbind h f m)) s /\ (forall t, wf m t -> wf (mem_after (hbind h f m)) t) /\
     forall os' m', hbind h f m = HOk os' m' -> all_placed m' os').
  { intros X h f c bufs [C [W [Wt [_ F]]]] Hf. unfold hbind. destruct (h m) as [x m1|m1] eqn:Em; cbn [mem_after] in *.
    - destruct (Hf x m1 eq_refl W Wt F) as [-> Hk]. split; [exact C|]. split; [exact W|]. split; [exact Wt|].
      intros os' m' H2. destruct (Hk _ _ H2) as [-> Ak]. exact Ak.
    - split; [exact C|]. split; [exact W|]. split; [exact Wt|]. discriminate. }
  destruct a as [i pr|i j k pr|i j name columns ops|i j name cr ops|j row|j name v]; cbn [act_users k_do] in *.
  - destruct (os i) as [[b|p e|p e]|] eqn:Hi; try exact Id. destruct (A i _ Hi) as [Wb Kb]. cbn [obj_buf] in *.
    eapply Go; [apply safe_run; assumption|]. intros [st out] m' _ W' Wt F. cbn [fst] in F. destruct st as [|b' st]; cbn [mem_after hret hpanic]; (split; [reflexivity|]); [discriminate|].
    intros os' m2 [= <- <-]. split; [reflexivity|]. cbn [map] in F. inversion F; subst. eapply placed_set; eassumption.
  - destruct (os i) as [[b|p e|p e]|] eqn:Hi; try exact Id. destruct (A i _ Hi) as [Wb Kb]. cbn [obj_buf] in *.
    eapply Go; [apply safe_keep_block; assumption|]. intros [b' c] m' _ W' Wt F. cbn [fst snd] in F. inversion F as [|? ? F1 F2]; subst.
    destruct c as [c|]; cbn [mem_after hret]; (split; [reflexivity|]); intros os' m2 [= <- <-]; (split; [reflexivity|]).
    + inversion F2; subst. eapply (placed_set m'); [eapply placed_set; eassumption|auto|assumption].
    + eapply placed_set; eassumption.
  - destruct (os i) as [[b|p e|p e]|] eqn:Hi; try exact Id. destruct (A i _ Hi) as [Wb Kb]. cbn [obj_buf] in *.
    eapply Go; [apply safe_keep_insert_f; assumption|]. intros [b' c] m' _ W' Wt F. cbn [fst snd] in F. inversion F as [|? ? F1 F2]; subst.
    destruct c as [[p e]|]; cbn [mem_after hret]; (split; [reflexivity|]); intros os' m2 [= <- <-]; (split; [reflexivity|]).
    + cbn [fst] in F2. inversion F2; subst. eapply (placed_set m'); [eapply placed_set; eassumption|auto|assumption].
    + eapply placed_set; eassumption.
  - destruct U as [Uc U]. destruct (os i) as [[b|p e|p e]|] eqn:Hi; try exact Id. destruct (A i _ Hi) as [Wb Kb]. cbn [obj_buf] in *.
    eapply Go; [apply safe_keep_update_f; assumption|]. intros [b' c] m' _ W' Wt F. cbn [fst snd] in F. inversion F as [|? ? F1 F2]; subst.
    destruct c as [[p e]|]; cbn [mem_after hret]; (split; [reflexivity|]); intros os' m2 [= <- <-]; (split; [reflexivity|]).
    + cbn [fst] in F2. inversion F2; subst. eapply (placed_set m'); [eapply placed_set; eassumption|auto|assumption].
    + eapply placed_set; eassumption.
  - destruct (os j) as [[b|p e|p e]|] eqn:Hi; try exact Id. destruct (A j _ Hi) as [Wb Kb]. cbn [obj_buf] in *.
    eapply Go; [apply safe_row; assumption|]. intros [p' e'] m' _ W' Wt F. cbn [fst] in F. inversion F; subst.
    cbn [mem_after hret]. split; [reflexivity|]. intros os' m2 [= <- <-]; (split; [reflexivity|]). eapply placed_set; eassumption.
  - destruct (os j) as [[b|p e|p e]|] eqn:Hi; try exact Id. destruct (A j _ Hi) as [Wb Kb]. cbn [obj_buf] in *.
    eapply Go; [apply safe_set; assumption|]. intros [p' e'] m' _ W' Wt F. cbn [fst] in F. inversion F; subst.
    cbn [mem_after hret]. split; [reflexivity|]. intros os' m2 [= <- <-]; (split; [reflexivity|]). eapply placed_set; eassumption.
Qed.

Lemma acts_safe w w' : wf (kmem w) s -> all_placed (kmem w) (kobj w) -> acts w w' ->
  contents (kmem w') s = contents (kmem w) s /\ wf (kmem w') s /\ all_placed (kmem w') (kobj w').
Proof.
  intros Ws A H. induction H as [|w1 a os m H IH U Ed|w1 a o os m H IH U Ed Ho Hos]; [auto| |].
  - destruct IH as [C [W1 A1]]. destruct (do_safe a (kobj w1) (kmem w1) W1 A1 U) as [C' [W' [_ N]]]. rewrite Ed in *. cbn [mem_after kmem kobj] in *.
    split; [congruence|]. split; [exact W'|]. apply N. reflexivity.
  - destruct IH as [C [W1 A1]]. destruct (do_safe a (kobj w1) (kmem w1) W1 A1 U) as [C' [W' [Wt _]]]. rewrite Ed in *. cbn [mem_after kmem kobj] in *.
    split; [congruence|]. split; [exact W'|]. intros i x Hx. destruct (A1 _ _ Ho) as [Wo Ko].
    destruct (Hos i) as [Eq|[_ [o' [Eo [V Gr]]]]]; [rewrite Eq in Hx; destruct (A1 _ _ Hx); auto|].
    rewrite Hx in Eo. injection Eo as ->. split; [exact V|].
    destruct Gr as [[Ga [Go [Gc Gl]]]|Gr]; [|right; apply (fresh_apart (kmem w1)); auto].
    destruct Ko as [[Ka [Kb [Kc Kl]]]|K]; [left; unfold begins; lia|]. right. unfold apart in *. rewrite Ga, Go, Gc. exact K.
Qed.

End Kept.
