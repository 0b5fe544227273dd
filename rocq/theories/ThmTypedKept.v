(* C68: builders, *Insert and *Update used after their callback, when arguments may also be values that are encoded wrongly. *)
From Coq Require Import String List NArith ZArith Arith Bool Lia.
From Coq Require Import List.
From Verif Require Import Base GoSlice SpecWire SpecMsg Text Values MsgModel Builder SpecValue SpecProg SpecUnit WireProofs ValueProofs MsgProofs BuilderProofs UnitProofs
  SpecMem Mem MemModel MemProofs MemRef MemBuild MemUse MemKept SpecKept MemKeptProofs ThmKept SpecTyped TypedProofs TypedRunProofs TypedFrameProofs.
From Verif Require ThmValues ThmBuilder ThmDefects ThmTyped ThmMem.
Import ListNotations.
Local Open Scope nat_scope.

Section Theorems.
Context `{E : Env}.

(* C68 fails for builders whenever the array has room, whatever the values: the frames of the kept builder are written after what it has, over what the
   pipe t has got there since; and the pipe is no longer than before. *)
Theorem C68_overwritten_whatever_the_values_refuted : forall pr m c t c' out m',
  typed_prog word32 pr -> valid m (hbuf c) -> hdisabled c = false -> hberr c = None -> begins (hbuf c) t ->
  h_run pr [c] m = HOk ([c'], out) m' ->
  arr (hbuf c') = arr (hbuf c) -> off (hbuf c') = off (hbuf c) ->
  hberr c' = None -> (N.of_nat (hlen (hbuf c')) < 2 ^ 32)%N ->
  exists ws fs ids, dframes ws = Some fs /\ prog_frames word32 pr fs ids out /\
    hlen (hbuf c') = hlen (hbuf c) + length ws /\
    firstn (hlen (hbuf c')) (contents m' t) = firstn (hlen t) (contents m (hbuf c) ++ ws).
Proof.
  intros pr m c t c' out m' Hp W D He [Ba [Bo [Bc Bl]]] Hr Ea Eo He' Hl.
  pose proof (run_memory any_user 0 pr m c any_low (users_all any_user (fun _ => I) pr) W D ltac:(lia)) as R.
  unfold refines in R. destruct (run pr [bview m c]) as [[st o]|] eqn:Er.
  - destruct R as [[hst o'] [m2 [Er2 [b2 [E1 [E2 [E3 [W2 _]]]]]]]]. rewrite Hr in Er2. injection Er2 as <- <- <-. cbn [fst snd] in *. injection E1 as <-. subst st o.
    destruct (frame_step pr (bview m c) [] _ _ Hp (Forall_nil _) eq_refl Er) as (_ & c2 & Hc2 & _ & _ & Sg). injection Hc2 as <-.
    destruct (Sg He He') as [_ Hg]. destruct Hg as (ws & Hw & ms & ids & Hm & Hpm & _).
    { cbn [bview buf]. rewrite <- contents_data by exact W2. unfold nlen. rewrite contents_length by exact W2. exact Hl. }
    exists ws, ms, ids. split; [exact (framed_dframes _ _ Hm)|]. split; [exact Hpm|].
    apply (over m (hbuf c) (hbuf c') m' t ws); auto. cbn [bview buf] in Hw. rewrite !contents_data by assumption. exact Hw.
  - destruct R as [m2 [Er2 _]]. congruence.
Qed.

(* C68 fails for *Insert whenever the array has room, whatever the values: what Row adds to any *Insert is written after what the kept *Insert has, over
   what the pipe has got there since; and the pipe is no longer than before. The same for Set on the kept *Update. *)
Theorem C68_row_overwrites_whatever_the_values_refuted : forall m p row q m' t,
  typed_values word32 row -> valid m p -> begins p t ->
  h_row row p None m = HOk (q, None) m' ->
  arr q = arr p -> off q = off p -> (N.of_nat (hlen q) < 2 ^ 32)%N ->
  exists r, is_bytes r /\ (forall s, exists sp, append_insert_row s row = Ok (mk (data s ++ r) sp, None)) /\
    hlen q = hlen p + length r /\
    firstn (hlen q) (contents m' t) = firstn (hlen t) (contents m p ++ r).
Proof.
  intros m p row q m' t V W [Ba [Bo [Bc Bl]]] Hr Ea Eo Hl. cbn [h_row] in Hr.
  assert (Sg : sg m p 0 m (view m p) p) by (split; [apply sl_start; exact W|lia]).
  destruct (appends m p _ _ _ _ _ W (ref_append_insert_row m p 0 any_user any_low m (view m p) p row (any_row row) Sg) Hr) as [R Wq].
  destruct (row_lays word32 row V) as [(bs & Ib & _ & G)|[[[B _] _]|[B _]]].
  - destruct (G E eq_refl (view m p)) as [sp Hg]. rewrite Hg in R. assert (Rv : view m' q = mk (data (view m p) ++ bs) sp) by congruence.
    exists bs. split; [exact Ib|]. split; [exact (G E eq_refl)|].
    apply (over m p q m' t bs); auto. rewrite contents_data, Rv by exact Wq. cbn [data]. rewrite <- contents_data by exact W. reflexivity.
  - exfalso. exact (B E eq_refl _ _ R).
  - exfalso. destruct (B E eq_refl _ _ R) as [_ Big]. rewrite <- contents_data in Big by exact Wq. cbn [limit] in Big.
    unfold nlen in Big. rewrite contents_length in Big by exact Wq. lia.
Qed.

Theorem C68_set_overwrites_whatever_the_values_refuted : forall m p name v q m' t,
  go_string name -> well_formed word32 v -> valid m p -> begins p t ->
  h_set name v p None m = HOk (q, None) m' ->
  arr q = arr p -> off q = off p -> (N.of_nat (hlen q) < 2 ^ 32)%N ->
  exists r, is_bytes r /\ (forall s, exists sp, append_update_set s name v = Ok (mk (data s ++ r) sp, None)) /\
    hlen q = hlen p + length r /\
    firstn (hlen q) (contents m' t) = firstn (hlen t) (contents m p ++ r).
Proof.
  intros m p name v q m' t Vn Vw W [Ba [Bo [Bc Bl]]] Hr Ea Eo Hl. cbn [h_set] in Hr.
  assert (Sg : sg m p 0 m (view m p) p) by (split; [apply sl_start; exact W|lia]).
  destruct (appends m p _ _ _ _ _ W (ref_append_update_set m p 0 any_user any_low m (view m p) p name v (Forall_inv (any_row [v])) Sg) Hr) as [R Wq].
  destruct (set_lays word32 name v Vn Vw) as [(bs & Ib & _ & G)|[[[B _] _]|[B _]]].
  - destruct (G E eq_refl (view m p)) as [sp Hg]. rewrite Hg in R. assert (Rv : view m' q = mk (data (view m p) ++ bs) sp) by congruence.
    exists bs. split; [exact Ib|]. split; [exact (G E eq_refl)|].
    apply (over m p q m' t bs); auto. rewrite contents_data, Rv by exact Wq. cbn [data]. rewrite <- contents_data by exact W. reflexivity.
  - exfalso. exact (B E eq_refl _ _ R).
  - exfalso. destruct (B E eq_refl _ _ R) as [_ Big]. rewrite <- contents_data in Big by exact Wq. cbn [limit] in Big.
    unfold nlen in Big. rewrite contents_length in Big by exact Wq. lia.
Qed.

End Theorems.

(* ---- the hypotheses can be met ---- *)
#[local] Existing Instance ThmBuilder.plain.

(* A Delete with a variable name that is too long, on a kept builder, after the pipe got a COMMIT. *)
Definition wrong_late : prog := PCall 0 (CDelete (s2b "u") (Some (EVariable ThmValues.long_name))) (Ret None []).
Definition wrong_value : gvalue := VFunc (Some (EVariable ThmValues.long_name)).
Example wrong_over_meets : typed_prog false wrong_late /\ ~ prog_ok false wrong_late /\ exists m c t, valid m (hbuf c) /\ hdisabled c = false /\ hberr c = None /\ begins (hbuf c) t /\
  hlen (hbuf c) < hlen t /\ exists c' m', h_run wrong_late [c] m = HOk ([c'], []) m' /\ arr (hbuf c') = arr (hbuf c) /\ off (hbuf c') = off (hbuf c) /\
  hberr c' = None /\ (N.of_nat (hlen (hbuf c')) < 2 ^ 32)%N.
Proof.
  split; [unfold wrong_late; cbn [typed_prog typed_call]; split; [split; [ThmBuilder.ok|exact ThmTyped.long_name_string]|constructor]|].
  split. { unfold wrong_late. cbn [prog_ok call_ok]. intros ((_ & H) & _). vm_compute in H. destruct H as [_ H]. apply H. reflexivity. }
  exists [repeat 0%N 512], (mkhb (mkh 0 0 35 512) None false), (mkh 0 0 48 512).
  split; [split; vm_compute; lia|]. split; [reflexivity|]. split; [reflexivity|]. split; [unfold begins; cbn; lia|]. split; [cbn; lia|].
  do 2 eexists. split; [vm_compute; reflexivity|]. split; [reflexivity|]. split; [reflexivity|]. split; reflexivity.
Qed.
Example wrong_parts_meet : typed_values false [wrong_value] /\ ~ values_ok false [wrong_value] /\ exists m p t, valid m p /\ begins p t /\ hlen p < hlen t /\
  (exists q m', h_row [wrong_value] p None m = HOk (q, None) m' /\ arr q = arr p /\ off q = off p /\ (N.of_nat (hlen q) < 2 ^ 32)%N) /\
  (exists q m', h_set (s2b "b") wrong_value p None m = HOk (q, None) m' /\ arr q = arr p /\ off q = off p /\ (N.of_nat (hlen q) < 2 ^ 32)%N).
Proof.
  split; [constructor; [exact ThmTyped.long_name_string|constructor]|]. split.
  { intros H. inversion_clear H as [|? ? [_ H1] _]. vm_compute in H1. apply H1. reflexivity. }
  exists [repeat 0%N 512], (mkh 0 0 35 512), (mkh 0 0 48 512).
  split; [split; vm_compute; lia|]. split; [unfold begins; cbn; lia|]. split; [cbn; lia|].
  split; do 2 eexists; (split; [vm_compute; reflexivity|]); split; [reflexivity|split; reflexivity|reflexivity|split; reflexivity].
Qed.

Print Assumptions C68_overwritten_whatever_the_values_refuted.
Print Assumptions C68_row_overwrites_whatever_the_values_refuted.
Print Assumptions C68_set_overwrites_whatever_the_values_refuted.
