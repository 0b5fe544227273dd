(* Pipes that share memory: what one does is what it would do alone, and it leaves the others' memory alone. *)
From Coq Require Import String List NArith ZArith Arith Bool Lia.
From Coq Require Import List.
From Verif Require Import Base GoSlice Varint Text Values AnyModel ExprModel MsgModel Builder SpecValue ValueProofs SpecMem Mem MemModel MemPipes MemProofs MemRef MemBuild.
Import ListNotations.
Local Open Scope nat_scope.

(* ------------------------------------------------------------ user code *)

Lemma users_all (P : ufun -> Prop) : (forall u, P u) -> forall pr, prog_users P pr.
Proof.
  intros Pa.
  assert (Ho : forall o : option ufun, opt P o) by (intros [u|]; cbn; auto).
  assert (V : (forall v, value_users P v) /\ (forall f, fun_users P f)).
  { split.
    - apply (gvalue_deep (value_users P) (fun_users P)).
      + intros v L. destruct v as [| | | | | | | | | | | | | | | | | | | | | | | |g| | |]; cbn [value_users]; try exact I; try contradiction; [destruct g; [contradiction|exact I]|auto].
      + auto.
      + auto.
      + intros f L. destruct f; try contradiction; cbn [fun_users]; auto.
      + intros name ps F. cbn [fun_users]. apply all_Forall. exact F.
      + intros name ps F. cbn [fun_users]. apply all_Forall. exact F.
    - apply (exprfun_deep (value_users P) (fun_users P)).
      + intros v L. destruct v as [| | | | | | | | | | | | | | | | | | | | | | | |g| | |]; cbn [value_users]; try exact I; try contradiction; [destruct g; [contradiction|exact I]|auto].
      + auto.
      + auto.
      + intros f L. destruct f; try contradiction; cbn [fun_users]; auto.
      + intros name ps F. cbn [fun_users]. apply all_Forall. exact F.
      + intros name ps F. cbn [fun_users]. apply all_Forall. exact F. }
  destruct V as [Vv Vf].
  assert (Fv : forall vs, Forall (value_users P) vs) by (induction vs; constructor; auto).
  assert (Of : forall o, opt (fun_users P) o) by (intros [f|]; cbn; auto).
  induction pr as [e out|lvl c next IH|lvl name columns row next IH|lvl k body IHb next IH]; cbn [prog_users].
  - induction out; constructor; auto.
  - split; [|exact IH]. destruct c; cbn [call_users]; auto.
    + induction rows; constructor; auto.
    + induction ops as [|[r|l] ops I]; constructor; cbn; auto.
    + split; auto. induction set; constructor; auto.
    + split; auto. induction ops as [|[n v|l] ops I]; constructor; cbn; auto.
  - split; auto.
  - split; auto.
Qed.

Definition any_user : ufun -> Prop := fun _ => True.
Lemma any_low u : any_user u -> low 0 u.
Proof. intros _ p tag q e _ _. cbn [firstn]. split; intros; [split; [lia|reflexivity]|lia]. Qed.

Lemma leaves_low lo u : leaves_alone u -> low lo u.
Proof.
  intros A p tag q e L Eu. destruct (A p tag q e Eu) as [A1 A2]. split; [|intros En; specialize (A2 En); lia].
  intros C. destruct (A1 C) as [A3 A4]. split; [lia|]. rewrite <- A4, firstn_firstn, Nat.min_l by (unfold len in *; lia). reflexivity.
Qed.

(* ------------------------------------------------------------ one pipe *)

Section Use.
Context `{E : Env}.

(* The value of a builder over memory. *)
Definition bview (m : mem) (b : hbuilder) : builder := mkb (view m (hbuf b)) (hberr b) false.

Lemma run_memory (P : ufun -> Prop) lo pr m b : (forall u, P u -> low lo u) -> prog_users P pr ->
  wf m (hbuf b) -> hdisabled b = false -> lo <= hlen (hbuf b) ->
  refines m (hbuf b) lo (run pr [bview m b]) (h_run pr [b] m)
    (fun m' a h => exists b', fst h = [b'] /\ fst a = [bview m' b'] /\ snd a = snd h /\ wf m' (hbuf b') /\ hdisabled b' = false /\
       outside m (hbuf b) lo m' /\ within m (hbuf b) (hbuf b') /\
       (lo <= hlen (hbuf b') \/ length m <= arr (hbuf b') \/ hcap (hbuf b') = 0)).
Proof.
  intros Pl U W D L.
  eapply ref_weaken.
  - apply (ref_run m (hbuf b) lo P Pl pr U m [bview m b] [b]).
    exists (bview m b), [], b, []. split; [reflexivity|]. split; [reflexivity|]. split; [|auto].
    unfold rb, bview; cbn [berr disabled buf]. split; [reflexivity|]. split; [reflexivity|]. split; [exact D|]. split; [apply sl_start; exact W|auto].
  - cbv beta. intros m' [st out] [hst out'] [[R [Eo _]] Ln]. cbn [fst snd length] in *. subst out'.
    destruct R as [b1 [o [hb [ho [-> [-> [[Eb [D1 [D2 [[W' [V [O I]]] [_ K]]]]] [_ [_ Lo]]]]]]]]].
    destruct o; [|discriminate]. destruct ho; [|discriminate].
    exists hb. split; [reflexivity|]. split; [|auto 10].
    destruct b1; cbn in *. unfold bview. subst. reflexivity.
Qed.

Lemma outside_after pr m b : wf m (hbuf b) -> hdisabled b = false -> outside m (hbuf b) 0 (mem_after (h_run pr [b] m)).
Proof.
  intros W D. pose proof (run_memory any_user 0 pr m b any_low (users_all any_user (fun _ => I) pr) W D ltac:(lia)) as R.
  unfold refines in R. destruct (run pr _).
  - destruct R as [h [m' [-> [b' R]]]]. cbn. intuition.
  - destruct R as [m' [-> R]]. exact R.
Qed.

(* ------------------------------------------------------------ other memory *)

Lemma apart_owns s t lo a i : apart s t -> a = arr t -> off t <= i < off t + hcap t -> ~ owns s lo a i.
Proof. unfold apart, owns. intros A -> L [O1 O2]. lia. Qed.

Lemma outside_array m s lo m' t : outside m s lo m' -> wf m t -> apart s t -> length (array m' (arr t)) = length (array m (arr t)) \/ hcap t = 0.
Proof.
  intros [L O] W A. destruct (Nat.eq_dec (hcap t) 0) as [Z|Z]; [auto|left].
  apply O. apply wf_arr; [exact W|lia].
Qed.

Lemma outside_wf m s lo m' t : outside m s lo m' -> wf m t -> hcap t = 0 \/ wf m' t.
Proof.
  intros [L O] W. destruct (Nat.eq_dec (hcap t) 0) as [Z|Z]; [auto|right].
  pose proof (wf_arr _ _ W ltac:(lia)) as A. destruct (O _ A) as [O1 _]. destruct W as [W1 W2]. split; [auto|lia].
Qed.

Lemma outside_sub m s lo m' t : outside m s lo m' -> wf m t -> apart s t ->
  sub (array m' (arr t)) (off t) (hcap t) = sub (array m (arr t)) (off t) (hcap t).
Proof.
  intros O W A. destruct (Nat.eq_dec (hcap t) 0) as [Z|Z]; [rewrite Z; reflexivity|].
  pose proof (wf_arr _ _ W ltac:(lia)) as Ar. destruct O as [L O]. destruct (O _ Ar) as [O1 O2]. destruct W as [W1 W2].
  apply list_ext; rewrite !sub_length by lia; [reflexivity|]. intros i Hi. rewrite !nth_sub by lia.
  apply O2. eapply apart_owns; [exact A|reflexivity|lia].
Qed.

Lemma outside_view m s lo m' t : outside m s lo m' -> wf m t -> apart s t -> view m' t = view m t.
Proof. intros O W A. unfold view. rewrite (outside_sub m s lo m' t O W A). reflexivity. Qed.

Lemma outside_contents m s lo m' t : outside m s lo m' -> wf m t -> apart s t -> contents m' t = contents m t.
Proof.
  intros O W A. pose proof (outside_view m s lo m' t O W A) as V.
  destruct W as [W1 W2]. unfold view in V. apply (f_equal data) in V. cbn [data] in V.
  unfold contents, sub in *. rewrite !firstn_firstn, Nat.min_l in V by lia. exact V.
Qed.

Lemma within_apart m s s' t : within m s s' -> wf m t -> apart s t -> apart s' t.
Proof.
  intros [[Wa [Wo Wc]]|[W|W]] V A.
  - unfold apart in *. rewrite Wa, Wo, Wc. exact A.
  - destruct (Nat.eq_dec (hcap t) 0) as [Z|Z]; [unfold apart; auto|].
    pose proof (wf_arr _ _ V ltac:(lia)). unfold apart. lia.
  - unfold apart; auto.
Qed.

Lemma apart_sym s t : apart s t -> apart t s.
Proof. unfold apart. intuition. Qed.

(* ------------------------------------------------------------ the pipes of a world *)

(* Every pipe stands for the value it would have alone, and no two share memory. *)
Definition good (w : world) (bs : nat -> option builder) : Prop :=
  (forall i, match pipe w i, bs i with
             | Some b, Some v => wf (wmem w) (hbuf b) /\ hdisabled b = false /\ v = bview (wmem w) b
             | None, None => True
             | _, _ => False
             end) /\
  (forall i j b c, i <> j -> pipe w i = Some b -> pipe w j = Some c -> apart (hbuf b) (hbuf c)).

Definition set_alone (bs : nat -> option builder) (i : nat) (b : option builder) : nat -> option builder :=
  fun j => if j =? i then b else bs j.

Lemma outside_weak m s lo m' s' : outside m s lo m' -> (forall a i, owns s lo a i -> owns s' 0 a i) -> outside m s' 0 m'.
Proof. intros [L O] I. split; [auto|]. intros a A. destruct (O a A) as [O1 O2]. split; [auto|]. intros i N. apply O2. intros N'. apply N, I, N'. Qed.

(* Memory changes only where pipe i may write; the others are as they were. *)
Lemma good_step w bs i s m' (nb : option hbuilder) :
  good w bs ->
  outside (wmem w) s 0 m' ->
  (match pipe w i with Some b => s = hbuf b | None => hcap s = 0 end) ->
  (forall b', nb = Some b' -> wf m' (hbuf b') /\ hdisabled b' = false /\ within (wmem w) s (hbuf b')) ->
  good (mkw m' (set_pipe (pipe w) i nb)) (set_alone bs i (option_map (bview m') nb)).
Proof.
  intros [G1 G2] O Hs Hn.
  assert (Ap : forall j c, j <> i -> pipe w j = Some c -> apart s (hbuf c)).
  { intros j c N Hj. destruct (pipe w i) as [b|] eqn:Hi; [subst s; eapply (G2 i j); eauto|unfold apart; auto]. }
  assert (Wf : forall j c, j <> i -> pipe w j = Some c -> wf (wmem w) (hbuf c) /\ wf m' (hbuf c)).
  { intros j c N Hj. specialize (G1 j). rewrite Hj in G1. destruct (bs j); [|contradiction]. destruct G1 as [W _]. split; [exact W|].
    destruct (outside_wf _ _ _ _ _ O W) as [Z|W']; [|exact W'].
    destruct W as [W1 W2]. split; [lia|]. 
    destruct (Nat.lt_ge_cases (arr (hbuf c)) (length (wmem w))) as [La|La].
    - destruct O as [_ O]. destruct (O _ La) as [O1 _]. lia.
    - rewrite (array_out (wmem w)) in W2 by auto. cbn [length] in W2. lia. }
  split.
  - intros j. cbn [pipe wmem]. unfold set_pipe, set_alone. destruct (Nat.eqb_spec j i) as [->|N].
    + destruct nb as [b'|]; cbn [option_map]; [|exact I]. destruct (Hn b' eq_refl) as [W [D _]]. auto.
    + pose proof (G1 j) as Gj. destruct (pipe w j) as [c|] eqn:Hj; destruct (bs j); auto.
      destruct Gj as [W [D Ev]]. destruct (Wf j c N Hj) as [_ W']. split; [exact W'|]. split; [exact D|]. rewrite Ev.
      unfold bview. f_equal. symmetry. eapply outside_view; [exact O|exact W|eapply Ap; eauto].
  - intros j k b c N Hj Hk. cbn [pipe] in *. unfold set_pipe in *.
    destruct (Nat.eqb_spec j i) as [->|Nj], (Nat.eqb_spec k i) as [->|Nk]; try congruence.
    + destruct (Hn b Hj) as [_ [_ Wi]]. eapply within_apart; [exact Wi|eapply Wf; eauto|eapply Ap; eauto].
    + destruct (Hn c Hk) as [_ [_ Wi]]. apply apart_sym. eapply within_apart; [exact Wi|eapply Wf; eauto|eapply Ap; eauto].
    + eapply (G2 j k); eauto.
Qed.

(* An act: pipe i sees what it would alone; memory outside it is as before. *)
Lemma world_step_ok w bs i a : good w bs ->
  snd (world_step w i a) = snd (alone_step (bs i) a) /\
  good (fst (world_step w i a)) (set_alone bs i (fst (alone_step (bs i) a))) /\
  exists s, (match pipe w i with Some b => s = hbuf b | None => hcap s = 0 end) /\ outside (wmem w) s 0 (wmem (fst (world_step w i a))) /\
    forall j b', pipe (fst (world_step w i a)) j = Some b' -> pipe w j = Some b' \/ within (wmem w) s (hbuf b').
Proof.
  assert (Fr : forall (nb : option hbuilder) s, (forall b', nb = Some b' -> within (wmem w) s (hbuf b')) ->
     forall j b', set_pipe (pipe w) i nb j = Some b' -> pipe w j = Some b' \/ within (wmem w) s (hbuf b')).
  { intros nb s Hn j b' Hj. unfold set_pipe in Hj. destruct (j =? i); [right; auto|left; exact Hj]. }
  intros G. pose proof (proj1 G i) as Gi.
  assert (Gsame : forall v, bs i = v -> good w (set_alone bs i v)).
  { intros v Hv. destruct G as [G1 G2]. split; [|exact G2]. intros j. specialize (G1 j). unfold set_alone.
    destruct (Nat.eqb_spec j i) as [->|]; [rewrite <- Hv|]; exact G1. }
  assert (Rid : forall b, pipe w i = Some b -> good (mkw (wmem w) (set_pipe (pipe w) i (Some b))) (set_alone bs i (bs i))).
  { intros b Hb. pose proof (good_step w bs i (hbuf b) (wmem w) (Some b) G) as S. rewrite Hb in S.
    rewrite Hb in Gi. destruct (bs i); [|contradiction]. destruct Gi as [W [D ->]].
    apply S; [apply outside_refl|reflexivity|]. intros b' Hb'; injection Hb' as <-. split; [exact W|]. split; [exact D|]. left; auto. }
  destruct a as [n|pr| |].
  - (* New *)
    set (s := match pipe w i with Some b => hbuf b | None => hnil end).
    assert (Hs : match pipe w i with Some b => s = hbuf b | None => hcap s = 0 end) by (unfold s; destruct (pipe w i); reflexivity).
    assert (Ws : wf (wmem w) s).
    { unfold s. destruct (pipe w i); [destruct (bs i); [apply Gi|contradiction]|]. split; cbn; lia. }
    pose proof (ref_make (wmem w) s 0 (wmem w) _ s 0 n (sl_start (wmem w) s 0 Ws) ltac:(lia)) as [t [m' [Em [[W [V [O Wi]]] _]]]].
    cbn [world_step]. unfold h_new_pipe, hbind, hret. rewrite Em. cbn [fst snd alone_step].
    split; [reflexivity|]. split; [|exists s; split; [exact Hs|split; [exact O|apply Fr; intros x Hx; injection Hx as <-; exact Wi]]].
    pose proof (good_step w bs i s m' (Some (mkhb t None false)) G O Hs) as S. cbn [option_map] in S.
    unfold bview in S. cbn [hbuf hberr] in S. unfold new_pipe. rewrite <- V. apply S.
    intros b' Hb; injection Hb as <-. cbn. auto.
  - cbn [world_step]. destruct (pipe w i) as [b|] eqn:Hb.
    + destruct (bs i) as [v|] eqn:Hv; [|contradiction]. destruct Gi as [W [D ->]]. cbn [alone_step].
      pose proof (run_memory any_user 0 pr (wmem w) b any_low (users_all any_user (fun _ => I) pr) W D ltac:(lia)) as R.
      unfold refines in R. destruct (run pr [bview (wmem w) b]) as [[st out]|].
      * destruct R as [[hst out'] [m' [Er [b' [E1 [E2 [E3 [W' [D' [O [Wi _]]]]]]]]]]]. cbn [fst snd] in E1, E2, E3. subst.
        unfold hbind, hret. rewrite Er. cbn [fst snd]. split; [reflexivity|].
        split; [|exists (hbuf b); split; [reflexivity|split; [exact O|apply Fr; intros x Hx; injection Hx as <-; exact Wi]]].
        pose proof (good_step w bs i (hbuf b) m' (Some b') G O) as S. rewrite Hb in S. apply S; [reflexivity|].
        intros x Hx; injection Hx as <-. auto.
      * destruct R as [m' [Er O]]. unfold hbind. rewrite Er. cbn [fst snd]. split; [reflexivity|].
        split; [|exists (hbuf b); split; [reflexivity|split; [exact O|apply Fr; discriminate]]].
        pose proof (good_step w bs i (hbuf b) m' None G O) as S. rewrite Hb in S. apply S; [reflexivity|]. discriminate.
    + destruct (bs i) as [v|] eqn:Hv; [contradiction|]. cbn [alone_step fst snd]. split; [reflexivity|]. split; [auto|].
      exists hnil. split; [reflexivity|]. split; [apply outside_refl|auto].
  - cbn [world_step]. destruct (pipe w i) as [b|] eqn:Hb.
    + destruct (bs i) as [v|] eqn:Hv; [|contradiction]. destruct Gi as [W [D ->]]. cbn [alone_step].
      unfold h_reset. rewrite D. unfold reset, bview. cbn [disabled buf].
      pose proof (ref_reslice (wmem w) (hbuf b) 0 (wmem w) _ (hbuf b) 0 (sl_start (wmem w) (hbuf b) 0 W)) as R.
      unfold refines in R. destruct (reslice (view (wmem w) (hbuf b)) 0) as [q|] eqn:Eq; [|unfold reslice in Eq; discriminate].
      destruct R as [t [m' [Em [[W' [V [O Wi]]] _]]]]. unfold hbind, hret. rewrite Em. cbn [bind fst snd].
      split; [reflexivity|].
      split; [|exists (hbuf b); split; [reflexivity|split; [exact O|apply Fr; intros x Hx; injection Hx as <-; exact Wi]]].
      pose proof (good_step w bs i (hbuf b) m' (Some (mkhb t None false)) G O) as S. rewrite Hb in S. cbn [option_map] in S.
      unfold bview in S. cbn [hbuf hberr] in S. rewrite V in S. apply S; [reflexivity|].
      intros x Hx; injection Hx as <-. cbn. auto.
    + destruct (bs i) as [v|] eqn:Hv; [contradiction|]. cbn [alone_step fst snd]. split; [reflexivity|]. split; [auto|].
      exists hnil. split; [reflexivity|]. split; [apply outside_refl|auto].
  - cbn [world_step]. destruct (pipe w i) as [b|] eqn:Hb.
    + destruct (bs i) as [v|] eqn:Hv; [|contradiction]. destruct Gi as [W [D Ev]]. cbn [alone_step].
      unfold h_send. rewrite D. rewrite Ev. unfold send, bview. cbn [disabled berr buf].
      destruct (hberr b) as [e|] eqn:He; unfold hbind, hret, h_read; cbn [fst snd].
      * split; [reflexivity|]. split; [|exists (hbuf b); split; [reflexivity|split; [apply outside_refl|apply Fr; intros x Hx; injection Hx as <-; left; auto]]].
        pose proof (Rid b eq_refl) as R. rewrite Ev in R. unfold bview in R. rewrite He in R. exact R.
      * split; [rewrite contents_data by exact W; reflexivity|]. split; [|exists (hbuf b); split; [reflexivity|split; [apply outside_refl|apply Fr; intros x Hx; injection Hx as <-; left; auto]]].
        pose proof (Rid b eq_refl) as R. rewrite Ev in R. unfold bview in R. rewrite He in R. exact R.
    + destruct (bs i) as [v|] eqn:Hv; [contradiction|]. cbn [alone_step fst snd]. split; [reflexivity|]. split; [auto|].
      exists hnil. split; [reflexivity|]. split; [apply outside_refl|auto].
Qed.

Lemma alone_ext acts : forall w bs, good w bs -> forall i,
  of_pipe i (snd (world_run w acts)) = alone (bs i) (of_pipe i acts).
Proof.
  induction acts as [|[j a] acts IH]; intros w bs G i; [reflexivity|].
  cbn [world_run]. destruct (world_step_ok w bs j a G) as [Es [G' _]].
  destruct (world_step w j a) as [w' s]. cbn [fst snd] in *.
  specialize (IH w' _ G' i). destruct (world_run w' acts) as [w2 l]. cbn [snd] in *.
  unfold of_pipe in *. cbn [filter fst]. destruct (Nat.eqb_spec j i) as [->|N].
  - cbn [map snd alone]. unfold set_alone in IH. rewrite Nat.eqb_refl in IH.
    destruct (alone_step (bs i) a) as [b' s']. cbn [fst snd] in *. subst. f_equal. exact IH.
  - rewrite IH. unfold set_alone. destruct (Nat.eqb_spec i j); [congruence|reflexivity].
Qed.

(* Memory that no pipe of the world can reach. *)
Definition foreign (w : world) (t : hslice) : Prop := forall i b, pipe w i = Some b -> apart (hbuf b) t.

Lemma wf_outside m s lo m' t : outside m s lo m' -> wf m t -> wf m' t.
Proof.
  intros O W. destruct (outside_wf _ _ _ _ _ O W) as [Z|W']; [|exact W'].
  destruct W as [W1 W2]. split; [lia|]. destruct (Nat.lt_ge_cases (arr t) (length m)) as [La|La].
  - destruct O as [_ O]. destruct (O _ La) as [O1 _]. lia.
  - rewrite (array_out m) in W2 by auto. cbn [length] in W2. lia.
Qed.

Lemma world_foreign acts : forall w bs t, good w bs -> wf (wmem w) t -> foreign w t ->
  contents (wmem (fst (world_run w acts))) t = contents (wmem w) t.
Proof.
  induction acts as [|[i a] acts IH]; intros w bs t G W F; [reflexivity|].
  cbn [world_run]. destruct (world_step_ok w bs i a G) as [_ [G' [s [Hs [O Fr]]]]].
  destruct (world_step w i a) as [w' x]. cbn [fst snd] in *.
  assert (A : apart s t). { specialize (F i). destruct (pipe w i) as [b|]; [subst; auto|unfold apart; auto]. }
  specialize (IH w' _ t G' (wf_outside _ _ _ _ _ O W)). destruct (world_run w' acts) as [w2 l]. cbn [fst] in *. rewrite IH.
  - eapply outside_contents; [exact O|exact W|exact A].
  - intros j b Hj. destruct (Fr j b Hj) as [Hb|Wi]; [exact (F j b Hb)|]. eapply within_apart; [exact Wi|exact W|exact A].
Qed.

End Use.
