(* What a goroutine does with its pipe is safe in its own memory, whatever the others do. *)
From Coq Require Import String List NArith ZArith Arith Bool Lia.
From Coq Require Import List.
From Verif Require Import Base GoSlice Values Builder SpecMem Mem MemModel MemPipes Fine FineMore FineModel FineRun FineProofs FineRef FineBuild.
From Verif Require MemProofs MemUse.
Import ListNotations.
Local Open Scope nat_scope.

Section Life.
Context `{E : Env}.

Definition bview (m : heap) (b : hbuilder) : builder := mkb (view m (hbuf b)) (hberr b) false.

(* The pipe in memory stands for v. *)
Definition stands (m : heap) (v : option builder) (b : option hbuilder) : Prop :=
  match v, b with
  | Some v, Some b => wf m (hbuf b) /\ hdisabled b = false /\ v = bview m b
  | None, None => True
  | _, _ => False
  end.

Lemma run_refines pr m b : wf m (hbuf b) -> hdisabled b = false ->
  refines (run pr [bview m b]) (g_run pr [b]) m
    (fun m' a h => exists b', fst h = [b'] /\ fst a = [bview m' b'] /\ snd a = snd h /\ wf m' (hbuf b') /\ hdisabled b' = false).
Proof.
  intros W D. eapply ref_weaken.
  - apply (ref_run MemUse.any_user pr (MemUse.users_all MemUse.any_user (fun _ => I) pr) m [bview m b] [b]).
    exists (bview m b), [], b, []. split; [reflexivity|]. split; [reflexivity|]. split; [|auto].
    unfold rb, bview; cbn [berr disabled buf]. split; [reflexivity|]. split; [reflexivity|]. split; [exact D|]. split; [apply sl_start; exact W|]. split; intros; lia.
  - cbv beta. intros m' [st out] [hst out'] [[R [Eo _]] Ln]. cbn [fst snd length] in *. subst out'.
    destruct R as [b1 [o [hb [ho [-> [-> [[Eb [D1 [D2 [[W' V] _]]]] [_ [_ Lo]]]]]]]]].
    destruct o; [|discriminate]. destruct ho; [|discriminate].
    exists hb. split; [reflexivity|]. split; [|auto 10].
    destruct b1; cbn in *. unfold bview. subst. reflexivity.
Qed.

Lemma ref_safe {A B} (r : res A) (c : go B) m R : refines r c m R ->
  safe c m (fun m' o => match o with Some b => exists a, r = Ok a /\ R m' a b | None => r = Panic end).
Proof.
  intros H. eapply safe_weaken; [|exact H]. cbv beta. intros m' [b|]; destruct r; try contradiction; eauto.
Qed.

Lemma act_safe m v b a : stands m v b ->
  safe (g_act b a) m (fun m' o => exists b', o = Some (b', snd (alone_step v a)) /\ stands m' (fst (alone_step v a)) b').
Proof.
  intros S. unfold g_act.
  assert (Af : forall c (Q : heap -> option (option hbuilder * seen) -> Prop), safe c m (fun m' o => Q m' (match o with Some (b, s) => Some (Some b, s) | None => Some (None, SUse None) end)) ->
    safe (let! r := try c in match r with Some (b, s) => Return (Some b, s) | None => Return (None, SUse None) end) m Q).
  { intros c Q Hc. apply safe_bind, safe_try. eapply safe_weaken; [|exact Hc]. cbv beta. intros m' [[x s]|] H; exact H. }
  destruct a as [n|pr| |].
  - apply Af. apply safe_bind. unfold g_new_pipe. apply safe_bind.
    eapply safe_weaken; [|exact (ref_safe _ _ _ _ (ref_make m 0 n (Nat.le_0_l n)))]. cbv beta. intros m' [t|]; [|discriminate].
    intros [a [Ea [[W V] [_ [L _]]]]]. injection Ea as <-. cbn [safe]. eexists. split; [reflexivity|]. cbn [alone_step fst stands].
    split; [exact W|]. split; [reflexivity|]. unfold new_pipe, bview; cbn [hbuf hberr]. rewrite V. reflexivity.
  - destruct b as [b|], v as [v|]; try contradiction; [|cbn [safe alone_step]; eexists; split; [reflexivity|exact I]].
    destruct S as [W [D ->]]. apply Af. apply safe_bind.
    eapply safe_weaken; [|exact (ref_safe _ _ _ _ (run_refines pr m b W D))]. cbv beta. intros m' [[hst out]|].
    + intros [[st out'] [Er [b' [E1 [E2 [E3 [W' D']]]]]]]. cbn [fst snd] in *. subst. cbn [safe]. eexists. split; [cbn [alone_step]; rewrite Er; reflexivity|].
      cbn [alone_step]. rewrite Er. cbn [fst stands]. auto.
    + intros Er. cbn [safe]. eexists. cbn [alone_step]. rewrite Er. split; [reflexivity|exact I].
  - destruct b as [b|], v as [v|]; try contradiction; [|cbn [safe alone_step]; eexists; split; [reflexivity|exact I]].
    destruct S as [W [D ->]]. apply Af. unfold g_reset. rewrite D. apply safe_bind, safe_bind.
    eapply safe_weaken; [|exact (ref_safe _ _ _ _ (ref_reslice m (view m (hbuf b)) (hbuf b) 0 (sl_start m (hbuf b) W)))]. cbv beta.
    cbn [alone_step]. unfold reset, bview. cbn [disabled buf]. unfold reslice. cbn [Nat.leb]. intros m' [t|]; [|discriminate].
    intros [q [Eq [[W' V] _]]]. injection Eq as <-. cbn [safe bind fst snd]. eexists. split; [reflexivity|]. cbn [stands hbuf hdisabled].
    split; [exact W'|]. split; [reflexivity|]. unfold bview; cbn [hbuf hberr]. rewrite V. reflexivity.
  - destruct b as [b|], v as [v|]; try contradiction; [|cbn [safe alone_step]; eexists; split; [reflexivity|exact I]].
    destruct S as [W [D ->]]. apply Af. unfold g_send. rewrite D. cbn [alone_step]. unfold send, bview. cbn [disabled berr buf].
    destruct (hberr b) as [e|] eqn:He.
    + cbn [gbind safe]. eexists. split; [reflexivity|]. cbn [fst stands]. split; [exact W|]. split; [exact D|]. unfold bview. rewrite He. reflexivity.
    + cbn [gbind]. apply safe_bind. unfold g_read. destruct W as [W1 W2]. apply safe_loads; [lia|]. cbn [safe].
      fold (contents m (hbuf b)). rewrite contents_data by (split; assumption).
      eexists. split; [reflexivity|]. cbn [fst stands]. split; [split; assumption|]. split; [exact D|]. unfold bview. rewrite He. reflexivity.
Qed.

Lemma life_safe acts : forall m v b, stands m v b -> safe (g_life b acts) m (fun _ o => o = Some (alone v acts)).
Proof.
  induction acts as [|a acts IH]; intros m v b S; cbn [g_life alone]; [reflexivity|].
  apply safe_bind. eapply safe_weaken; [|apply (act_safe m v b a S)]. cbv beta. intros m' o [b' [-> S']].
  destruct (alone_step v a) as [v' s]. cbn [fst snd] in *. apply safe_bind. eapply safe_weaken; [|apply (IH m' v' b' S')].
  cbv beta. intros m'' o ->. reflexivity.
Qed.

End Life.

(* ------------------------------------------------------------ all goroutines *)

Definition where_ (x : access) : nat := match x with Reads a _ | Writes a _ | Makes a => a end.

(* What holds after the accesses tr from memory m0: every goroutine has arrays of its own, is safe in them, and has made its accesses there; it may
   besides have read elements of m0, which are as they were, where may says so. *)
Definition inv {A} (m0 : mem) (may : nat -> nat -> nat -> Prop) (Q : nat -> heap -> option A -> Prop) (tr : list (nat * access)) (s : state A) : Prop :=
  exists own : nat -> heap,
    (forall i, exists d, more m0 (may i) (doing s i) d /\ safe d (own i) (Q i)) /\
    (forall i a l, own i a = Some l -> nth_error (smem s) a = Some l /\ length m0 <= a) /\
    (forall i j a, own i a <> None -> own j a <> None -> i = j) /\
    (forall i x, In (i, x) tr -> own i (where_ x) <> None \/ exists a k, x = Reads a k /\ a < length m0 /\ may i a k) /\
    length m0 <= length (smem s) /\
    (forall a, a < length m0 -> nth_error (smem s) a = nth_error m0 a).

Definition own_now (own : nat -> heap) (i : nat) (h : heap) : nat -> heap := fun j => if j =? i then h else own j.

Lemma array_some (h : heap) a x : x < length (array h a) -> exists l, h a = Some l /\ array h a = l.
Proof. unfold array. destruct (h a) as [l|]; [eauto|cbn; lia]. Qed.

Lemma nth_error_set (m : mem) : forall a l b, a < length m -> nth_error (set_array m a l) b = if b =? a then Some l else nth_error m b.
Proof.
  induction m as [|x m IH]; intros a l b L; [cbn in L; lia|]. destruct a as [|a], b as [|b]; cbn [set_array nth_error]; try reflexivity.
  cbn [length] in L. rewrite IH by lia. reflexivity.
Qed.

Lemma inv_step {A} m0 may (Q : nat -> heap -> option A -> Prop) tr s i x s' : inv m0 may Q tr s -> happens s i x s' -> inv m0 may Q (tr ++ [(i, x)]) s'.
Proof.
  intros [own [Sf [Mm [Dj [Tr [Lm Old]]]]]] H.
  assert (Trs : forall own' : nat -> heap, (forall j a, own j a <> None -> own' j a <> None) -> (own' i (where_ x) <> None \/ exists a k, x = Reads a k /\ a < length m0 /\ may i a k) ->
     forall j y, In (j, y) (tr ++ [(i, x)]) -> own' j (where_ y) <> None \/ exists a k, y = Reads a k /\ a < length m0 /\ may j a k).
  { intros own' Gr Hx j y Hin. apply in_app_or in Hin. destruct Hin as [Hin|[Hin|[]]].
    - destruct (Tr j y Hin) as [Ho|Hr]; [left; apply Gr; exact Ho|right; exact Hr].
    - injection Hin as <- <-. exact Hx. }
  assert (Sfs : forall (own' : nat -> heap) c d, (forall j, j <> i -> own' j = own j) -> more m0 (may i) c d -> safe d (own' i) (Q i) ->
     forall j, exists d, more m0 (may j) (goes_on (doing s) i c j) d /\ safe d (own' j) (Q j)).
  { intros own' c d Eo M S j. unfold goes_on. destruct (Nat.eqb_spec j i) as [->|Nj]; [eauto|]. rewrite (Eo j Nj). apply Sf. }
  assert (Oth : forall h j, j <> i -> own_now own i h j = own j).
  { intros h j Nj. unfold own_now. destruct (Nat.eqb_spec j i); [contradiction|reflexivity]. }
  destruct H as [m f i a x k l v Hi Ha Hx|m f i a x v k l Hi Ha Hx|m f i l k Hi]; cbn [smem doing where_] in *.
  - destruct (Sf i) as [d [M Si]]. rewrite Hi in M. inversion M as [| |a' x' k1 k' Mk| | |a' x' l0 v0 k1 d' My E1 E2 Mk]; subst.
    + cbn [safe] in Si. destruct Si as [Lx Si].
      destruct (array_some _ _ _ Lx) as [l' [El Ea]]. destruct (Mm i a l' El) as [Em _]. rewrite Em in Ha. injection Ha as ->. rewrite Ea in Si.
      rewrite (nth_error_nth _ _ _ Hx) in Si.
      exists own. split; [|split; [exact Mm|split; [exact Dj|split; [|split; [exact Lm|exact Old]]]]].
      * cbn [doing]. apply (Sfs own (k v) (k' v)); auto.
      * apply Trs; [auto|left; congruence].
    + assert (La : a < length m0) by (apply nth_error_Some; congruence).
      rewrite (Old a La), E1 in Ha. injection Ha as ->. rewrite E2 in Hx. injection Hx as ->.
      exists own. split; [|split; [exact Mm|split; [exact Dj|split; [|split; [exact Lm|exact Old]]]]].
      * cbn [doing]. apply (Sfs own (k v) d); auto.
      * apply Trs; [auto|right; eauto].
  - destruct (Sf i) as [d [M Si]]. rewrite Hi in M. inversion M as [| | |a' x' v' k1 k' Mk| |]; subst. cbn [safe] in Si. destruct Si as [Lx Si].
    destruct (array_some _ _ _ Lx) as [l' [El Ea]]. destruct (Mm i a l' El) as [Em La]. rewrite Em in Ha. injection Ha as ->.
    assert (Lt : a < length m) by (apply nth_error_Some; congruence).
    assert (Am : Mem.array m a = l) by (unfold Mem.array; apply nth_error_nth; exact Em).
    assert (Dom : forall j b, own_now own i (put1 (own i) a x v) j b <> None <-> own j b <> None).
    { intros j b. unfold own_now. destruct (Nat.eqb_spec j i) as [->|]; [|reflexivity]. unfold put1.
      destruct (Nat.eqb_spec b a) as [->|]; [|reflexivity]. rewrite El. cbn. split; congruence. }
    exists (own_now own i (put1 (own i) a x v)). split; [|split; [|split; [|split; [|split]]]].
    + cbn [doing]. apply (Sfs _ k k'); [apply Oth|exact Mk|]. unfold own_now. rewrite Nat.eqb_refl. exact Si.
    + intros j b l' Hl. cbn [smem]. unfold Mem.write. rewrite nth_error_set by exact Lt. rewrite Am. unfold own_now in Hl.
      destruct (Nat.eqb_spec j i) as [->|Nj].
      * unfold put1 in Hl. destruct (Nat.eqb_spec b a) as [->|Nb]; [|apply (Mm i); exact Hl].
        rewrite El in Hl. cbn in Hl. split; [exact Hl|exact La].
      * destruct (Nat.eqb_spec b a) as [->|Nb]; [|apply (Mm j); exact Hl]. exfalso. apply Nj. apply (Dj j i a); congruence.
    + intros j j' b Hj Hk. apply Dom in Hj, Hk. eapply Dj; eassumption.
    + apply Trs; [intros j b; apply Dom|left; apply Dom; congruence].
    + cbn [smem]. unfold Mem.write. rewrite MemProofs.set_array_length. exact Lm.
    + intros b Lb. cbn [smem]. unfold Mem.write. rewrite nth_error_set by exact Lt. destruct (Nat.eqb_spec b a); [lia|apply Old; exact Lb].
  - destruct (Sf i) as [d [M Si]]. rewrite Hi in M. inversion M as [| | | |l' k1 k' Mk|]; subst. cbn [safe] in Si.
    assert (Fr : forall j, own j (length m) = None).
    { intros j. destruct (own j (length m)) as [y|] eqn:Ey; [|reflexivity]. destruct (Mm j _ _ Ey) as [Em _].
      assert (length m < length m) by (apply nth_error_Some; congruence). lia. }
    exists (own_now own i (upd (own i) (length m) l)). split; [|split; [|split; [|split; [|split]]]].
    + cbn [doing]. apply (Sfs _ (k (length m)) (k' (length m))); [apply Oth|apply Mk|]. unfold own_now. rewrite Nat.eqb_refl. apply Si, Fr.
    + intros j b l' Hl. cbn [smem]. unfold own_now, upd in Hl.
      assert (Old' : own j b = Some l' -> nth_error (m ++ [l]) b = Some l' /\ length m0 <= b).
      { intros Ho. destruct (Mm j b l' Ho) as [Em Lb]. split; [|exact Lb]. rewrite nth_error_app1; [exact Em|]. apply nth_error_Some. congruence. }
      destruct (Nat.eqb_spec j i) as [->|Nj]; [|auto]. destruct (Nat.eqb_spec b (length m)) as [->|Nb]; [|auto].
      injection Hl as <-. split; [|exact Lm]. rewrite nth_error_app2, Nat.sub_diag by lia. reflexivity.
    + intros j j' b Hj Hk. unfold own_now, upd in Hj, Hk.
      destruct (Nat.eqb_spec j i) as [->|Nj], (Nat.eqb_spec j' i) as [->|Nk]; [reflexivity| | |eapply Dj; eassumption].
      * destruct (b =? length m) eqn:Eb; [|eapply Dj; eassumption]. apply Nat.eqb_eq in Eb. subst b. rewrite Fr in Hk. contradiction.
      * destruct (b =? length m) eqn:Eb; [|eapply Dj; eassumption]. apply Nat.eqb_eq in Eb. subst b. rewrite Fr in Hj. contradiction.
    + apply Trs.
      * intros j b Hj. unfold own_now, upd. destruct (j =? i) eqn:Ej; [|exact Hj]. apply Nat.eqb_eq in Ej; subst. destruct (b =? length m); [discriminate|exact Hj].
      * left. unfold own_now, upd. rewrite !Nat.eqb_refl. discriminate.
    + cbn [smem]. rewrite app_length. lia.
    + intros b Lb. cbn [smem]. rewrite nth_error_app1 by lia. apply Old; exact Lb.
Qed.

Lemma inv_runs {A} m0 may (Q : nat -> heap -> option A -> Prop) s tr s' : runs s tr s' -> forall pre, inv m0 may Q pre s -> inv m0 may Q (pre ++ tr) s'.
Proof.
  induction 1 as [s|s i x s' tr s'' H _ IH]; intros pre I; [rewrite app_nil_r; exact I|].
  replace (pre ++ (i, x) :: tr) with ((pre ++ [(i, x)]) ++ tr) by (rewrite <- app_assoc; reflexivity).
  apply IH. eapply inv_step; eassumption.
Qed.

Lemma inv_starts `{E : Env} m acts : inv m (fun _ _ _ => False) (fun i _ o => o = Some (alone None (acts i))) [] (starts m acts).
Proof.
  exists (fun _ _ => None). split; [|split; [|split; [|split; [|split]]]]; try discriminate; try contradiction; auto.
  - intros i. eexists. split; [apply more_refl|]. apply life_safe. exact I.
Qed.

Lemma inv_next {A} m0 may (Q : nat -> heap -> option A -> Prop) tr s i : inv m0 may Q tr s ->
  (exists r h, doing s i = Return r /\ Q i h (Some r)) \/ (doing s i = Stop /\ exists h, Q i h None) \/ exists x s', happens s i x s'.
Proof.
  intros [own [Sf [Mm [_ [_ [_ Old]]]]]]. destruct (Sf i) as [d [M Si]]. clear Sf. destruct s as [m f]. cbn [doing smem] in *.
  inversion M as [r Er|Er|a x k k' Mk Er|a x v k k' Mk Er|l k k' Mk Er|a x l0 v0 k d' My E1 E2 Mk Er]; subst; symmetry in Er; cbn [safe] in Si.
  - left. eauto.
  - right; left. eauto.
  - destruct Si as [Lx _]. destruct (array_some _ _ _ Lx) as [l' [El Ea]]. destruct (Mm i a l' El) as [Em _]. rewrite Ea in Lx.
    destruct (nth_error l' x) as [v|] eqn:Ev; [|apply nth_error_None in Ev; lia].
    right; right. eexists _, _. eapply does_read; eassumption.
  - destruct Si as [Lx _]. destruct (array_some _ _ _ Lx) as [l' [El Ea]]. destruct (Mm i a l' El) as [Em _]. rewrite Ea in Lx.
    right; right. eexists _, _. eapply does_write; eassumption.
  - right; right. eexists _, _. eapply does_make; eassumption.
  - right; right. eexists _, _. eapply does_read; [eassumption| |exact E2]. rewrite Old; [exact E1|]. apply nth_error_Some. congruence.
Qed.

(* A step of goroutine i leaves it with a part of what it had to do. *)
Inductive part {A} : go A -> go A -> Prop :=
| part_load a x k v : part (k v) (Load a x k)
| part_store a x v k : part k (Store a x v k)
| part_alloc l k a : part (k a) (Alloc l k).

Lemma happens_part {A} (s : state A) i x s' : happens s i x s' -> part (doing s' i) (doing s i) /\ forall j, j <> i -> doing s' j = doing s j.
Proof.
  assert (G : forall (f : nat -> go A) i c, goes_on f i c i = c) by (intros; unfold goes_on; rewrite Nat.eqb_refl; reflexivity).
  assert (N : forall (f : nat -> go A) i c j, j <> i -> goes_on f i c j = f j) by (intros f i' c j Nj; unfold goes_on; destruct (Nat.eqb_spec j i'); [contradiction|reflexivity]).
  destruct 1 as [m f i a x k l v Hi Ha Hx|m f i a x v k l Hi Ha Hx|m f i l k Hi]; cbn [doing]; rewrite G, Hi; (split; [constructor|auto]).
Qed.

Lemma part_wf {A} : well_founded (@part A).
Proof.
  intros c. induction c as [r| |a x k IH|a x v k IH|l k IH]; constructor; intros d P; inversion P; subst; auto.
Qed.
