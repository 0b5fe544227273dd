(* Goroutines with pipes of their own and a pool they share: what each has is what it would have alone, and the pool is a pool as System.v has it. *)
From Coq Require Import String List NArith ZArith Arith Bool Lia.
From Coq Require Import List.
From Verif Require Import Base GoSlice Values Builder Conn System Mem MemModel MemPipes Fine FineMore FineModel FineRun FineProofs FineAll FinePool SpecPlan.
From Verif Require Pool MemProofs.
Import ListNotations.
Local Open Scope nat_scope.
Local Notation length := List.length.

Section Proofs.
Context `{E : Env}.

(* ------------------------------------------------------------ the code of one goroutine, up to its next call *)

Definition at_stop (v : option builder) (p : plan) (l : list told) (h : heap) (out : option stage) : Prop :=
  match plan_alone p v [] with
  | (l', HasEnded) => out = Some (Ends (rev l ++ l'))
  | (l', Sends d x) => exists q b k v', out = Some (Asks d q b k (rev l' ++ l)) /\ stands h (Some v') (Some b) /\
      off q + hlen q <= List.length (array h (arr q)) /\ FineProofs.contents h q = x /\
      forall a o, plan_alone p v (a :: o) = (l' ++ Answered a :: fst (plan_alone (k (inr a)) (Some v') o), snd (plan_alone (k (inr a)) (Some v') o))
  end.

Lemma ended_alone p : forall v l, plan_alone p v [] = (l, HasEnded) -> forall o, plan_alone p v o = (l, HasEnded).
Proof.
  induction p as [|a k IH|d k IH]; intros v l H o; cbn [plan_alone] in *.
  - exact H.
  - destruct (alone_step v a) as [v' s]. destruct (plan_alone (k s) v' []) as [l' r] eqn:Ep. injection H as <- ->. rewrite (IH s v' l' Ep o). reflexivity.
  - destruct (alone_step v ASend) as [v' s]. destruct s as [|out| |[x|e]|]; try discriminate;
      (match type of H with context [plan_alone ?q ?w []] => destruct (plan_alone q w []) as [l' r] eqn:Ep end;
       injection H as <- ->; rewrite (IH _ _ _ Ep o); reflexivity).
Qed.

Lemma stop_saw v p v' p' l s h out :
  (forall o, plan_alone p v o = (Saw s :: fst (plan_alone p' v' o), snd (plan_alone p' v' o))) ->
  at_stop v' p' (Saw s :: l) h out -> at_stop v p l h out.
Proof.
  intros Eq. unfold at_stop. rewrite (Eq []). destruct (plan_alone p' v' []) as [l' [|d x]] eqn:Ep; cbn [fst snd].
  - intros ->. cbn [rev]. rewrite <- app_assoc. reflexivity.
  - intros [q [b [k [w [-> [S [R [C N]]]]]]]]. exists q, b, k, w. split; [cbn [rev]; rewrite <- app_assoc; reflexivity|]. repeat (split; [assumption|]).
    intros a o. rewrite Eq, N. cbn [fst snd]. reflexivity.
Qed.

Lemma plan_safe p : forall m v b l, stands m v b -> safe (g_plan p b l) m (at_stop v p l).
Proof.
  induction p as [|a k IH|d k IH]; intros m v b l S; cbn [g_plan].
  - cbn [safe]. unfold at_stop. cbn [plan_alone]. rewrite app_nil_r. reflexivity.
  - apply safe_bind. eapply safe_weaken; [|apply (act_safe m v b a S)]. cbv beta. intros m' o [b' [-> S']].
    destruct (alone_step v a) as [v' s] eqn:Ea. cbn [fst snd] in *. eapply safe_weaken; [|apply (IH s m' v' b' _ S')].
    intros m2 o2. apply stop_saw. intros o. cbn [plan_alone]. rewrite Ea. destruct (plan_alone (k s) v' o). reflexivity.
  - destruct b as [b|], v as [v|]; try contradiction.
    + destruct S as [W [D ->]]. unfold g_send. rewrite D.
      assert (Es : alone_step (Some (bview m b)) ASend = (Some (bview m b), SSend match hberr b with Some e => inr e | None => inl (data (view m (hbuf b))) end)).
      { cbn [alone_step]. unfold send, bview. cbn [disabled berr buf]. destruct (hberr b); reflexivity. }
      destruct (hberr b) as [e|] eqn:He; cbn [try gbind safe].
      * eapply safe_weaken; [|apply (IH _ m (Some (bview m b)) (Some b)); split; [exact W|split; [exact D|reflexivity]]].
        intros m2 o2. apply stop_saw. intros o. cbn [plan_alone]. rewrite Es. destruct (plan_alone _ _ o). reflexivity.
      * unfold at_stop. cbn [plan_alone]. rewrite Es. exists (hbuf b), b, k, (bview m b). split; [reflexivity|].
        split; [split; [exact W|split; [exact D|reflexivity]]|]. split; [destruct W; lia|]. split; [apply contents_data; exact W|].
        intros a o. destruct (plan_alone (k (inr a)) (Some (bview m b)) o). reflexivity.
    + eapply safe_weaken; [|apply (IH _ m None None); exact I].
      intros m2 o2. apply stop_saw. intros o. cbn [plan_alone alone_step]. destruct (plan_alone _ _ o). reflexivity.
Qed.

(* ------------------------------------------------------------ the invariant of FineAll, when a goroutine gets new code *)

(* Code that only reads. *)
Inductive looks {A} : go A -> Prop :=
| looks_done r : looks (Return r)
| looks_more a x k : (forall v, looks (k v)) -> looks (Load a x k).

Lemma looks_safe {A} (c : go A) : looks c -> forall h Q, safe c h Q -> exists r, Q h (Some r).
Proof. induction 1 as [r|a x k _ IH]; intros h Q; cbn [safe]; [eauto|]. intros [_ S]. eapply IH; exact S. Qed.

Lemma looks_bind {A B} (c : go A) (f : A -> go B) : looks c -> (forall a, looks (f a)) -> looks (gbind c f).
Proof. intros H Hf. induction H; cbn [gbind]; [apply Hf|constructor; auto]. Qed.

Lemma looks_loads a n : forall o, looks (loads a o n).
Proof. induction n as [|n IH]; intros o; cbn [loads]; constructor. intros v. apply looks_bind; [apply IH|constructor]. Qed.

Lemma looks_same {A} m0 (c d : go A) : more m0 (fun _ _ => False) c d -> looks c -> looks d.
Proof.
  induction 1; intros L; inversion L; subst; try constructor; auto.
Qed.

Lemma inv_at {A} m0 (Q : nat -> heap -> option A -> Prop) tr s i : inv m0 (fun _ _ _ => False) Q tr s -> looks (doing s i) ->
  exists h r, Q i h (Some r) /\ (forall r', doing s i = Return r' -> r = r') /\ (forall a l, h a = Some l -> nth_error (smem s) a = Some l) /\
    forall c Q', safe c h Q' -> inv m0 (fun _ _ _ => False) (put Q i Q') tr (mks (smem s) (put (doing s) i c)).
Proof.
  intros [own [Sf [Mm [Dj [Tr [Lm Old]]]]]] Hl. destruct (Sf i) as [d [M S]].
  assert (Hr : exists r, Q i (own i) (Some r) /\ forall r', doing s i = Return r' -> r = r').
  { destruct Hl as [r|a x k Hk] eqn:Eh.
    - inversion M; subst. exists r. split; [exact S|]. intros r' Er. injection Er as ->. reflexivity.
    - destruct (looks_safe d (looks_same _ _ _ M (looks_more a x k Hk)) _ _ S) as [r Hr]. exists r. split; [exact Hr|]. discriminate. }
  destruct Hr as [r [Hr Hr']]. exists (own i), r. split; [exact Hr|]. split; [exact Hr'|]. split.
  - intros a l Ha. apply (Mm i a l Ha).
  - intros c Q' Hc. exists own. cbn [smem doing]. split; [|auto 10].
    intros j. unfold put. destruct (Nat.eqb_spec j i) as [->|Nj]; [|apply Sf].
    exists c. split; [apply more_refl|exact Hc].
Qed.

Lemma contents_agree (h : heap) (m : mem) q : (forall a l, h a = Some l -> nth_error m a = Some l) -> off q + hlen q <= length (array h (arr q)) ->
  Mem.contents m q = FineProofs.contents h q.
Proof.
  intros Ag R. unfold Mem.contents, FineProofs.contents. unfold array in *. destruct (h (arr q)) as [l|] eqn:Eh.
  - unfold Mem.array. rewrite (nth_error_nth _ _ _ (Ag _ _ Eh)). reflexivity.
  - cbn [length] in R. replace (hlen q) with 0 by lia. unfold sub. cbn [firstn]. reflexivity.
Qed.

(* ------------------------------------------------------------ the pool *)

Lemma run_app w a : forall s b, System.run w (a ++ b) s = match System.run w a s with Some s => System.run w b s | None => None end.
Proof. induction a as [|x a IH]; intros s b; cbn [System.run app]; [reflexivity|]. destruct (System.step w x s); [apply IH|reflexivity]. Qed.

Lemma set_same {A} (l : list A) : forall i x, nth_error l i = Some x -> Pool.set_nth i x l = l.
Proof. induction l as [|y l IH]; intros [|i] x H; cbn in *; try congruence. rewrite IH by exact H. reflexivity. Qed.

Lemma set_unit_same i x d s : nth_error (units s) i = Some (Some (d, x)) -> set_unit i x s = s.
Proof. intros H. unfold set_unit. rewrite H, (set_same _ _ _ H). destruct s; reflexivity. Qed.

Lemma nth_set {A} (l : list A) : forall i x j, nth_error (Pool.set_nth i x l) j = if (j =? i)%nat then match nth_error l i with Some _ => Some x | None => None end else nth_error l j.
Proof.
  induction l as [|y l IH]; intros [|i] x [|j]; cbn; try reflexivity.
  - destruct (j =? i); reflexivity.
  - apply IH.
Qed.

(* Where a call is that has returned, it stays. *)
Definition came (s : Pool.state) (i : nat) : option Pool.outcome :=
  match nth_error (Pool.calls s) i with Some (Pool.Returned o, _) => Some o | _ => None end.

Lemma came_go s i p b q es j o : came s j = Some o -> (forall o b, nth_error (Pool.calls s) i = Some (Pool.Returned o, b) -> p = Pool.Returned o) -> came (Pool.go s i p b q es) j = Some o.
Proof.
  unfold came, Pool.go. cbn [Pool.calls]. rewrite nth_set. intros H C. destruct (Nat.eqb_spec j i) as [->|]; [|exact H].
  destruct (nth_error (Pool.calls s) i) as [[[] ?]|]; try discriminate. injection H as <-. rewrite (C _ _ eq_refl). reflexivity.
Qed.

Lemma came_step a s s' j o : Pool.step a s = Some s' -> came s j = Some o -> came s' j = Some o.
Proof.
  unfold Pool.step. intros H C. destruct (Pool.crashed s); [discriminate|].
  assert (Ap : forall x, came (Pool.mks (Pool.size s) (Pool.idle s) (Pool.ch_closed s) (Pool.next s) (Pool.calls s ++ [x]) false (Pool.log s)) j = Some o).
  { intros x. unfold came in *. cbn [Pool.calls]. rewrite nth_error_app1; [exact C|]. apply nth_error_Some. destruct (nth_error (Pool.calls s) j); congruence. }
  destruct a;
    repeat match type of H with
    | context [match ?x with _ => _ end] => let Ex := fresh "Ex" in destruct x eqn:Ex; try discriminate
    end; injection H as <-; auto;
    try (apply came_go; [exact C|]; intros; congruence).
  - unfold came in *. cbn [Pool.calls]. rewrite nth_set. destruct (Nat.eqb_spec j i) as [->|]; [|exact C]. rewrite Ex in C. discriminate.
  - unfold came in *. cbn [Pool.calls]. rewrite nth_set. destruct (Nat.eqb_spec j i) as [->|]; [|exact C]. rewrite Ex in C. discriminate.
Qed.

Lemma came_answer s i o : came (pool s) i = Some o <-> exists r, answer_of s i = Some (o, r).
Proof.
  unfold came, answer_of. destruct (nth_error (Pool.calls (pool s)) i) as [[[] ?]|]; split; try discriminate; try (intros [r H]; congruence).
  intros H; injection H as <-; eauto.
Qed.

Lemma answer_step w a s s' i x : System.step w a s = Some s' -> answer_of s i = Some x -> answer_of s' i = Some x.
Proof.
  intros H A. destruct x as [o r].
  assert (C : came (pool s) i = Some o) by (apply came_answer; eauto).
  assert (Same : forall p u c st, came p i = Some o -> answer_of (mksys p c st u (results s)) i = Some (o, r)).
  { intros p u c st Cp. unfold answer_of, came in *. cbn [pool results] in *. destruct (nth_error (Pool.calls (pool s)) i) as [[[] ?]|]; try discriminate.
    destruct (nth_error (Pool.calls p) i) as [[[] ?]|]; try discriminate. congruence. }
  unfold System.step in H. destruct a as [a|d b|j c|j chunks].
  - assert (H' : match Pool.step a (pool s) with
         | Some p => Some (mksys p (conns s) (started s) (units s ++ match a with Pool.CallClose => [None] | _ => [] end) (results s))
         | None => None end = Some s') by (destruct a as [| | | | | |? []| | | |]; try discriminate; exact H).
    destruct (Pool.step a (pool s)) as [p|] eqn:Ep; [|discriminate]. injection H' as <-. apply Same. eapply came_step; eassumption.
  - destruct (Pool.step Pool.CallSend (pool s)) as [p|] eqn:Ep; [|discriminate]. injection H as <-. apply Same. eapply came_step; eassumption.
  - destruct (Pool.step (Pool.Dialled j true) (pool s)) as [p|] eqn:Ep; [|discriminate]. injection H as <-. apply Same. eapply came_step; eassumption.
  - destruct (nth_error (Pool.calls (pool s)) j) as [[[] ?]|] eqn:Ej; try discriminate.
    destruct (nth_error (units s) j) as [[[d0 b0]|]|]; try discriminate. destruct (nth_error (conns s) _); [|discriminate].
    destruct (conn_send w d0 b0 _) as [[rr c']|].
    + destruct (Pool.step (Pool.Sent j (is_none (snd rr))) (pool s)) as [p|] eqn:Ep; [|discriminate]. injection H as <-.
      specialize (Same p (units s) (Pool.set_nth c c' (conns s)) (started s) (came_step _ _ _ _ _ Ep C)).
      unfold answer_of in *. cbn [pool results] in *. cbn [find fst]. destruct (Nat.eqb_spec j i) as [->|]; [|exact Same].
      rewrite Ej in A. discriminate.
    + injection H as <-. apply Same. unfold came in *. cbn. exact C.
Qed.

Lemma unit_step w a s s' i x : System.step w a s = Some s' -> nth_error (units s) i = Some x -> nth_error (units s') i = Some x.
Proof.
  intros H A. assert (Ap : forall l, nth_error (units s ++ l) i = Some x) by (intros l; rewrite nth_error_app1; [exact A|apply nth_error_Some; congruence]).
  unfold System.step in H. destruct a as [a|d b|j c|j chunks];
    repeat match type of H with
    | context [match ?x with _ => _ end] => let Ex := fresh "Ex" in destruct x eqn:Ex; try discriminate
    end; injection H as <-; cbn [units]; auto.
Qed.

(* The units after a step: those before, and one of a Send that was called. *)
Lemma unit_new w a s s' i d x : System.step w a s = Some s' -> nth_error (units s') i = Some (Some (d, x)) ->
  nth_error (units s) i = Some (Some (d, x)) \/ (i = length (units s) /\ a = CallSend d x).
Proof.
  intros H A.
  assert (Ap : forall l, nth_error (units s ++ l) i = Some (Some (d, x)) -> nth_error (units s) i = Some (Some (d, x)) \/ (i >= length (units s) /\ nth_error l (i - length (units s)) = Some (Some (d, x)))).
  { intros l Hl. destruct (Nat.lt_ge_cases i (length (units s))) as [L|L]; [left; rewrite nth_error_app1 in Hl by exact L; exact Hl|].
    right. split; [exact L|]. rewrite nth_error_app2 in Hl by exact L. exact Hl. }
  unfold System.step in H. destruct a as [a|d' b|j c|j chunks].
  - assert (H' : match Pool.step a (pool s) with
         | Some p => Some (mksys p (conns s) (started s) (units s ++ match a with Pool.CallClose => [None] | _ => [] end) (results s))
         | None => None end = Some s') by (destruct a as [| | | | | |? []| | | |]; try discriminate; exact H).
    destruct (Pool.step a (pool s)) as [p|]; [|discriminate]. injection H' as <-. cbn [units] in A. destruct (Ap _ A) as [H0|[_ H0]]; [left; exact H0|].
    exfalso. destruct a; destruct (i - length (units s)) as [|[|]]; cbn in H0; discriminate.
  - destruct (Pool.step Pool.CallSend (pool s)) as [p|]; [|discriminate]. injection H as <-. cbn [units] in A. destruct (Ap _ A) as [H0|[G H0]]; [left; exact H0|].
    destruct (i - length (units s)) as [|[|]] eqn:Ei; cbn in H0; try discriminate. injection H0 as -> ->. right. split; [lia|reflexivity].
  - destruct (Pool.step (Pool.Dialled j true) (pool s)); [|discriminate]. injection H as <-. left. exact A.
  - destruct (nth_error (Pool.calls (pool s)) j) as [[[] ?]|]; try discriminate.
    destruct (nth_error (units s) j) as [[[d0 b0]|]|]; try discriminate. destruct (nth_error (conns s) _); [|discriminate].
    destruct (conn_send w d0 b0 _) as [[rr c']|].
    + destruct (Pool.step _ (pool s)); [|discriminate]. injection H as <-. left; exact A.
    + injection H as <-. left; exact A.
Qed.

(* ------------------------------------------------------------ all together *)

Definition later (s s' : system) : Prop :=
  (forall i x, answer_of s i = Some x -> answer_of s' i = Some x) /\ (forall i x, nth_error (units s) i = Some x -> nth_error (units s') i = Some x).

Lemma later_refl s : later s s.
Proof. split; auto. Qed.

Lemma later_step w a s s' : System.step w a s = Some s' -> later s s'.
Proof. intros H. split; intros i x; [eapply answer_step|eapply unit_step]; exact H. Qed.

Definition phase (P : plan) (s : all) (g : nat) (Qg : heap -> option stage -> Prop) : Prop :=
  match waits s g with
  | None => exists o v p l, are_answered s (rev (made s g)) o /\ Qg = at_stop v p l /\
      forall o', plan_alone P None (o ++ o') = (rev l ++ fst (plan_alone p v o'), snd (plan_alone p v o'))
  | Some (i, b, k, l) => exists o v is_ d x, made s g = i :: is_ /\ are_answered s (rev is_) o /\ nth_error (units (sys s)) i = Some (Some (d, x)) /\
      Qg = (fun h out => out = Some (Hands x) /\ stands h (Some v) (Some b)) /\ looks (code s g) /\
      forall a o', plan_alone P None (o ++ a :: o') = (rev l ++ Answered a :: fst (plan_alone (k (inr a)) (Some v) o'), snd (plan_alone (k (inr a)) (Some v) o'))
  end.

Definition asks_for (P : plan) (s : all) (g : nat) : Prop :=
  forall j i, nth_error (rev (made s g)) j = Some i -> exists o d x l, are_answered s (firstn j (rev (made s g))) o /\
    plan_alone P None o = (l, Sends d x) /\ nth_error (units (sys s)) i = Some (Some (d, x)).

Lemma answers_later s s' is_ o : later (sys s) (sys s') -> are_answered s is_ o -> are_answered s' is_ o.
Proof. intros [L _] H. unfold are_answered in *. induction H; constructor; auto. Qed.

Lemma phase_later P s s' g Qg : later (sys s) (sys s') -> waits s' g = waits s g -> made s' g = made s g -> code s' g = code s g -> phase P s g Qg -> phase P s' g Qg.
Proof.
  intros L Ew Em Ec. unfold phase. rewrite Ew, Em, Ec. destruct (waits s g) as [[[[i b] k] l]|].
  - intros [o [v [is_ [d [x [H1 [H2 [H3 H4]]]]]]]]. exists o, v, is_, d, x. split; [exact H1|]. split; [eapply answers_later; eassumption|].
    split; [apply (proj2 L); exact H3|exact H4].
  - intros [o [v [p [l [H1 H2]]]]]. exists o, v, p, l. split; [eapply answers_later; eassumption|exact H2].
Qed.

Lemma asked_later P s s' g : later (sys s) (sys s') -> made s' g = made s g -> asks_for P s g -> asks_for P s' g.
Proof.
  intros L Em H j i Hj. rewrite Em in *. destruct (H j i Hj) as [o [d [x [l [H1 [H2 H3]]]]]]. exists o, d, x, l.
  split; [eapply answers_later; eassumption|]. split; [exact H2|apply (proj2 L); exact H3].
Qed.

Definition good (m0 : mem) (n : nat) (P : nat -> plan) (tr : list label) (s : all) : Prop :=
  exists Q, inv m0 (fun _ _ _ => False) Q (accesses tr) (mks (memory s) (code s)) /\
    System.run word32 (at_pool tr) (new_system n) = Some (sys s) /\
    (forall g, phase (P g) s g (Q g)) /\ (forall g, asks_for (P g) s g) /\
    (forall g g' i, In i (made s g) -> In i (made s g') -> g = g') /\ (forall g, NoDup (made s g)) /\
    (forall i d x, nth_error (units (sys s)) i = Some (Some (d, x)) -> exists g, In i (made s g)).

Lemma good_begin m n P : good m n P [] (begin m n P).
Proof.
  exists (fun g => at_stop None (P g) []). unfold begin. cbn [memory code waits sys made accesses at_pool flat_map System.run]. split; [|split; [reflexivity|split; [|split; [|split; [|split]]]]].
  - exists (fun _ _ => None). split; [|split; [|split; [|split; [|split]]]]; try discriminate; try contradiction; auto.
    intros i. eexists. split; [apply more_refl|]. apply plan_safe. exact I.
  - intros g. cbn. exists [], None, (P g), []. split; [constructor|]. split; [reflexivity|]. intros o'. cbn [rev app]. destruct (plan_alone (P g) None o'); reflexivity.
  - intros g j i H. destruct j; discriminate.
  - intros g g' i [].
  - intros g. constructor.
  - intros i d x H. destruct i; discriminate.
Qed.

Lemma in_asked P s g i : asks_for P s g -> In i (made s g) -> i < length (units (sys s)).
Proof.
  intros H Hi. apply in_rev in Hi. apply In_nth_error in Hi. destruct Hi as [j Hj]. destruct (H j i Hj) as [_ [d [x [_ [_ [_ Hu]]]]]].
  apply nth_error_Some. congruence.
Qed.

Lemma put_eq {A} (f : nat -> A) g x : put f g x g = x.
Proof. unfold put. rewrite Nat.eqb_refl. reflexivity. Qed.

Lemma put_ne {A} (f : nat -> A) g x j : j <> g -> put f g x j = f j.
Proof. unfold put. intros N. destruct (Nat.eqb_spec j g); [contradiction|reflexivity]. Qed.

Lemma accesses_app a b : accesses (a ++ b) = accesses a ++ accesses b.
Proof. apply flat_map_app. Qed.

Lemma at_pool_app a b : at_pool (a ++ b) = at_pool a ++ at_pool b.
Proof. apply flat_map_app. Qed.

Lemma good_access m0 n P tr m c w s h g x m' c' : good m0 n P tr (mka m c w s h) -> happens (mks m c) g x (mks m' c') ->
  good m0 n P (tr ++ [Access g x]) (mka m' c' w s h).
Proof.
  intros [Q [I [R [Ph G]]]] H. exists Q. cbn [memory code waits sys made] in *. rewrite accesses_app, at_pool_app. cbn [accesses at_pool flat_map]. rewrite !app_nil_r.
  split; [eapply inv_step; eassumption|]. split; [exact R|]. split; [|exact G].
  intros g'. specialize (Ph g'). unfold phase in *. cbn [waits made sys code] in *. destruct (w g') as [[[[i b] k] l]|]; [|exact Ph].
  destruct Ph as [o [v [is_ [d [y [H1 [H2 [H3 [H4 [H5 H6]]]]]]]]]]. exists o, v, is_, d, y. repeat (split; [assumption|]). split; [|exact H6].
  destruct (happens_part _ _ _ _ H) as [Pt Oth]. cbn [doing] in *. destruct (Nat.eq_dec g' g) as [->|Ng]; [|rewrite Oth by exact Ng; exact H5].
  destruct H5 as [r|a y' k' Hk]; inversion Pt; subst. apply Hk.
Qed.

(* The pool makes a step, and no goroutine is concerned. *)
Lemma good_pool m0 n P tr m c w s h a s' : good m0 n P tr (mka m c w s h) -> System.step word32 a s = Some s' ->
  (forall d x, a <> CallSend d x) -> good m0 n P (tr ++ [At a]) (mka m c w s' h).
Proof.
  intros [Q [I [R [Ph [As [Dj [Nd Un]]]]]]] H Na. exists Q. cbn [memory code waits sys made] in *. rewrite accesses_app, at_pool_app.
  cbn [accesses at_pool flat_map]. rewrite app_nil_r. cbn [app].
  assert (L := later_step _ _ _ _ H).
  split; [exact I|]. split; [rewrite run_app, R; cbn [System.run]; rewrite H; reflexivity|].
  split; [intros g; exact (phase_later _ (mka m c w s h) (mka m c w s' h) g _ L eq_refl eq_refl eq_refl (Ph g))|].
  split; [intros g; exact (asked_later _ (mka m c w s h) (mka m c w s' h) g L eq_refl (As g))|]. split; [exact Dj|]. split; [exact Nd|].
  intros i d x Hu. destruct (unit_new _ _ _ _ _ _ _ H Hu) as [Hu'|[_ Ea]]; [exact (Un i d x Hu')|]. exfalso. exact (Na d x Ea).
Qed.

Lemma call_units w d x s s' : System.step w (CallSend d x) s = Some s' -> units s' = units s ++ [Some (d, x)].
Proof. unfold System.step. destruct (Pool.step Pool.CallSend (pool s)); [|discriminate]. intros H; injection H as <-. reflexivity. Qed.

Lemma good_step m0 n P tr s l s' : good m0 n P tr s -> moves s l s' -> good m0 n P (tr ++ [l]) s'.
Proof.
  intros G M. destruct M as [m c w s h g x m' c' Hw H|m c w s h g d q b k l s' Hw Hc H|m c w s h g x m' c' i b k l Hw Hi H|
    m c w s h g i b k l x chunks s' Hw Hc H|m c w s h g i b k l a Hw Ha|m c w s h a s' Na H].
  - eapply good_access; eassumption.
  - destruct G as [Q [I [R [Ph [As [Dj [Nd Un]]]]]]]. cbn [memory code waits sys made] in *.
    assert (L := later_step _ _ _ _ H). assert (Uu := call_units _ _ _ _ _ H).
    assert (Pg := Ph g). unfold phase in Pg. cbn [waits made sys] in Pg. rewrite Hw in Pg. destruct Pg as [o [v [p [l0 [Ho [EQ Al]]]]]].
    assert (Lk : looks (doing (mks m c) g)) by (cbn [doing]; rewrite Hc; constructor).
    destruct (inv_at _ _ _ _ g I Lk) as [hh [r [Hq [Er0 [Ag Ip]]]]]. rewrite (Er0 _ Hc) in Hq. rewrite EQ in Hq. unfold at_stop in Hq.
    destruct (plan_alone p v []) as [l' [|d' x]] eqn:Ep; [discriminate|]. destruct Hq as [q' [b' [k' [v' [Er [St [Rd [Ct Nx]]]]]]]].
    inversion Er; subst d' q' b' k' l. clear Er. cbn [smem] in Ag. assert (Cm : Mem.contents m q = x) by (rewrite (contents_agree hh m q Ag Rd); exact Ct).
    rewrite Cm in *. set (i := length (units s)) in *.
    assert (Hu : nth_error (units s') i = Some (Some (d, x))).
    { rewrite Uu. unfold i. rewrite nth_error_app2, Nat.sub_diag by lia. reflexivity. }
    assert (Hn : forall g', In i (h g') -> False).
    { intros g' Hg. assert (Li := in_asked _ _ _ i (As g') Hg). cbn [sys] in Li. unfold i in Li. lia. }
    set (Qn := fun (hp : heap) (out : option stage) => out = Some (Hands x) /\ stands hp (Some v') (Some b)).
    exists (put Q g Qn). cbn [memory code waits sys made]. rewrite accesses_app, at_pool_app. cbn [accesses at_pool flat_map]. rewrite app_nil_r. cbn [app].
    split; [|split; [|split; [|split; [|split; [|split]]]]].
    + apply Ip. apply safe_bind. unfold g_read. apply safe_loads; [exact Rd|]. cbn [safe]. unfold Qn. fold (FineProofs.contents hh q). rewrite Ct. auto.
    + rewrite run_app, R. cbn [System.run]. rewrite H. reflexivity.
    + intros g'. destruct (Nat.eq_dec g' g) as [->|Ng].
      * rewrite put_eq. unfold phase. cbn [waits made sys]. rewrite !put_eq. exists o, v', (h g), d, x. split; [reflexivity|].
        split; [apply (answers_later (mka m c w s h)); [exact L|exact Ho]|]. split; [exact Hu|]. split; [reflexivity|].
        split; [cbn [code]; rewrite put_eq; apply looks_bind; [apply looks_loads|constructor]|]. intros a o'. rewrite Al, Nx. cbn [fst snd]. rewrite rev_app_distr, rev_involutive, <- app_assoc. reflexivity.
      * rewrite put_ne by exact Ng. apply (phase_later _ (mka m c w s h)); [exact L| | | |apply Ph]; cbn [waits made code]; apply put_ne; exact Ng.
    + intros g'. destruct (Nat.eq_dec g' g) as [->|Ng].
      * intros j i' Hj. cbn [made sys] in *. rewrite put_eq in *. cbn [rev] in *.
        destruct (Nat.lt_ge_cases j (length (rev (h g)))) as [Lj|Lj].
        -- rewrite nth_error_app1 in Hj by exact Lj. destruct (As g j i' Hj) as [o1 [d1 [x1 [l1 [H1 [H2 H3]]]]]]. cbn [made sys] in *.
           exists o1, d1, x1, l1. split; [|split; [exact H2|apply (proj2 L); exact H3]]. rewrite firstn_app.
           replace (j - length (rev (h g))) with 0 by lia. cbn [firstn]. rewrite app_nil_r. apply (answers_later (mka m c w s h)); [exact L|exact H1].
        -- rewrite nth_error_app2 in Hj by exact Lj. destruct (j - length (rev (h g))) as [|[|]] eqn:Ej; try discriminate. injection Hj as <-.
           exists o, d, x, (rev l0 ++ l'). split; [|split; [|exact Hu]].
           ++ rewrite firstn_app, firstn_all2 by lia. rewrite Ej. cbn [firstn]. rewrite app_nil_r. apply (answers_later (mka m c w s h)); [exact L|exact Ho].
           ++ specialize (Al []). rewrite app_nil_r, Ep in Al. exact Al.
      * apply (asked_later _ (mka m c w s h)); [exact L| |apply As]. cbn [made]. apply put_ne; exact Ng.
    + intros g1 g2 i' H1 H2. destruct (Nat.eq_dec g1 g) as [->|N1], (Nat.eq_dec g2 g) as [->|N2]; [reflexivity| | |].
      * rewrite put_eq in H1. rewrite put_ne in H2 by exact N2. destruct H1 as [<-|H1]; [exfalso; exact (Hn _ H2)|eapply Dj; eassumption].
      * rewrite put_eq in H2. rewrite put_ne in H1 by exact N1. destruct H2 as [<-|H2]; [exfalso; exact (Hn _ H1)|eapply Dj; eassumption].
      * rewrite put_ne in H1, H2 by assumption. eapply Dj; eassumption.
    + intros g'. destruct (Nat.eq_dec g' g) as [->|Ng]; [rewrite put_eq; constructor; [exact (Hn g)|apply Nd]|rewrite put_ne by exact Ng; apply Nd].
    + intros i' d' x' Hu'. destruct (unit_new _ _ _ _ _ _ _ H Hu') as [Ho'|[-> _]].
      * destruct (Un _ _ _ Ho') as [g' Hg]. exists g'. destruct (Nat.eq_dec g' g) as [->|Ng]; [rewrite put_eq; right; exact Hg|rewrite put_ne by exact Ng; exact Hg].
      * exists g. rewrite put_eq. left. reflexivity.
  - eapply good_access; eassumption.
  - assert (G' := G). destruct G' as [Q [I [R [Ph _]]]]. cbn [memory code waits sys made] in *.
    assert (Pg := Ph g). unfold phase in Pg. cbn [waits made sys] in Pg. rewrite Hw in Pg. destruct Pg as [o [v [is_ [d [y [Em [Ho [Hu [EQ [Lk Al]]]]]]]]]].
    destruct (inv_at _ _ _ _ g I Lk) as [hh [r [Hq [Er0 _]]]]. rewrite (Er0 _ Hc), EQ in Hq. destruct Hq as [Er _]. inversion Er; subst y. clear Er.
    rewrite (set_unit_same _ _ _ _ Hu) in H. eapply good_pool; [exact G|exact H|discriminate].
  - destruct G as [Q [I [R [Ph [As [Dj [Nd Un]]]]]]]. cbn [memory code waits sys made] in *.
    assert (Pg := Ph g). unfold phase in Pg. cbn [waits made sys code] in Pg. rewrite Hw in Pg. destruct Pg as [o [v [is_ [d [y [Em [Ho [Hu [EQ [Lk Al]]]]]]]]]].
    destruct (inv_at _ _ _ _ g I Lk) as [hh [r [Hq [_ [_ Ip]]]]]. rewrite EQ in Hq. destruct Hq as [_ St].
    exists (put Q g (at_stop (Some v) (k (inr a)) (Answered a :: l))). cbn [memory code waits sys made]. rewrite accesses_app, at_pool_app. cbn [accesses at_pool flat_map]. rewrite !app_nil_r.
    split; [apply Ip; apply plan_safe; exact St|]. split; [exact R|]. split; [|split; [exact As|auto]].
    intros g'. destruct (Nat.eq_dec g' g) as [->|Ng].
    + rewrite put_eq. unfold phase. cbn [waits made sys]. rewrite put_eq. exists (o ++ [a]), (Some v), (k (inr a)), (Answered a :: l).
      split; [|split; [reflexivity|]].
      * rewrite Em. cbn [rev]. apply Forall2_app; [exact Ho|]. constructor; [exact Ha|constructor].
      * intros o'. rewrite <- app_assoc. cbn [app rev]. rewrite Al, <- app_assoc. reflexivity.
    + rewrite put_ne by exact Ng. apply (phase_later _ (mka m c w s h)); [apply later_refl| | | |apply Ph]; cbn [waits made code]; try reflexivity; apply put_ne; exact Ng.
  - eapply good_pool; [exact G|exact H|]. intros d x ->. exact Na.
Qed.

Lemma good_moves m n P tr s : moves_on (begin m n P) tr s -> good m n P tr s.
Proof.
  intros H. remember (begin m n P) as s0 eqn:E0. induction H as [s|s tr s' l s'' _ IH M]; [subst; apply good_begin|].
  eapply good_step; [apply IH; exact E0|exact M].
Qed.

End Proofs.
