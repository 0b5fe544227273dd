(* C104 Goroutines with pipes of their own may at the same time be given the same []byte arguments. *)
From Coq Require Import String List NArith ZArith Arith Bool Lia.
From Coq Require Import List.
From Verif Require Import Base GoSlice Values Builder Mem MemModel SpecMem MemArg SpecArg MemPipes Fine FineModel FineRun FineArg SpecFine SpecShare FineAll FineArgProofs.
From Verif Require ThmBuilder ThmFine.
Import ListNotations.
Local Open Scope nat_scope.

Section Theorems.
Context `{E : Env}.
(* The arguments of goroutine i are among the slices that satisfy args i; they are in memory m, and may overlap each other and those of others. *)
Definition given (m : mem) (args : nat -> hslice -> Prop) (acts : nat -> list ract) : Prop :=
  forall i, Forall (act_refs (fun t => valid m t /\ args i t)) (acts i).

Local Lemma starts_inv m args acts tr s : given m args acts -> runs (starts_with m acts) tr s ->
  inv m (fun i => element_of (args i)) (fun i _ o => o = Some (alone None (map (act_now m) (acts i)))) tr s.
Proof. intros G R. exact (inv_runs _ _ _ _ _ _ R [] (inv_starts_with m acts args G)). Qed.

(* Of the memory that was there before, a goroutine only reads, and only its arguments; all else it accesses are arrays no other goroutine accesses. *)
Theorem C104_only_its_arguments : forall m args acts tr s,
  given m args acts -> runs (starts_with m acts) tr s ->
  (forall i x, In (i, x) tr -> array_of x < length m -> exists t, args i t /\ reads_of t x) /\
  (forall i j x y, In (i, x) tr -> In (j, y) tr -> array_of x = array_of y -> length m <= array_of x -> i = j).
Proof.
  intros m args acts tr s G R. destruct (starts_inv _ _ _ _ _ G R) as [own [_ [Mm [Dj [Tr _]]]]]. change array_of with where_.
  assert (O : forall i x, In (i, x) tr -> length m <= where_ x -> own i (where_ x) <> None).
  { intros i x Hx L. destruct (Tr i x Hx) as [H|[a [k [-> [La _]]]]]; [exact H|]. cbn in L. lia. }
  split.
  - intros i x Hx L. destruct (Tr i x Hx) as [H|[a [k [-> [_ [t [Ht [<- Hk]]]]]]]].
    + destruct (own i (where_ x)) as [l|] eqn:Eo; [|contradiction]. destruct (Mm _ _ _ Eo). lia.
    + exists t. split; [exact Ht|]. exists (k - off t). split; [lia|]. f_equal. lia.
  - intros i j x y Hx Hy Exy L. apply (Dj i j (where_ x)); [apply O; assumption|rewrite Exy; apply O; [exact Hy|congruence]].
Qed.

Theorem C104_no_race : forall m args acts tr s, given m args acts -> runs (starts_with m acts) tr s -> ~ race tr.
Proof.
  intros m args acts tr s G R [i [j [x [y [N [Hx [Hy C]]]]]]]. apply N. destruct (C104_only_its_arguments _ _ _ _ _ G R) as [A D].
  assert (Exy : array_of x = array_of y) by (destruct C; cbn; auto).
  apply (D i j x y Hx Hy Exy). destruct (le_lt_dec (length m) (array_of x)) as [L|L]; [exact L|exfalso].
  destruct (A i x Hx L) as [t [_ [k [_ ->]]]]. destruct (A j y Hy ltac:(congruence)) as [t' [_ [k' [_ ->]]]].
  inversion C.
Qed.

(* What was in memory before, the arguments among it, stays as it is. *)
Theorem C104_arguments_are_kept : forall m args acts tr s,
  given m args acts -> runs (starts_with m acts) tr s -> firstn (length m) (smem s) = m.
Proof.
  intros m args acts tr s G R. destruct (starts_inv _ _ _ _ _ G R) as [own [_ [_ [_ [_ [L Old]]]]]]. clear R G.
  revert L Old. generalize (smem s). clear. induction m as [|x m IH]; intros [|y m'] L Old; cbn [length firstn] in *; try reflexivity; [lia|].
  f_equal; [specialize (Old 0 ltac:(lia)); cbn in Old; congruence|]. apply IH; [lia|]. intros a La. apply (Old (S a)). lia.
Qed.

(* No goroutine ever accesses an element that does not exist. *)
Theorem C104_no_wild_access : forall m args acts tr s i,
  given m args acts -> runs (starts_with m acts) tr s -> (exists l, finished s i l) \/ exists x s', happens s i x s'.
Proof.
  intros m args acts tr s i G R. destruct (inv_next _ _ _ _ _ i (starts_inv _ _ _ _ _ G R)) as [[r [h [Hr _]]]|[[_ [h Hs]]|H]]; [left; eauto|discriminate|right; exact H].
Qed.

(* A goroutine that has finished has seen what it would see alone, given the contents of its arguments. *)
Theorem C104_sees_what_it_would_alone : forall m args acts tr s i l,
  given m args acts -> runs (starts_with m acts) tr s -> finished s i l -> l = alone None (map (act_now m) (acts i)).
Proof.
  intros m args acts tr s i l G R F. destruct (inv_next _ _ _ _ _ i (starts_inv _ _ _ _ _ G R)) as [[r [h [Hr Hq]]]|[[Hs _]|[x [s' H]]]].
  - unfold finished in F. rewrite F in Hr. injection Hr as <-. injection Hq as ->. reflexivity.
  - unfold finished in F. congruence.
  - unfold finished in F. destruct H as [m' f i' a y k l' v Hi Ha Hx|m' f i' a y v k l' Hi Ha Hx|m' f i' l' k Hi]; cbn [doing] in *; congruence.
Qed.

(* From any point on it can finish by its own accesses only. *)
Theorem C104_finishes_by_itself : forall m args acts tr s i,
  given m args acts -> runs (starts_with m acts) tr s ->
  exists tr' s' l, runs s tr' s' /\ (forall j x, In (j, x) tr' -> j = i) /\ finished s' i l.
Proof.
  intros m args acts tr s i G R. apply (starts_inv _ _ _ _ _ G) in R. clear G. remember (doing s i) as c eqn:Ec. revert tr s R Ec.
  induction c as [c IH] using (well_founded_induction part_wf). intros tr s R Ec.
  destruct (inv_next _ _ _ _ _ i R) as [[r [h [Hr _]]]|[[_ [h Hs]]|[x [s1 H]]]]; [|discriminate|].
  - exists [], s, r. split; [constructor|]. split; [contradiction|exact Hr].
  - destruct (happens_part _ _ _ _ H) as [P _]. rewrite <- Ec in P.
    destruct (IH _ P _ s1 (inv_step _ _ _ _ _ _ _ _ R H) eq_refl) as [tr' [s' [l [R' [Hi F]]]]].
    exists ((i, x) :: tr'), s', l. split; [econstructor; eassumption|]. split; [|exact F].
    intros j y [Hj|Hj]; [injection Hj as <- _; reflexivity|exact (Hi j y Hj)].
Qed.

End Theorems.

Print Assumptions C104_only_its_arguments.
Print Assumptions C104_no_race.
Print Assumptions C104_arguments_are_kept.
Print Assumptions C104_no_wild_access.
Print Assumptions C104_sees_what_it_would_alone.
Print Assumptions C104_finishes_by_itself.

(* ---- cases ---- *)

#[local] Existing Instance ThmBuilder.plain.

Definition doc : mem := [s2b "{""k"": [1, 2]}"].
Definition whole : hslice := mkh 0 0 13 13.
Definition inner : hslice := mkh 0 6 6 7.
Definition select (args : list rvalue) : rprog := RPCall 0 (RStmtExecute (s2b "SELECT ?") args) (RRet None []).

(* Two goroutines are given slices of one document that overlap: one sends all of it as JSON, the other inserts a part of it. *)
Definition both (i : nat) : list ract :=
  match i with
  | 0 => [RAct (ANew 2); RUse (select [RRef OJson whole]); RAct ASend]
  | 1 => [RAct (ANew 64); RUse (RPCall 0 (RInsert (s2b "t") [s2b "c"] [[RFunc (RCall (s2b "f") [RRef OBytes inner])]]) (RRet None [])); RAct ASend]
  | _ => []
  end.
Definition theirs (i : nat) (t : hslice) : Prop := (i = 0 /\ t = whole) \/ (i = 1 /\ t = inner).

Example both_meet :
  given doc theirs both /\
  let r := ThmFine.follow (ThmFine.turns 220) (starts_with doc both) in
  runs (starts_with doc both) (fst r) (snd r) /\
  (exists l, finished (snd r) 0 l /\ l = alone None [ANew 2; AUse (ThmFine.stmt "SELECT ?" [VJson (Some (s2b "{""k"": [1, 2]}"))]); ASend]) /\
  (exists l, finished (snd r) 1 l /\ exists x, nth 2 l SNew = SSend (inl x) /\ skipn (length x - 6) x = s2b "[1, 2]") /\
  In (0, Reads 0 8) (fst r) /\ In (1, Reads 0 8) (fst r).
Proof.
  split.
  - assert (V0 : valid doc whole /\ theirs 0 whole) by (unfold valid, theirs; cbn; auto 10 with arith).
    assert (V1 : valid doc inner /\ theirs 1 inner) by (unfold valid, theirs; cbn; auto 10 with arith).
    intros [|[|i]]; cbn [both]; repeat (apply Forall_cons; [|]); try apply Forall_nil; cbn [act_refs prog_refs call_refs]; auto.
    + split; [|exact I]. constructor; [exact V0|constructor].
    + split; [|exact I]. constructor; [|constructor]. constructor; [|constructor]. cbn. auto.
  - cbv zeta. split; [apply ThmFine.follow_runs|]. split; [eexists; split; vm_compute; reflexivity|].
    split; [eexists; split; [vm_compute; reflexivity|]; eexists; split; vm_compute; reflexivity|].
    split; vm_compute; repeat first [left; reflexivity|right].
Qed.

(* A goroutine that writes to the argument while another's call reads it: this is a race. *)
Definition meanwhile : state (list seen) := mks doc (fun i => match i with 0 => q_life None (both 0) | _ => Store 0 0 0%N (Return []) end).
Example writing_meanwhile_races : exists tr s, runs meanwhile tr s /\ race tr.
Proof.
  eexists _, _. split; [apply (ThmFine.follow_runs (repeat 0 60 ++ [1]))|]. exists 0, 1, (Reads 0 0), (Writes 0 0).
  split; [discriminate|]. split; [vm_compute; auto 100|]. split; [vm_compute; auto 100|constructor].
Qed.
