(* C103 Goroutines may build and send at the same time, each with a pipe of its own: there is no data race, and each sees what it would see alone. *)
From Coq Require Import String List NArith ZArith Arith Bool Lia.
From Coq Require Import List.
From Verif Require Import Base GoSlice Values Builder Mem MemModel MemPipes Fine FineModel FineRun SpecFine FineAll.
From Verif Require ThmBuilder.
Import ListNotations.
Local Open Scope nat_scope.

Section Theorems.
Context `{E : Env}.

Local Lemma starts_inv m acts tr s : runs (starts m acts) tr s -> inv m (fun _ _ _ => False) (fun i _ o => o = Some (alone None (acts i))) tr s.
Proof. intros R. exact (inv_runs _ _ _ _ _ _ R [] (inv_starts m acts)). Qed.

(* Goroutines make, use, reset and send pipes of their own, interleaved between any two accesses to memory. No two of them access the same array, and
   none accesses memory that was there before. *)
Theorem C103_own_arrays : forall m acts tr s,
  runs (starts m acts) tr s ->
  (forall i x, In (i, x) tr -> length m <= array_of x) /\
  (forall i j x y, In (i, x) tr -> In (j, y) tr -> array_of x = array_of y -> i = j).
Proof.
  intros m acts tr s R. destruct (starts_inv _ _ _ _ R) as [own [_ [Mm [Dj [Tr' _]]]]].
  assert (Tr : forall i x, In (i, x) tr -> own i (where_ x) <> None) by (intros i x Hx; destruct (Tr' i x Hx) as [H|[a [k [_ [_ []]]]]]; exact H).
  change array_of with where_. split.
  - intros i x Hx. specialize (Tr i x Hx). destruct (own i (where_ x)) as [l|] eqn:Eo; [|contradiction]. exact (proj2 (Mm _ _ _ Eo)).
  - intros i j x y Hx Hy Exy. apply (Dj i j (where_ x)); [apply Tr; exact Hx|rewrite Exy; apply Tr; exact Hy].
Qed.

Theorem C103_no_race : forall m acts tr s, runs (starts m acts) tr s -> ~ race tr.
Proof.
  intros m acts tr s R [i [j [x [y [N [Hx [Hy C]]]]]]]. apply N. destruct (C103_own_arrays _ _ _ _ R) as [_ D].
  apply (D i j x y Hx Hy). destruct C; cbn; auto.
Qed.

(* What was in memory before stays as it is. *)
Theorem C103_other_memory_is_kept : forall m acts tr s,
  runs (starts m acts) tr s -> firstn (length m) (smem s) = m.
Proof.
  intros m acts tr s R. destruct (starts_inv _ _ _ _ R) as [own [_ [_ [_ [_ [L Old]]]]]]. clear R.
  revert L Old. generalize (smem s). clear. induction m as [|x m IH]; intros [|y m'] L Old; cbn [length firstn] in *; try reflexivity; [lia|].
  f_equal; [specialize (Old 0 ltac:(lia)); cbn in Old; congruence|]. apply IH; [lia|]. intros a La. apply (Old (S a)). lia.
Qed.

(* No goroutine ever accesses an element that does not exist: it has finished, or it can go on. *)
Theorem C103_no_wild_access : forall m acts tr s i,
  runs (starts m acts) tr s -> (exists l, finished s i l) \/ exists x s', happens s i x s'.
Proof.
  intros m acts tr s i R. destruct (inv_next _ _ _ _ _ i (starts_inv _ _ _ _ R)) as [[r [h [Hr _]]]|[[_ [h Hs]]|H]]; [left; eauto|discriminate|right; exact H].
Qed.

(* A goroutine that has finished has seen what its pipe shows when it is used alone, on slice values. *)
Theorem C103_sees_what_it_would_alone : forall m acts tr s i l,
  runs (starts m acts) tr s -> finished s i l -> l = alone None (acts i).
Proof.
  intros m acts tr s i l R F. destruct (inv_next _ _ _ _ _ i (starts_inv _ _ _ _ R)) as [[r [h [Hr Hq]]]|[[Hs _]|[x [s' H]]]].
  - unfold finished in F. rewrite F in Hr. injection Hr as <-. injection Hq as ->. reflexivity.
  - unfold finished in F. congruence.
  - unfold finished in F. destruct H as [m' f i' a y k l' v Hi Ha Hx|m' f i' a y v k l' Hi Ha Hx|m' f i' l' k Hi]; cbn [doing] in *; congruence.
Qed.

(* So what it has seen depends neither on the schedule nor on what the others do nor on memory. *)
Theorem C103_schedule_does_not_matter : forall m acts tr s m' acts' tr' s' i l l',
  runs (starts m acts) tr s -> runs (starts m' acts') tr' s' -> acts i = acts' i ->
  finished s i l -> finished s' i l' -> l = l'.
Proof.
  intros m acts tr s m' acts' tr' s' i l l' R R' Ea F F'.
  rewrite (C103_sees_what_it_would_alone _ _ _ _ _ _ R F), (C103_sees_what_it_would_alone _ _ _ _ _ _ R' F'), Ea. reflexivity.
Qed.

(* A goroutine does not wait for the others: from any point on it can finish by its own accesses only. *)
Theorem C103_finishes_by_itself : forall m acts tr s i,
  runs (starts m acts) tr s ->
  exists tr' s' l, runs s tr' s' /\ (forall j x, In (j, x) tr' -> j = i) /\ finished s' i l.
Proof.
  intros m acts tr s i R. apply starts_inv in R. remember (doing s i) as c eqn:Ec. revert tr s R Ec.
  induction c as [c IH] using (well_founded_induction part_wf). intros tr s R Ec.
  destruct (inv_next _ _ _ _ _ i R) as [[r [h [Hr _]]]|[[_ [h Hs]]|[x [s1 H]]]]; [|discriminate|].
  - exists [], s, r. split; [constructor|]. split; [contradiction|exact Hr].
  - destruct (happens_part _ _ _ _ H) as [P _]. rewrite <- Ec in P.
    destruct (IH _ P _ s1 (inv_step _ _ _ _ _ _ _ _ R H) eq_refl) as [tr' [s' [l [R' [Hi F]]]]].
    exists ((i, x) :: tr'), s', l. split; [econstructor; eassumption|]. split; [|exact F].
    intros j y [Hj|Hj]; [injection Hj as <- _; reflexivity|exact (Hi j y Hj)].
Qed.

(* And it cannot go on for ever: in an endless run of all goroutines it makes no endless number of accesses. *)
Theorem C103_no_goroutine_is_endless : forall A (st : nat -> state A) (who : nat -> nat) (what : nat -> access) i,
  (forall n, happens (st n) (who n) (what n) (st (S n))) ->
  ~ (forall n, exists k, n <= k /\ who k = i).
Proof.
  intros A st who what i H Often.
  assert (G : forall c n, doing (st n) i = c -> False).
  { induction c as [c IH] using (well_founded_induction part_wf). intros n Ec.
    destruct (Often n) as [k [Lk Hk]].
    assert (F : exists f, who f = i /\ doing (st f) i = c).
    { replace k with (n + (k - n)) in Hk by lia. remember (k - n) as d eqn:Ed. clear Lk Ed. revert n Ec Hk. induction d as [|d IHd]; intros n Ec Hk.
      - rewrite Nat.add_0_r in Hk. exists n. auto.
      - destruct (Nat.eq_dec (who n) i) as [Ei|Ni]; [exists n; auto|].
        destruct (happens_part _ _ _ _ (H n)) as [_ Oth]. apply (IHd (S n)).
        + rewrite Oth by congruence. exact Ec.
        + replace (S n + d) with (n + S d) by lia. exact Hk. }
    destruct F as [f [Hf Ef]]. destruct (happens_part _ _ _ _ (H f)) as [P _]. rewrite Hf, Ef in P. exact (IH _ P (S f) eq_refl). }
  exact (G _ 0 eq_refl).
Qed.

End Theorems.

Print Assumptions C103_own_arrays.
Print Assumptions C103_no_race.
Print Assumptions C103_other_memory_is_kept.
Print Assumptions C103_no_wild_access.
Print Assumptions C103_sees_what_it_would_alone.
Print Assumptions C103_schedule_does_not_matter.
Print Assumptions C103_finishes_by_itself.
Print Assumptions C103_no_goroutine_is_endless.

(* ---- cases ---- *)

#[local] Existing Instance ThmBuilder.plain.

(* The run in which the goroutines of a list make one access each, in that order. *)
Definition move {A} (s : state A) (i : nat) : option (access * state A) :=
  match doing s i with
  | Return _ | Stop => None
  | Load a x k => match nth_error (smem s) a with
                  | Some l => match nth_error l x with Some v => Some (Reads a x, mks (smem s) (goes_on (doing s) i (k v))) | None => None end
                  | None => None
                  end
  | Store a x v k => match nth_error (smem s) a with
                     | Some l => if x <? length l then Some (Writes a x, mks (write (smem s) a x [v]) (goes_on (doing s) i k)) else None
                     | None => None
                     end
  | Alloc l k => Some (Makes (length (smem s)), mks (smem s ++ [l]) (goes_on (doing s) i (k (length (smem s)))))
  end.
Fixpoint follow {A} (sched : list nat) (s : state A) : list (nat * access) * state A :=
  match sched with
  | [] => ([], s)
  | i :: sched => match move s i with
                  | Some (x, s) => let '(tr, s) := follow sched s in ((i, x) :: tr, s)
                  | None => follow sched s
                  end
  end.

Lemma move_happens {A} (s : state A) i x s' : move s i = Some (x, s') -> happens s i x s'.
Proof.
  destruct s as [m f]. unfold move. cbn [doing smem]. destruct (f i) as [r| |a y k|a y v k|l k] eqn:Hi; try discriminate.
  - destruct (nth_error m a) as [l|] eqn:Ha; [|discriminate]. destruct (nth_error l y) as [v|] eqn:Hy; [|discriminate].
    intros H; injection H as <- <-. eapply does_read; eassumption.
  - destruct (nth_error m a) as [l|] eqn:Ha; [|discriminate]. destruct (Nat.ltb_spec y (length l)); [|discriminate].
    intros H'; injection H' as <- <-. eapply does_write; eassumption.
  - intros H; injection H as <- <-. apply does_make. exact Hi.
Qed.

Lemma follow_runs {A} sched : forall s : state A, runs s (fst (follow sched s)) (snd (follow sched s)).
Proof.
  induction sched as [|i sched IH]; intros s; cbn [follow]; [constructor|].
  destruct (move s i) as [[x s1]|] eqn:Em; [|apply IH]. specialize (IH s1). destruct (follow sched s1) as [tr s']. cbn [fst snd] in *.
  econstructor; [apply move_happens; exact Em|exact IH].
Qed.

Definition stmt (s : String.string) (args : list gvalue) : prog := PCall 0 (CStmtExecute (s2b s) args) (Ret None []).
Definition caller : mem := [s2b "caller's"].

(* Two goroutines take turns after every access. One sends a statement, resets, and sends another from the same array; the other's program panics. *)
Definition two (i : nat) : list act :=
  match i with
  | 0 => [ANew 2; AUse (stmt "SELECT 1" []); ASend; AReset; AUse (stmt "SELECT ?" [VBool true]); ASend]
  | 1 => [ANew 64; AUse (stmt "SELECT 2" []); AUse (stmt "SELECT ?" [VUser (Some (fun _ _ => Panic)) None]); ASend]
  | _ => []
  end.
Fixpoint turns (n : nat) : list nat := match n with O => [] | S n => 0 :: 1 :: turns n end.

Example taking_turns :
  let r := follow (turns 400) (starts caller two) in
  runs (starts caller two) (fst r) (snd r) /\
  finished (snd r) 0 [SNew; SUse (Some []); SSend (inl ([11; 0; 0; 0; 12; 10; 8]%N ++ s2b "SELECT 1")); SReset; SUse (Some []);
                      SSend (inl ([21; 0; 0; 0; 12; 10; 8]%N ++ s2b "SELECT ?" ++ [18; 8; 8; 1; 18; 4; 8; 7; 64; 1]%N))] /\
  finished (snd r) 1 [SNew; SUse (Some []); SUse None; SGone] /\
  firstn 6 (fst r) = [(0, Makes 1); (1, Makes 2); (0, Makes 3); (1, Writes 2 0); (0, Reads 3 6); (1, Writes 2 1)] /\
  100 <= length (fst r) /\ length (smem (snd r)) = 5.
Proof. split; [apply follow_runs|]. vm_compute. repeat (split; [reflexivity|]). split; [|reflexivity]. repeat constructor. Qed.

(* A pipe that two goroutines use at the same time: they write the same bytes, and this is a race. *)
Definition shared : state (list seen) :=
  mks [repeat 0%N 64] (fun i => let! (_, s) := g_act (Some (mkhb (mkh 0 0 0 64) None false)) (AUse (stmt (if i =? 0 then "SELECT 1" else "SELECT 2") [])) in Return [s]).
Example sharing_a_pipe_races : exists tr s, runs shared tr s /\ race tr.
Proof.
  eexists _, _. split; [apply (follow_runs [0; 1])|]. exists 0, 1, (Writes 0 0), (Writes 0 0).
  split; [discriminate|]. split; [vm_compute; auto|]. split; [vm_compute; auto|constructor].
Qed.
