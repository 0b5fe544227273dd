(* C106 Goroutines build units of work at the same time, each with a pipe of its own, and send them through one pool: from the calls of the builders to the
   bytes the servers get and the answers that come back, each is as if it were alone. *)
From Coq Require Import String List NArith ZArith Arith Bool Lia.
From Coq Require Import List.
From Verif Require Import Base GoSlice Values Builder Conn SpecReply System SpecSystem Mem MemModel MemPipes Fine FineModel FineRun SpecFine FineProofs FineAll FinePool SpecPlan PlanProofs PlanSys PlanEnd.
From Verif Require Pool SpecPool ThmPool ThmSystem ThmBuilder ThmFine.
Import ListNotations.
Local Open Scope nat_scope.
Local Notation length := List.length.

Section Theorems.
Context `{E : Env}.

(* No two goroutines access the same array, and none accesses memory that was there before; what the Sender reads of a pipe is among the accesses of the
   goroutine that sends. *)
Theorem C106_own_arrays : forall m n p tr s, moves_on (begin m n p) tr s ->
  (forall g x, In (g, x) (accesses tr) -> length m <= array_of x) /\
  (forall g h x y, In (g, x) (accesses tr) -> In (h, y) (accesses tr) -> array_of x = array_of y -> g = h).
Proof.
  intros m n p tr s M. destruct (good_moves _ _ _ _ _ M) as [Q [[own [_ [Mm [Dj [Tr' _]]]]] _]].
  assert (Tr : forall i x, In (i, x) (accesses tr) -> own i (where_ x) <> None) by (intros i x Hx; destruct (Tr' i x Hx) as [H|[a [k [_ [_ []]]]]]; exact H).
  change array_of with where_. split.
  - intros i x Hx. specialize (Tr i x Hx). destruct (own i (where_ x)) as [l|] eqn:Eo; [|contradiction]. exact (proj2 (Mm _ _ _ Eo)).
  - intros i j x y Hx Hy Exy. apply (Dj i j (where_ x)); [apply Tr; exact Hx|rewrite Exy; apply Tr; exact Hy].
Qed.

Theorem C106_no_race : forall m n p tr s, moves_on (begin m n p) tr s -> ~ race (accesses tr).
Proof.
  intros m n p tr s M [i [j [x [y [N [Hx [Hy C]]]]]]]. apply N. destruct (C106_own_arrays _ _ _ _ _ M) as [_ D].
  apply (D i j x y Hx Hy). destruct C; cbn; auto.
Qed.

Theorem C106_other_memory_is_kept : forall m n p tr s, moves_on (begin m n p) tr s -> firstn (length m) (memory s) = m.
Proof.
  intros m n p tr s M. destruct (good_moves _ _ _ _ _ M) as [Q [[own [_ [_ [_ [_ [L Old]]]]]] _]]. cbn [smem] in *. clear M.
  revert L Old. generalize (memory s). clear. induction m as [|x m IH]; intros [|y m'] L Old; cbn [length firstn] in *; try reflexivity; [lia|].
  f_equal; [specialize (Old 0 ltac:(lia)); cbn in Old; congruence|]. apply IH; [lia|]. intros a La. apply (Old (S a)). lia.
Qed.

(* What happens at the pool is a run of a pool as System has it: all theorems on pools hold of it. *)
Theorem C106_the_pool : forall m n p tr s, moves_on (begin m n p) tr s -> System.run word32 (at_pool tr) (new_system n) = Some (sys s).
Proof. intros m n p tr s M. destruct (good_moves _ _ _ _ _ M) as [Q [_ [R _]]]. exact R. Qed.

(* The unit of each call of the pool is what the goroutine that made it built; and each call is of one goroutine, once. *)
Theorem C106_units_are_what_was_built : forall m n p tr s i d x, moves_on (begin m n p) tr s ->
  nth_error (units (sys s)) i = Some (Some (d, x)) -> exists g, built p s g i d x /\ forall g' d' x', built p s g' i d' x' -> g' = g /\ d' = d /\ x' = x.
Proof.
  intros m n p tr s i d x M Hu. destruct (good_moves _ _ _ _ _ M) as [Q [_ [_ [_ [As [Dj [Nd Un]]]]]]].
  destruct (Un i d x Hu) as [g Hg]. exists g.
  assert (In_ : forall h j, nth_error (calls_of s h) j = Some i -> In i (made s h)) by (intros h j Hj; apply in_rev; eapply nth_error_In; exact Hj).
  assert (Bu : forall h j, nth_error (calls_of s h) j = Some i -> exists o l, are_answered s (firstn j (calls_of s h)) o /\ plan_alone (p h) None o = (l, Sends d x)).
  { intros h j Hj. destruct (As h j i Hj) as [o [d1 [x1 [l [H1 [H2 H3]]]]]]. assert (d1 = d /\ x1 = x) as [-> ->] by (split; congruence). eauto. }
  split.
  - destruct (In_nth_error _ _ (proj1 (in_rev _ _) Hg)) as [j Hj]. destruct (Bu g j Hj) as [o [l [H1 H2]]]. exists j, o, l. auto.
  - intros g' d' x' [j [o [l [Hj [Ho Hp]]]]]. split; [apply (Dj g' g i); [eapply In_; exact Hj|exact Hg]|].
    destruct (Bu g' j Hj) as [o2 [l2 [Ho2 Hp2]]].
    assert (o2 = o).
    { clear - Ho Ho2. unfold are_answered in *. revert o2 Ho2. induction Ho; intros o2 Ho2; inversion Ho2; subst; [reflexivity|]. f_equal; [congruence|auto]. }
    subst o2. rewrite Hp in Hp2. inversion Hp2. auto.
Qed.

(* A goroutine that has come to its end has seen what it sees alone when the pool answers as it answered its calls. *)
Theorem C106_sees_what_it_would_alone : forall m n p tr s g l, moves_on (begin m n p) tr s -> came_to_end s g l ->
  exists o, are_answered s (calls_of s g) o /\ plan_alone (p g) None o = (l, HasEnded).
Proof.
  intros m n p tr s g l M [Hc Hw]. destruct (good_moves _ _ _ _ _ M) as [Q [I [_ [Ph _]]]].
  specialize (Ph g). unfold phase in Ph. rewrite Hw in Ph. destruct Ph as [o [v [q [l0 [Ho [EQ Al]]]]]].
  assert (Lk : looks (doing (mks (memory s) (code s)) g)) by (cbn [doing]; rewrite Hc; constructor).
  destruct (inv_at _ _ _ _ g I Lk) as [hh [r [Hq [Er0 _]]]]. rewrite (Er0 _ Hc), EQ in Hq. unfold at_stop in Hq.
  destruct (plan_alone q v []) as [l' [|d x]] eqn:Ep.
  - injection Hq as ->. exists o. split; [exact Ho|]. specialize (Al []). rewrite app_nil_r, Ep in Al. exact Al.
  - destruct Hq as [? [? [? [? [Hq _]]]]]. discriminate.
Qed.

(* The answer to a Send, when the servers answer every request of a unit with one reply: the server's answers to the unit that this goroutine built for it,
   if the error is nil; to a first part of it, if conn.Send failed; and nothing, if the unit was not sent. *)
Theorem C106_answers_are_its_own : forall m n p tr s said g i d x a, moves_on (begin m n p) tr s ->
  sends said (sys s) -> Forall (serves word32 said) (at_pool tr) -> built p s g i d x -> answer_of (sys s) i = Some a ->
  x = request_bytes (said i) /\
  match a with
  | (Pool.Responses, r) => r = Some (map seen_as (said i), None)
  | (Pool.SendError, r) => exists rs e, r = Some (rs, Some e) /\ responses_to_first (said i) rs
  | (_, r) => r = None
  end.
Proof.
  intros m n p tr s said g i d x [o r] M Sd Sv Bu Ha. assert (R := C106_the_pool _ _ _ _ _ M).
  assert (Hu : nth_error (units (sys s)) i = Some (Some (d, x))).
  { destruct (good_moves _ _ _ _ _ M) as [Q [_ [_ [_ [As _]]]]]. destruct Bu as [j [o1 [l1 [Hj [Ho Hp]]]]].
    destruct (As g j i Hj) as [o2 [d2 [x2 [l2 [Ho2 [Hp2 H3]]]]]]. fold (calls_of s g) in Ho2.
    assert (o2 = o1).
    { clear - Ho Ho2. unfold are_answered in *. revert o2 Ho2. induction Ho; intros o2 Ho2; inversion Ho2; subst; [reflexivity|]. f_equal; [congruence|auto]. }
    subst o2. rewrite Hp in Hp2. inversion Hp2. subst. exact H3. }
  split; [exact (Sd _ _ _ Hu)|]. unfold answer_of in Ha. destruct (nth_error (Pool.calls (pool (sys s))) i) as [[[] b]|] eqn:Ec; try discriminate.
  injection Ha as Eo Er. subst o0.
  destruct (ThmSystem.C61_send_returns_what_it_got _ _ _ _ _ _ _ _ R Sd Sv Ec) as [Hg Un].
  assert (Fd : forall rs e, got (sys s) i rs e -> r = Some (rs, e)).
  { intros rs e Hge. subst r. destruct (find _ (results (sys s))) as [[i' re]|] eqn:Ef.
    - apply find_some in Ef. destruct Ef as [Hin Hi]. cbn [fst] in Hi. apply Nat.eqb_eq in Hi. subst i'. cbn [option_map snd]. destruct re as [rs' e'].
      destruct (Un rs e rs' e' Hge Hin) as [-> ->]. reflexivity.
    - exfalso. apply (find_none _ _ Ef) in Hge. cbn [fst] in Hge. rewrite Nat.eqb_refl in Hge. discriminate. }
  assert (Nf : (forall rs e, ~ got (sys s) i rs e) -> r = None).
  { intros Hn. subst r. destruct (find _ (results (sys s))) as [[i' [rs e]]|] eqn:Ef; [|reflexivity]. exfalso.
    apply find_some in Ef. destruct Ef as [Hin Hi]. cbn [fst] in Hi. apply Nat.eqb_eq in Hi. subst i'. exact (Hn rs e Hin). }
  destruct o; auto. destruct Hg as [rs [e [Hg Hr]]]. eauto.
Qed.

(* What is written on each connection of the pool, after what connector.New wrote: the units of the Sends that used it with success, in that order, whole, each as a
   goroutine built it; and last maybe the unit of a Send that failed. *)
Theorem C106_servers_get_what_was_built : forall m n p tr s said k c c0, moves_on (begin m n p) tr s ->
  sends said (sys s) -> Forall (serves word32 said) (at_pool tr) ->
  nth_error (conns (sys s)) k = Some c -> nth_error (started (sys s)) k = Some c0 ->
  exists us last, attempts c = attempts c0 ++ map (fun u => (u, None)) us ++ last /\
    Forall2 (fun i u => exists g d, built p s g i d u) (users k (SpecPool.history (pool (sys s)))) us /\
    (last = [] \/ exists g i d u o, last = [(u, o)] /\ built p s g i d u).
Proof.
  intros m n p tr s said k c c0 M Sd Sv Hk Hk0. assert (R := C106_the_pool _ _ _ _ _ M).
  destruct (ThmSystem.C62_units_whole_and_in_order _ _ _ _ _ _ _ _ R Sd Sv Hk Hk0) as [us [last [H1 [H2 H3]]]].
  exists us, last. split; [exact H1|].
  assert (Bu : forall i u, unit_is (sys s) i u -> exists g d, built p s g i d u).
  { intros i u [d Hd]. destruct (C106_units_are_what_was_built _ _ _ _ _ _ _ _ M Hd) as [g [B _]]. eauto. }
  split.
  - clear - H2 Bu. induction H2; constructor; auto.
  - destruct H3 as [->|[i [b [o [-> [Hu _]]]]]]; [left; reflexivity|]. right. destruct (Bu i b Hu) as [g [d B]]. exists g, i, d, b, o. auto.
Qed.

(* Nobody is ever stuck: unless a call of the pool has panicked, a goroutine that has not come to its end can make a step of its own. *)
Theorem C106_never_stuck : forall m n p tr s g, moves_on (begin m n p) tr s -> Pool.crashed (pool (sys s)) = false ->
  (exists l, came_to_end s g l) \/ exists l s', moves s l s' /\ step_of g s l s'.
Proof.
  intros m n p tr s g M Nc. destruct (good_moves _ _ _ _ _ M) as [Q [I [R [Ph [As _]]]]].
  assert (Sh := shape_run _ _ _ _ _ (shape_new n) R). destruct s as [mm c w sy h]. cbn [memory code waits sys made] in *.
  specialize (Ph g). unfold phase in Ph. cbn [waits made code sys] in Ph.
  destruct (w g) as [[[[i b] k] l]|] eqn:Hw.
  - right. destruct Ph as [o [v [is_ [d [x [Em [Ho [Hu [EQ [Lk Al]]]]]]]]]].
    assert (exists pc_, nth_error (Pool.calls (pool sy)) i = Some pc_) as [[pc_ fl] Hi].
    { assert (Li : i < length (units sy)) by (apply nth_error_Some; congruence). rewrite (sh_units _ _ Sh) in Li. apply nth_error_Some in Li.
      destruct (nth_error (Pool.calls (pool sy)) i); [eauto|contradiction]. }
    assert (Dec : (exists o, pc_ = Pool.Returned o) \/ forall o, pc_ <> Pool.Returned o) by (destruct pc_; [right; discriminate..|left; eauto]).
    destruct Dec as [[oo ->]|Nr].
    + eexists (Back g), _. split; [|reflexivity]. eapply moves_back; [exact Hw|]. unfold answer_of. rewrite Hi. reflexivity.
    + assert (Ex : (exists c_, pc_ = Pool.SSend c_) \/ forall c_, pc_ <> Pool.SSend c_) by (destruct pc_; eauto; right; discriminate).
      destruct Ex as [[c_ ->]|Ns].
      * destruct (inv_next _ _ _ _ _ g I) as [[r [hh [Hr Hq]]]|[[_ [hh Hq]]|[x_ [s_ Hh]]]]; cbn [doing] in *.
        -- rewrite EQ in Hq. destruct Hq as [Hq _]. injection Hq as ->. destruct (sending_exists _ _ _ _ _ Sh Nc Hi) as [cc Hcc].
           assert (Hx : exists s', step word32 (Exchange i []) (set_unit i x sy) = Some s').
           { rewrite (set_unit_same _ _ _ _ Hu). cbn [step]. rewrite Hi, Hu, Hcc. destruct (conn_send word32 d x (arrive [] cc)) as [[rr c2]|]; [|eauto].
             unfold Pool.step. rewrite Nc, Hi. eauto. }
           destruct Hx as [s' Hx]. eexists (At (Exchange i [])), _. split; [eapply moves_exchange; [exact Hw|exact Hr|exact Hx]|].
           cbn [step_of waits]. exists i, b, k, l. auto.
        -- rewrite EQ in Hq. destruct Hq as [Hq _]. discriminate.
        -- destruct s_ as [m2 c2]. eexists (Access g x_), _. split; [|reflexivity]. eapply moves_in_send; [exact Hw|exists c_, fl; exact Hi|exact Hh].
      * destruct (ThmPool.C57_never_blocked n (pool sy) i pc_ fl (sh_pool _ _ Sh Nc) Nc Hi Nr) as [a [p' [Ea Ep]]].
        assert (Dk : (exists j, a = Pool.Dialled j true) \/ match a with Pool.CallSend | Pool.Dialled _ true | Pool.Sent _ _ => False | _ => True end).
        { destruct a as [| | | | | |j []|j ok| | |]; eauto; try discriminate. exfalso. cbn in Ea. injection Ea as ->. unfold Pool.step in Ep. rewrite Nc, Hi in Ep.
          destruct pc_; try discriminate. exact (Ns _ eq_refl). }
        destruct Dk as [[j ->]|Qa].
        -- cbn in Ea. injection Ea as ->. set (cn := mkc Tcp (mkr [] [] IoEOF) [] [] []).
           assert (Hx : exists s', step word32 (Connected i cn) sy = Some s') by (cbn [step]; rewrite Ep; eauto).
           destruct Hx as [s' Hx]. eexists (At (Connected i cn)), _. split; [apply moves_pool; [exact Logic.I|exact Hx]|]. cbn [step_of waits]. exists i, b, k, l. auto.
        -- assert (Hx : exists s', step word32 (Step a) sy = Some s').
           { unfold step. destruct a as [| | | | | |j []|j ok| | |]; try contradiction; rewrite Ep; eauto. }
           destruct Hx as [s' Hx]. eexists (At (Step a)), _. split; [apply moves_pool; [exact Logic.I|exact Hx]|]. cbn [step_of waits]. exists i, b, k, l. auto.
  - destruct Ph as [o [v [q [l [Ho [EQ Al]]]]]].
    destruct (inv_next _ _ _ _ _ g I) as [[r [hh [Hr Hq]]]|[[_ [hh Hq]]|[x_ [s_ Hh]]]]; cbn [doing] in *.
    + rewrite EQ in Hq. unfold at_stop in Hq. destruct (plan_alone q v []) as [l' [|d x]].
      * injection Hq as ->. left. eexists. split; [exact Hr|exact Hw].
      * destruct Hq as [q' [b' [k' [v' [Er _]]]]]. injection Er as ->. right.
        assert (Hx : exists s', step word32 (CallSend d (Mem.contents mm q')) sy = Some s') by (cbn [step]; unfold Pool.step; rewrite Nc; eauto).
        destruct Hx as [s' Hx]. eexists (At (CallSend d (Mem.contents mm q'))), _. split; [eapply moves_to_pool; [exact Hw|exact Hr|exact Hx]|].
        cbn [step_of made]. rewrite put_eq. intros Ec. apply (f_equal (@List.length nat)) in Ec. cbn in Ec. lia.
    + rewrite EQ in Hq. unfold at_stop in Hq. destruct (plan_alone q v []) as [l' [|d x]]; [discriminate|]. destruct Hq as [? [? [? [? [Hq _]]]]]. discriminate.
    + right. destruct s_ as [m2 c2]. eexists (Access g x_), _. split; [|reflexivity]. apply moves_by_itself; [exact Hw|exact Hh].
Qed.

(* So it can come to its end by itself: by steps of its own only, however far the others are. *)
Theorem C106_finishes_by_itself : forall m n p tr s g, moves_on (begin m n p) tr s -> Pool.crashed (pool (sys s)) = false ->
  exists s', only g s s' /\ (Pool.crashed (pool (sys s')) = true \/ exists l, came_to_end s' g l).
Proof.
  intros m n p tr s g M Nc. destruct (on_the_way _ _ _ _ _ M Nc) as [_ [_ Ac]]. specialize (Ac g). remember (left_over s g) as t eqn:Et.
  revert tr s M Nc Et. induction Ac as [t _ IH]. intros tr s M Nc Et.
  destruct (C106_never_stuck _ _ _ _ _ g M Nc) as [En|[l [s1 [Mv St]]]]; [exists s; split; [constructor|auto]|].
  destruct (Pool.crashed (pool (sys s1))) eqn:Nc1.
  - exists s1. split; [eapply only_more; [exact Mv|exact St|constructor]|auto].
  - destruct (on_the_way _ _ _ _ _ M Nc) as [G [US _]]. destruct (move_less _ _ _ _ _ _ _ g G US Mv Nc1) as [_ L]. specialize (L St). rewrite <- Et in L.
    destruct (IH _ L _ s1 (moves_more _ _ _ _ _ M Mv) Nc1 eq_refl) as [s2 [O En]]. exists s2. split; [eapply only_more; eassumption|exact En].
Qed.

(* And it cannot go on for ever: in an endless run of all goroutines, without a panic of the pool, it makes no endless number of steps. *)
Theorem C106_no_goroutine_is_endless : forall m n p (st : nat -> all) (what : nat -> label) g, st 0 = begin m n p ->
  (forall k, moves (st k) (what k) (st (S k))) -> (forall k, Pool.crashed (pool (sys (st k))) = false) ->
  ~ (forall k, exists j, k <= j /\ step_of g (st j) (what j) (st (S j))).
Proof.
  intros m n p st what g E0 H Nc Often.
  assert (R : forall k, exists tr, moves_on (begin m n p) tr (st k)).
  { induction k as [|k [tr IH]]; [exists []; rewrite E0; constructor|]. exists (tr ++ [what k]). eapply moves_more; [exact IH|apply H]. }
  assert (G : forall t, Acc less t -> forall k, left_over (st k) g = t -> False).
  { induction 1 as [t _ IH]. intros k Ek. destruct (Often k) as [j [Lj Hj]].
    assert (F : exists f, less (left_over (st f) g) t).
    { replace j with (k + (j - k)) in Hj by lia. remember (j - k) as d eqn:Ed. clear Lj Ed. revert k Ek Hj. induction d as [|d IHd]; intros k Ek Hj.
      - rewrite Nat.add_0_r in Hj. exists (S k). destruct (R k) as [tr M]. destruct (on_the_way _ _ _ _ _ M (Nc k)) as [Gd [US _]].
        destruct (move_less _ _ _ _ _ _ _ g Gd US (H k) (Nc (S k))) as [_ L]. rewrite <- Ek. exact (L Hj).
      - destruct (R k) as [tr M]. destruct (on_the_way _ _ _ _ _ M (Nc k)) as [Gd [US _]].
        destruct (move_less _ _ _ _ _ _ _ g Gd US (H k) (Nc (S k))) as [[Eq|L] _]; [|exists (S k); rewrite <- Ek; exact L].
        apply (IHd (S k)); [congruence|]. replace (S k + d) with (k + S d) by lia. exact Hj. }
    destruct F as [f Lf]. exact (IH _ Lf f eq_refl). }
  destruct (R 0) as [tr M]. destruct (on_the_way _ _ _ _ _ M (Nc 0)) as [_ [_ Ac]]. exact (G _ (Ac g) 0 eq_refl).
Qed.

End Theorems.

Print Assumptions C106_own_arrays.
Print Assumptions C106_no_race.
Print Assumptions C106_other_memory_is_kept.
Print Assumptions C106_the_pool.
Print Assumptions C106_units_are_what_was_built.
Print Assumptions C106_sees_what_it_would_alone.
Print Assumptions C106_answers_are_its_own.
Print Assumptions C106_servers_get_what_was_built.
Print Assumptions C106_never_stuck.
Print Assumptions C106_finishes_by_itself.
Print Assumptions C106_no_goroutine_is_endless.

(* ---- cases ---- *)

#[local] Existing Instance ThmBuilder.plain.

(* A run that follows choices; a choice that is not possible is left out. *)
Inductive choice := DoAccess (g : nat) | DoCall (g : nat) | DoExchange (g : nat) (chunks : list bytes) | DoBack (g : nat) | DoPool (a : action).
Definition choose (ch : choice) (s : all) : option (label * all) :=
  match ch with
  | DoAccess g =>
      let may := match waits s g with
                 | None => true
                 | Some (i, _, _, _) => match nth_error (Pool.calls (pool (sys s))) i with Some (Pool.SSend _, _) => true | _ => false end
                 end in
      if may then match ThmFine.move (mks (memory s) (code s)) g with
                  | Some (x, s') => Some (Access g x, mka (smem s') (doing s') (waits s) (sys s) (made s))
                  | None => None
                  end
      else None
  | DoCall g =>
      match waits s g, code s g with
      | None, Return (Asks d q b k l) =>
          match step word32 (CallSend d (Mem.contents (memory s) q)) (sys s) with
          | Some s' => let i := length (units (sys s)) in
              Some (At (CallSend d (Mem.contents (memory s) q)),
                    mka (memory s) (put (code s) g (let! x := g_read q in Return (Hands x))) (put (waits s) g (Some (i, b, k, l))) s' (put (made s) g (i :: made s g)))
          | None => None
          end
      | _, _ => None
      end
  | DoExchange g chunks =>
      match waits s g, code s g with
      | Some (i, _, _, _), Return (Hands x) =>
          match step word32 (Exchange i chunks) (set_unit i x (sys s)) with
          | Some s' => Some (At (Exchange i chunks), mka (memory s) (code s) (waits s) s' (made s))
          | None => None
          end
      | _, _ => None
      end
  | DoBack g =>
      match waits s g with
      | Some (i, b, k, l) =>
          match answer_of (sys s) i with
          | Some a => Some (Back g, mka (memory s) (put (code s) g (g_plan (k (inr a)) (Some b) (Answered a :: l))) (put (waits s) g None) (sys s) (made s))
          | None => None
          end
      | None => None
      end
  | DoPool a =>
      match a with
      | Step _ | Connected _ _ =>
          match step word32 a (sys s) with Some s' => Some (At a, mka (memory s) (code s) (waits s) s' (made s)) | None => None end
      | _ => None
      end
  end.
Fixpoint chosen (chs : list choice) (tr : list label) (s : all) : list label * all :=
  match chs with
  | [] => (tr, s)
  | ch :: chs => match choose ch s with Some (l, s') => chosen chs (tr ++ [l]) s' | None => chosen chs tr s end
  end.

Lemma choose_moves ch s l s' : choose ch s = Some (l, s') -> moves s l s'.
Proof.
  destruct s as [m c w sy h]. unfold choose. cbn [memory code waits sys made]. destruct ch as [g|g|g chunks|g|a].
  - destruct (w g) as [[[[i b] k] t]|] eqn:Hw.
    + destruct (nth_error (Pool.calls (pool sy)) i) as [[[] fl]|] eqn:Hi; try discriminate.
      destruct (ThmFine.move (mks m c) g) as [[x s1]|] eqn:Em; [|discriminate]. intros H; injection H as <- <-.
      apply ThmFine.move_happens in Em. destruct s1 as [m1 c1]. eapply moves_in_send; [exact Hw|eexists _, _; exact Hi|exact Em].
    + destruct (ThmFine.move (mks m c) g) as [[x s1]|] eqn:Em; [|discriminate]. intros H; injection H as <- <-.
      apply ThmFine.move_happens in Em. destruct s1 as [m1 c1]. apply moves_by_itself; [exact Hw|exact Em].
  - destruct (w g) eqn:Hw; [discriminate|]. destruct (c g) as [[|d q b k t|]| | | |] eqn:Hc; try discriminate.
    destruct (step word32 (CallSend d (Mem.contents m q)) sy) as [s1|] eqn:Hs; [|discriminate]. intros H; injection H as <- <-. apply moves_to_pool; assumption.
  - destruct (w g) as [[[[i b] k] t]|] eqn:Hw; [|discriminate]. destruct (c g) as [[| |x]| | | |] eqn:Hc; try discriminate.
    destruct (step word32 (Exchange i chunks) (set_unit i x sy)) as [s1|] eqn:Hs; [|discriminate]. intros H; injection H as <- <-. eapply moves_exchange; eassumption.
  - destruct (w g) as [[[[i b] k] t]|] eqn:Hw; [|discriminate]. destruct (answer_of sy i) as [a|] eqn:Ha; [|discriminate]. intros H; injection H as <- <-.
    eapply moves_back; eassumption.
  - destruct a as [a| |j cn|]; try discriminate.
    + destruct (step word32 (Step a) sy) as [s1|] eqn:Hs; [|discriminate]. intros H; injection H as <- <-. apply moves_pool; [exact I|exact Hs].
    + destruct (step word32 (Connected j cn) sy) as [s1|] eqn:Hs; [|discriminate]. intros H; injection H as <- <-. apply moves_pool; [exact I|exact Hs].
Qed.

Lemma chosen_moves chs : forall s0 tr s, moves_on s0 tr s -> moves_on s0 (fst (chosen chs tr s)) (snd (chosen chs tr s)).
Proof.
  induction chs as [|ch chs IH]; intros s0 tr s H; cbn [chosen]; [exact H|]. destruct (choose ch s) as [[l s']|] eqn:Ec; [|apply IH; exact H].
  apply IH. eapply moves_more; [exact H|apply choose_moves with ch; exact Ec].
Qed.

(* Two goroutines, a pool that keeps one connection. The first sends, resets its pipe and sends again, if it got an answer; the second sends once. They take turns
   with every access, also while the bytes are read for the two connections. *)
Definition plans (g : nat) : plan :=
  let stmt s := AUse (ThmFine.stmt s []) in
  match g with
  | 0 => Use (ANew 2) (fun _ => Use (stmt "SELECT 1"%string) (fun _ => Send (Some 9%N) (fun r =>
           match r with
           | inr (Pool.Responses, _) => Use AReset (fun _ => Use (stmt "SELECT 2"%string) (fun _ => Send None (fun _ => End)))
           | _ => End
           end)))
  | 1 => Use (ANew 64) (fun _ => Use (stmt "SELECT 3"%string) (fun _ => Send None (fun _ => End)))
  | _ => End
  end.
Fixpoint turn (n : nat) : list choice := match n with O => [] | S n => DoAccess 0 :: DoAccess 1 :: turn n end.
Definition tcp : conn := mkc Tcp (mkr [] [] IoEOF) [] [] [].
Definition ok_reply : bytes := [1; 0; 0; 0; 17]%N.
Definition schedule : list choice :=
  turn 200 ++ [DoCall 0; DoCall 1; DoPool (Step (Pool.Default 0)); DoPool (Step (Pool.Default 1)); DoPool (Connected 1 tcp); DoPool (Connected 0 tcp)] ++
  turn 50 ++ [DoExchange 0 [ok_reply]; DoPool (Step (Pool.Return 0)); DoBack 0] ++
  turn 100 ++ [DoExchange 1 [[1; 0]; [0; 0; 17]]%N; DoPool (Step (Pool.Return 1)); DoPool (Step (Pool.CloseConn 1)); DoCall 0; DoPool (Step (Pool.Receive 2)); DoBack 1] ++
  turn 50 ++ [DoExchange 0 [ok_reply]; DoPool (Step (Pool.Return 2)); DoBack 0].
Definition unit_of (n : N) : bytes := [11; 0; 0; 0; 12; 10; 8]%N ++ s2b "SELECT " ++ [n].

Example two_goroutines_one_pool :
  let r := chosen schedule [] (begin ThmFine.caller 1 plans) in
  let fine := Answered (Pool.Responses, Some ([None], None)) in
  moves_on (begin ThmFine.caller 1 plans) (fst r) (snd r) /\
  came_to_end (snd r) 0 [Saw SNew; Saw (SUse (Some [])); fine; Saw SReset; Saw (SUse (Some [])); fine] /\
  came_to_end (snd r) 1 [Saw SNew; Saw (SUse (Some [])); fine] /\
  map (calls_of (snd r)) [0; 1] = [[0; 2]; [1]] /\
  map attempts (conns (sys (snd r))) = [[(unit_of 51, None)]; [(unit_of 49, None); (unit_of 50, None)]] /\
  100 <= length (accesses (fst r)) /\ length (at_pool (fst r)) = 15.
Proof. split; [apply chosen_moves; constructor|]. vm_compute. split; [split; reflexivity|]. split; [split; reflexivity|]. split; [reflexivity|]. split; [reflexivity|]. split; [repeat constructor|reflexivity]. Qed.

(* The servers of this run answer as the theorems on answers say. *)
Definition reqs (i : nat) : list exchange :=
  [mkx (12%N, [10; 8]%N ++ s2b "SELECT " ++ [nth i [49; 51; 50]%N 0%N]) (mkreply [] (17%N, [])) None].
Example their_servers_answer :
  let r := chosen schedule [] (begin ThmFine.caller 1 plans) in
  sends reqs (sys (snd r)) /\ Forall (serves word32 reqs) (at_pool (fst r)).
Proof.
  cbv zeta. split.
  - assert (E : units (sys (snd (chosen schedule [] (begin ThmFine.caller 1 plans)))) =
                [Some (Some 9%N, unit_of 49); Some (None, unit_of 51); Some (None, unit_of 50)]) by (vm_compute; reflexivity).
    unfold sends. rewrite E. intros i d b. destruct i as [|[|[|i]]]; cbn [nth_error]; try (intros [= _ <-]; reflexivity). destruct i; discriminate.
  - assert (E : at_pool (fst (chosen schedule [] (begin ThmFine.caller 1 plans))) =
                [CallSend (Some 9%N) (unit_of 49); CallSend None (unit_of 51); Step (Pool.Default 0); Step (Pool.Default 1); Connected 1 tcp; Connected 0 tcp;
                 Exchange 0 [ok_reply]; Step (Pool.Return 0); Exchange 1 [[1; 0]; [0; 0; 17]]%N; Step (Pool.Return 1); Step (Pool.CloseConn 1);
                 CallSend None (unit_of 50); Step (Pool.Receive 2); Exchange 2 [ok_reply]; Step (Pool.Return 2)]) by (vm_compute; reflexivity).
    rewrite E. clear E.
    assert (Ok : forall i, i < 3 -> Forall (exchange_ok word32) (reqs i)).
    { intros i Li. constructor; [|constructor]. split; [destruct i as [|[|[|]]]; [vm_compute; reflexivity..|lia]|]. split; [constructor|]. split; [cbn; tauto|].
      constructor; [vm_compute; reflexivity|constructor]. }
    repeat (apply Forall_cons; [cbn [serves]; first [exact Logic.I|reflexivity|idtac]|]); [..|apply Forall_nil];
      (split; [apply Ok; lia|exists []; reflexivity]).
Qed.
