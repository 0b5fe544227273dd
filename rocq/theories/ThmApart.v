(* C114: an error reaches no further than the expectation blocks it happens in. *)
From Coq Require Import String List NArith ZArith Arith Bool Lia.
From Coq Require Import List.
From Verif Require Import Base GoSlice SpecWire SpecMsg SpecValue MsgModel Builder SpecProg SpecUnit Conn SpecReply SpecServer SpecApart.
From Verif Require Pool SpecPool System SpecSystem ShapeProofs ThmSystem ThmTx ThmPrepared ThmLedger ThmLevel.
From Verif Require Import ThmServer.
Import ListNotations.
Open Scope list_scope.

Lemma erred_app b t : erred b -> erred (b ++ [t]).
Proof. intros [m H]. exists m. apply in_or_app. left. exact H. Qed.
Lemma erred_now b m : erred (b ++ [(m, Failed)]).
Proof. exists m. apply in_or_app. right. left. reflexivity. Qed.
Lemma some_erred_app bs t : Exists erred bs -> Exists erred (map (fun b => b ++ [t]) bs).
Proof. induction 1 as [b bs H|b bs _ IH]; cbn [map]; [left; apply erred_app; exact H|right; exact IH]. Qed.
Lemma not_erred_app b m o : o <> Failed -> erred (b ++ [(m, o)]) -> erred b.
Proof. intros N [m' H]. apply in_app_or in H as [H|[H|[]]]; [exists m'; exact H|congruence]. Qed.
Lemma not_some_erred bs m o : o <> Failed -> Exists erred (map (fun b => b ++ [(m, o)]) bs) -> Exists erred bs.
Proof.
  intros N. induction bs as [|b bs IH]; cbn [map]; intros H; inversion_clear H as [? ? A|? ? A]; [left; exact (not_erred_app b m o N A)|right; exact (IH A)].
Qed.

(* The server's blocks against what happened. *)
Inductive accounted : list eblock -> list (list event) -> Prop :=
| A_nil : accounted [] []
| A_cons b st e es : accounted st es -> (has_failed b = true -> Exists erred (e :: es)) -> accounted (b :: st) (e :: es).
Lemma accounted_app st es t : accounted st es -> accounted st (map (fun b => b ++ [t]) es).
Proof. induction 1 as [|b st e es _ IH H]; cbn [map]; constructor; [exact IH|]. intros F. exact (some_erred_app (e :: es) t (H F)). Qed.
Lemma accounted_fail st es m : accounted st es -> accounted (fail_top st) (map (fun b => b ++ [(m, Failed)]) es).
Proof. intros H. inversion H as [|b st' e es' H1 H2]; subst; [constructor|]. cbn [fail_top map]. constructor; [apply accounted_app; exact H1|]. intros _. left. apply erred_now. Qed.
Lemma accounted_rejecting st es : accounted st es -> rejecting st = true -> Exists erred es.
Proof. intros H R. destruct H as [|b st e es _ H]; [discriminate R|]. exact (H R). Qed.

Lemma ordinary_step es m o : ordinary m -> open_step es (m, o) = map (fun b => b ++ [(m, o)]) es.
Proof. unfold open_step. cbn [fst]. destruct m; cbn; (reflexivity || contradiction). Qed.
Lemma skipped_in p st ms tr : serve p st ms tr -> forall es, accounted st es -> forall tr1 m tr2, tr = tr1 ++ (m, Skipped) :: tr2 -> Exists erred (fold_left open_step tr1 es).
Proof.
  induction 1 as [st|st m0 ms tr Ho R H IH|st m0 ms tr Ho R H IH|st m0 ms tr Ho R H IH|st op cs ms tr R H IH|st op cs ms tr R H IH|st op cs ms tr R H IH|b st ms tr R H IH|b st ms tr R H IH|ms tr H IH];
    intros es Ha tr1 m tr2 E; (destruct tr1 as [|t tr1]; [try discriminate E|]); cbn [app] in E; try discriminate E; try (injection E as <- E; cbn [fold_left]; eapply IH; [|exact E]).
  - exact (accounted_rejecting _ _ Ha R).
  - rewrite (ordinary_step _ _ _ Ho). apply accounted_app. exact Ha.
  - rewrite (ordinary_step _ _ _ Ho). apply accounted_app. exact Ha.
  - rewrite (ordinary_step _ _ _ Ho). apply accounted_fail. exact Ha.
  - cbn [open_step fst]. constructor; [apply accounted_app; exact Ha|]. discriminate.
  - cbn [open_step fst]. constructor; [apply accounted_app; exact Ha|]. intros _. left. exists (MExpectOpen op cs). left. reflexivity.
  - exact (accounted_rejecting _ _ Ha R).
  - cbn [open_step fst]. constructor; [apply accounted_app; exact Ha|]. intros _. right. apply some_erred_app. exact (accounted_rejecting _ _ Ha R).
  - cbn [open_step fst]. inversion Ha; subst. cbn [tl]. apply accounted_app. assumption.
  - cbn [open_step fst]. inversion Ha; subst. cbn [tl]. destruct p; [apply accounted_fail|apply accounted_app]; assumption.
  - cbn [open_step fst]. inversion Ha; subst. constructor.
Qed.

(* If Close's error counts, and all blocks ask for "no error": the innermost block is rejecting exactly if an error happened in one of them. *)
Inductive nested : list eblock -> Prop :=
| N_nil : nested []
| N_cons b st : no_error b = true -> nested st -> (rejecting st = true -> has_failed b = true) -> nested (b :: st).
Definition failing (st : list eblock) (es : list (list event)) : Prop := nested st /\ length st = length es /\ (rejecting st = true <-> Exists erred es).
Lemma failing_ok st es m o : o <> Failed -> failing st es -> failing st (map (fun b => b ++ [(m, o)]) es).
Proof.
  intros N (A & B & C). split; [exact A|]. split; [rewrite map_length; exact B|]. rewrite C. split; [apply some_erred_app|apply not_some_erred; exact N].
Qed.
Lemma failing_top st es m : nested st -> length st = length es -> failing (fail_top st) (map (fun b => b ++ [(m, Failed)]) es).
Proof.
  intros A B. destruct A as [|b st Hn A Hm]; (destruct es as [|e es]; try discriminate B); [split; [constructor|]; split; [reflexivity|]; split; [discriminate|intros X; inversion X]|].
  cbn [fail_top map]. rewrite Hn, orb_true_r. split; [constructor; [reflexivity|exact A|reflexivity]|]. split; [cbn; rewrite map_length; cbn in B; exact B|]. split; [intros _; left; apply erred_now|reflexivity].
Qed.
Lemma failing_pop b st e es m o : failing (b :: st) (e :: es) -> has_failed b = false -> o <> Failed -> failing st (map (fun b => b ++ [(m, o)]) es).
Proof.
  intros (A & B & C) F N. inversion_clear A as [|? ? Hn A' Hm]. cbn in B. assert (R : rejecting st = false) by (destruct (rejecting st); [specialize (Hm eq_refl); congruence|reflexivity]).
  apply failing_ok; [exact N|]. split; [exact A'|]. split; [lia|]. rewrite R. split; [discriminate|]. intros X. exfalso. cbn [rejecting] in C. rewrite F in C. assert (false = true) by (apply C; right; exact X). discriminate.
Qed.

Definition asking (m : msg) : Prop := match m with MExpectOpen _ cs => existsb asks_no_error cs = true | _ => True end.
Lemma strict_asking ms : strict ms -> Forall asking ms.
Proof.
  induction 1 as [|m ms Ho _ IH|op body ms _ IHb _ IH]; [constructor| |].
  - constructor; [|exact IH]. destruct m; (exact Logic.I || destruct Ho).
  - constructor; [reflexivity|]. apply Forall_app. split; [exact IHb|]. constructor; [exact Logic.I|exact IH].
Qed.
Lemma skipped_exactly st ms tr : serve true st ms tr -> Forall asking ms -> forall es, failing st es -> forall tr1 m o tr2, tr = tr1 ++ (m, o) :: tr2 -> ordinary m ->
  (o = Skipped <-> Exists erred (fold_left open_step tr1 es)).
Proof.
  intros H. remember true as p eqn:Hp. revert Hp. induction H as [st|st m0 ms tr Ho R H IH|st m0 ms tr Ho R H IH|st m0 ms tr Ho R H IH|st op cs ms tr R H IH|st op cs ms tr R H IH|st op cs ms tr R H IH|b st ms tr R H IH|b st ms tr R H IH|ms tr H IH];
    intros -> Hk es Hf tr1 m o tr2 E Hm; (destruct tr1 as [|t tr1]; [try discriminate E|]); cbn [app] in E; try discriminate E;
    try (injection E as <- E; cbn [fold_left]; inversion Hk as [|? ? Hk1 Hk2]; subst; eapply (IH eq_refl Hk2); [|reflexivity|exact Hm]);
    try (injection E as -> <- <-; cbn [fold_left]; destruct Hf as (_ & _ & <-); rewrite R; split; (discriminate || reflexivity)); try (injection E as <- <- <-; destruct Hm).
  - rewrite (ordinary_step _ _ _ Ho). apply failing_ok; [discriminate|exact Hf].
  - rewrite (ordinary_step _ _ _ Ho). apply failing_ok; [discriminate|exact Hf].
  - rewrite (ordinary_step _ _ _ Ho). destruct Hf as (A & B & _). apply failing_top; assumption.
  - destruct Hf as (A & B & C). cbn [open_step fst]. cbn [asking] in Hk1. unfold opened. rewrite Hk1, orb_true_r. split; [constructor; [reflexivity|exact A|congruence]|]. split; [cbn; rewrite map_length; lia|].
    split; [discriminate|]. intros X. exfalso. inversion_clear X as [? ? Y|? ? Y]; [destruct Y as [m' Y]; cbn in Y; destruct Y as [Y|[]]; discriminate Y|]. apply not_some_erred in Y; [|discriminate]. apply C in Y. congruence.
  - destruct Hf as (A & B & C). cbn [open_step fst]. cbn [asking] in Hk1. unfold opened. rewrite Hk1, orb_true_r. split; [constructor; [reflexivity|exact A|reflexivity]|]. split; [cbn; rewrite map_length; lia|].
    split; [intros _; left; exists (MExpectOpen op cs); left; reflexivity|reflexivity].
  - destruct Hf as (A & B & C). cbn [open_step fst]. cbn [asking] in Hk1. unfold opened. rewrite Hk1, orb_true_r. split; [constructor; [reflexivity|exact A|reflexivity]|]. split; [cbn; rewrite map_length; lia|].
    split; [intros _; right; apply some_erred_app; apply C; exact R|reflexivity].
  - cbn [open_step fst]. destruct es as [|e es]; [destruct Hf as (_ & B & _); discriminate B|]. cbn [tl]. eapply failing_pop; [exact Hf|exact R|discriminate].
  - cbn [open_step fst]. destruct es as [|e es]; [destruct Hf as (_ & B & _); discriminate B|]. cbn [tl]. destruct Hf as (A & B & _). inversion_clear A. apply failing_top; [assumption|]. injection B as B. exact B.
  - cbn [open_step fst]. destruct Hf as (_ & B & _). destruct es; [|discriminate B]. split; [constructor|]. split; [reflexivity|]. split; [discriminate|intros X; inversion X].
Qed.

(* The blocks a server has open after these events. *)
Definition after1 (p : bool) (st : list eblock) (t : event) : list eblock :=
  match t with
  | (MExpectOpen op cs, o) => mkblock (opened op cs st) (match o with Executed => false | _ => true end) :: st
  | (MExpectClose, Executed) => tl st
  | (MExpectClose, _) => match st with [] => [] | _ :: st => if p then fail_top st else st end
  | (_, Failed) => fail_top st
  | _ => st
  end.
Lemma after_ordinary p st m o : ordinary m -> after1 p st (m, o) = match o with Failed => fail_top st | _ => st end.
Proof. destruct m; cbn; try contradiction; reflexivity. Qed.
Lemma serve_join p st ms t : serve p st ms t -> forall rest tr, serve p (fold_left (after1 p) t st) rest tr -> serve p st (ms ++ rest) (t ++ tr).
Proof.
  induction 1 as [st|st m0 ms tr Ho R H IH|st m0 ms tr Ho R H IH|st m0 ms tr Ho R H IH|st op cs ms tr R H IH|st op cs ms tr R H IH|st op cs ms tr R H IH|b st ms tr R H IH|b st ms tr R H IH|ms tr H IH];
    intros rest tr0 K; cbn [fold_left] in K; rewrite ?(after_ordinary _ _ _ _ ltac:(eassumption)) in K; cbn [app]; [exact K|..];
    [apply S_skip|apply S_exec|apply S_fail|apply S_open|apply S_open_fail|apply S_open_skip|apply S_close|apply S_close_failed|apply S_close_none]; try assumption; apply IH; exact K.
Qed.
Lemma after_length p ms : strict ms -> forall t st, map fst t = ms -> length (fold_left (after1 p) t st) = length st.
Proof.
  induction 1 as [|m ms Ho _ IH|op body ms _ IHb _ IH]; intros t st E.
  - destruct t; [reflexivity|discriminate E].
  - destruct t as [|[m' o] t]; [discriminate E|]. cbn in E. injection E as -> E. cbn [fold_left]. rewrite (IH t _ E), (after_ordinary _ _ _ _ Ho). destruct o; rewrite ?ThmPrepared.fail_top_length; reflexivity.
  - destruct t as [|[m' o] t]; [discriminate E|]. cbn in E. injection E as -> E. destruct (map_eq_app _ _ _ _ E) as (t1 & t2 & -> & E1 & E2). destruct t2 as [|[m2 o2] t2]; [discriminate E2|]. cbn in E2. injection E2 as -> E2.
    cbn [fold_left]. rewrite fold_left_app. cbn [fold_left]. rewrite (IH t2 _ E2). pose proof (IHb t1 (after1 p st (MExpectOpen op [no_error_1], o)) E1) as L. cbn [after1 length] in L |- *.
    destruct (fold_left (after1 p) t1 (_ :: st)) as [|b st']; [discriminate L|]. injection L as L. destruct o2; cbn [after1 tl]; [exact L|destruct p; rewrite ?ThmPrepared.fail_top_length; exact L..].
Qed.

(* ---- C114 ---- *)

Lemma strict_apart : forall mss, Forall strict mss -> forall p tr, serve p [] (concat mss) tr <-> exists trs, tr = concat trs /\ Forall2 (serve p []) mss trs.
Proof.
  intros mss M2 p tr. split.
  - revert tr. induction M2 as [|ms mss Hs _ IH]; intros tr H; cbn [concat] in H; [inversion H; subst; exists []; split; [reflexivity|constructor]|].
    destruct (ThmPrepared.serve_balanced p ms Hs _ _ _ H) as (t & tr' & st' & -> & M & S1 & L). destruct st'; [|discriminate L]. destruct (IH tr' S1) as (trs & -> & F). exists (t :: trs). split; [reflexivity|]. constructor; [eapply ThmLedger.serve_first; eassumption|exact F].
  - intros (trs & -> & F). revert trs F. induction M2 as [|ms mss Hs _ IH]; intros trs F; inversion F as [|? t ? trs' S1 F']; subst; cbn [concat]; [constructor|]. specialize (IH trs' F').
    eapply serve_join; [exact S1|]. pose proof (after_length p ms Hs t [] (serve_msgs _ _ _ _ S1)) as L. destruct (fold_left (after1 p) t []); [exact IH|discriminate L].
Qed.

(* What one unit of work leads to and what the others do are independent: the servers' ways to treat them all are the ways to treat each. *)
Theorem C114_units_apart : forall (E : Env) (us : list (builder * prog * bytes)),
  Forall (fun u => let '(b, pr, bs) := u in empty b /\ prog_ok word32 pr /\ delivers b pr bs /\ (nlen bs < 2 ^ 32)%N) us ->
  exists mss, Forall2 (fun u ms => let '(b, pr, bs) := u in dstream bs = Some ms) us mss /\
    forall propagates tr, serve propagates [] (concat mss) tr <-> exists trs, tr = concat trs /\ Forall2 (serve propagates []) mss trs.
Proof.
  intros E us H. assert (G : exists mss, Forall2 (fun u ms => let '(b, pr, bs) := u in dstream bs = Some ms) us mss /\ Forall strict mss).
  { induction H as [|[[b pr] bs] us (He & Hok & Hd & Hl) _ (mss & M1 & M2)]; [exists []; split; constructor|]. destruct (ThmBuilder.C08_sent_is_what_was_written E b pr bs He Hok Hd Hl) as (ms & ids & out & Hm & Hp).
    exists (ms :: mss). split; constructor; [exact Hm|exact M1|exact (prog_strict _ _ _ _ Hp)|exact M2]. }
  destruct G as (mss & M1 & M2). exists mss. split; [exact M1|]. exact (strict_apart mss M2).
Qed.

(* A message of a unit is skipped only if an error has happened in a block around it that is still open: one of the unit's own blocks. *)
Theorem C114_skipped_only_for_an_error_in_its_blocks : forall (E : Env) b pr bs, empty b -> prog_ok word32 pr -> delivers b pr bs -> (nlen bs < 2 ^ 32)%N ->
  exists ms, dstream bs = Some ms /\ forall propagates tr tr1 m tr2, serve propagates [] ms tr -> tr = tr1 ++ (m, Skipped) :: tr2 -> Exists erred (open_blocks tr1).
Proof.
  intros E b pr bs He Hok Hd Hl. destruct (ThmBuilder.C08_sent_is_what_was_written E b pr bs He Hok Hd Hl) as (ms & ids & out & Hm & Hp). exists ms. split; [exact Hm|].
  intros p tr tr1 m tr2 H Et. exact (skipped_in p [] ms tr H [] A_nil tr1 m tr2 Et).
Qed.
(* A server for which the error of a block's Close is one like others skips all of those. *)
Theorem C114_skipped_exactly_for_those : forall (E : Env) b pr bs, empty b -> prog_ok word32 pr -> delivers b pr bs -> (nlen bs < 2 ^ 32)%N ->
  exists ms, dstream bs = Some ms /\ forall tr tr1 m o tr2, serve true [] ms tr -> tr = tr1 ++ (m, o) :: tr2 -> ordinary m -> (o = Skipped <-> Exists erred (open_blocks tr1)).
Proof.
  intros E b pr bs He Hok Hd Hl. destruct (ThmBuilder.C08_sent_is_what_was_written E b pr bs He Hok Hd Hl) as (ms & ids & out & Hm & Hp). exists ms. split; [exact Hm|].
  intros tr tr1 m o tr2 H Et Ho. refine (skipped_exactly [] ms tr H (strict_asking _ (prog_strict _ _ _ _ Hp)) [] _ tr1 m o tr2 Et Ho). split; [constructor|]. split; [reflexivity|]. split; [discriminate|intros X; inversion X].
Qed.
(* The same for the units on a connection of a pool, whoever sent them: what is skipped is skipped for an error in the same unit. *)
Theorem C114_pooled : forall (E : Env) n acts s said k c c0,
  System.run word32 acts (System.new_system n) = Some s -> SpecSystem.sends said s -> Forall (SpecSystem.serves word32 said) acts ->
  (forall i u, SpecSystem.unit_is s i u -> exists b pr, empty b /\ prog_ok word32 pr /\ delivers b pr u /\ (nlen u < 2 ^ 32)%N) ->
  nth_error (System.conns s) k = Some c -> nth_error (System.started s) k = Some c0 ->
  exists us last mss, SpecSystem.attempts c = SpecSystem.attempts c0 ++ map (fun u => (u, None)) us ++ last /\ (length last <= 1)%nat /\
    Forall2 (SpecSystem.unit_is s) (SpecSystem.users k (SpecPool.history (System.pool s))) us /\ Forall2 (fun u ms => dstream u = Some ms) us mss /\
    forall propagates tr, serve propagates [] (concat mss) tr -> exists trs, tr = concat trs /\ Forall2 (serve propagates []) mss trs /\
      Forall (fun t => forall tr1 m tr2, t = tr1 ++ (m, Skipped) :: tr2 -> Exists erred (open_blocks tr1)) trs.
Proof.
  intros E n acts s said k c c0 R S1 S2 Hu Hk Hk0. destruct (ThmSystem.C62_units_whole_and_in_order word32 n acts s said k c c0 R S1 S2 Hk Hk0) as (us & l & A & B & C).
  assert (G : exists bs, map snd bs = us /\ Forall (fun u => let '(b, pr, bs) := u in empty b /\ prog_ok word32 pr /\ delivers b pr bs /\ (nlen bs < 2 ^ 32)%N) bs).
  { clear - B Hu. induction B as [|i u is us Hi _ (bs & <- & F)]; [exists []; split; [reflexivity|constructor]|]. destruct (Hu i u Hi) as (b & pr & He). exists ((b, pr, u) :: bs). split; [reflexivity|]. constructor; assumption. }
  destruct G as (bs & Eb & Fb). destruct (C114_units_apart E bs Fb) as (mss & M1 & M2). exists us, l, mss. split; [exact A|]. split; [destruct C as [->|(i & b & o & -> & _)]; cbn; lia|]. split; [exact B|]. split.
  { rewrite <- Eb. clear - M1. induction M1 as [|[[b pr] u] ms bs mss H _ IH]; cbn; constructor; assumption. }
  intros p tr H. destruct (proj1 (M2 p tr) H) as (trs & -> & F). exists trs. split; [reflexivity|]. split; [exact F|]. clear - F. induction F as [|ms t mss trs H _ IH]; constructor; [|exact IH].
  intros tr1 m tr2 Et. exact (skipped_in p [] ms t H [] A_nil tr1 m tr2 Et).
Qed.

(* The hypotheses are met: by two units on one connection, the first of which fails. *)
Example apart_meets : exists trs, serve true [] (map fst (ThmTx.trace_a ++ ThmTx.trace_b)) (concat trs) /\ trs = [ThmTx.trace_a; ThmTx.trace_b] /\
  Exists erred (open_blocks (firstn 4 ThmTx.trace_a)) /\ nth_error ThmTx.trace_a 4 = Some (commit, Skipped) /\ open_blocks ThmTx.trace_a = [] /\ Forall executed ThmTx.trace_b.
Proof.
  exists [ThmTx.trace_a; ThmTx.trace_b]. cbn [concat]. split; [|split; [reflexivity|]].
  - rewrite app_nil_r, map_app. unfold ThmTx.trace_a, ThmTx.trace_b. cbn [app map fst]. apply S_open; [reflexivity|]. apply S_exec; [exact Logic.I|reflexivity|]. apply S_exec; [exact Logic.I|reflexivity|]. apply S_fail; [exact Logic.I|reflexivity|]. apply S_skip; [exact Logic.I|reflexivity|]. apply S_close_failed; [reflexivity|].
    apply S_open; [reflexivity|]. repeat (apply S_exec; [exact Logic.I|reflexivity|]). apply S_close; [reflexivity|]. constructor.
  - split; [left; exists (ThmTx.insert_of "(2)"); right; right; right; left; reflexivity|]. split; [reflexivity|]. split; [reflexivity|]. repeat constructor.
Qed.
Print Assumptions C114_units_apart.
Print Assumptions C114_skipped_only_for_an_error_in_its_blocks.
Print Assumptions C114_skipped_exactly_for_those.
Print Assumptions C114_pooled.
