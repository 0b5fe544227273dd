(* The builder as a sequence of accesses (FineModel.v) refines the one over slice values (Builder.v). *)
From Coq Require Import String List NArith ZArith Arith Bool Lia.
From Coq Require Import List.
From Verif Require Import Base GoSlice Varint Text Values AnyModel ExprModel MsgModel Builder SpecValue ValueProofs SpecMem Mem MemModel Fine FineModel FineProofs FineRef.
Import ListNotations.
Local Open Scope nat_scope.

Local Hint Resolve Nat.le_0_l : core.

Local Ltac open R := cbv beta in R;
  repeat match goal with
  | R : _ /\ _ |- _ => destruct R
  | R : sl2 _ _ _ |- _ => destruct R
  | R : sg _ _ _ |- _ => destruct R
  | a : (_ * _)%type |- _ => destruct a
  end; cbn [fst snd length] in *;
  repeat match goal with R : ?x = ?y |- _ => is_var x; subst x end.
Local Ltac post := cbv beta;
  let m := fresh "m" in let a := fresh "a" in let b := fresh "b" in let R := fresh "R" in
  intros m a b R; open R; cbv beta iota.
Local Ltac two := split; [assumption|split; [reflexivity|split; [try discriminate; auto|auto]]].
Local Ltac parts := cbn; repeat match goal with |- _ /\ _ => split end; try discriminate; auto.
Local Ltac then_ok := match goal with
  | e : option err |- refines _ (match ?e with Some _ => _ | None => _ end) _ _ =>
      destruct e; [apply ref_ret; two|]
  end.

Section Ref.
Context `{E : Env}.
Variables (P : ufun -> Prop).
Local Notation vusers := (value_users P).
Local Notation fusers := (fun_users P).

Lemma ref_insert_rows ncols rows : Forall (Forall vusers) rows -> forall i m p s, sg m p s ->
  refines (insert_rows ncols i rows p) (g_insert_rows ncols i rows s) m sl2.
Proof.
  induction 1 as [|row rows U _ IH]; intros i m p s S; cbn [insert_rows g_insert_rows].
  - apply ref_ret. destruct S. two.
  - destruct (_ =? _); [|apply ref_ret; destruct S; two].
    eapply ref_bind; [apply (ref_append_insert_row P); [exact U|exact S]|post]. then_ok. apply IH. split; auto.
Qed.

Lemma ref_do_insert name columns rows m p s : Forall (Forall vusers) rows -> sg m p s ->
  refines (do_insert name columns rows p) (g_do_insert name columns rows s) m sl2.
Proof.
  intros U S. unfold do_insert, g_do_insert. cbv zeta. pose proof S as [S1 L1]. rewrite (sl_len _ _ _ S1).
  eapply ref_bind; [apply ref_msg_insert; exact S|post].
  eapply ref_bind; [apply ref_insert_rows; [exact U|split; assumption]|post]. then_ok.
  apply ref_okm, ref_patch_length; [split; auto|assumption].
Qed.

Lemma ref_update_sets set : Forall (fun kv => vusers (snd kv)) set -> forall m p s, sg m p s ->
  refines (update_sets set p) (g_update_sets set s) m sl2.
Proof.
  induction 1 as [|[k v] set U _ IH]; intros m p s S; cbn [update_sets g_update_sets].
  - apply ref_ret. destruct S. two.
  - eapply ref_bind; [apply (ref_append_update_set P); [exact U|exact S]|post]. then_ok. apply IH. split; auto.
Qed.

Lemma ref_do_update name cr set m p s : opt fusers cr -> Forall (fun kv => vusers (snd kv)) set -> sg m p s ->
  refines (do_update name cr set p) (g_do_update name cr set s) m sl2.
Proof.
  intros Uc U S. unfold do_update, g_do_update. cbv zeta. pose proof S as [S1 L1]. rewrite (sl_len _ _ _ S1).
  eapply ref_bind; [apply (ref_msg_update P); [exact Uc|exact S]|post]. then_ok.
  eapply ref_bind; [apply ref_update_sets; [exact U|split; auto]|post]. then_ok.
  apply ref_okm, ref_patch_length; [split; auto|assumption].
Qed.

Lemma ref_use_outer dis lvl m p s : sl m p s ->
  refines (use_outer dis lvl) (g_use_outer dis lvl) m (fun m' _ _ => m' = m).
Proof.
  intros S. unfold use_outer, g_use_outer. destruct (nth_error dis lvl) as [[|]|]; try (eapply ref_panic; exact S).
  apply ref_ret. reflexivity.
Qed.

Lemma ref_run_iops dis ops : Forall (iop_users P) ops -> forall e m p s, sl m p s -> (e = None -> 0 <= hlen s) ->
  0 <= hlen s ->
  refines (run_iops dis ops p e) (g_run_iops dis ops s e) m sl2.
Proof.
  induction 1 as [|[row|lvl] ops U _ IH]; intros e m p s S L R; cbn [run_iops g_run_iops].
  - apply ref_ret. two.
  - destruct e; [apply IH; [exact S|discriminate|exact R]|].
    eapply ref_bind; [apply (ref_append_insert_row P); [exact U|split; auto]|post]. apply IH; assumption.
  - eapply ref_bind; [eapply ref_use_outer; exact S|]. cbv beta. intros m' a b ->. apply IH; assumption.
Qed.

Lemma ref_run_uops dis ops : Forall (uop_users P) ops -> forall e m p s, sl m p s -> (e = None -> 0 <= hlen s) ->
  0 <= hlen s ->
  refines (run_uops dis ops p e) (g_run_uops dis ops s e) m sl2.
Proof.
  induction 1 as [|[name v|lvl] ops U _ IH]; intros e m p s S L R; cbn [run_uops g_run_uops].
  - apply ref_ret. two.
  - destruct e; [apply IH; [exact S|discriminate|exact R]|].
    eapply ref_bind; [apply (ref_append_update_set P); [exact U|split; auto]|post]. apply IH; assumption.
  - eapply ref_bind; [eapply ref_use_outer; exact S|]. cbv beta. intros m' a b ->. apply IH; assumption.
Qed.

Lemma ref_do_insert_f dis name columns ops m p s : Forall (iop_users P) ops -> sg m p s ->
  refines (do_insert_f dis name columns ops p) (g_do_insert_f dis name columns ops s) m sl2.
Proof.
  intros U S. unfold do_insert_f, g_do_insert_f. cbv zeta. pose proof S as [S1 L1]. rewrite (sl_len _ _ _ S1).
  eapply ref_bind; [apply ref_msg_insert; exact S|post].
  eapply ref_bind; [apply ref_run_iops; [exact U|eassumption|auto|auto]|post].
  eapply ref_bind; [apply ref_patch; eassumption|post]. apply ref_ret. two.
Qed.

Lemma ref_do_update_f dis name cr ops m p s : opt fusers cr -> Forall (uop_users P) ops -> sg m p s ->
  refines (do_update_f dis name cr ops p) (g_do_update_f dis name cr ops s) m sl2.
Proof.
  intros Uc U S. unfold do_update_f, g_do_update_f. cbv zeta. pose proof S as [S1 L1]. rewrite (sl_len _ _ _ S1).
  eapply ref_bind; [apply (ref_msg_update P); [exact Uc|exact S]|post].
  eapply ref_bind; [apply ref_run_uops; [exact U|eassumption|assumption|assumption]|post].
  eapply ref_bind; [apply ref_patch; eassumption|post]. apply ref_ret. two.
Qed.

(* The builder that may be used: same error, and its buffer is the same slice. *)
Definition rb (m : heap) (b : builder) (hb : hbuilder) : Prop :=
  berr b = hberr hb /\ disabled b = false /\ hdisabled hb = false /\
  sl m (buf b) (hbuf hb) /\ (berr b = None -> 0 <= hlen (hbuf hb)) /\
  0 <= hlen (hbuf hb).

Lemma ref_guarded b hb f h m : rb m b hb ->
  (forall p s, sg m p s -> refines (f p) (h s) m sl2) ->
  refines (guarded b f) (g_guarded hb h) m rb.
Proof.
  intros [Eb [D [Dh [S [L K]]]]] Hf. unfold guarded, g_guarded. rewrite D, Dh, <- Eb.
  destruct (berr b) eqn:Be.
  - apply ref_ret. unfold rb. rewrite Be. parts.
  - eapply ref_bind; [apply Hf; split; auto|post]. apply ref_ret. unfold rb; parts.
Qed.

Lemma ref_exec_call dis c b hb m : call_users P c -> rb m b hb ->
  refines (exec_call dis c b) (g_exec_call dis c hb) m rb.
Proof.
  intros U R. apply ref_guarded; [exact R|]. intros p s S. destruct c; cbn [call_users] in U.
  - apply (ref_stmt_execute P); assumption.
  - apply ref_okm, ref_msg_prepare; assumption.
  - apply (ref_msg_execute P); assumption.
  - apply ref_okm, ref_msg_deallocate; assumption.
  - apply ref_do_insert; assumption.
  - apply ref_do_insert_f; assumption.
  - destruct U. apply ref_do_update; assumption.
  - destruct U. apply ref_do_update_f; assumption.
  - apply (ref_msg_delete P); assumption.
Qed.

Lemma ref_b_stmt_execute stmt b hb m : rb m b hb ->
  refines (b_stmt_execute stmt [] b) (g_b_stmt_execute stmt [] hb) m rb.
Proof. intros R. apply ref_guarded; [exact R|]. intros p s S. apply (ref_stmt_execute P); [constructor|exact S]. Qed.

Definition rb_with {A} (P : A -> Prop) (m : heap) (a : builder * A) (b : hbuilder * A) : Prop :=
  rb m (fst a) (fst b) /\ snd a = snd b /\ P (snd a).

Lemma ref_b_insert_row name columns row b hb m : Forall vusers row -> rb m b hb ->
  refines (b_insert_row name columns row b) (g_b_insert_row name columns row hb) m (rb_with (opt fusers)).
Proof.
  intros U R. pose proof R as [Eb [D [Dh [S [L K]]]]]. unfold b_insert_row, g_b_insert_row. rewrite D, Dh, <- Eb.
  destruct (berr b) eqn:Be.
  - apply ref_ret. split; [exact R|]. cbn. auto.
  - cbv zeta. rewrite (sl_len _ _ _ S).
    eapply ref_bind; [apply ref_msg_insert; split; auto|post].
    eapply ref_bind; [apply (ref_append_insert_row P); [exact U|split; assumption]|post].
    destruct o; [apply ref_ret; unfold rb_with, rb; parts|].
    eapply ref_bind; [apply ref_patch_length; [split; [eassumption|auto]|auto]|post].
    unfold insert_id, h_insert_id. match goal with S : FineProofs.sl _ ?p ?s |- context [len ?p] => rewrite (sl_len _ _ _ S) end.
    eapply ref_bind; [apply ref_b_stmt_execute; unfold rb; parts|]. cbv beta. intros m9 b9 h9 R9.
    apply ref_ret. split; [exact R9|]. cbn. auto.
Qed.

Lemma ref_tx_begin lvl b hb m : rb m b hb ->
  refines (tx_begin lvl b) (g_tx_begin lvl hb) m (rb_with (fun _ => True)).
Proof.
  intros R. unfold tx_begin, g_tx_begin. cbv zeta.
  assert (St : forall s b hb m, rb m b hb -> refines (do b <- b_stmt_execute s [] b; Ok (b, true))
     (let! b := g_b_stmt_execute s [] hb in Return (b, true)) m (rb_with (fun _ => True))).
  { intros s b' hb' m' R'. eapply ref_bind; [apply ref_b_stmt_execute; exact R'|]. cbv beta. intros m2 a2 b2 R2.
    apply ref_ret. split; cbn; auto. }
  assert (Se : forall s s2, refines (do b <- b_stmt_execute s [] b; do b <- b_stmt_execute s2 [] b; Ok (b, true))
     (let! b := g_b_stmt_execute s [] hb in let! b := g_b_stmt_execute s2 [] b in Return (b, true)) m (rb_with (fun _ => True))).
  { intros s s2. eapply ref_bind; [apply ref_b_stmt_execute; exact R|]. cbv beta. intros m2 a2 b2 R2. apply St; exact R2. }
  destruct lvl as [|[[[?|?|]|[?|?|]|]|[[?|?|]|[?|?|]|]|]];
    lazymatch goal with
    | |- FineProofs.refines (bind _ (fun _ => Ok _)) _ _ _ => apply St; exact R
    | |- FineProofs.refines (bind _ _) _ _ _ => apply Se
    | |- _ => apply ref_ret; destruct R as [? [? [? [? [? ?]]]]]; unfold rb_with, rb; parts
    end.
Qed.

Lemma ref_block_begin k b hb m : rb m b hb ->
  refines (block_begin k b) (g_block_begin k hb) m (rb_with (fun _ => True)).
Proof.
  intros R. pose proof R as [Eb [D [Dh [S [L K]]]]]. unfold block_begin, g_block_begin. rewrite D, Dh, <- Eb.
  destruct (berr b) eqn:Be.
  - apply ref_ret. split; [exact R|]. cbn. auto.
  - destruct k; [apply ref_tx_begin; exact R|].
    eapply ref_bind; [apply ref_expect_open; split; auto|post]. apply ref_ret. unfold rb_with, rb; parts.
Qed.

Lemma ref_block_end k b hb m : rb m b hb -> refines (block_end k b) (g_block_end k hb) m rb.
Proof.
  intros R. destruct k; [apply ref_b_stmt_execute; exact R|].
  pose proof R as [Eb [D [Dh [S [L K]]]]]. unfold block_end, g_block_end, expect_close, g_expect_close.
  eapply (ref_pure (append (buf b) _)); [apply ref_append; [exact S|lia]|].
  cbv beta. intros m' s' [S' L']. apply ref_ret. unfold rb; cbn [berr disabled buf hberr hdisabled hbuf]. auto 10.
Qed.

(* The builders in scope: the innermost may be used, the others may not and are of the same number. *)
Definition rst (m : heap) (st : list builder) (hst : list hbuilder) : Prop :=
  exists b outer hb houter, st = b :: outer /\ hst = hb :: houter /\ rb m b hb /\
    Forall (fun b => disabled b = true) outer /\ Forall (fun b => hdisabled b = true) houter /\ length outer = length houter.

Definition rst_with {A} (P : A -> Prop) (m : heap) (a : list builder * A) (b : list hbuilder * A) : Prop :=
  rst m (fst a) (fst b) /\ snd a = snd b /\ P (snd a).

Lemma flags_equal outer houter : Forall (fun b => disabled b = true) outer -> Forall (fun b => hdisabled b = true) houter ->
  length outer = length houter -> map disabled outer = map hdisabled houter.
Proof.
  intros F. revert houter. induction F as [|b l D _ IH]; intros [|hb hl] Fh L; try discriminate; [reflexivity|].
  inversion Fh; subst. cbn [map]. rewrite D, H1. f_equal. apply IH; auto.
Qed.

(* The builder a call is made on: the innermost one, or the call panics in both. *)
Lemma rst_nth m st hst lvl : rst m st hst ->
  (exists b outer hb houter, lvl = 0 /\ st = b :: outer /\ hst = hb :: houter /\ rb m b hb /\
    Forall (fun b => disabled b = true) outer /\ Forall (fun b => hdisabled b = true) houter /\ length outer = length houter) \/
  (nth_error st lvl = None /\ nth_error hst lvl = None) \/
  (exists b hb, nth_error st lvl = Some b /\ nth_error hst lvl = Some hb /\ disabled b = true /\ hdisabled hb = true).
Proof.
  intros [b [outer [hb [houter [-> [-> [R [F [Fh L]]]]]]]]]. destruct lvl as [|lvl].
  - left. exists b, outer, hb, houter. repeat (split; [auto; fail|]). auto.
  - right. cbn [nth_error]. destruct (nth_error outer lvl) as [x|] eqn:Ex, (nth_error houter lvl) as [y|] eqn:Ey.
    + right. exists x, y. apply nth_error_In in Ex, Ey. rewrite Forall_forall in F, Fh. auto.
    + apply nth_error_None in Ey. assert (lvl < length outer) by (apply nth_error_Some; congruence). lia.
    + apply nth_error_None in Ex. assert (lvl < length houter) by (apply nth_error_Some; congruence). lia.
    + left. auto.
Qed.

Lemma ref_run pr : prog_users P pr -> forall m st hst, rst m st hst ->
  refines (run pr st) (g_run pr hst) m (fun m' a b => rst_with (Forall (opt fusers)) m' a b /\ length (fst a) = length st).
Proof.
  induction pr as [e out|lvl c next IH|lvl name columns row next IH|lvl k body IHb next IH];
    cbn [prog_users]; intros U m st hst R; cbn [run g_run].
  - apply ref_ret. split; [split; cbn; auto|reflexivity].
  - destruct U as [Uc Un].
    destruct (rst_nth m st hst lvl R) as [[b [o [hb [ho [-> [-> [-> [Rb [F [Fh L]]]]]]]]]]|[[E1 E2]|[b [hb [E1 [E2 [D Dh]]]]]]].
    + cbn [nth_error map set_nth]. rewrite (flags_equal o ho F Fh L).
      eapply ref_bind; [apply ref_exec_call; [exact Uc|exact Rb]|]. cbv beta. intros m' b' hb' R'.
      apply (IH Un m' (b' :: o)). exists b', o, hb', ho. auto 10.
    + rewrite E1, E2. exact I.
    + rewrite E1, E2. unfold exec_call, g_exec_call, guarded, g_guarded. rewrite D, Dh. exact I.
  - destruct U as [Ur Un].
    destruct (rst_nth m st hst lvl R) as [[b [o [hb [ho [-> [-> [-> [Rb [F [Fh L]]]]]]]]]]|[[E1 E2]|[b [hb [E1 [E2 [D Dh]]]]]]].
    + cbn [nth_error set_nth].
      eapply ref_bind; [apply ref_b_insert_row; [exact Ur|exact Rb]|]. cbv beta. intros m' [b' f] [hb' f'] [R' [Ef Uf]]. cbn [fst snd] in *. subst f'.
      apply (IH f (Un f Uf) m' (b' :: o)). exists b', o, hb', ho. auto 10.
    + rewrite E1, E2. exact I.
    + rewrite E1, E2. unfold b_insert_row, g_b_insert_row. rewrite D, Dh. exact I.
  - destruct U as [Ub Un].
    destruct (rst_nth m st hst lvl R) as [[b [o [hb [ho [-> [-> [-> [Rb [F [Fh L]]]]]]]]]]|[[E1 E2]|[b [hb [E1 [E2 [D Dh]]]]]]].
    + cbn [nth_error set_nth].
      eapply ref_bind; [apply ref_block_begin; exact Rb|]. cbv beta. intros m1 [b1 e] [hb1 e'] [R1 [Ee _]]. cbn [fst snd] in *. subst e'.
      destruct e; [|apply (IH [] (Un [] (Forall_nil _)) m1 (b1 :: o)); exists b1, o, hb1, ho; auto 10].
      cbv zeta. eapply ref_bind; [apply IHb; [exact Ub|]|].
      * destruct R1 as [Eb [D [Dh [S [Lb K]]]]]. eexists _, _, _, _. split; [reflexivity|]. split; [reflexivity|].
        split; [unfold rb; parts|]. repeat (split; [constructor; auto|]). cbn [length]. congruence.
      * cbv beta. intros m2 [st2 out] [hst2 out'] [[R2 [Eo Uo]] Ln]. cbn [fst snd] in *. subst out'.
        destruct R2 as [c [o2 [hc [ho2 [-> [-> [Rc [F2 [Fh2 L2]]]]]]]]].
        eapply ref_bind; [apply ref_block_end; destruct Rc as [Eb [D [Dh [S [Lb K]]]]]; unfold rb; parts|].
        cbv beta. intros m3 b3 hb3 R3. 
        cbn [length] in Ln. destruct o2 as [|x o3]; [discriminate|]. destruct ho2 as [|hx ho3]; [discriminate|]. cbn [length set_nth] in *.
        eapply ref_weaken; [apply (IH out (Un out Uo) m3 (b3 :: o3)); exists b3, o3, hb3, ho3|].
        -- inversion F2; inversion Fh2; subst. injection L2 as L2. auto 10.
        -- cbv beta. cbn [length]. intros m4 a4 h4 [R4 L4]. split; [exact R4|lia].
    + rewrite E1, E2. exact I.
    + rewrite E1, E2. unfold block_begin, g_block_begin. rewrite D, Dh. exact I.
Qed.

End Ref.
