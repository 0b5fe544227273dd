(* The builder over memory (MemModel.v) refines the one over slice values (Builder.v). *)
From Coq Require Import String List NArith ZArith Arith Bool Lia.
From Coq Require Import List.
From Verif Require Import Base GoSlice Varint Text Values AnyModel ExprModel MsgModel Builder SpecValue ValueProofs SpecMem Mem MemModel MemProofs MemRef.
Import ListNotations.
Local Open Scope nat_scope.

Local Ltac open R := cbv beta in R;
  repeat match goal with
  | R : _ /\ _ |- _ => destruct R
  | R : sl2 _ _ _ _ _ _ |- _ => destruct R
  | R : sg _ _ _ _ _ _ |- _ => destruct R
  | a : (_ * _)%type |- _ => destruct a
  end; cbn [fst snd length] in *;
  repeat match goal with R : ?x = ?y |- _ => is_var x; subst x end.
Local Ltac post := cbv beta;
  let m := fresh "m" in let a := fresh "a" in let b := fresh "b" in let R := fresh "R" in
  intros m a b R; open R; cbv beta iota.
Local Ltac two := split; [assumption|split; [reflexivity|split; [try discriminate; auto|auto]]].
Local Ltac parts := cbn; repeat match goal with |- _ /\ _ => split end; try discriminate; auto.
Local Ltac then_ok := match goal with
  | e : option err |- refines _ _ _ _ ((match ?e with Some _ => _ | None => _ end) _) _ =>
      destruct e; [apply ref_ret; two|]
  end.

Section Ref.
Context `{E : Env}.
Variables (m0 : mem) (s0 : hslice) (lo : nat) (P : ufun -> Prop).
Hypothesis Plow : forall u, P u -> low lo u.
Local Notation sl := (sl m0 s0 lo).
Local Notation sg := (sg m0 s0 lo).
Local Notation sl2 := (sl2 m0 s0 lo).
Local Notation refines := (refines m0 s0 lo).
Local Notation vusers := (value_users P).
Local Notation fusers := (fun_users P).

Lemma ref_insert_rows ncols rows : Forall (Forall vusers) rows -> forall i m p s, sg m p s ->
  refines (insert_rows ncols i rows p) (h_insert_rows ncols i rows s m) sl2.
Proof.
  induction 1 as [|row rows U _ IH]; intros i m p s S; cbn [insert_rows h_insert_rows].
  - apply ref_ret. destruct S. two.
  - destruct (_ =? _); [|apply ref_ret; destruct S; two].
    eapply ref_bind; [apply (ref_append_insert_row m0 s0 lo P Plow); [exact U|exact S]|post]. then_ok. apply IH. split; auto.
Qed.

Lemma ref_do_insert name columns rows m p s : Forall (Forall vusers) rows -> sg m p s ->
  refines (do_insert name columns rows p) (h_do_insert name columns rows s m) sl2.
Proof.
  intros U S. unfold do_insert, h_do_insert. cbv zeta. pose proof S as [S1 L1]. rewrite (sl_len _ _ _ _ _ _ S1).
  eapply ref_bind; [apply ref_msg_insert; exact S|post].
  eapply ref_bind; [apply ref_insert_rows; [exact U|split; assumption]|post]. then_ok.
  apply ref_okm, ref_patch_length; [split; auto|assumption].
Qed.

Lemma ref_update_sets set : Forall (fun kv => vusers (snd kv)) set -> forall m p s, sg m p s ->
  refines (update_sets set p) (h_update_sets set s m) sl2.
Proof.
  induction 1 as [|[k v] set U _ IH]; intros m p s S; cbn [update_sets h_update_sets].
  - apply ref_ret. destruct S. two.
  - eapply ref_bind; [apply (ref_append_update_set m0 s0 lo P Plow); [exact U|exact S]|post]. then_ok. apply IH. split; auto.
Qed.

Lemma ref_do_update name cr set m p s : opt fusers cr -> Forall (fun kv => vusers (snd kv)) set -> sg m p s ->
  refines (do_update name cr set p) (h_do_update name cr set s m) sl2.
Proof.
  intros Uc U S. unfold do_update, h_do_update. cbv zeta. pose proof S as [S1 L1]. rewrite (sl_len _ _ _ _ _ _ S1).
  eapply ref_bind; [apply (ref_msg_update m0 s0 lo P Plow); [exact Uc|exact S]|post]. then_ok.
  eapply ref_bind; [apply ref_update_sets; [exact U|split; auto]|post]. then_ok.
  apply ref_okm, ref_patch_length; [split; auto|assumption].
Qed.

Lemma ref_use_outer dis lvl m p s : sl m p s ->
  refines (use_outer dis lvl) (h_use_outer dis lvl m) (fun m' _ _ => m' = m).
Proof.
  intros S. unfold use_outer, h_use_outer. destruct (nth_error dis lvl) as [[|]|]; try (eapply ref_panic; exact S).
  apply ref_ret. reflexivity.
Qed.

Lemma ref_run_iops dis ops : Forall (iop_users P) ops -> forall e m p s, sl m p s -> (e = None -> lo <= hlen s) ->
  lo <= hlen s \/ length m0 <= arr s \/ hcap s = 0 ->
  refines (run_iops dis ops p e) (h_run_iops dis ops s e m) sl2.
Proof.
  induction 1 as [|[row|lvl] ops U _ IH]; intros e m p s S L R; cbn [run_iops h_run_iops].
  - apply ref_ret. two.
  - destruct e; [apply IH; [exact S|discriminate|exact R]|].
    eapply ref_bind; [apply (ref_append_insert_row m0 s0 lo P Plow); [exact U|split; auto]|post]. apply IH; assumption.
  - eapply ref_bind; [eapply ref_use_outer; exact S|]. cbv beta. intros m' a b ->. apply IH; assumption.
Qed.

Lemma ref_run_uops dis ops : Forall (uop_users P) ops -> forall e m p s, sl m p s -> (e = None -> lo <= hlen s) ->
  lo <= hlen s \/ length m0 <= arr s \/ hcap s = 0 ->
  refines (run_uops dis ops p e) (h_run_uops dis ops s e m) sl2.
Proof.
  induction 1 as [|[name v|lvl] ops U _ IH]; intros e m p s S L R; cbn [run_uops h_run_uops].
  - apply ref_ret. two.
  - destruct e; [apply IH; [exact S|discriminate|exact R]|].
    eapply ref_bind; [apply (ref_append_update_set m0 s0 lo P Plow); [exact U|split; auto]|post]. apply IH; assumption.
  - eapply ref_bind; [eapply ref_use_outer; exact S|]. cbv beta. intros m' a b ->. apply IH; assumption.
Qed.

Lemma ref_do_insert_f dis name columns ops m p s : Forall (iop_users P) ops -> sg m p s ->
  refines (do_insert_f dis name columns ops p) (h_do_insert_f dis name columns ops s m) sl2.
Proof.
  intros U S. unfold do_insert_f, h_do_insert_f. cbv zeta. pose proof S as [S1 L1]. rewrite (sl_len _ _ _ _ _ _ S1).
  eapply ref_bind; [apply ref_msg_insert; exact S|post].
  eapply ref_bind; [apply ref_run_iops; [exact U|eassumption|auto|auto]|post].
  eapply ref_bind; [apply ref_patch; eassumption|post]. apply ref_ret. two.
Qed.

Lemma ref_do_update_f dis name cr ops m p s : opt fusers cr -> Forall (uop_users P) ops -> sg m p s ->
  refines (do_update_f dis name cr ops p) (h_do_update_f dis name cr ops s m) sl2.
Proof.
  intros Uc U S. unfold do_update_f, h_do_update_f. cbv zeta. pose proof S as [S1 L1]. rewrite (sl_len _ _ _ _ _ _ S1).
  eapply ref_bind; [apply (ref_msg_update m0 s0 lo P Plow); [exact Uc|exact S]|post].
  eapply ref_bind; [apply ref_run_uops; [exact U|eassumption|assumption|assumption]|post].
  eapply ref_bind; [apply ref_patch; eassumption|post]. apply ref_ret. two.
Qed.

(* The builder that may be used: same error, and its buffer is the same slice. *)
Definition rb (m : mem) (b : builder) (hb : hbuilder) : Prop :=
  berr b = hberr hb /\ disabled b = false /\ hdisabled hb = false /\
  sl m (buf b) (hbuf hb) /\ (berr b = None -> lo <= hlen (hbuf hb)) /\
  (lo <= hlen (hbuf hb) \/ length m0 <= arr (hbuf hb) \/ hcap (hbuf hb) = 0).

Lemma ref_guarded b hb f h m : rb m b hb ->
  (forall p s, sg m p s -> refines (f p) (h s m) sl2) ->
  refines (guarded b f) (h_guarded hb h m) rb.
Proof.
  intros [Eb [D [Dh [S [L K]]]]] Hf. unfold guarded, h_guarded. rewrite D, Dh, <- Eb.
  destruct (berr b) eqn:Be.
  - apply ref_ret. unfold rb. rewrite Be. parts.
  - eapply ref_bind; [apply Hf; split; auto|post]. apply ref_ret. unfold rb; parts.
Qed.

Lemma ref_exec_call dis c b hb m : call_users P c -> rb m b hb ->
  refines (exec_call dis c b) (h_exec_call dis c hb m) rb.
Proof.
  intros U R. apply ref_guarded; [exact R|]. intros p s S. destruct c; cbn [call_users] in U.
  - apply (ref_stmt_execute m0 s0 lo P Plow); assumption.
  - apply ref_okm, ref_msg_prepare; assumption.
  - apply (ref_msg_execute m0 s0 lo P Plow); assumption.
  - apply ref_okm, ref_msg_deallocate; assumption.
  - apply ref_do_insert; assumption.
  - apply ref_do_insert_f; assumption.
  - destruct U. apply ref_do_update; assumption.
  - destruct U. apply ref_do_update_f; assumption.
  - apply (ref_msg_delete m0 s0 lo P Plow); assumption.
Qed.

Lemma ref_b_stmt_execute stmt b hb m : rb m b hb ->
  refines (b_stmt_execute stmt [] b) (h_b_stmt_execute stmt [] hb m) rb.
Proof. intros R. apply ref_guarded; [exact R|]. intros p s S. apply (ref_stmt_execute m0 s0 lo P Plow); [constructor|exact S]. Qed.

Definition rb_with {A} (P : A -> Prop) (m : mem) (a : builder * A) (b : hbuilder * A) : Prop :=
  rb m (fst a) (fst b) /\ snd a = snd b /\ P (snd a).

Lemma ref_b_insert_row name columns row b hb m : Forall vusers row -> rb m b hb ->
  refines (b_insert_row name columns row b) (h_b_insert_row name columns row hb m) (rb_with (opt fusers)).
Proof.
  intros U R. pose proof R as [Eb [D [Dh [S [L K]]]]]. unfold b_insert_row, h_b_insert_row. rewrite D, Dh, <- Eb.
  destruct (berr b) eqn:Be.
  - apply ref_ret. split; [exact R|]. cbn. auto.
  - cbv zeta. rewrite (sl_len _ _ _ _ _ _ S).
    eapply ref_bind; [apply ref_msg_insert; split; auto|post].
    eapply ref_bind; [apply (ref_append_insert_row m0 s0 lo P Plow); [exact U|split; assumption]|post].
    destruct o; [apply ref_ret; unfold rb_with, rb; parts|].
    eapply ref_bind; [apply ref_patch_length; [split; [eassumption|auto]|auto]|post].
    unfold insert_id, h_insert_id. match goal with S : MemProofs.sl _ _ _ _ ?p ?s |- context [len ?p] => rewrite (sl_len _ _ _ _ _ _ S) end.
    eapply ref_bind; [apply ref_b_stmt_execute; unfold rb; parts|]. cbv beta. intros m9 b9 h9 R9.
    apply ref_ret. split; [exact R9|]. cbn. auto.
Qed.

Lemma ref_tx_begin lvl b hb m : rb m b hb ->
  refines (tx_begin lvl b) (h_tx_begin lvl hb m) (rb_with (fun _ => True)).
Proof.
  intros R. unfold tx_begin, h_tx_begin. cbv zeta.
  assert (St : forall s b hb m, rb m b hb -> refines (do b <- b_stmt_execute s [] b; Ok (b, true))
     ((let* b := h_b_stmt_execute s [] hb in hret (b, true)) m) (rb_with (fun _ => True))).
  { intros s b' hb' m' R'. eapply ref_bind; [apply ref_b_stmt_execute; exact R'|]. cbv beta. intros m2 a2 b2 R2.
    apply ref_ret. split; cbn; auto. }
  assert (Se : forall s s2, refines (do b <- b_stmt_execute s [] b; do b <- b_stmt_execute s2 [] b; Ok (b, true))
     ((let* b := h_b_stmt_execute s [] hb in let* b := h_b_stmt_execute s2 [] b in hret (b, true)) m) (rb_with (fun _ => True))).
  { intros s s2. eapply ref_bind; [apply ref_b_stmt_execute; exact R|]. cbv beta. intros m2 a2 b2 R2. apply St; exact R2. }
  destruct lvl as [|[[[?|?|]|[?|?|]|]|[[?|?|]|[?|?|]|]|]];
    lazymatch goal with
    | |- MemProofs.refines _ _ _ (bind _ (fun _ => Ok _)) _ _ => apply St; exact R
    | |- MemProofs.refines _ _ _ (bind _ _) _ _ => apply Se
    | |- _ => apply ref_ret; destruct R as [? [? [? [? [? ?]]]]]; unfold rb_with, rb; parts
    end.
Qed.

Lemma ref_block_begin k b hb m : rb m b hb ->
  refines (block_begin k b) (h_block_begin k hb m) (rb_with (fun _ => True)).
Proof.
  intros R. pose proof R as [Eb [D [Dh [S [L K]]]]]. unfold block_begin, h_block_begin. rewrite D, Dh, <- Eb.
  destruct (berr b) eqn:Be.
  - apply ref_ret. split; [exact R|]. cbn. auto.
  - destruct k; [apply ref_tx_begin; exact R|].
    eapply ref_bind; [apply ref_expect_open; split; auto|post]. apply ref_ret. unfold rb_with, rb; parts.
Qed.

Lemma ref_block_end k b hb m : rb m b hb -> refines (block_end k b) (h_block_end k hb m) rb.
Proof.
  intros R. destruct k; [apply ref_b_stmt_execute; exact R|].
  pose proof R as [Eb [D [Dh [S [L K]]]]]. unfold block_end, h_block_end, expect_close, h_expect_close.
  eapply (ref_pure m0 s0 lo (append (buf b) _)); [apply ref_append_at; [exact S|]|].
  - destruct K as [K|[K|K]]; auto. right; right. split; [exact K|discriminate].
  - cbv beta. intros m' s' [S' [L' A]]. apply ref_ret. unfold rb; cbn [berr disabled buf hberr hdisabled hbuf].
    repeat (split; [assumption|]). split; [intros Be; specialize (L Be); lia|].
    destruct A as [[A1 A2]|[A|A]]; [|auto|discriminate]. rewrite A1. destruct K as [K|[K|K]]; [left; lia|auto|lia].
Qed.

(* The builders in scope: the innermost may be used, the others may not and are of the same number. *)
Definition rst (m : mem) (st : list builder) (hst : list hbuilder) : Prop :=
  exists b outer hb houter, st = b :: outer /\ hst = hb :: houter /\ rb m b hb /\
    Forall (fun b => disabled b = true) outer /\ Forall (fun b => hdisabled b = true) houter /\ length outer = length houter.

Definition rst_with {A} (P : A -> Prop) (m : mem) (a : list builder * A) (b : list hbuilder * A) : Prop :=
  rst m (fst a) (fst b) /\ snd a = snd b /\ P (snd a).

Lemma flags_equal outer houter : Forall (fun b => disabled b = true) outer -> Forall (fun b => hdisabled b = true) houter ->
  length outer = length houter -> map disabled outer = map hdisabled houter.
Proof.
  intros F. revert houter. induction F as [|b l D _ IH]; intros [|hb hl] Fh L; try discriminate; [reflexivity|].
  inversion Fh; subst. cbn [map]. rewrite D, H1. f_equal. apply IH; auto.
Qed.

(* The builder a call is made on: the innermost one, or the call panics in both. *)
Lemma rst_nth m st hst lvl : rst m st hst ->
  (exists b outer hb houter, lvl = 0 /\ st = b :: outer /\ hst = hb :: houter /\ rb m b hb /\
    Forall (fun b => disabled b = true) outer /\ Forall (fun b => hdisabled b = true) houter /\ length outer = length houter) \/
  (nth_error st lvl = None /\ nth_error hst lvl = None) \/
  (exists b hb, nth_error st lvl = Some b /\ nth_error hst lvl = Some hb /\ disabled b = true /\ hdisabled hb = true).
Proof.
  intros [b [outer [hb [houter [-> [-> [R [F [Fh L]]]]]]]]]. destruct lvl as [|lvl].
  - left. exists b, outer, hb, houter. repeat (split; [auto; fail|]). auto.
  - right. cbn [nth_error]. destruct (nth_error outer lvl) as [x|] eqn:Ex, (nth_error houter lvl) as [y|] eqn:Ey.
    + right. exists x, y. apply nth_error_In in Ex, Ey. rewrite Forall_forall in F, Fh. auto.
    + apply nth_error_None in Ey. assert (lvl < length outer) by (apply nth_error_Some; congruence). lia.
    + apply nth_error_None in Ex. assert (lvl < length houter) by (apply nth_error_Some; congruence). lia.
    + left. auto.
Qed.

Lemma rst_outside m st hst : rst m st hst -> outside m0 s0 lo m.
Proof. intros [b [o [hb [ho [_ [_ [[_ [_ [_ [[_ [_ [O _]]] _]]]] _]]]]]]]. exact O. Qed.

Lemma ref_run pr : prog_users P pr -> forall m st hst, rst m st hst ->
  refines (run pr st) (h_run pr hst m) (fun m' a b => rst_with (Forall (opt fusers)) m' a b /\ length (fst a) = length st).
Proof.
  induction pr as [e out|lvl c next IH|lvl name columns row next IH|lvl k body IHb next IH];
    cbn [prog_users]; intros U m st hst R; cbn [run h_run].
  - apply ref_ret. split; [split; cbn; auto|reflexivity].
  - destruct U as [Uc Un].
    destruct (rst_nth m st hst lvl R) as [[b [o [hb [ho [-> [-> [-> [Rb [F [Fh L]]]]]]]]]]|[[E1 E2]|[b [hb [E1 [E2 [D Dh]]]]]]].
    + cbn [nth_error map set_nth]. rewrite (flags_equal o ho F Fh L).
      eapply ref_bind; [apply ref_exec_call; [exact Uc|exact Rb]|]. cbv beta. intros m' b' hb' R'.
      apply (IH Un m' (b' :: o)). exists b', o, hb', ho. auto 10.
    + rewrite E1, E2. exists m. split; [reflexivity|]. eapply rst_outside; exact R.
    + rewrite E1, E2. unfold exec_call, h_exec_call, guarded, h_guarded. rewrite D, Dh. exists m. split; [reflexivity|]. eapply rst_outside; exact R.
  - destruct U as [Ur Un].
    destruct (rst_nth m st hst lvl R) as [[b [o [hb [ho [-> [-> [-> [Rb [F [Fh L]]]]]]]]]]|[[E1 E2]|[b [hb [E1 [E2 [D Dh]]]]]]].
    + cbn [nth_error set_nth].
      eapply ref_bind; [apply ref_b_insert_row; [exact Ur|exact Rb]|]. cbv beta. intros m' [b' f] [hb' f'] [R' [Ef Uf]]. cbn [fst snd] in *. subst f'.
      apply (IH f (Un f Uf) m' (b' :: o)). exists b', o, hb', ho. auto 10.
    + rewrite E1, E2. exists m. split; [reflexivity|]. eapply rst_outside; exact R.
    + rewrite E1, E2. unfold b_insert_row, h_b_insert_row. rewrite D, Dh. exists m. split; [reflexivity|]. eapply rst_outside; exact R.
  - destruct U as [Ub Un].
    destruct (rst_nth m st hst lvl R) as [[b [o [hb [ho [-> [-> [-> [Rb [F [Fh L]]]]]]]]]]|[[E1 E2]|[b [hb [E1 [E2 [D Dh]]]]]]].
    + cbn [nth_error set_nth].
      eapply ref_bind; [apply ref_block_begin; exact Rb|]. cbv beta. intros m1 [b1 e] [hb1 e'] [R1 [Ee _]]. cbn [fst snd] in *. subst e'.
      destruct e; [|apply (IH [] (Un [] (Forall_nil _)) m1 (b1 :: o)); exists b1, o, hb1, ho; auto 10].
      cbv zeta. eapply ref_bind; [apply IHb; [exact Ub|]|].
      * destruct R1 as [Eb [D [Dh [S [Lb K]]]]]. eexists _, _, _, _. split; [reflexivity|]. split; [reflexivity|].
        split; [unfold rb; parts|]. repeat (split; [constructor; auto|]). cbn [length]. congruence.
      * cbv beta. intros m2 [st2 out] [hst2 out'] [[R2 [Eo Uo]] Ln]. cbn [fst snd] in *. subst out'.
        destruct R2 as [c [o2 [hc [ho2 [-> [-> [Rc [F2 [Fh2 L2]]]]]]]]].
        eapply ref_bind; [apply ref_block_end; destruct Rc as [Eb [D [Dh [S [Lb K]]]]]; unfold rb; parts|].
        cbv beta. intros m3 b3 hb3 R3. 
        cbn [length] in Ln. destruct o2 as [|x o3]; [discriminate|]. destruct ho2 as [|hx ho3]; [discriminate|]. cbn [length set_nth] in *.
        eapply ref_weaken; [apply (IH out (Un out Uo) m3 (b3 :: o3)); exists b3, o3, hb3, ho3|].
        -- inversion F2; inversion Fh2; subst. injection L2 as L2. auto 10.
        -- cbv beta. cbn [length]. intros m4 a4 h4 [R4 L4]. split; [exact R4|lia].
    + rewrite E1, E2. exists m. split; [reflexivity|]. eapply rst_outside; exact R.
    + rewrite E1, E2. unfold block_begin, h_block_begin. rewrite D, Dh. exists m. split; [reflexivity|]. eapply rst_outside; exact R.
Qed.

End Ref.
