(* Programs on one builder: what changes, what cannot succeed, and the shape of what is sent. *)
From Coq Require Import String List NArith ZArith Arith Bool Lia ZifyN ZifyNat ZifyBool Permutation.
From Coq Require Import List.
From Verif Require Import Base GoSlice SliceProofs Varint VarintProofs SpecWire SpecMsg WireProofs Text TextProofs Values AnyModel ExprModel MsgModel Builder
  SpecValue SpecProg SpecUnit Pure AnyProofs HeadProofs ValueProofs MsgProofs BuilderProofs UnitProofs.
Import ListNotations.
Open Scope N_scope.
Open Scope list_scope.

Ltac Zify.zify_post_hook ::= Z.div_mod_to_equations.

(* ---- empty builders ---- *)

Lemma new_empty : forall n, empty (new_pipe n).
Proof. intros n. repeat split. Qed.
Lemma reset_empty : forall b b', reset b = Ok b' -> empty b'.
Proof.
  intros b b' H. unfold reset in H. destruct (disabled b) eqn:Hd; [discriminate|]. unfold reslice in H. cbn [Nat.leb firstn bind] in H.
  injection H as <-. repeat split.
Qed.

Lemma delivers_step : forall (E : Env) b pr bs, empty b -> prog_ok word32 pr -> delivers b pr bs -> nlen bs < 2 ^ 32 ->
  exists b' out ms ids, run pr [b] = Ok ([b'], out) /\ berr b' = None /\ data (buf b') = bs /\ disabled b' = false /\
    says bs ms /\ prog_msgs pr ms ids out /\ ids_between 0 (length bs) ids.
Proof.
  intros E b pr bs (He & Hb & Hd) Hok (b' & out & Hr & Hs) Hl.
  destruct (run_step pr b [] _ out Hok (Forall_nil _) Hd Hr) as (_ & b2 & Hb2 & S1 & S2 & S3). injection Hb2 as <-.
  unfold send in Hs. rewrite S1 in Hs. destruct (berr b') eqn:He'; [discriminate|].
  assert (Hbs : data (buf b') = bs) by congruence. destruct (S3 Hb eq_refl) as [_ G].
  destruct G as (x & Hx & ms & ids & G1 & G2 & G3); [rewrite Hbs; exact Hl|]. rewrite He, app_nil_l, Hbs in Hx. subst x.
  exists b', out, ms, ids. unfold len in G3. rewrite He, Hbs in G3. cbn [length] in G3. auto 8.
Qed.

(* ---- frames ---- *)

Lemma le4 : forall a b c d, a < 256 -> b < 256 -> c < 256 -> d < 256 ->
  let n := le [a; b; c; d] in n < 2 ^ 32 /\ [n mod 256; n / 256 mod 256; n / 65536 mod 256; n / 16777216] = [a; b; c; d].
Proof. intros a b c d Ha Hb Hc Hd n. subst n. cbn [le]. split; [lia|]. repeat f_equal; lia. Qed.

Lemma framed_frame : forall bs fs, framed bs fs -> bs = concat (map frame fs) /\ Forall (fun f => 1 + nlen (snd f) < 2 ^ 32) fs.
Proof.
  intros bs fs [Hb Hf]. remember (length bs) as k eqn:Hk. clear Hk. revert bs fs Hb Hf. induction k as [|k IH]; intros bs fs Hb Hf.
  - destruct bs; cbn in Hf; [|discriminate]. injection Hf as <-. split; [reflexivity|constructor].
  - destruct bs as [|x bs]; [injection Hf as <-; split; [reflexivity|constructor]|].
    cbn [dframes_k] in Hf. unfold dframe in Hf. destruct (take 4 (x :: bs)) as [[h r]|] eqn:Ht; [|discriminate]. cbn [obind] in Hf.
    destruct (1 <=? le h) eqn:Hn; [|discriminate]. destruct (take (le h) r) as [[f r']|] eqn:Ht2; [|discriminate]. cbn [obind] in Hf.
    destruct f as [|ty pl]; [discriminate|]. cbn [obind] in Hf. destruct (dframes_k k r') as [fs'|] eqn:Hr; [|discriminate]. cbn [obind] in Hf.
    apply Some_inj in Hf. subst fs. apply take_split in Ht. apply take_split in Ht2. destruct Ht as [Ht Hh], Ht2 as [-> Hf]. rewrite Ht in Hb |- *.
    unfold is_bytes in Hb. rewrite !Forall_app in Hb. destruct Hb as (Hb1 & Hb2 & Hb3).
    destruct (IH r' fs' Hb3 Hr) as [-> IHf]. 
    destruct h as [|a [|b [|c [|d [|e h]]]]]; unfold nlen in Hh; cbn [length] in Hh; try lia. clear Hh.
    inversion_clear Hb1 as [|? ? A1 Hb4]. inversion_clear Hb4 as [|? ? A2 Hb1]. inversion_clear Hb1 as [|? ? A3 Hb4]. inversion_clear Hb4 as [|? ? A4 _].
    unfold is_byte in *. destruct (le4 a b c d A1 A2 A3 A4) as [L1 L2]. cbn zeta in L1, L2.
    assert (Hf' : 1 + nlen pl = le [a; b; c; d]) by (rewrite <- Hf; unfold nlen; cbn [length]; lia).
    split.
    + assert (F : frame (ty, pl) = [a; b; c; d] ++ ty :: pl) by (unfold frame; cbn [fst snd]; cbv zeta; rewrite Hf', L2; reflexivity).
      cbn [map concat]. refine (eq_trans _ (f_equal (fun z => z ++ concat (map frame fs')) (eq_sym F))). rewrite <- app_assoc. reflexivity.
    + constructor; [|exact IHf]. cbn [snd]. rewrite Hf'. exact L1.
Qed.

(* ---- what a program changes ---- *)

Lemma stmt_disabled : forall (E : Env) s x y, disabled x = false -> b_stmt_execute s [] x = Ok y -> disabled y = false.
Proof.
  intros E s x y Hx Hy. unfold b_stmt_execute, guarded in Hy. rewrite Hx in Hy. destruct (berr x); [congruence|].
  destruct (stmt_execute _ _ _) as [[? ?]|]; [|discriminate]. cbn [bind] in Hy. injection Hy as <-. reflexivity.
Qed.
Lemma insert_row_keeps : forall (E : Env) name cols row b b1 o, disabled b = false -> b_insert_row name cols row b = Ok (b1, o) ->
  disabled b1 = false /\ (berr b <> None -> b1 = b).
Proof.
  intros E name cols row b b1 o Hd Hb1. unfold b_insert_row in Hb1. rewrite Hd in Hb1. destruct (berr b) as [e|]; [split; congruence|]. split; [|congruence].
  destruct (msg_insert _ _ _) as [p1|]; [|discriminate]. cbn [bind] in Hb1. destruct (append_insert_row _ _) as [[p2 [e|]]|]; [|..|discriminate]; cbn [bind] in Hb1.
  - injection Hb1 as <- <-. reflexivity.
  - destruct (patch_length _ _) as [p3|]; [|discriminate]. cbn [bind] in Hb1.
    destruct (b_stmt_execute _ _ _) as [x|] eqn:Hx; [|discriminate]. cbn [bind] in Hb1. injection Hb1 as <- <-. refine (stmt_disabled E _ _ _ _ Hx). reflexivity.
Qed.
Lemma block_begin_keeps : forall (E : Env) k b b1 en, disabled b = false -> block_begin k b = Ok (b1, en) ->
  disabled b1 = false /\ (berr b <> None -> b1 = b /\ en = false).
Proof.
  intros E k b b1 en Hd Hb1. unfold block_begin in Hb1. rewrite Hd in Hb1. destruct (berr b) as [e|] eqn:He; [injection Hb1 as <- <-; auto|]. split; [|congruence].
  pose proof (stmt_disabled E) as St. destruct k as [level|ctx].
  - assert (T : (exists s, bind (b_stmt_execute s [] b) (fun b => Ok (b, true)) = Ok (b1, en)) \/
                (exists s s', bind (b_stmt_execute s [] b) (fun b => bind (b_stmt_execute s' [] b) (fun b => Ok (b, true))) = Ok (b1, en)) \/
                b1 = mkb (buf b) (Some EIsolation) (disabled b)).
    { clear - Hb1. unfold tx_begin in Hb1. destruct level as [|[[[?|?|]|[?|?|]|]|[[?|?|]|[?|?|]|]|]];
        first [left; eexists; exact Hb1|right; left; eexists; eexists; exact Hb1|right; right; congruence]. }
    destruct T as [(s & T)|[(s & s' & T)|T]].
    + destruct (b_stmt_execute s [] b) as [x|] eqn:Hx; [|discriminate]. cbn [bind] in T. injection T as <- <-. eauto.
    + destruct (b_stmt_execute s [] b) as [x|] eqn:Hx; [|discriminate]. cbn [bind] in T.
      destruct (b_stmt_execute s' [] x) as [y|] eqn:Hy; [|discriminate]. cbn [bind] in T. injection T as <- <-. eauto.
    + subst b1. exact Hd.
  - destruct (expect_open _ _ _) as [p|]; [|discriminate]. cbn [bind] in Hb1. injection Hb1 as <- <-. reflexivity.
Qed.
(* The callback of a block that is not entered: the builder has an error. *)
Lemma not_entered : forall (E : Env) k b b1, disabled b = false -> block_begin k b = Ok (b1, false) -> berr b1 <> None.
Proof.
  intros E k b b1 Hd H. unfold block_begin in H. rewrite Hd in H. destruct (berr b) as [e|] eqn:He; [injection H as <-; congruence|].
  destruct k as [level|ctx].
  - unfold tx_begin in H. assert (St : forall s x, bind (b_stmt_execute s [] x) (fun b => Ok (b, true)) <> Ok (b1, false)).
    { intros s x Hx. destruct (b_stmt_execute s [] x); cbn [bind] in Hx; discriminate. }
    destruct level as [|[[[?|?|]|[?|?|]|]|[[?|?|]|[?|?|]|]|]]; try (injection H as <-; cbn [berr]; congruence); try (destruct (St _ _ H));
      (destruct (b_stmt_execute _ [] b); cbn [bind] in H; [|discriminate]; destruct (St _ _ H)).
  - destruct (expect_open _ _ _); cbn [bind] in H; discriminate.
Qed.
Lemma block_end_err : forall (E : Env) k b b', disabled b = false -> berr b <> None -> block_end k b = Ok b' -> berr b' <> None.
Proof.
  intros E k b b' Hd He H. destruct k; cbn [block_end] in H; [|injection H as <-; exact He].
  unfold b_stmt_execute, guarded in H. rewrite Hd in H. destruct (berr b) eqn:Hb; [injection H as <-; congruence|congruence].
Qed.
Lemma block_end_disabled : forall (E : Env) k b b', disabled b = false -> block_end k b = Ok b' -> disabled b' = false.
Proof.
  intros E k b b' Hd H. destruct k; cbn [block_end] in H; [|injection H as <-; exact Hd].
  unfold b_stmt_execute, guarded in H. rewrite Hd in H. destruct (berr b); [injection H as <-; exact Hd|].
  destruct (stmt_execute _ _ _) as [[? ?]|]; [|discriminate]. cbn [bind] in H. injection H as <-. reflexivity.
Qed.
(* The builders in scope after a program: only the innermost has changed, and not if it had an error. *)
Lemma run_shape : forall (E : Env) pr b outer st out, all_disabled outer -> disabled b = false -> run pr (b :: outer) = Ok (st, out) ->
  exists b', st = b' :: outer /\ disabled b' = false /\ (berr b <> None -> b' = b).
Proof.
  intros E. induction pr as [cberr out0|lvl c next IH|lvl name cols row next IH|lvl k body IHb next IHn]; intros b outer st out Hout Hd H; cbn [run] in H.
  - exists b. injection H as <- <-. auto.
  - destruct lvl as [|lvl].
    2: { destruct (nth_error (b :: outer) (S lvl)) as [x|] eqn:Hx; [|discriminate]. apply only_inner in Hx; [|assumption].
         rewrite exec_disabled in H by assumption. discriminate. }
    cbn [nth_error set_nth map] in H. unfold exec_call, guarded in H. rewrite Hd in H. destruct (berr b) as [e|] eqn:He.
    + cbn [bind] in H. destruct (IH b outer st out Hout Hd H) as (b' & ? & ? & ?). exists b'. rewrite He in *. auto.
    + match type of H with bind (bind ?x _) _ = _ => destruct x as [[q e]|] eqn:Hq end; [|discriminate]. cbn [bind] in H.
      destruct (IH (mkb q e false) outer st out Hout eq_refl H) as (b' & ? & ? & ?). exists b'. split; [assumption|]. split; [assumption|]. congruence.
  - destruct lvl as [|lvl].
    2: { destruct (nth_error (b :: outer) (S lvl)) as [x|] eqn:Hx; [|discriminate]. apply only_inner in Hx; [|assumption].
         rewrite insert_row_disabled in H by assumption. discriminate. }
    cbn [nth_error set_nth] in H. destruct (b_insert_row name cols row b) as [[b1 o]|] eqn:Hb1; [|discriminate]. cbn [bind] in H.
    pose proof (insert_row_keeps E _ _ _ _ _ _ Hd Hb1) as Hb.
    destruct Hb as [Hd1 Hb]. destruct (IH o b1 outer st out Hout Hd1 H) as (b' & ? & ? & Hb'). exists b'. split; [assumption|]. split; [assumption|].
    intros He. specialize (Hb He). subst b1. auto.
  - destruct lvl as [|lvl].
    2: { destruct (nth_error (b :: outer) (S lvl)) as [x|] eqn:Hx; [|discriminate]. apply only_inner in Hx; [|assumption].
         rewrite block_disabled in H by assumption. discriminate. }
    cbn [nth_error set_nth] in H. destruct (block_begin k b) as [[b1 en]|] eqn:Hb1; [|discriminate]. cbn [bind] in H.
    pose proof (block_begin_keeps E _ _ _ _ Hd Hb1) as Hb.
    destruct Hb as [Hd1 Hb]. destruct en.
    + destruct (run body _) as [[st2 out2]|] eqn:Hbody; [|discriminate]. cbn [bind] in H.
      apply IHb in Hbody; [|constructor; [reflexivity|assumption]|reflexivity]. destruct Hbody as (ch & -> & Hch & _).
      cbn [set_nth] in H. destruct (block_end k _) as [b2|] eqn:Hb2; [|discriminate]. cbn [bind] in H.
      assert (Hd2 : disabled b2 = false) by (refine (block_end_disabled E k _ b2 _ Hb2); reflexivity).
      destruct (IHn out2 b2 outer st out Hout Hd2 H) as (b' & ? & ? & ?). exists b'. split; [assumption|]. split; [assumption|].
      intros He. destruct (Hb He). discriminate.
    + destruct (IHn [] b1 outer st out Hout Hd1 H) as (b' & ? & ? & Hb'). exists b'. split; [assumption|]. split; [assumption|].
      intros He. destruct (Hb He) as [-> _]. auto.
Qed.


(* ---- programs that must fail ---- *)

Lemma run_iops_outer : forall (E : Env) dis ops lvl, Forall (fun d => d = true) dis -> In (IOuter lvl) ops -> forall p e, run_iops dis ops p e = Panic.
Proof.
  intros E dis ops lvl Hd. induction ops as [|o ops IH]; intros Hin p e; [destruct Hin|].
  assert (Hu : forall l, use_outer dis l = Panic).
  { intros l. unfold use_outer. destruct (nth_error dis l) as [d|] eqn:Hl; [|reflexivity]. apply nth_error_In in Hl. rewrite Forall_forall in Hd. rewrite (Hd d Hl). reflexivity. }
  destruct o as [row|l]; cbn [run_iops]; [|rewrite Hu; reflexivity]. destruct Hin as [Hin|Hin]; [discriminate|].
  destruct e; [auto|]. destruct (append_insert_row p row) as [[q e]|]; [|reflexivity]. cbn [bind]. auto.
Qed.
Lemma run_uops_outer : forall (E : Env) dis ops lvl, Forall (fun d => d = true) dis -> In (UOuter lvl) ops -> forall p e, run_uops dis ops p e = Panic.
Proof.
  intros E dis ops lvl Hd. induction ops as [|o ops IH]; intros Hin p e; [destruct Hin|].
  assert (Hu : forall l, use_outer dis l = Panic).
  { intros l. unfold use_outer. destruct (nth_error dis l) as [d|] eqn:Hl; [|reflexivity]. apply nth_error_In in Hl. rewrite Forall_forall in Hd. rewrite (Hd d Hl). reflexivity. }
  destruct o as [name v|l]; cbn [run_uops]; [|rewrite Hu; reflexivity]. destruct Hin as [Hin|Hin]; [discriminate|].
  destruct e; [auto|]. destruct (append_update_set p name v) as [[q e]|]; [|reflexivity]. cbn [bind]. auto.
Qed.

Lemma all_true : forall outer, all_disabled outer -> Forall (fun d => d = true) (true :: map disabled outer).
Proof. intros outer H. constructor; [reflexivity|]. apply Forall_map. exact H. Qed.

Lemma exec_keeps : forall (E : Env) dis c b b1, disabled b = false -> exec_call dis c b = Ok b1 -> disabled b1 = false /\ (berr b <> None -> b1 = b).
Proof.
  intros E dis c b b1 Hd H. unfold exec_call, guarded in H. rewrite Hd in H. destruct (berr b); [injection H as <-; auto|]. split; [|congruence].
  match type of H with bind ?x _ = _ => destruct x as [[q e]|] end; [|discriminate]. cbn [bind] in H. injection H as <-. reflexivity.
Qed.

(* bad pr: at some point of pr (reached unless an error occurs first) something fails. *)
Inductive must_fail (E : Env) : prog -> Prop :=
| F_call lvl c next : (forall dis b b1, Forall (fun d => d = true) dis -> disabled b = false -> berr b = None -> lvl = O ->
                         exec_call dis c b = Ok b1 -> berr b1 <> None) -> must_fail E (PCall lvl c next)
| F_row lvl name cols row next : (forall b b1 o, disabled b = false -> berr b = None -> lvl = O ->
                         b_insert_row name cols row b = Ok (b1, o) -> berr b1 <> None) -> must_fail E (PInsertRow lvl name cols row next)
| F_block lvl k body next : must_fail E (PBlock (S lvl) k body next)
| F_after_call lvl c next : must_fail E next -> must_fail E (PCall lvl c next)
| F_after_row lvl name cols row next : (forall o, must_fail E (next o)) -> must_fail E (PInsertRow lvl name cols row next)
| F_inside lvl k body next : must_fail E body -> must_fail E (PBlock lvl k body next)
| F_after_block lvl k body next : (forall out, must_fail E (next out)) -> must_fail E (PBlock lvl k body next).

Lemma must_fail_run : forall (E : Env) pr, must_fail E pr -> forall b outer b' outer' out, all_disabled outer -> disabled b = false ->
  run pr (b :: outer) = Ok (b' :: outer', out) -> berr b' <> None.
Proof.
  intros E pr Hf.
  assert (Stick : forall pr b outer b' outer' out, all_disabled outer -> disabled b = false -> berr b <> None -> run pr (b :: outer) = Ok (b' :: outer', out) -> berr b' <> None).
  { intros pr0 b outer b' outer' out Ho Hd He H. destruct (run_shape E pr0 b outer _ out Ho Hd H) as (b2 & Hb & _ & Hs). injection Hb as <- _. rewrite (Hs He). exact He. }
  induction Hf as [lvl c next Hc|lvl name cols row next Hc|lvl k body next|lvl c next Hf IH|lvl name cols row next Hf IH|lvl k body next Hf IH|lvl k body next Hf IH];
    intros b outer b' outer' out Hout Hd H; cbn [run] in H.
  - destruct lvl as [|lvl].
    2: { destruct (nth_error (b :: outer) (S lvl)) as [x|] eqn:Hx; [|discriminate]. apply only_inner in Hx; [|assumption].
         rewrite exec_disabled in H by assumption. discriminate. }
    cbn [nth_error set_nth map] in H. destruct (exec_call _ c b) as [b1|] eqn:Hb; [|discriminate]. cbn [bind] in H.
    destruct (exec_keeps E _ _ _ _ Hd Hb) as [Hd1 He1]. apply (Stick _ _ _ _ _ _ Hout Hd1) in H; [exact H|].
    destruct (berr b) eqn:He; [rewrite He1; congruence|]. exact (Hc _ _ _ (all_true outer Hout) Hd He eq_refl Hb).
  - destruct lvl as [|lvl].
    2: { destruct (nth_error (b :: outer) (S lvl)) as [x|] eqn:Hx; [|discriminate]. apply only_inner in Hx; [|assumption].
         rewrite insert_row_disabled in H by assumption. discriminate. }
    cbn [nth_error set_nth map] in H. destruct (b_insert_row name cols row b) as [[b1 o]|] eqn:Hb; [|discriminate]. cbn [bind] in H.
    destruct (insert_row_keeps E _ _ _ _ _ _ Hd Hb) as [Hd1 He1]. apply (Stick _ _ _ _ _ _ Hout Hd1) in H; [exact H|].
    destruct (berr b) eqn:He; [rewrite He1; congruence|]. exact (Hc _ _ _ Hd He eq_refl Hb).
  - destruct (nth_error (b :: outer) (S lvl)) as [x|] eqn:Hx; [|discriminate]. apply only_inner in Hx; [|assumption].
    rewrite block_disabled in H by assumption. discriminate.
  - destruct lvl as [|lvl].
    2: { destruct (nth_error (b :: outer) (S lvl)) as [x|] eqn:Hx; [|discriminate]. apply only_inner in Hx; [|assumption].
         rewrite exec_disabled in H by assumption. discriminate. }
    cbn [nth_error set_nth map] in H. destruct (exec_call _ c b) as [b1|] eqn:Hb; [|discriminate]. cbn [bind] in H.
    destruct (exec_keeps E _ _ _ _ Hd Hb) as [Hd1 _]. exact (IH _ _ _ _ _ Hout Hd1 H).
  - destruct lvl as [|lvl].
    2: { destruct (nth_error (b :: outer) (S lvl)) as [x|] eqn:Hx; [|discriminate]. apply only_inner in Hx; [|assumption].
         rewrite insert_row_disabled in H by assumption. discriminate. }
    cbn [nth_error set_nth map] in H. destruct (b_insert_row name cols row b) as [[b1 o]|] eqn:Hb; [|discriminate]. cbn [bind] in H.
    destruct (insert_row_keeps E _ _ _ _ _ _ Hd Hb) as [Hd1 _]. exact (IH o _ _ _ _ _ Hout Hd1 H).
  - destruct lvl as [|lvl].
    2: { destruct (nth_error (b :: outer) (S lvl)) as [x|] eqn:Hx; [|discriminate]. apply only_inner in Hx; [|assumption].
         rewrite block_disabled in H by assumption. discriminate. }
    cbn [nth_error set_nth map] in H. destruct (block_begin k b) as [[b1 en]|] eqn:Hb; [|discriminate]. cbn [bind] in H.
    destruct (block_begin_keeps E _ _ _ _ Hd Hb) as [Hd1 _]. destruct en.
    + destruct (run body _) as [[st2 out2]|] eqn:Hbody; [|discriminate]. cbn [bind] in H.
      assert (Ho' : all_disabled (mkb (buf b1) (berr b1) true :: outer)) by (constructor; [reflexivity|exact Hout]).
      destruct (run_shape E body (mkb (buf b1) (berr b1) false) _ _ _ Ho' eq_refl Hbody) as (ch & -> & Hch & _).
      apply (IH (mkb (buf b1) (berr b1) false) _ _ _ _ Ho' eq_refl) in Hbody.
      cbn [set_nth] in H. destruct (block_end k _) as [b2|] eqn:Hb2; [|discriminate]. cbn [bind] in H.
      assert (Hd2 : disabled b2 = false) by (refine (block_end_disabled E k _ b2 _ Hb2); reflexivity). refine (Stick _ _ _ _ _ _ Hout Hd2 _ H).
      refine (block_end_err E k _ b2 _ _ Hb2); [reflexivity|exact Hbody].
    + refine (Stick _ _ _ _ _ _ Hout Hd1 _ H). exact (not_entered E k b b1 Hd Hb).
  - destruct lvl as [|lvl].
    2: { destruct (nth_error (b :: outer) (S lvl)) as [x|] eqn:Hx; [|discriminate]. apply only_inner in Hx; [|assumption].
         rewrite block_disabled in H by assumption. discriminate. }
    cbn [nth_error set_nth map] in H. destruct (block_begin k b) as [[b1 en]|] eqn:Hb; [|discriminate]. cbn [bind] in H.
    destruct (block_begin_keeps E _ _ _ _ Hd Hb) as [Hd1 _]. destruct en.
    + destruct (run body _) as [[st2 out2]|] eqn:Hbody; [|discriminate]. cbn [bind] in H.
      assert (Ho' : all_disabled (mkb (buf b1) (berr b1) true :: outer)) by (constructor; [reflexivity|exact Hout]).
      destruct (run_shape E body (mkb (buf b1) (berr b1) false) _ _ _ Ho' eq_refl Hbody) as (ch & -> & Hch & _).
      cbn [set_nth] in H. destruct (block_end k _) as [b2|] eqn:Hb2; [|discriminate]. cbn [bind] in H.
      assert (Hd2 : disabled b2 = false) by (refine (block_end_disabled E k _ b2 _ Hb2); reflexivity). exact (IH out2 _ _ _ _ _ Hout Hd2 H).
    + exact (IH [] _ _ _ _ _ Hout Hd1 H).
Qed.

(* So such a program panics, or Send returns an error. *)
Lemma must_fail_sent : forall (E : Env) pr b, must_fail E pr -> disabled b = false -> panics b pr \/ exists e, fails b pr e.
Proof.
  intros E pr b Hf Hd. unfold panics, fails. destruct (run pr [b]) as [[st out]|] eqn:Hr; [right|left; reflexivity].
  destruct (run_shape E pr b [] st out (Forall_nil _) Hd Hr) as (b' & -> & Hd' & _). pose proof (must_fail_run E pr Hf b [] b' [] out (Forall_nil _) Hd Hr) as He.
  destruct (berr b') as [e|] eqn:Hb; [|congruence]. exists e, b', out. split; [reflexivity|]. unfold send. rewrite Hd', Hb. reflexivity.
Qed.

Lemma uses_outer_fails : forall (E : Env) pr, uses_outer pr -> must_fail E pr.
Proof.
  intros E pr H. induction H; try (econstructor; eassumption).
  - apply F_call. discriminate.
  - apply F_row. discriminate.
  - apply F_call. intros dis b b1 Hdis Hd He _ H1. exfalso. unfold exec_call, guarded in H1. rewrite Hd, He in H1. unfold do_insert_f in H1.
    destruct (msg_insert _ _ _); [|discriminate]. cbn [bind] in H1. rewrite (run_iops_outer E dis ops lvl Hdis H) in H1. discriminate.
  - apply F_call. intros dis b b1 Hdis Hd He _ H1. exfalso. unfold exec_call, guarded in H1. rewrite Hd, He in H1. unfold do_update_f in H1.
    destruct (msg_update _ _ _) as [[? ?]|]; [|discriminate]. cbn [bind] in H1. rewrite (run_uops_outer E dis ops lvl Hdis H) in H1. discriminate.
Qed.

Lemma makes_fails : forall (E : Env) c pr, call_ok word32 c -> call_weight c < 2 ^ 31 -> (forall m, ~ call_denotes c m) -> makes c pr -> must_fail E pr.
Proof.
  intros E c pr Hok Hw Hn H. induction H; try (econstructor; eassumption).
  apply F_call. intros dis b b1 _ Hd He _ H1 He1. pose proof (call_outcome word32 dis c Hok) as Ho. unfold exec_call, guarded in H1. rewrite Hd, He in H1.
  change (match c with CStmtExecute stmt args => _ | _ => _ end) with (run_call dis c E (buf b)) in H1.
  destruct (run_call dis c E (buf b)) as [[q e]|] eqn:Hr; cbn [bind] in H1; [|discriminate]. injection H1 as <-. cbn [berr] in He1. subst e.
  destruct Ho as [(m & bs & H1 & _)|[[[B1 _] _]|[_ [Hb _]]]]; [exact (Hn m H1)|exact (B1 E eq_refl _ _ Hr)|lia].
Qed.

(* ---- messages of a program ---- *)

Lemma call_not_block : forall c m, call_denotes c m -> ~ is_open m /\ ~ is_close m.
Proof. intros c m H. destruct H; split; intros []. Qed.
Lemma balanced_app : forall a b, balanced a -> balanced b -> balanced (a ++ b).
Proof.
  intros a b Ha Hb. induction Ha as [|m ms H1 H2 Ha IH|o body c ms Ho Hbo IHb Hc Ha IH]; cbn [app]; [assumption|constructor; assumption|].
  rewrite <- app_assoc. cbn [app]. constructor; assumption.
Qed.
Lemma prog_balanced : forall pr ms ids out, prog_msgs pr ms ids out -> balanced ms.
Proof.
  intros pr ms ids out H. induction H as [|c next m ms ids out Hc H IH|name cols row next id es ms ids out Hr H IH|k body next open ms1 ids1 out1 ms2 ids2 out Ho H1 IH1 H2 IH2].
  - constructor.
  - destruct (call_not_block c m Hc). constructor; assumption.
  - constructor; [intros []|intros []|]. constructor; [intros []|intros []|exact IH].
  - destruct k as [level|ctx]; cbn [opening closing] in *.
    + destruct (tx_opening level) as [l|]; [|discriminate]. injection Ho as <-. apply balanced_app.
      * clear. induction l as [|s l IH]; cbn [map]; constructor; [intros []|intros []|exact IH].
      * apply balanced_app; [exact IH1|]. constructor; [intros []|intros []|exact IH2].
    + injection Ho as <-. cbn [app]. apply B_block; [exact I|exact IH1|exact I|exact IH2].
Qed.
