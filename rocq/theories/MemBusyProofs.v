(* Programs that use their own memory run as if it were separate from the pipe's. *)
From Coq Require Import String List NArith ZArith Arith Bool Lia.
From Coq Require Import List.
From Verif Require Import Base GoSlice Varint Text Values AnyModel ExprModel MsgModel Builder SpecValue ValueProofs SpecMem Mem MemModel MemProofs MemRef MemBuild MemUse MemArg SpecArg MemArgProofs MemBusy SpecBusy.
Import ListNotations.
Local Open Scope nat_scope.

(* ------------------------------------------------------------ memory *)

Lemma set_array_same m a : set_array m a (array m a) = m.
Proof. revert a. unfold array. induction m as [|l m IH]; intros [|a]; cbn; [reflexivity|reflexivity|reflexivity|]. rewrite IH. reflexivity. Qed.

Lemma stored_nil m t o : stored m t o [] = m.
Proof. unfold stored, write. rewrite ow_nil. apply set_array_same. Qed.

Lemma stored_length m t o xs : length (stored m t o xs) = length m.
Proof. apply write_length. Qed.

Lemma stored_array m t o xs a : wf m t -> o + length xs <= hcap t -> length (array (stored m t o xs) a) = length (array m a).
Proof.
  intros [W1 W2] L. unfold stored. rewrite array_write by lia. destruct (Nat.eqb_spec a (arr t)) as [->|]; [apply ow_length; lia|reflexivity].
Qed.

Lemma stored_wf m t o xs s : wf m t -> o + length xs <= hcap t -> wf m s -> wf (stored m t o xs) s.
Proof. intros W L [S1 S2]. split; [exact S1|]. rewrite stored_array by assumption. exact S2. Qed.

Lemma stored_view m t o xs s : wf m t -> wf m s -> apart s t -> o + length xs <= hcap t -> view (stored m t o xs) s = view m s.
Proof.
  intros W [S1 S2] A L.
  assert (C : contents (stored m t o xs) (mkh (arr s) (off s) (hcap s) (hcap s)) = contents m (mkh (arr s) (off s) (hcap s) (hcap s))).
  { apply contents_write; [split; cbn; lia|exact W|exact A|exact L]. }
  unfold contents in C. cbn [arr off hlen] in C. unfold view. rewrite C. reflexivity.
Qed.

Lemma stored_outside um s0 lo m t o xs : outside um s0 lo m -> wf um t -> o + length xs <= hcap t ->
  outside (stored um t o xs) s0 lo (stored m t o xs).
Proof.
  intros O W L. destruct xs as [|x xs]; [rewrite !stored_nil; exact O|]. set (ys := x :: xs) in *.
  assert (Wt : wf m t). { destruct (outside_wf _ _ _ _ t O W) as [Z|Wt]; [|exact Wt]. unfold ys in L. cbn [length] in L. lia. }
  destruct O as [Ln O]. split; [rewrite !stored_length; exact Ln|]. intros a A. rewrite stored_length in A. destruct (O a A) as [O1 O2].
  rewrite !stored_array by assumption. split; [exact O1|]. intros i I. unfold stored. destruct W as [W1 W2], Wt as [T1 T2].
  rewrite !array_write by lia. destruct (Nat.eqb_spec a (arr t)) as [->|]; [|auto].
  rewrite !nth_ow by lia. destruct (_ && _); auto.
Qed.

Definition shape (m m' : mem) : Prop := length m = length m' /\ forall a, length (array m a) = length (array m' a).

Lemma shape_refl m : shape m m.
Proof. split; auto. Qed.
Lemma shape_stored m um t o xs : shape m um -> wf um t -> o + length xs <= hcap t -> shape m (stored um t o xs).
Proof. intros [L A] W Lx. split; [rewrite stored_length; exact L|]. intros a. rewrite stored_array by assumption. apply A. Qed.
Lemma shape_wf m um t : shape m um -> wf m t -> wf um t.
Proof. intros [_ A] [W1 W2]. split; [exact W1|]. rewrite <- A. exact W2. Qed.

(* ------------------------------------------------------------ programs *)

Local Ltac open R := cbv beta in R;
  repeat match goal with
  | R : _ /\ _ |- _ => destruct R
  | R : sl2 _ _ _ _ _ _ |- _ => destruct R
  | R : sg _ _ _ _ _ _ |- _ => destruct R
  | a : (_ * _)%type |- _ => destruct a
  end; cbn [fst snd length] in *;
  repeat match goal with R : ?x = ?y |- _ => is_var x; subst x end.

Section Busy.
Context `{E : Env}.
(* The memory at the beginning has the shape of m0; s0: the pipe's buffer at the beginning. *)
Variables (m0 : mem) (s0 : hslice).
Local Notation mine := (fun t => wf m0 t /\ apart s0 t).

Lemma copy_stored (t : hslice) o xs m : o + length xs <= hlen t -> h_copy t o xs m = HOk (Nat.min (hlen t - o) (length xs)) (stored m t o xs).
Proof.
  intros L. unfold h_copy, hbind, h_from. destruct (Nat.leb_spec o (hlen t)); [|lia]. cbn [hret hlen arr off].
  unfold hret, stored. cbn [hlen arr off]. rewrite firstn_all2 by lia. reflexivity.
Qed.

Lemma stored_sl um m p s t o xs : shape m0 um -> mine t -> o + length xs <= hlen t ->
  sl um s0 0 m p s -> sl (stored um t o xs) s0 0 (stored m t o xs) p s.
Proof.
  intros Sh [W A] L [Ws [V [O I]]]. pose proof (shape_wf _ _ _ Sh W) as Wu. pose proof W as [W1 W2].
  assert (Lc : o + length xs <= hcap t) by lia.
  destruct xs as [|x xs]; [rewrite !stored_nil; exact (conj Ws (conj V (conj O I)))|]. set (ys := x :: xs) in *.
  assert (Wt : wf m t). { destruct (outside_wf _ _ _ _ t O Wu) as [Z|Wt]; [|exact Wt]. unfold ys in Lc. cbn [length] in Lc. lia. }
  pose proof (within_apart _ _ _ _ I Wu A) as As.
  split; [apply stored_wf; assumption|]. split; [rewrite stored_view by assumption; exact V|].
  split; [apply stored_outside; assumption|]. unfold within in *. rewrite stored_length. exact I.
Qed.

Lemma stored_rb um m b hb t o xs : shape m0 um -> mine t -> o + length xs <= hlen t ->
  rb um s0 0 m b hb -> rb (stored um t o xs) s0 0 (stored m t o xs) b hb.
Proof.
  intros Sh M L [Eb [D [Dh [S [Lb K]]]]]. unfold rb. rewrite stored_length.
  exact (conj Eb (conj D (conj Dh (conj (stored_sl um m _ _ t o xs Sh M L S) (conj Lb K))))).
Qed.

Lemma stored_rst um m st hst t o xs : shape m0 um -> mine t -> o + length xs <= hlen t ->
  rst um s0 0 m st hst -> rst (stored um t o xs) s0 0 (stored m t o xs) st hst.
Proof.
  intros Sh M L [b [ot [hb [ho [-> [-> [R F]]]]]]]. exists b, ot, hb, ho. split; [reflexivity|]. split; [reflexivity|]. split; [|exact F].
  apply stored_rb; assumption.
Qed.

Lemma mine_steady um t : shape m0 um -> mine t -> steady um s0 0 t.
Proof. intros Sh [W A]. apply steady_apart; [eapply shape_wf; eassumption|exact A]. Qed.

Lemma all_users vs : Forall (value_users any_user) vs.
Proof. exact (proj1 (users_all any_user (fun _ => I) (PCall 0 (CExecute 0 vs) (Ret None [])))). Qed.
Lemma value_user v : value_users any_user v.
Proof. exact (Forall_inv (all_users [v])). Qed.
Lemma opt_user f : opt (fun_users any_user) f.
Proof. exact (proj1 (users_all any_user (fun _ => I) (PCall 0 (CDelete [] f) (Ret None [])))). Qed.

(* The result of h is that of r, with the program's memory um' after it. *)
Definition done {A B} (r : res A) (h : hres B) (R : mem -> A -> B -> Prop) : Prop :=
  match r with
  | Panic => exists m', h = HPanic m'
  | Ok a => exists b m', h = HOk b m' /\ R m' a b
  end.

Lemma done_of {A B} um lo (r : res A) (h : hres B) R : refines um s0 lo r h R -> done r h R.
Proof. unfold refines, done. destruct r; [auto|]. intros [m' [Eh _]]. eauto. Qed.
Lemma done_bind {A B A' B'} (r : res A) (h : H B) (f : A -> res A') (g : B -> H B') m R Q :
  done r (h m) R -> (forall m' a b, R m' a b -> done (f a) (g b m') Q) -> done (bind r f) (hbind h g m) Q.
Proof.
  intros Hr Hf. destruct r as [a|]; cbn [bind]; unfold hbind.
  - destruct Hr as [b [m' [-> HR]]]. auto.
  - destruct Hr as [m' ->]. exists m'. reflexivity.
Qed.

Local Ltac post := cbv beta;
  let m := fresh "m" in let a := fresh "a" in let b := fresh "b" in let R := fresh "R" in
  intros m a b R; open R; cbv beta iota.

Lemma row_done um m p s row : shape m0 um -> Forall (value_refs mine) row -> sg um s0 0 m p s ->
  done (append_insert_row p (map (value_now um) row)) (r_append_insert_row s row m) (sl2 um s0 0).
Proof.
  intros Sh Q S.
  rewrite (append_insert_row_eq um s0 0 any_user any_low row m p s); [eapply done_of, (ref_append_insert_row um s0 0 any_user any_low); [apply all_users|exact S]| |exact S].
  eapply Forall_impl; [|exact Q]. intros v Qv. split; [|apply value_user]. eapply refs_weaken; [|exact Qv]. intros t. apply mine_steady, Sh.
Qed.

Lemma set_done um m p s name v : shape m0 um -> value_refs mine v -> sg um s0 0 m p s ->
  done (append_update_set p name (value_now um v)) (r_append_update_set s name v m) (sl2 um s0 0).
Proof.
  intros Sh Q S.
  rewrite (append_update_set_eq um s0 0 any_user any_low name v m p s); [eapply done_of, (ref_append_update_set um s0 0 any_user any_low); [apply value_user|exact S]| |exact S].
  split; [|apply value_user]. eapply refs_weaken; [|exact Q]. intros t. apply mine_steady, Sh.
Qed.

Lemma iops_shape ops : Forall (wiop_uses mine) ops -> forall um, shape m0 um -> shape m0 (iops_mem um ops).
Proof.
  induction 1 as [|[row|lvl|t o xs] ops U _ IH]; intros um Sh; cbn [iops_mem]; auto. destruct U as [M L]. apply IH.
  apply shape_stored; [exact Sh|eapply shape_wf; [exact Sh|apply M]|]. destruct M as [[W _] _]. lia.
Qed.
Lemma uops_shape ops : Forall (wuop_uses mine) ops -> forall um, shape m0 um -> shape m0 (uops_mem um ops).
Proof.
  induction 1 as [|[k v|lvl|t o xs] ops U _ IH]; intros um Sh; cbn [uops_mem]; auto. destruct U as [M L]. apply IH.
  apply shape_stored; [exact Sh|eapply shape_wf; [exact Sh|apply M]|]. destruct M as [[W _] _]. lia.
Qed.

Lemma iops_done dis ops : Forall (wiop_uses mine) ops -> forall um e m p s, shape m0 um -> sl um s0 0 m p s ->
  done (run_iops dis (iops_at um ops) p e) (w_run_iops dis ops s e m) (sl2 (iops_mem um ops) s0 0).
Proof.
  induction 1 as [|[row|lvl|t o xs] ops U _ IH]; intros um e m p s Sh S; cbn [iops_at iops_mem w_run_iops run_iops].
  - eexists _, _. split; [reflexivity|]. unfold sl2. cbn [fst snd]. split; [exact S|]. split; [reflexivity|]. split; [intros _; lia|left; lia].
  - destruct e; [apply IH; assumption|].
    eapply done_bind; [apply row_done; [exact Sh|exact U|split; [exact S|lia]]|post]. apply IH; assumption.
  - eapply done_bind; [eapply done_of, (ref_use_outer um s0 0); exact S|]. cbv beta. intros m' a b ->. apply IH; assumption.
  - destruct U as [M L]. unfold hbind. rewrite copy_stored by exact L. apply IH; [|apply stored_sl; assumption].
    apply shape_stored; [exact Sh|eapply shape_wf; [exact Sh|apply M]|]. destruct M as [[W _] _]. lia.
Qed.

Lemma uops_done dis ops : Forall (wuop_uses mine) ops -> forall um e m p s, shape m0 um -> sl um s0 0 m p s ->
  done (run_uops dis (uops_at um ops) p e) (w_run_uops dis ops s e m) (sl2 (uops_mem um ops) s0 0).
Proof.
  induction 1 as [|[k v|lvl|t o xs] ops U _ IH]; intros um e m p s Sh S; cbn [uops_at uops_mem w_run_uops run_uops].
  - eexists _, _. split; [reflexivity|]. unfold sl2. cbn [fst snd]. split; [exact S|]. split; [reflexivity|]. split; [intros _; lia|left; lia].
  - destruct e; [apply IH; assumption|].
    eapply done_bind; [apply set_done; [exact Sh|exact U|split; [exact S|lia]]|post]. apply IH; assumption.
  - eapply done_bind; [eapply done_of, (ref_use_outer um s0 0); exact S|]. cbv beta. intros m' a b ->. apply IH; assumption.
  - destruct U as [M L]. unfold hbind. rewrite copy_stored by exact L. apply IH; [|apply stored_sl; assumption].
    apply shape_stored; [exact Sh|eapply shape_wf; [exact Sh|apply M]|]. destruct M as [[W _] _]. lia.
Qed.

(* What a call leaves: the builder of the value model, over memory um' of the program. *)
Lemma guarded_done um um' b hb f h m : rb um s0 0 m b hb ->
  (forall p s, sg um s0 0 m p s -> done (f p) (h s m) (sl2 um' s0 0)) ->
  done (guarded b f) (h_guarded hb h m) (rb (if match berr b with Some _ => true | None => false end then um else um') s0 0).
Proof.
  intros [Eb [D [Dh [S [L K]]]]] Hf. unfold guarded, h_guarded. rewrite D, Dh, <- Eb. destruct (berr b) eqn:Be.
  - eexists _, _. split; [reflexivity|]. unfold rb. rewrite Be. auto 10.
  - eapply done_bind; [apply Hf; split; [exact S|lia]|post]. eexists _, _. split; [reflexivity|].
    unfold rb. cbn [berr disabled buf hberr hdisabled hbuf]. auto 10.
Qed.

Lemma insert_f_done um dis name columns ops b hb m : shape m0 um -> Forall (wiop_uses mine) ops -> rb um s0 0 m b hb ->
  done (exec_call dis (CInsertF name columns (iops_at um ops) None) b) (w_insert_f dis name columns ops hb m)
    (rb (if match berr b with Some _ => true | None => false end then um else iops_mem um ops) s0 0).
Proof.
  intros Sh U R. apply guarded_done; [exact R|]. intros p s S. unfold do_insert_f. cbv zeta. pose proof S as [S1 _]. rewrite (sl_len _ _ _ _ _ _ S1).
  eapply done_bind; [eapply done_of, ref_msg_insert; exact S|post].
  eapply done_bind; [apply iops_done; [exact U|exact Sh|eassumption]|post].
  eapply done_bind; [eapply done_of, (ref_patch (iops_mem um ops) s0 0); [eassumption|lia]|post].
  eexists _, _. split; [reflexivity|]. unfold sl2. cbn [fst snd]. split; [eassumption|]. split; [reflexivity|]. split; [intros _; lia|left; lia].
Qed.

Lemma update_f_done um dis name cr ops b hb m : shape m0 um -> opt (fun_refs mine) cr -> Forall (wuop_uses mine) ops -> rb um s0 0 m b hb ->
  done (exec_call dis (CUpdateF name (option_map (fun_now um) cr) (uops_at um ops) None) b) (w_update_f dis name cr ops hb m)
    (rb (if match berr b with Some _ => true | None => false end then um else uops_mem um ops) s0 0).
Proof.
  intros Sh Uc U R. apply guarded_done; [exact R|]. intros p s S. unfold do_update_f. cbv zeta. pose proof S as [S1 _]. rewrite (sl_len _ _ _ _ _ _ S1).
  eapply done_bind.
  { rewrite (msg_update_eq um s0 0 any_user any_low name cr m p s);
      [eapply done_of, (ref_msg_update um s0 0 any_user any_low); [apply opt_user|exact S]| |exact S].
    destruct cr as [f|]; cbn [opt] in *; [|exact I]. split; [|exact (opt_user (Some (fun_now um f)))].
    eapply refs_weaken; [|exact Uc]. intros t. apply mine_steady, Sh. }
  post.
  eapply done_bind; [apply uops_done; [exact U|exact Sh|eassumption]|post].
  eapply done_bind; [eapply done_of, (ref_patch (uops_mem um ops) s0 0); [eassumption|lia]|post].
  eexists _, _. split; [reflexivity|]. unfold sl2. cbn [fst snd]. split; [eassumption|]. split; [reflexivity|]. split; [intros _; lia|left; lia].
Qed.

Lemma call_done um dis c b hb m : shape m0 um -> call_refs mine c -> rb um s0 0 m b hb ->
  done (exec_call dis (call_now um c) b) (r_exec_call dis c hb m) (rb um s0 0).
Proof.
  intros Sh Q R. rewrite (exec_call_eq um s0 0 any_user any_low dis c b hb m);
    [eapply done_of, (ref_exec_call um s0 0 any_user any_low); [apply call_users_all; intros; exact I|exact R]| |apply call_users_all; intros; exact I|exact R].
  eapply call_weaken; [|exact Q]. intros t. apply mine_steady, Sh.
Qed.

Lemma insert_row_done um name columns row b hb m : shape m0 um -> Forall (value_refs mine) row -> rb um s0 0 m b hb ->
  done (b_insert_row name columns (map (value_now um) row) b) (r_b_insert_row name columns row hb m)
    (fun m' a h => rb um s0 0 m' (fst a) (fst h) /\ snd a = snd h).
Proof.
  intros Sh Q R. rewrite (b_insert_row_eq um s0 0 any_user any_low name columns row b hb m); [|eapply Forall_impl; [|exact Q]|apply all_users|exact R].
  2:{ intros v. apply refs_weaken. intros t. apply mine_steady, Sh. }
  eapply done_of, ref_weaken; [apply (ref_b_insert_row um s0 0 any_user any_low); [apply all_users|exact R]|].
  intros m' [b' f] [hb' f'] [R' [Ef _]]. cbn [fst snd] in *. auto.
Qed.

Lemma done_weaken {A B} (r : res A) (h : hres B) (R Q : mem -> A -> B -> Prop) : done r h R -> (forall m a b, R m a b -> Q m a b) -> done r h Q.
Proof. unfold done. destruct r; [|auto]. intros [b [m' [Eh HR]]] HQ. eauto. Qed.

Lemma bind_assoc {A B C} (r : res A) (f : A -> res B) (g : B -> res C) : bind (bind r f) g = bind r (fun x => bind (f x) g).
Proof. destruct r; reflexivity. Qed.

Definition result (n : nat) (m' : mem) (a : list builder * list (option exprfun) * mem) (h : list hbuilder * list (option exprfun)) : Prop :=
  rst (snd a) s0 0 m' (fst (fst a)) (fst h) /\ snd (fst a) = snd h /\ shape m0 (snd a) /\ length (fst (fst a)) = n.

Lemma run_done pr : uses mine pr -> forall um m st hst, shape m0 um -> rst um s0 0 m st hst ->
  done (run_at pr st um) (w_run pr hst m) (result (length st)).
Proof.
  induction pr as [e out|lvl c next IH|lvl name columns ops next IH|lvl name cr ops next IH|lvl name columns row next IH|lvl k body IHb next IH|t o xs next IH|t next IH];
    cbn [uses]; intros U um m st hst Sh R; cbn [run_at w_run]; cbv zeta.
  - eexists _, _. split; [reflexivity|]. unfold result. cbn. auto.
  - destruct U as [Uc Un].
    destruct (rst_nth um s0 0 m st hst lvl R) as [[b [o [hb [ho [-> [-> [-> [Rb [F [Fh L]]]]]]]]]]|[[E1 E2]|[b [hb [E1 [E2 [D Dh]]]]]]].
    + cbn [nth_error map set_nth]. rewrite (flags_equal o ho F Fh L). rewrite bind_assoc.
      eapply done_bind; [apply call_done; [exact Sh|exact Uc|exact Rb]|]. cbv beta. intros m' b' hb' R'. cbn [bind].
      apply (IH Un um m' (b' :: o)); [exact Sh|]. exists b', o, hb', ho. auto 10.
    + rewrite E1, E2. exists m. reflexivity.
    + rewrite E1, E2. cbn [bind]. unfold exec_call, guarded. rewrite D. cbn [bind]. exists m. unfold hbind.
      destruct c; unfold r_exec_call, h_exec_call, h_guarded; rewrite Dh; reflexivity.
  - destruct U as [Uc Un]. unfold has_error.
    destruct (rst_nth um s0 0 m st hst lvl R) as [[b [o [hb [ho [-> [-> [-> [Rb [F [Fh L]]]]]]]]]]|[[E1 E2]|[b [hb [E1 [E2 [D Dh]]]]]]].
    + cbn [nth_error map set_nth]. rewrite (flags_equal o ho F Fh L). rewrite bind_assoc.
      eapply done_bind; [apply insert_f_done; [exact Sh|exact Uc|exact Rb]|]. cbv beta. intros m' b' hb' R'. cbn [bind].
      apply (IH Un _ m' (b' :: o)); [destruct (berr b); [exact Sh|apply iops_shape; assumption]|]. exists b', o, hb', ho. auto 10.
    + rewrite E1, E2. exists m. reflexivity.
    + rewrite E1, E2. cbn [bind]. unfold exec_call, guarded. rewrite D. cbn [bind]. exists m. unfold hbind, w_insert_f, h_guarded. rewrite Dh. reflexivity.
  - destruct U as [Uf [Uc Un]]. unfold has_error.
    destruct (rst_nth um s0 0 m st hst lvl R) as [[b [o [hb [ho [-> [-> [-> [Rb [F [Fh L]]]]]]]]]]|[[E1 E2]|[b [hb [E1 [E2 [D Dh]]]]]]].
    + cbn [nth_error map set_nth]. rewrite (flags_equal o ho F Fh L). rewrite bind_assoc.
      eapply done_bind; [apply update_f_done; [exact Sh|exact Uf|exact Uc|exact Rb]|]. cbv beta. intros m' b' hb' R'. cbn [bind].
      apply (IH Un _ m' (b' :: o)); [destruct (berr b); [exact Sh|apply uops_shape; assumption]|]. exists b', o, hb', ho. auto 10.
    + rewrite E1, E2. exists m. reflexivity.
    + rewrite E1, E2. cbn [bind]. unfold exec_call, guarded. rewrite D. cbn [bind]. exists m. unfold hbind, w_update_f, h_guarded. rewrite Dh. reflexivity.
  - destruct U as [Uc Un].
    destruct (rst_nth um s0 0 m st hst lvl R) as [[b [o [hb [ho [-> [-> [-> [Rb [F [Fh L]]]]]]]]]]|[[E1 E2]|[b [hb [E1 [E2 [D Dh]]]]]]].
    + cbn [nth_error set_nth].
      eapply done_bind; [apply insert_row_done; [exact Sh|exact Uc|exact Rb]|]. cbv beta.
      intros m' [b' f] [hb' f'] [R' Ef]. cbn [fst snd] in *. subst f'.
      apply (IH f (Un f) um m' (b' :: o)); [exact Sh|]. exists b', o, hb', ho. auto 10.
    + rewrite E1, E2. exists m. reflexivity.
    + rewrite E1, E2. unfold b_insert_row. rewrite D. exists m. unfold hbind, r_b_insert_row. rewrite Dh. reflexivity.
  - destruct U as [Ub Un].
    destruct (rst_nth um s0 0 m st hst lvl R) as [[b [o [hb [ho [-> [-> [-> [Rb [F [Fh L]]]]]]]]]]|[[E1 E2]|[b [hb [E1 [E2 [D Dh]]]]]]].
    + cbn [nth_error set_nth].
      eapply done_bind; [eapply done_of, (ref_block_begin um s0 0 any_user any_low); exact Rb|]. cbv beta.
      intros m1 [b1 e] [hb1 e'] [R1 [Ee _]]. cbn [fst snd] in *. subst e'.
      destruct e; [|apply (IH [] (Un []) um m1 (b1 :: o)); [exact Sh|exists b1, o, hb1, ho; auto 10]].
      assert (Rc : rst um s0 0 m1 (mkb (buf b1) (berr b1) false :: mkb (buf b1) (berr b1) true :: o) (mkhb (hbuf hb1) (hberr hb1) false :: mkhb (hbuf hb1) (hberr hb1) true :: ho)).
      { destruct R1 as [Eb [D [Dh [S [Lb K]]]]]. eexists _, _, _, _. split; [reflexivity|]. split; [reflexivity|].
        split; [unfold MemBuild.rb; cbn; repeat match goal with |- _ /\ _ => split end; auto|].
        repeat (split; [constructor; auto|]). cbn [length]. congruence. }
      eapply done_bind; [apply (IHb Ub um m1 _ _ Sh Rc)|]. cbv beta. intros m2 [[st2 out] um2] [hst2 out'] [R2 [Eo [Sh2 Ln]]]. cbn [fst snd length] in *. subst out'.
      destruct R2 as [c [o2 [hc [ho2 [-> [-> [Rc2 [F2 [Fh2 L2]]]]]]]]].
      eapply done_bind; [eapply done_of, (ref_block_end um2 s0 0 any_user any_low k (mkb (buf c) (berr c) false)); destruct Rc2 as [Eb [D [Dh [S [Lb K]]]]];
        unfold MemBuild.rb; cbn; repeat match goal with |- _ /\ _ => split end; auto|].
      cbv beta. intros m3 b3 hb3 R3. cbn [length] in Ln. destruct o2 as [|x o3]; [discriminate|]. destruct ho2 as [|hx ho3]; [discriminate|]. cbn [length set_nth] in *.
      replace (S (length o)) with (length (b3 :: o3)) by (cbn [length]; lia).
      apply (IH out (Un out) um2 m3 (b3 :: o3)); [exact Sh2|]. exists b3, o3, hb3, ho3. inversion F2; inversion Fh2; subst. injection L2 as L2. auto 10.
    + rewrite E1, E2. exists m. reflexivity.
    + rewrite E1, E2. unfold block_begin. rewrite D. exists m. unfold hbind, h_block_begin. rewrite Dh. reflexivity.
  - destruct U as [M [L Un]]. unfold hbind. rewrite copy_stored by exact L.
    apply (IH Un); [|apply stored_rst; assumption].
    apply shape_stored; [exact Sh|eapply shape_wf; [exact Sh|apply M]|]. destruct M as [[W _] _]. lia.
  - destruct U as [M Un]. unfold hbind, h_read.
    destruct R as [b [ot [hb [ho [Es [Eh [Rb F]]]]]]]. pose proof Rb as [_ [_ [_ [[_ [_ [O _]]] _]]]].
    rewrite (outside_contents um s0 0 m t O (shape_wf _ _ _ Sh (proj1 M)) (proj2 M)).
    apply (IH _ (Un _)); [exact Sh|]. exists b, ot, hb, ho. auto.
Qed.

End Busy.
