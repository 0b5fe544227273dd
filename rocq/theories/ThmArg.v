(* C94 A []byte argument is sent with the contents it has when the call is made. *)
From Coq Require Import String List NArith ZArith Arith Bool Lia.
From Coq Require Import List.
From Verif Require Import Base GoSlice Varint Text Values AnyModel ExprModel MsgModel Builder SpecMem Mem MemModel MemProofs MemRef MemBuild MemUse MemArg SpecArg MemArgProofs.
From Verif Require ThmBuilder ReuseProofs.
Import ListNotations.
Local Open Scope nat_scope.

Lemma hbind_ok {A B} (h : H A) (f : A -> H B) m a m' : h m = HOk a m' -> hbind h f m = f a m'.
Proof. intros Eh. unfold hbind. rewrite Eh. reflexivity. Qed.

Section Theorems.
Context `{E : Env}.

(* A call does, to the builder and to all of memory, what it does when it is given copies of its []byte arguments made just
   before, wherever these are in values, operators, functions and rows; whatever user code there is in it. The slices may
   overlap each other but not the builder's memory. *)
Theorem C94_arguments_as_they_are : forall dis c b m,
  valid m (hbuf b) ->
  call_refs (fun t => valid m t /\ apart (hbuf b) t) c ->
  r_exec_call dis c b m = h_exec_call dis (call_now m c) b m.
Proof.
  intros dis c b m W Q. destruct (hdisabled b) eqn:D.
  - destruct c; unfold r_exec_call, h_exec_call, h_guarded; rewrite D; reflexivity.
  - eapply (exec_call_eq m (hbuf b) 0 any_user any_low).
    + eapply call_weaken; [|exact Q]. intros t [Wt A]. apply steady_apart; assumption.
    + apply call_users_all. intros u. exact I.
    + apply rb_start; [exact W|exact D|lia].
Qed.

(* The same for whole programs, with callbacks and InsertRow: the contents are those at the beginning. *)
Theorem C94_programs : forall pr b m,
  valid m (hbuf b) -> hdisabled b = false ->
  prog_refs (fun t => valid m t /\ apart (hbuf b) t) pr ->
  r_run pr [b] m = h_run (prog_now m pr) [b] m.
Proof.
  intros pr b m W D Q. eapply (run_eq m (hbuf b) 0 any_user any_low).
  - eapply prog_weaken; [|exact Q]. intros t [Wt A]. apply steady_apart; assumption.
  - apply users_all. intros u. exact I.
  - exists (bview m b), [], b, []. split; [reflexivity|]. split; [reflexivity|]. split; [apply rb_start; [exact W|exact D|lia]|auto].
Qed.

(* If user code keeps its hands off what it did not append, the arguments may also be bytes the builder has already built;
   just not the room behind them. *)
Theorem C94_also_what_is_built : forall pr b m,
  valid m (hbuf b) -> hdisabled b = false ->
  prog_refs (fun t => valid m t /\ clear_of (hbuf b) t) pr -> prog_users leaves_alone (prog_now m pr) ->
  r_run pr [b] m = h_run (prog_now m pr) [b] m.
Proof.
  intros pr b m W D Q U. eapply (run_eq m (hbuf b) (hlen (hbuf b)) leaves_alone (leaves_low _)).
  - eapply prog_weaken; [|exact Q]. intros t [Wt A]. apply steady_clear; assumption.
  - exact U.
  - exists (bview m b), [], b, []. split; [reflexivity|]. split; [reflexivity|]. split; [apply rb_start; [exact W|exact D|lia]|auto].
Qed.

(* When a call has returned the caller may write to the slices it passed, and to any other that is not the builder's: what
   has been built stays as it is. *)
Theorem C94_free_after_the_call : forall dis c b m b' m' t o xs,
  valid m (hbuf b) -> hdisabled b = false ->
  call_refs (fun t => valid m t /\ apart (hbuf b) t) c ->
  r_exec_call dis c b m = HOk b' m' ->
  valid m t -> apart (hbuf b) t -> o + length xs <= hcap t ->
  contents (write m' (arr t) (off t + o) xs) (hbuf b') = contents m' (hbuf b').
Proof.
  intros dis c b m b' m' t o xs W D Q Er Wt A L. rewrite (C94_arguments_as_they_are dis c b m W Q) in Er.
  pose proof (ref_exec_call m (hbuf b) 0 any_user any_low dis (call_now m c) (bview m b) b m
    (call_users_all _ (fun _ => I) _) (rb_start m b 0 W D ltac:(lia))) as R.
  unfold refines in R. destruct (exec_call dis _ _) as [a|]; [|destruct R as [m2 [R _]]; congruence].
  destruct R as [b2 [m2 [Eb [_ [_ [_ [[Wb [_ [O Wi]]] _]]]]]]]. rewrite Er in Eb. injection Eb as <- <-.
  pose proof (within_apart _ _ _ _ Wi Wt A) as A'.
  destruct (outside_wf _ _ _ _ t O Wt) as [Z|Wt'].
  - assert (xs = []) as -> by (destruct xs; [reflexivity|cbn [length] in L; lia]).
    unfold contents, write. rewrite ow_nil, array_set. destruct (Nat.eqb_spec (arr (hbuf b')) (arr t)) as [->|]; cbn [andb]; [destruct (_ <? _)|]; reflexivity.
  - apply contents_write; assumption.
Qed.

(* The property fails in the room behind what is built. A Sender that keeps the unit it was given holds such a slice after
   Reset: passed as an argument of the next statement, it is overwritten by the beginning of that statement before it is
   read. What is sent begins with the four zeros that stand in for the length until the message is complete. *)
Theorem C94_refuted : forall dis stmt k b m s b1,
  valid m (hbuf b) -> hdisabled b = false ->
  h_send b m = HOk (inl s) m -> h_reset b m = HOk b1 m ->
  4 <= hlen s -> 16 <= hcap s -> firstn 4 (contents m s) <> [0; 0; 0; 0]%N ->
  exists x, length x = hlen s /\ firstn 4 x = [0; 0; 0; 0]%N /\ x <> contents m s /\
    r_exec_call dis (RStmtExecute stmt [RRef k s]) b1 m =
    h_exec_call dis (CStmtExecute stmt
      [match k with OBytes => VBytes | OXml => VXml | OJson => VJson | OGeometry => VGeometry end (Some x)]) b1 m.
Proof.
  intros dis stmt k b m s b1 W D Hs Hr L4 L16 Nz.
  assert (Es : s = hbuf b). { unfold h_send in Hs. rewrite D in Hs. destruct (hberr b); [discriminate|]. injection Hs as <-. reflexivity. }
  subst s. set (s := hbuf b) in *.
  assert (Eb : b1 = mkhb (mkh (arr s) (off s) 0 (hcap s)) None false).
  { unfold h_reset in Hr. rewrite D in Hr. unfold hbind, h_reslice in Hr. cbn [Nat.leb] in Hr. injection Hr as <-. reflexivity. }
  subst b1.
  assert (G : exists x, length x = hlen s /\ firstn 4 x = [0; 0; 0; 0]%N /\
    r_stmt_execute (mkh (arr s) (off s) 0 (hcap s)) stmt [RRef k s] m =
    h_stmt_execute (mkh (arr s) (off s) 0 (hcap s)) stmt
      [match k with OBytes => VBytes | OXml => VXml | OJson => VJson | OGeometry => VGeometry end (Some x)] m).
  2:{ destruct G as [x [Lx [Zx Ex]]]. exists x. split; [exact Lx|]. split; [exact Zx|]. split; [congruence|].
      unfold r_exec_call, h_exec_call, h_guarded. cbn [hdisabled hberr hbuf]. unfold hbind. rewrite Ex. reflexivity. }
  unfold r_stmt_execute, h_stmt_execute. cbv zeta.
  match goal with |- context [h_append _ ?l] => set (xs := l) end.
  set (m1 := write m (arr s) (off s + 0) xs). set (s1 := mkh (arr s) (off s) 16 (hcap s)).
  assert (Ea : h_append (mkh (arr s) (off s) 0 (hcap s)) xs m = HOk s1 m1).
  { unfold h_append. cbn [hlen hcap arr off]. change (length xs) with 16. destruct (Nat.leb_spec (0 + 16) (hcap s)); [reflexivity|lia]. }
  pose proof W as [W1 W2].
  assert (Lw : length (ow (array m (arr s)) (off s + 0) xs) = length (array m (arr s))) by (apply ow_length; change (length xs) with 16; lia).
  assert (Aw : array m1 (arr s) = ow (array m (arr s)) (off s + 0) xs).
  { unfold m1. rewrite array_write by (change (length xs) with 16; lia). rewrite Nat.eqb_refl. reflexivity. }
  assert (Ws : wf m1 s1). { split; cbn [hlen hcap arr off s1]; [lia|]. rewrite Aw, Lw. lia. }
  assert (Wt : wf m1 s). { split; [lia|]. rewrite Aw, Lw. lia. }
  assert (Z : firstn 4 (contents m1 s1) = [0; 0; 0; 0]%N).
  { unfold contents. cbn [arr off hlen s1]. rewrite Aw, Nat.add_0_r. unfold ow, sub.
    assert (Lf : length (firstn (off s) (array m (arr s))) = off s) by (rewrite firstn_length; lia).
    rewrite skipn_app, Lf, (skipn_all2 (firstn _ _)), Nat.sub_diag by lia. reflexivity. }
  pose proof (overlap_args m1 s1 k tagStmtExecuteArgs s Ws Wt eq_refl eq_refl L4 ltac:(cbn; lia) Z) as Ov.
  assert (Triv : exists x : bytes, length x = hlen s /\ firstn 4 x = [0; 0; 0; 0]%N).
  { exists (repeat 0%N (hlen s)). split; [apply repeat_length|]. destruct (hlen s) as [|[|[|[|n]]]]; try lia. reflexivity. }
  assert (Sz : 1 <= size_varint (nlen stmt)) by apply ReuseProofs.size_varint_pos.
  assert (Fin : exists x, length x = hlen s /\ firstn 4 x = [0; 0; 0; 0]%N /\ forall r : hslice * option err -> H (hslice * option err),
    (let* p := h_mask_truncate s1 (hlen s1 + size_varint (nlen stmt) - 10) in let* p := h_append p stmt in
     let* pe := r_append_args tagStmtExecuteArgs [RRef k s] p in r pe) m1 =
    (let* p := h_mask_truncate s1 (hlen s1 + size_varint (nlen stmt) - 10) in let* p := h_append p stmt in
     let* pe := h_append_args tagStmtExecuteArgs [match k with OBytes => VBytes | OXml => VXml | OJson => VJson | OGeometry => VGeometry end (Some x)] p in r pe) m1).
  { pose proof (ref_mask_truncate m1 s1 4 m1 (view m1 s1) s1 (hlen s1 + size_varint (nlen stmt) - 10) (sl_start m1 s1 4 Ws)
      ltac:(change (hlen s1) with 16; lia)) as R2.
    unfold refines in R2. destruct (mask_truncate _ _) as [q2|].
    2:{ destruct R2 as [m2 [E2 _]]. destruct Triv as [x [Lx Zx]]. exists x. split; [exact Lx|]. split; [exact Zx|]. intros r.
        unfold hbind. rewrite E2. reflexivity. }
    destruct R2 as [s2 [m2 [E2 [S2 L2]]]]. change (hlen s1) with 16 in L2.
    pose proof (ref_append m1 s1 4 m2 q2 s2 stmt S2 ltac:(lia)) as [s3 [m3 [E3 [S3 L3]]]].
    assert (G3 : sg m1 s1 4 m3 (append q2 stmt) s3) by (split; [exact S3|lia]).
    destruct (Ov m3 _ s3 G3) as [x [Lx [Zx Ex]]].
    exists x. split; [exact Lx|]. split; [exact Zx|]. intros r. unfold hbind at 1 4. rewrite E2. unfold hbind at 1 3. rewrite E3.
    unfold r_append_args, h_append_args, h_each, hbind. rewrite Ex. reflexivity. }
  destruct Fin as [x [Lx [Zx Fx]]]. exists x. split; [exact Lx|]. split; [exact Zx|].
  rewrite !(hbind_ok _ _ _ _ _ Ea). apply Fx.
Qed.

End Theorems.

(* ---- the hypotheses can be met ---- *)

#[local] Existing Instance ThmBuilder.plain.

(* Memory with 8 bytes of the caller's, and a pipe of n bytes that has a statement. *)
Definition caller : mem := [s2b "caller's"].
Definition stmt_prog (s : String.string) : prog := PCall 0 (CStmtExecute (s2b s) []) (Ret None []).
Definition piped (n : nat) : hres hbuilder :=
  (let* b := h_new_pipe n in
   let* (st, _) := h_run (stmt_prog "SELECT 1") [b] in
   match st with [b] => hret b | _ => hpanic end) caller.
Definition called : hslice := mkh 0 0 6 8.     (* "caller" *)
Definition allers : hslice := mkh 0 1 7 7.     (* "aller's", in the same array *)

(* A callback, an InsertRow with a document, an update whose criteria and value refer to the caller's bytes, and an argument
   through two pointers; in a pipe that has to grow. *)
Definition uses_args : rprog :=
  RPBlock 0 (KTx 0)
    (RPInsertRow 0 (s2b "t") [s2b "a"; s2b "b"] [RRef OXml called; RFunc (RCall (s2b "f") [RRef OBytes allers])] (fun o => RRet None [o]))
    (fun out => RPCall 0 (RUpdate (s2b "t") (Some (ROperator (s2b "==") [RFunc (RFun (EColumn (s2b "a"))); RRef OBytes called])) [(s2b "b", RRef OJson allers)])
      (RPCall 0 (RStmtExecute (s2b "SELECT ?, ?") [RPtr false (RPtr true (RRef OBytes called)); RVal (VInt 7)]) (RRet None out))).

Lemma refs_of_caller m s : valid m s -> (forall t, t = called \/ t = allers -> valid m t /\ apart s t) ->
  prog_refs (fun t => valid m t /\ apart s t) uses_args.
Proof.
  intros W A. assert (C := A called (or_introl eq_refl)). assert (L := A allers (or_intror eq_refl)).
  unfold uses_args. cbn. repeat lazymatch goal with |- _ /\ _ => split | |- forall _, _ => intro | |- Forall _ _ => constructor; cbn | |- True => exact I | |- valid _ called => exact (proj1 C) | |- valid _ allers => exact (proj1 L) | |- apart _ called => exact (proj2 C) | |- apart _ allers => exact (proj2 L) end.

Qed.

Example programs_meet : exists b m, piped 20 = HOk b m /\ valid m (hbuf b) /\ hdisabled b = false /\
  prog_refs (fun t => valid m t /\ apart (hbuf b) t) uses_args /\
  exists b' f m', r_run uses_args [b] m = HOk ([b'], [Some f]) m' /\ hberr b' = None /\ arr (hbuf b') <> arr (hbuf b) /\
    hlen (hbuf b) + 150 <= hlen (hbuf b').
Proof.
  do 2 eexists. split; [vm_compute; reflexivity|]. split; [split; vm_compute; lia|]. split; [reflexivity|]. split.
  { apply refs_of_caller; [split; vm_compute; lia|]. intros t [->| ->]; (split; [split; vm_compute; lia|unfold apart; right; right; left; vm_compute; discriminate]). }
  do 3 eexists. split; [vm_compute; reflexivity|]. split; [reflexivity|]. split; [vm_compute; discriminate|vm_compute; lia].
Qed.

(* One statement, with its bytes; the caller then overwrites the argument. *)
Definition one_arg : rcall := RStmtExecute (s2b "SELECT ?") [RRef OBytes called].
Example call_meets : exists b m b' m', piped 128 = HOk b m /\ valid m (hbuf b) /\ hdisabled b = false /\
  call_refs (fun t => valid m t /\ apart (hbuf b) t) one_arg /\ r_exec_call [] one_arg b m = HOk b' m' /\
  valid m called /\ apart (hbuf b) called /\
  skipn (hlen (hbuf b)) (contents m' (hbuf b')) =
    [29; 0; 0; 0; 12; 10; 8]%N ++ s2b "SELECT ?" ++ [18; 16; 8; 1; 18; 12; 8; 4; 42; 8; 10; 6]%N ++ s2b "caller" /\
  contents (write m' (arr called) (off called + 0) (s2b "XXXXXX")) called = s2b "XXXXXX" /\
  contents (write m' (arr called) (off called + 0) (s2b "XXXXXX")) (hbuf b') = contents m' (hbuf b').
Proof.
  do 4 eexists. split; [vm_compute; reflexivity|]. split; [split; vm_compute; lia|]. split; [reflexivity|].
  split.
  { constructor; [|constructor]. cbn [value_refs]. split; [split; vm_compute; lia|unfold apart; right; right; left; vm_compute; discriminate]. }
  split; [vm_compute; reflexivity|]. split; [split; vm_compute; lia|]. split; [unfold apart; right; right; left; vm_compute; discriminate|].
  split; [vm_compute; reflexivity|]. split; vm_compute; reflexivity.
Qed.

(* The argument is the message that has been built, in the same array. *)
Example built_meets : exists b m b' m', piped 128 = HOk b m /\
  valid m (hbuf b) /\ clear_of (hbuf b) (hbuf b) /\ 0 < hlen (hbuf b) /\
  r_run (RPCall 0 (RExecute 1 [RRef OBytes (hbuf b)]) (RRet None [])) [b] m = HOk ([b'], []) m' /\ arr (hbuf b') = arr (hbuf b) /\
  contents m' (hbuf b') = contents m (hbuf b) ++ [30; 0; 0; 0; 41; 8; 1; 18; 25; 8; 1; 18; 21; 8; 4; 42; 17; 10; 15]%N ++ contents m (hbuf b).
Proof.
  do 4 eexists. split; [vm_compute; reflexivity|]. split; [split; vm_compute; lia|]. split; [right; right; left; vm_compute; lia|].
  split; [vm_compute; lia|]. split; [vm_compute; reflexivity|]. split; vm_compute; reflexivity.
Qed.

(* The Sender's slice, passed after Reset. *)
Example refuted_meets : exists b m s b1 b' m', piped 128 = HOk b m /\ valid m (hbuf b) /\ hdisabled b = false /\
  h_send b m = HOk (inl s) m /\ h_reset b m = HOk b1 m /\ 4 <= hlen s /\ 16 <= hcap s /\
  contents m s = [11; 0; 0; 0; 12; 10; 8]%N ++ s2b "SELECT 1" /\
  r_exec_call [] (RStmtExecute (s2b "SELECT ?") [RRef OBytes s]) b1 m = HOk b' m' /\
  skipn 27 (contents m' (hbuf b')) = [0; 0; 0; 0; 12; 10; 8]%N ++ s2b "SELECT ?".
Proof.
  do 6 eexists. split; [vm_compute; reflexivity|]. split; [split; vm_compute; lia|]. split; [reflexivity|]. split; [reflexivity|]. split; [reflexivity|].
  split; [vm_compute; lia|]. split; [vm_compute; lia|]. split; [vm_compute; reflexivity|]. split; [vm_compute; reflexivity|]. vm_compute. reflexivity.
Qed.

Print Assumptions C94_arguments_as_they_are.
Print Assumptions C94_programs.
Print Assumptions C94_also_what_is_built.
Print Assumptions C94_free_after_the_call.
Print Assumptions C94_refuted.
