(* C91 Pipes write nowhere but in their own memory, and pipes that share memory do not influence each other.
   C92 The bytes given to a Sender stay as they are until the pipe is Reset and used again. *)
From Coq Require Import String List NArith ZArith Arith Bool Lia.
From Coq Require Import List.
From Verif Require Import Base GoSlice Values Builder SpecMem Mem MemModel MemPipes MemProofs MemRef MemBuild MemUse.
From Verif Require ThmBuilder.
Import ListNotations.
Local Open Scope nat_scope.

Section Theorems.
Context `{E : Env}.

(* ---- C91 ---- *)

(* Building in memory, where slices share arrays and a callback's builder starts on its parent's array, has the outcome
   it has on slice values: a panic, or the same results of InsertRow, the same error and the same bytes. *)
Theorem C91_memory_agrees_with_values : forall pr m b,
  valid m (hbuf b) -> hdisabled b = false ->
  match run pr [mkb (value_of m (hbuf b)) (hberr b) false] with
  | Panic => exists m', h_run pr [b] m = HPanic m'
  | Ok (st, out) => exists b' m', h_run pr [b] m = HOk ([b'], out) m' /\
      valid m' (hbuf b') /\ hdisabled b' = false /\
      st = [mkb (value_of m' (hbuf b')) (hberr b') false]
  end.
Proof.
  intros pr m b W D.
  pose proof (run_memory any_user 0 pr m b any_low (users_all any_user (fun _ => I) pr) W D ltac:(lia)) as R.
  unfold refines, bview in R. change (value_of m (hbuf b)) with (view m (hbuf b)).
  destruct (run pr _) as [[st out]|].
  - destruct R as [[hst out'] [m' [Er [b' [E1 [E2 [E3 [W' [D' _]]]]]]]]]. cbn [fst snd] in *. subst.
    exists b', m'. auto.
  - destruct R as [m' [Er _]]. exists m'. exact Er.
Qed.

(* Whatever is called, with whatever user code, and whether it returns or panics: what any slice apart from the pipe's
   shows stays the same, and the pipe's buffer stays apart from it. *)
Theorem C91_only_own_memory : forall pr m b t,
  valid m (hbuf b) -> hdisabled b = false -> valid m t -> apart (hbuf b) t ->
  contents (mem_after (h_run pr [b] m)) t = contents m t /\
  forall b' out m', h_run pr [b] m = HOk ([b'], out) m' -> apart (hbuf b') t.
Proof.
  intros pr m b t W D Wt A. split.
  - eapply outside_contents; [apply outside_after; eassumption|exact Wt|exact A].
  - intros b' out m' Er.
    pose proof (run_memory any_user 0 pr m b any_low (users_all any_user (fun _ => I) pr) W D ltac:(lia)) as R.
    unfold refines in R. destruct (run pr _) as [[st o]|].
    + destruct R as [h [m2 [Er2 [b2 [E1 [_ [_ [_ [_ [_ [Wi _]]]]]]]]]]]. rewrite Er in Er2. injection Er2 as <- <-. cbn [fst] in E1. injection E1 as <-.
      eapply within_apart; eassumption.
    + destruct R as [m2 [Er2 _]]. congruence.
Qed.

(* Any number of pipes over one memory, made, used, reset and sent in any order, some of them panicking: each sees what it
   would see were it the only one. *)
Theorem C91_pipes_do_not_interfere : forall acts m i,
  of_pipe i (snd (world_run (mkw m (fun _ => None)) acts)) = alone None (of_pipe i acts).
Proof.
  intros acts m i. apply (alone_ext acts (mkw m (fun _ => None)) (fun _ => None)).
  split; [intros j; exact I|]. cbn. discriminate.
Qed.

(* And nothing that was in memory before the pipes were made is changed by them. *)
Theorem C91_callers_memory_is_kept : forall acts m t,
  valid m t -> contents (wmem (fst (world_run (mkw m (fun _ => None)) acts))) t = contents m t.
Proof.
  intros acts m t W. apply (world_foreign acts (mkw m (fun _ => None)) (fun _ => None)); [|exact W|].
  - split; [intros j; exact I|]. cbn. discriminate.
  - intros i b Hb. discriminate.
Qed.

(* ---- C92 ---- *)

(* The slice a Sender is given is the pipe's buffer itself. However the pipe is used after that, and whichever uses panic,
   the slice shows the same bytes, as long as user code keeps its hands off the bytes it did not append. *)
Theorem C92_sent_bytes_stay : forall m b s b' m',
  valid m (hbuf b) -> hdisabled b = false ->
  h_send b m = HOk (inl s) m ->
  used b m b' m' ->
  contents m' s = contents m s.
Proof.
  intros m b s b' m' W D Hs U.
  assert (Es : s = hbuf b). { unfold h_send in Hs. rewrite D in Hs. destruct (hberr b); [discriminate|]. injection Hs as <-. reflexivity. }
  subst s. set (s := hbuf b) in *.
  (* the buffer is that slice grown in place, or elsewhere *)
  set (place := fun c : hbuilder => (arr (hbuf c) = arr s /\ off (hbuf c) = off s /\ hcap (hbuf c) = hcap s /\ hlen s <= hlen (hbuf c)) \/ apart (hbuf c) s).
  assert (G : contents m' s = contents m s /\ wf m' s /\ wf m' (hbuf b') /\ hdisabled b' = false /\ place b'); [|apply G].
  assert (Fr : forall m c, wf m s -> length m <= arr (hbuf c) \/ hcap (hbuf c) = 0 -> apart (hbuf c) s).
  { intros m1 c Ws [F|F]; [|unfold apart; auto]. destruct (Nat.eq_dec (hcap s) 0) as [Z|Z]; [unfold apart; auto|].
    pose proof (wf_arr _ _ Ws ltac:(lia)). unfold apart. lia. }
  assert (Step : forall m c pr, wf m s -> wf m (hbuf c) -> hdisabled c = false -> place c -> prog_users leaves_alone pr ->
    contents (mem_after (h_run pr [c] m)) s = contents m s /\ wf (mem_after (h_run pr [c] m)) s /\
    (forall c' out m', h_run pr [c] m = HOk ([c'], out) m' -> wf m' (hbuf c') /\ hdisabled c' = false /\ place c')).
  { clear - Fr. intros m c pr Ws Wc D K Up.
    set (lo := if Nat.leb (hlen s) (hlen (hbuf c)) then hlen s else 0).
    assert (Llo : lo <= hlen (hbuf c)) by (unfold lo; destruct (Nat.leb_spec (hlen s) (hlen (hbuf c))); lia).
    pose proof (run_memory leaves_alone lo pr m c (leaves_low lo) Up Wc D Llo) as R.
    assert (Cn : forall m', outside m (hbuf c) lo m' -> contents m' s = contents m s).
    { intros m' O. destruct K as [[Ka [Ko [Kc Kl]]]|K]; [|eapply outside_contents; eassumption].
      destruct (Nat.eq_dec (hlen s) 0) as [Z|Z]; [unfold contents, sub; rewrite Z; reflexivity|].
      destruct O as [L O]. pose proof (wf_arr _ _ Ws ltac:(destruct Ws; lia)) as Ar. destruct (O _ Ar) as [O1 O2]. destruct Ws as [W1 W2].
      unfold contents. apply list_ext; rewrite !sub_length by lia; [reflexivity|]. intros i Hi. rewrite !nth_sub by lia.
      apply O2. unfold owns. unfold lo. rewrite (proj2 (Nat.leb_le _ _) Kl). lia. }
    unfold refines in R. destruct (run pr _) as [[st out]|].
    - destruct R as [[hst out'] [m' [-> [c' [E1 [_ [_ [W' [D' [O [Wi Kl]]]]]]]]]]]. cbn [fst] in E1. subst hst. cbn [mem_after].
      split; [apply Cn; exact O|]. split; [eapply wf_outside; eassumption|].
      intros c2 o2 m2 H2. injection H2 as <- <- <-. split; [exact W'|]. split; [exact D'|].
      destruct K as [[Ka [Ko [Kc K]]]|K]; [|right; eapply within_apart; eassumption].
      unfold lo in Kl. rewrite (proj2 (Nat.leb_le _ _) K) in Kl. destruct Kl as [Kl|Kl]; [|right; apply (Fr m); assumption].
      destruct Wi as [[Wa [Wo Wc']]|Wi]; [left; rewrite Wa, Wo, Wc'; auto|right; apply (Fr m); assumption].
    - destruct R as [m' [-> O]]. cbn [mem_after]. split; [apply Cn; exact O|]. split; [eapply wf_outside; eassumption|]. discriminate. }
  induction U as [|b1 m1 pr b2 out m2 U IH Up Er|b1 m1 pr b2 m2 U IH Up Er V2 D2 Gr].
  - split; [reflexivity|]. split; [exact W|]. split; [exact W|]. split; [exact D|]. left. auto.
  - destruct IH as [C [Ws [Wb [Db K]]]]. destruct (Step m1 b1 pr Ws Wb Db K Up) as [C' [Ws' N]]. rewrite Er in *. cbn [mem_after] in *.
    destruct (N _ _ _ eq_refl) as [N1 [N2 N3]]. split; [congruence|]. auto.
  - destruct IH as [C [Ws [Wb [Db K]]]]. destruct (Step m1 b1 pr Ws Wb Db K Up) as [C' [Ws' _]]. rewrite Er in *. cbn [mem_after] in *.
    split; [congruence|]. split; [exact Ws'|]. split; [exact V2|]. split; [exact D2|].
    destruct Gr as [[Ga [Go [Gc Gl]]]|Gr]; [|right; apply (Fr m1); auto].
    destruct K as [[Ka [Ko [Kc Kl]]]|K]; [left; lia|]. right. unfold apart in *. rewrite Ga, Go, Gc. exact K.
Qed.

(* Reset is where that ends: it keeps the memory. Once the pipe has been built again in the same array, the slice the Sender
   was given starts with the new bytes. *)
Theorem C92_reset_reuses_the_memory : forall pr m b s b1 b' out m',
  valid m (hbuf b) -> hdisabled b = false ->
  h_send b m = HOk (inl s) m ->
  h_reset b m = HOk b1 m ->
  h_run pr [b1] m = HOk ([b'], out) m' ->
  arr (hbuf b') = arr s -> off (hbuf b') = off s ->
  contents m s = contents (mem_after (h_reset b m)) s /\
  firstn (hlen (hbuf b')) (contents m' s) = firstn (hlen s) (contents m' (hbuf b')).
Proof.
  intros pr m b s b1 b' out m' W D Hs Hr Er Ea Eo. split; [rewrite Hr; reflexivity|].
  unfold contents, sub. rewrite Ea, Eo, !firstn_firstn, Nat.min_comm. reflexivity.
Qed.

(* Code that appends, with Go's append, keeps its hands off what was there. *)
Theorem C92_appending_leaves_alone : forall f : N -> bytes, leaves_alone (fun p tag => Ok (append p (f tag), None)).
Proof.
  intros f p tag q e H. injection H as <- <-. unfold append, cap, len.
  destruct (Nat.leb_spec (length (data p) + length (f tag)) (length (data p) + length (spare p))); cbn [data spare].
  - split; intros _; [|rewrite app_length; lia]. split; [rewrite app_length; lia|].
    rewrite <- app_assoc, firstn_app, firstn_all, Nat.sub_diag, firstn_O. apply app_nil_r.
  - rewrite !app_length. split; [intros C; lia|intros _; lia].
Qed.

End Theorems.

(* ---- the hypotheses can be met ---- *)

#[local] Existing Instance ThmBuilder.plain.

Definition stmt (s : String.string) : prog := PCall 0 (CStmtExecute (s2b s) []) (Ret None []).
Definition with_arg (u : ufun) : prog := PCall 0 (CStmtExecute (s2b "SELECT ?") [VUser (Some u) None]) (Ret None []).
(* the encoding of TRUE, appended by user code; the same by user code that first clears the slice it is given *)
Definition truth (tag : N) : bytes := [N.add (N.mul tag 8) 2; 8; 8; 1; 18; 4; 8; 7; 64; 1]%N.
Definition tidy_user : ufun := fun p tag => Ok (append p (truth tag), None).
Definition rude_user : ufun := fun p tag => Ok (append (mk (repeat 0%N (len p)) (spare p)) (truth tag), None).
Definition panicking : ufun := fun _ _ => Panic.

(* Memory with 8 bytes of the caller's, and a pipe of n bytes that has a statement. *)
Definition caller : mem := [s2b "caller's"].
Definition sender_sees (n : nat) : hres (hbuilder * hslice) :=
  (let* b := h_new_pipe n in
   let* (st, _) := h_run (stmt "SELECT 1") [b] in
   match st with
   | [b] => let* r := h_send b in match r with inl s => hret (b, s) | inr _ => hpanic end
   | _ => hpanic
   end) caller.

(* Three pipes take turns: two are built and sent, one panics in user code; the caller's bytes are still there. *)
Definition turns : list (nat * act) :=
  [(0, ANew 4); (1, ANew 200); (0, AUse (stmt "SELECT 1")); (2, ANew 64); (1, AUse (with_arg tidy_user)); (2, AUse (stmt "SELECT 3"));
   (2, AUse (with_arg panicking)); (0, AUse (stmt "SELECT 4")); (2, ASend); (1, ASend); (0, ASend); (0, AReset); (0, AUse (stmt "SELECT 5")); (0, ASend)].
Example turns_seen :
  let r := world_run (mkw caller (fun _ => None)) turns in
  of_pipe 1 (snd r) = [SNew; SUse (Some []); SSend (inl ([21; 0; 0; 0; 12; 10; 8]%N ++ s2b "SELECT ?" ++ truth 2))] /\
  of_pipe 2 (snd r) = [SNew; SUse (Some []); SUse None; SGone] /\
  length (of_pipe 0 (snd r)) = 7 /\
  contents (wmem (fst r)) (mkh 0 0 8 8) = s2b "caller's" /\ length (wmem (fst r)) = 6.
Proof. vm_compute. auto 10. Qed.

(* C91: a program with a callback, in a pipe next to the caller's slice; it grows into new memory and inserts rows. *)
Definition block_prog : prog :=
  PBlock 0 (KTx 0) (PInsertRow 0 (s2b "t") [s2b "a"] [VUser None (Some tidy_user)] (fun o => Ret None [o])) (fun out => Ret None out).
Example own_memory_meets : exists b s m, sender_sees 20 = HOk (b, s) m /\
  valid m (hbuf b) /\ hdisabled b = false /\ valid m (mkh 0 0 8 8) /\ apart (hbuf b) (mkh 0 0 8 8) /\
  exists b' f m', h_run block_prog [b] m = HOk ([b'], [Some f]) m' /\ hberr b' = None /\ hlen (hbuf b) < hlen (hbuf b') /\ arr (hbuf b') <> arr (hbuf b).
Proof.
  do 3 eexists. split; [vm_compute; reflexivity|]. split; [split; vm_compute; lia|]. split; [reflexivity|]. split; [split; vm_compute; lia|].
  split; [unfold apart; vm_compute; right; right; left; discriminate|].
  do 3 eexists. split; [vm_compute; reflexivity|]. split; [reflexivity|]. split; [vm_compute; lia|]. vm_compute. discriminate.
Qed.

(* C92: the pipe is used on, with user code and a panic, in the array the Sender looks at. *)
Lemma one_arg u : leaves_alone u -> prog_users leaves_alone (with_arg u).
Proof. intros L. split; [|constructor]. constructor; [split; [exact L|exact I]|constructor]. Qed.
Lemma panicking_leaves_alone : leaves_alone panicking.
Proof. intros p tag q e H. discriminate. Qed.
Example sent_meets : exists b s m b' m', sender_sees 128 = HOk (b, s) m /\
  valid m (hbuf b) /\ hdisabled b = false /\ h_send b m = HOk (inl s) m /\
  contents m s = [11; 0; 0; 0; 12; 10; 8]%N ++ s2b "SELECT 1" /\
  used b m b' m' /\ arr (hbuf b') = arr s /\ hlen s + 40 <= hlen (hbuf b') /\ m' <> m.
Proof.
  do 5 eexists. split; [vm_compute; reflexivity|]. split; [split; vm_compute; lia|]. split; [reflexivity|]. split; [reflexivity|].
  split; [vm_compute; reflexivity|]. split.
  - eapply used_call with (pr := stmt "SELECT 2").
    + eapply used_panic with (pr := with_arg panicking).
      * eapply used_call with (pr := with_arg tidy_user); [apply used_not| |vm_compute; reflexivity].
        apply one_arg. exact (C92_appending_leaves_alone truth).
      * apply one_arg. exact panicking_leaves_alone.
      * vm_compute; reflexivity.
      * instantiate (1 := mkhb (mkh 1 0 40 128) None false). split; vm_compute; lia.
      * reflexivity.
      * left. vm_compute. auto.
    + split; exact (Forall_nil _).
    + vm_compute; reflexivity.
  - split; [reflexivity|]. split; [vm_compute; lia|]. vm_compute. discriminate.
Qed.
(* Without that care of user code, bytes the Sender has been given change; and they change after Reset. *)
Example rude_changes : exists b s m, sender_sees 128 = HOk (b, s) m /\ ~ leaves_alone rude_user /\
  contents (mem_after (h_run (with_arg rude_user) [b] m)) s <> contents m s.
Proof.
  do 3 eexists. split; [vm_compute; reflexivity|]. split; [|vm_compute; discriminate].
  intros L. destruct (L (mk [1]%N (repeat 0%N 20)) 1%N _ None eq_refl) as [L1 _]. specialize (L1 eq_refl) as [_ L1]. vm_compute in L1. discriminate.
Qed.
Example reset_meets : exists b s m b1 b' m', sender_sees 128 = HOk (b, s) m /\
  valid m (hbuf b) /\ hdisabled b = false /\ h_send b m = HOk (inl s) m /\ h_reset b m = HOk b1 m /\
  h_run (stmt "SELECT 2") [b1] m = HOk ([b'], []) m' /\ arr (hbuf b') = arr s /\ off (hbuf b') = off s /\
  contents m s = [11; 0; 0; 0; 12; 10; 8]%N ++ s2b "SELECT 1" /\ contents m' s = [11; 0; 0; 0; 12; 10; 8]%N ++ s2b "SELECT 2".
Proof.
  do 6 eexists. split; [vm_compute; reflexivity|]. split; [split; vm_compute; lia|]. split; [reflexivity|]. split; [reflexivity|]. split; [reflexivity|].
  split; [vm_compute; reflexivity|]. split; [reflexivity|]. split; [reflexivity|]. split; vm_compute; reflexivity.
Qed.

Print Assumptions C91_memory_agrees_with_values.
Print Assumptions C91_only_own_memory.
Print Assumptions C91_pipes_do_not_interfere.
Print Assumptions C91_callers_memory_is_kept.
Print Assumptions C92_sent_bytes_stay.
Print Assumptions C92_reset_reuses_the_memory.
Print Assumptions C92_appending_leaves_alone.
