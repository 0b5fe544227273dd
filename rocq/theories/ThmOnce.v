(* C101: the encoders of the user are run once per call they are passed to, in order. *)
From Coq Require Import String List NArith ZArith Arith Bool Lia.
From Coq Require Import List.
From Verif Require Import Base GoSlice Varint Values AnyModel ExprModel MsgModel Builder Stateful SpecOnce OnceProofs.
From Verif Require ThmBuilder.
Import ListNotations.
Open Scope list_scope.
Open Scope nat_scope.

(* A call runs the encoders of its values from left to right, each once and in the world the one before it left; if it ends with no error it has run all of them,
   otherwise none after the one that failed. *)
Theorem C101_each_encoder_runs_once_in_order : forall (E : Env) W dis (c : scall W) b w r w' log, disabled b = false -> berr b = None -> s_exec_call W dis c b w = (r, w', log) ->
  chain W w log w' /\
  (exists rest, call_encoders W c = map fst log ++ rest) /\
  (forall b', r = Ok b' -> berr b' = None -> map fst log = call_encoders W c).
Proof.
  intros E W dis c b w r w' log Hd He H. destruct (sim_call W w dis c b Hd He _ _ _ _ H) as (C & (rest & P1 & P2) & _). split; [exact C|]. split; [exists rest; exact P1|].
  intros b' Hr Hb. rewrite (P2 b' Hr Hb), app_nil_r in P1. auto.
Qed.

Theorem C101_insert_row_runs_each_encoder_once : forall (E : Env) W name columns (row : list (svalue W)) b w r w' log, disabled b = false -> berr b = None ->
  s_insert_row W name columns row b w = (r, w', log) ->
  chain W w log w' /\
  (exists rest, row_encoders W row = map fst log ++ rest) /\
  (forall b' f, r = Ok (b', f) -> berr b' = None -> map fst log = row_encoders W row).
Proof.
  intros E W name columns row b w r w' log Hd He H. destruct (sim_insert_row W w name columns row b Hd He _ _ _ _ H) as (C & (rest & P1 & P2) & _). split; [exact C|]. split; [exists rest; exact P1|].
  intros b' f Hr Hb. rewrite (P2 (b', f) Hr Hb), app_nil_r in P1. auto.
Qed.

(* On a builder that has an error, or is disabled, nothing is run. *)
Theorem C101_no_encoder_runs_after_an_error : forall (E : Env) W dis (c : scall W) name columns (row : list (svalue W)) b w, disabled b = true \/ berr b <> None ->
  (exists r, s_exec_call W dis c b w = (r, w, [])) /\ (exists r, s_insert_row W name columns row b w = (r, w, [])).
Proof.
  intros E W dis c name columns row b w H. split.
  - destruct c as [| | | | | | |c]; unfold s_exec_call; try (eexists; reflexivity); unfold s_guarded; (destruct (disabled b) eqn:D; [eexists; reflexivity|]); (destruct (berr b) eqn:X; [eexists; reflexivity|]); destruct H; congruence.
  - unfold s_insert_row. destruct (disabled b) eqn:D; [eexists; reflexivity|]. destruct (berr b) eqn:X; [eexists; reflexivity|]. destruct H; congruence.
Qed.

(* What a call does is what it does with encoders without state, each being what the encoder was in the world it was run in. So all the theorems on calls hold. *)
Theorem C101_calls_do_what_their_encoders_did : forall (E : Env) W dis (c : scall W) b w r w' log, disabled b = false -> berr b = None -> s_exec_call W dis c b w = (r, w', log) ->
  forall d more, exec_call dis (frz_call W d c (map snd log ++ more)) b = r.
Proof.
  intros E W dis c b w r w' log Hd He H d more. destruct (sim_call W d dis c b Hd He _ _ _ _ H) as (_ & _ & F). rewrite <- call_frz_is. exact (proj1 (F more)).
Qed.

Theorem C101_insert_row_does_what_its_encoders_did : forall (E : Env) W name columns (row : list (svalue W)) b w r w' log, disabled b = false -> berr b = None ->
  s_insert_row W name columns row b w = (r, w', log) ->
  forall d more, b_insert_row name columns (fst (frz_row W d row (map snd log ++ more))) b = r.
Proof.
  intros E W name columns row b w r w' log Hd He H d more. destruct (sim_insert_row W d name columns row b Hd He _ _ _ _ H) as (_ & _ & F). exact (proj1 (F more)).
Qed.

(* A source of values: whenever it is encoded, the next one is sent. *)
Section Source.
Context `{E : Env}.
Variable W : Type.
Variable pull : W -> gvalue * W.
Definition source_any : sfun W := fun w p tag => (append_any (fst (pull w)) p tag, snd (pull w)).
Definition source_expr : sfun W := fun w p tag => (append_expr (fst (pull w)) p tag, snd (pull w)).
Definition source : svalue W := SUser W (Some source_any) (Some source_expr).
Fixpoint pulls (n : nat) (w : W) : list gvalue * W :=
  match n with
  | O => ([], w)
  | S n => let y := pulls n (snd (pull w)) in (fst (pull w) :: fst y, snd y)
  end.
Fixpoint worlds (n : nat) (w : W) : list W := match n with O => [] | S n => w :: worlds n (snd (pull w)) end.

Lemma pulled : forall (f : sfun W) l w w' n, chain W w l w' -> (forall w p tag, snd (f w p tag) = snd (pull w)) -> map fst l = repeat f n -> map snd l = worlds n w /\ w' = snd (pulls n w).
Proof.
  intros f l w w' n H Hf. revert n. induction H as [w|g w p tag l w' H IH]; intros n Hn.
  - destruct n; [|discriminate]. auto.
  - destruct n as [|n]; [discriminate|]. injection Hn as -> Hn. rewrite Hf in IH. destruct (IH n Hn) as [A B]. cbn [map snd worlds pulls]. rewrite A. auto.
Qed.

Lemma worlds_split : forall k m w, worlds (k + m) w = worlds k w ++ worlds m (snd (pulls k w)).
Proof. induction k as [|k IH]; intros m w; [reflexivity|]. cbn [Nat.add worlds app pulls snd]. rewrite IH. reflexivity. Qed.

Lemma repeat_prefix : forall A (f : A) n l r, repeat f n = l ++ r -> exists k, l = repeat f k /\ k <= n.
Proof.
  intros A f. induction n as [|n IH]; intros l r H; [destruct l; [exists 0; auto|discriminate]|]. destruct l as [|x l]; [exists 0; split; [reflexivity|lia]|].
  injection H as <- H. destruct (IH l r H) as (k & -> & Hk). exists (S k). split; [reflexivity|lia].
Qed.

Definition as_user (w : W) : gvalue := VUser (Some (as_in W w source_any)) (Some (as_in W w source_expr)).

Lemma frz_sources : forall d n w, frz_row W d (repeat source n) (worlds n w) = (map as_user (worlds n w), []).
Proof.
  intros d. unfold frz_row. induction n as [|n IH]; intros w; [reflexivity|]. change (frz_list W (frz W d) (repeat source (S n)) (worlds (S n) w)) with
    (as_user w :: fst (frz_list W (frz W d) (repeat source n) (worlds n (snd (pull w)))), snd (frz_list W (frz W d) (repeat source n) (worlds n (snd (pull w))))).
  rewrite IH. reflexivity.
Qed.

Lemma args_sources : forall tag n w j p, each (fun v p => append_any v p tag) (fun _ e => e) j (map as_user (worlds n w)) p = each (fun v p => append_any v p tag) (fun _ e => e) j (fst (pulls n w)) p.
Proof.
  intros tag. induction n as [|n IH]; intros w j p; [reflexivity|]. cbn [worlds map pulls fst each]. change (append_any (as_user w) p tag) with (append_any (fst (pull w)) p tag).
  destruct (append_any (fst (pull w)) p tag) as [[q [e|]]|]; cbn [bind]; try reflexivity. apply IH.
Qed.
Lemma row_sources : forall n w j p, each (fun v p => append_expr v p tagTypedRowField) EColumnErr j (map as_user (worlds n w)) p = each (fun v p => append_expr v p tagTypedRowField) EColumnErr j (fst (pulls n w)) p.
Proof.
  induction n as [|n IH]; intros w j p; [reflexivity|]. cbn [worlds map pulls fst each]. change (append_expr (as_user w) p tagTypedRowField) with (append_expr (fst (pull w)) p tagTypedRowField).
  destruct (append_expr (fst (pull w)) p tagTypedRowField) as [[q [e|]]|]; cbn [bind]; try reflexivity. apply IH.
Qed.

(* Passed n times to a call, a source gives its next n values, and has then given no more than these. *)
Theorem C101_sources_give_their_next_values : forall dis stmt n b w b', disabled b = false -> berr b = None -> berr b' = None ->
  exec_call dis (CStmtExecute stmt (fst (pulls n w))) b = Ok b' ->
  exists log, s_exec_call W dis (SStmtExecute W stmt (repeat source n)) b w = (Ok b', snd (pulls n w), log).
Proof.
  intros dis stmt n b w b' Hd He He' H. destruct (s_exec_call W dis (SStmtExecute W stmt (repeat source n)) b w) as [[r w'] log] eqn:Hs. exists log.
  destruct (C101_each_encoder_runs_once_in_order E W _ _ _ _ _ _ _ Hd He Hs) as (C & (rest & P) & F). cbn [call_encoders] in P, F.
  assert (R : flat_map (encoders W true) (repeat source n) = repeat source_any n) by (clear; induction n as [|n IH]; [reflexivity|]; cbn [repeat flat_map]; rewrite IH; reflexivity).
  rewrite R in P, F. destruct (repeat_prefix _ _ _ _ _ P) as (k & Hk & Lk). destruct (pulled source_any log w w' k C ltac:(reflexivity) Hk) as [Wl _].
  pose proof (C101_calls_do_what_their_encoders_did E W _ _ _ _ _ _ _ Hd He Hs w (worlds (n - k) (snd (pulls k w)))) as X. rewrite Wl, <- worlds_split in X. replace (k + (n - k)) with n in X by lia.
  cbn [frz_call] in X. rewrite frz_sources in X. cbn [fst] in X.
  assert (Y : exec_call dis (CStmtExecute stmt (map as_user (worlds n w))) b = exec_call dis (CStmtExecute stmt (fst (pulls n w))) b).
  { unfold exec_call, guarded. rewrite Hd, He. unfold stmt_execute, append_args. cbv zeta. destruct (mask_truncate _ _); [|reflexivity]. cbn [bind]. rewrite args_sources. reflexivity. }
  rewrite Y, H in X. subst r. specialize (F b' eq_refl He'). destruct (pulled source_any log w w' n C ltac:(reflexivity) F) as [_ ->]. reflexivity.
Qed.

Theorem C101_sources_give_rows_their_next_values : forall name columns n b w b' f, disabled b = false -> berr b = None -> berr b' = None ->
  b_insert_row name columns (fst (pulls n w)) b = Ok (b', f) ->
  exists log, s_insert_row W name columns (repeat source n) b w = (Ok (b', f), snd (pulls n w), log).
Proof.
  intros name columns n b w b' f Hd He He' H. destruct (s_insert_row W name columns (repeat source n) b w) as [[r w'] log] eqn:Hs. exists log.
  destruct (C101_insert_row_runs_each_encoder_once E W _ _ _ _ _ _ _ _ Hd He Hs) as (C & (rest & P) & F). unfold row_encoders in P, F.
  assert (R : flat_map (encoders W false) (repeat source n) = repeat source_expr n) by (clear; induction n as [|n IH]; [reflexivity|]; cbn [repeat flat_map]; rewrite IH; reflexivity).
  rewrite R in P, F. destruct (repeat_prefix _ _ _ _ _ P) as (k & Hk & Lk). destruct (pulled source_expr log w w' k C ltac:(reflexivity) Hk) as [Wl _].
  pose proof (C101_insert_row_does_what_its_encoders_did E W _ _ _ _ _ _ _ _ Hd He Hs w (worlds (n - k) (snd (pulls k w)))) as X. rewrite Wl, <- worlds_split in X. replace (k + (n - k)) with n in X by lia.
  rewrite frz_sources in X. cbn [fst] in X.
  assert (Y : b_insert_row name columns (map as_user (worlds n w)) b = b_insert_row name columns (fst (pulls n w)) b).
  { unfold b_insert_row. rewrite Hd, He. cbv zeta. destruct (msg_insert _ _ _); [|reflexivity]. cbn [bind]. unfold append_insert_row. cbv zeta. rewrite row_sources. reflexivity. }
  rewrite Y, H in X. subst r. specialize (F b' f eq_refl He'). destruct (pulled source_expr log w w' n C ltac:(reflexivity) F) as [_ ->]. reflexivity.
Qed.
End Source.

#[local] Existing Instance ThmBuilder.plain.

(* A counter, in an operator and twice in a statement; and a call that fails in the middle. *)
Definition count (w : N) : gvalue * N := (VUint w, w + 1)%N.
Definition counter : svalue N := source N count.
Definition fails : svalue N := SUser N (Some (fun w p _ => (Ok (p, Some EUnsupported), w))) None.

Example counted : exists b' log, s_exec_call N [true] (SStmtExecute N (s2b "CALL f(?, ?, ?)") [counter; SPtr N false counter; SVal N VNil; counter]) (new_pipe 0) 7%N = (Ok b', 10%N, log) /\
  berr b' = None /\ map snd log = [7; 8; 9]%N /\ exec_call [true] (CStmtExecute (s2b "CALL f(?, ?, ?)") [VUint 7; VUint 8; VNil; VUint 9]) (new_pipe 0) = Ok b'.
Proof. do 2 eexists. split; [vm_compute; reflexivity|]. split; [reflexivity|]. split; vm_compute; reflexivity. Qed.

Example counted_set : exists b' log, s_exec_call N [true] (SUpdate N (s2b "t") (Some (SOperator N (s2b "==") [SVal N (VFunc (Some (EColumn (s2b "a")))); counter])) [(s2b "b", counter)]) (new_pipe 0) 7%N = (Ok b', 9%N, log) /\
  berr b' = None /\ exec_call [true] (CUpdate (s2b "t") (Some (EOperator (s2b "==") [VFunc (Some (EColumn (s2b "a"))); VUint 7])) [(s2b "b", VUint 8)]) (new_pipe 0) = Ok b'.
Proof. do 2 eexists. split; [vm_compute; reflexivity|]. split; vm_compute; reflexivity. Qed.

Example stopped : exists b' log, s_exec_call N [true] (SStmtExecute N (s2b "CALL f(?, ?, ?)") [counter; fails; counter]) (new_pipe 0) 7%N = (Ok b', 8%N, log) /\ berr b' = Some EUnsupported /\ length log = 2.
Proof. do 2 eexists. split; [vm_compute; reflexivity|]. split; reflexivity. Qed.

Print Assumptions C101_each_encoder_runs_once_in_order.
Print Assumptions C101_insert_row_runs_each_encoder_once.
Print Assumptions C101_no_encoder_runs_after_an_error.
Print Assumptions C101_calls_do_what_their_encoders_did.
Print Assumptions C101_insert_row_does_what_its_encoders_did.
Print Assumptions C101_sources_give_their_next_values.
Print Assumptions C101_sources_give_rows_their_next_values.
