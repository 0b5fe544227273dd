(* C105 Goroutines may open connections at the same time with one Connector: there is no data race, and each call of New does what it would do alone. *)
From Coq Require Import String List NArith ZArith Arith Bool Lia.
From Coq Require Import List.
From Verif Require Import Base GoSlice Conn SpecAuth AuthModel Connector Mem Fine FineMore FineRun SpecFine FineAll FineAuth SpecOpen ThmAuth.
From Verif Require FineAuthProofs AuthSame SpecUnit SpecReply ThmBuilder ThmConnector ThmFine.
Import ListNotations.
Local Open Scope nat_scope.
Local Notation length := List.length.

Section Theorems.
Context `{E : Env}.
Variables (sha1 sha256 : bytes -> bytes) (x : connector).
Hypotheses (H1 : digests sha1 20) (H2 : digests sha256 32) (Hc : creds_ok (uses_credentials x)).

Local Lemma opens_inv m at_ tr s : runs (opens sha1 sha256 m x at_) tr s ->
  inv m (fun _ _ _ => False) (fun i _ o => o = Some (new_alone sha1 sha256 x (at_ i))) tr s.
Proof.
  intros R. apply (inv_runs _ _ _ _ _ _ R []).
  exists (fun _ _ => None). split; [|split; [|split; [|split; [|split]]]]; try discriminate; try contradiction; auto.
  intros i. eexists. split; [apply more_refl|]. apply FineAuthProofs.new_safe; assumption.
Qed.

(* Goroutines call New of one Connector, interleaved between any two accesses to memory. No two of them access the same array, and none accesses memory
   that was there before. *)
Theorem C105_own_arrays : forall m at_ tr s,
  runs (opens sha1 sha256 m x at_) tr s ->
  (forall i y, In (i, y) tr -> length m <= array_of y) /\
  (forall i j y z, In (i, y) tr -> In (j, z) tr -> array_of y = array_of z -> i = j).
Proof.
  intros m at_ tr s R. destruct (opens_inv _ _ _ _ R) as [own [_ [Mm [Dj [Tr' _]]]]].
  assert (Tr : forall i x, In (i, x) tr -> own i (where_ x) <> None) by (intros i y Hy; destruct (Tr' i y Hy) as [H|[a [k [_ [_ []]]]]]; exact H).
  change array_of with where_. split.
  - intros i y Hy. specialize (Tr i y Hy). destruct (own i (where_ y)) as [l|] eqn:Eo; [|contradiction]. exact (proj2 (Mm _ _ _ Eo)).
  - intros i j y z Hy Hz Eyz. apply (Dj i j (where_ y)); [apply Tr; exact Hy|rewrite Eyz; apply Tr; exact Hz].
Qed.

Theorem C105_no_race : forall m at_ tr s, runs (opens sha1 sha256 m x at_) tr s -> ~ race tr.
Proof.
  intros m at_ tr s R [i [j [y [z [N [Hy [Hz C]]]]]]]. apply N. destruct (C105_own_arrays _ _ _ _ R) as [_ D].
  apply (D i j y z Hy Hz). destruct C; cbn; auto.
Qed.

(* What was in memory before stays as it is. *)
Theorem C105_other_memory_is_kept : forall m at_ tr s,
  runs (opens sha1 sha256 m x at_) tr s -> firstn (length m) (smem s) = m.
Proof.
  intros m at_ tr s R. destruct (opens_inv _ _ _ _ R) as [own [_ [_ [_ [_ [L Old]]]]]]. clear R.
  revert L Old. generalize (smem s). clear. induction m as [|y m IH]; intros [|z m'] L Old; cbn [length firstn] in *; try reflexivity; [lia|].
  f_equal; [specialize (Old 0 ltac:(lia)); cbn in Old; congruence|]. apply IH; [lia|]. intros a La. apply (Old (S a)). lia.
Qed.

(* No call accesses an element that does not exist: it has returned, or it can go on. *)
Theorem C105_no_wild_access : forall m at_ tr s i,
  runs (opens sha1 sha256 m x at_) tr s -> (exists r, finished s i r) \/ exists y s', happens s i y s'.
Proof.
  intros m at_ tr s i R. destruct (inv_next _ _ _ _ _ i (opens_inv _ _ _ _ R)) as [[r [h [Hr _]]]|[[_ [h Hs]]|H]]; [left; eauto|discriminate|right; exact H].
Qed.

(* A call that has returned gives the connection and the error it gives alone, and has done to its connection what it does alone. *)
Theorem C105_as_alone : forall m at_ tr s i r,
  runs (opens sha1 sha256 m x at_) tr s -> finished s i r -> r = new_alone sha1 sha256 x (at_ i).
Proof.
  intros m at_ tr s i r R F. destruct (inv_next _ _ _ _ _ i (opens_inv _ _ _ _ R)) as [[r' [h [Hr Hq]]]|[[Hs _]|[y [s' H]]]].
  - unfold finished in F. rewrite F in Hr. injection Hr as <-. injection Hq as ->. reflexivity.
  - unfold finished in F. congruence.
  - unfold finished in F. destruct H as [m' f i' a y k l' v Hi Ha Hx|m' f i' a y v k l' Hi Ha Hx|m' f i' l' k Hi]; cbn [doing] in *; congruence.
Qed.

(* A call does not wait for the others: from any point on it can return by its own accesses only. *)
Theorem C105_returns_by_itself : forall m at_ tr s i,
  runs (opens sha1 sha256 m x at_) tr s ->
  exists tr' s' r, runs s tr' s' /\ (forall j y, In (j, y) tr' -> j = i) /\ finished s' i r.
Proof.
  intros m at_ tr s i R. apply opens_inv in R. remember (doing s i) as c eqn:Ec. revert tr s R Ec.
  induction c as [c IH] using (well_founded_induction part_wf). intros tr s R Ec.
  destruct (inv_next _ _ _ _ _ i R) as [[r [h [Hr _]]]|[[_ [h Hs]]|[y [s1 H]]]]; [|discriminate|].
  - exists [], s, r. split; [constructor|]. split; [contradiction|exact Hr].
  - destruct (happens_part _ _ _ _ H) as [P _]. rewrite <- Ec in P.
    destruct (IH _ P _ s1 (inv_step _ _ _ _ _ _ _ _ R H) eq_refl) as [tr' [s' [l [R' [Hi F]]]]].
    exists ((i, y) :: tr'), s', l. split; [econstructor; eassumption|]. split; [|exact F].
    intros j z [Hj|Hj]; [injection Hj as <- _; reflexivity|exact (Hi j z Hj)].
Qed.

End Theorems.

(* Alone, a response to a challenge is the same in any buffer, whatever an earlier message has left in it. *)
Theorem C105_buffer_does_not_matter : forall (E : Env) sha1 sha256 creds challenge buf buf',
  digests sha1 20 -> digests sha256 32 -> creds_ok creds ->
  mysql41_continue sha1 buf creds challenge = mysql41_continue sha1 buf' creds challenge /\
  sha256_continue sha256 buf creds challenge = sha256_continue sha256 buf' creds challenge.
Proof.
  intros E sha1 sha256 creds ch b b' D1 D2 C. split.
  - rewrite !AuthSame.mysql41_bytes by assumption. reflexivity.
  - rewrite !AuthSame.sha256_bytes by assumption. reflexivity.
Qed.

Print Assumptions C105_own_arrays.
Print Assumptions C105_no_race.
Print Assumptions C105_other_memory_is_kept.
Print Assumptions C105_no_wild_access.
Print Assumptions C105_as_alone.
Print Assumptions C105_returns_by_itself.
Print Assumptions C105_buffer_does_not_matter.

(* ---- cases ---- *)

#[local] Existing Instance ThmBuilder.plain.

(* Two goroutines take turns after every access. The first opens a connection over TLS and answers the challenge "nonce"; the server denies access to the
   second's answer on a unix socket, and it falls back on PLAIN. *)
Definition here : connector := {| uses_tls := true; uses_method := MYSQL41; uses_credentials := me |}.
Definition two (i : nat) : attempt :=
  match i with
  | 0 => {| at_deadline := None; at_dial := Some (mkc Tcp (mkr [] [SpecUnit.frame (0, [])%N] IoEOF) [] [] []);
            at_handshake := Some (mkr [] [SpecUnit.frame (3, 10 :: 5 :: s2b "nonce")%N; SpecUnit.frame (4, [])%N] IoEOF, [], []) |}
  | 1 => {| at_deadline := Some 3%N;
            at_dial := Some (mkc Unix (mkr [] [SpecUnit.frame (3, 10 :: 5 :: s2b "other")%N; SpecUnit.frame (1, SpecReply.error_bytes ThmConnector.denied)%N; SpecUnit.frame (4, [])%N] IoEOF) [] [] []);
            at_handshake := None |}
  | _ => {| at_deadline := None; at_dial := None; at_handshake := None |}
  end.
Definition start_ := opens (toy 20) (toy 32) [s2b "other memory"] here two.

Example meets : digests (toy 20) 20 /\ digests (toy 32) 32 /\ creds_ok (uses_credentials here).
Proof. split; [apply toy_digests|]. split; [apply toy_digests|exact me_ok]. Qed.

Definition summary (r : option (option nerr * option conn)) : option (option nerr * option (kind * nat)) :=
  match r with Some (e, c) => Some (e, match c with Some c => Some (ckind c, length (log c)) | None => None end) | None => None end.
Definition result {A} (s : state A) (i : nat) : option A := match doing s i with Return r => Some r | _ => None end.
Example taking_turns :
  let r := ThmFine.follow (ThmFine.turns 600) start_ in
  runs start_ (fst r) (snd r) /\
  option_map summary (result (snd r) 0) = Some (Some (None, Some (Tls, 6))) /\
  option_map summary (result (snd r) 1) = Some (Some (None, Some (Unix, 6))) /\
  firstn 4 (fst r) = [(0, Makes 1); (1, Makes 2); (0, Writes 1 0); (1, Writes 2 0)] /\
  600 <= length (fst r) /\ length (smem (snd r)) = 6.
Proof. split; [apply ThmFine.follow_runs|]. vm_compute. repeat (split; [reflexivity|]). split; [|reflexivity]. repeat constructor. Qed.

(* Two goroutines that make their first message in one buffer race. *)
Definition shared : state (option hslice) :=
  mks [repeat 0%N 128] (fun _ => try (g_mysql41_start (mkh 0 0 0 128) me)).
Example one_buffer_races : exists tr s, runs shared tr s /\ race tr.
Proof.
  eexists _, _. split; [apply (ThmFine.follow_runs [0; 1])|]. exists 0, 1, (Writes 0 0), (Writes 0 0).
  split; [discriminate|]. split; [vm_compute; auto|]. split; [vm_compute; auto|constructor].
Qed.
