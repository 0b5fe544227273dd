(* C116: how much memory is allocated while a unit of work is built. *)
From Coq Require Import String List NArith ZArith Arith Bool Lia ZifyN ZifyNat ZifyBool.
From Coq Require Import List.
From Verif Require Import Base GoSlice Values Text MsgModel Builder Mem MemModel MemProofs SpecValue SpecProg SpecSpend SpendProofs SpendMore.
Import ListNotations.
Local Open Scope nat_scope.
Open Scope list_scope.

Lemma run_step : forall (E : Env) (nested : Prop) pr b m b' out m', geometric E -> prog_simple nested pr -> hdisabled b = false -> wf m (hbuf b) ->
  h_run pr [b] m = HOk ([b'], out) m' -> hberr b' = None -> Step nested 10 m (hbuf b) m' (hbuf b').
Proof.
  intros E nested pr b m b' out m' HE Hp D W Hr He. assert (R : ready m b) by (split; [exact D|intros _; exact W]).
  pose proof (sp_run HE nested pr b [] m Hp (Forall_nil _) R) as H. unfold wp in H. rewrite Hr in H. destruct H as (b2 & F & S & _). cbn [fst] in F. injection F as <-. apply S. exact He.
Qed.

(* C116: if no operators, function calls or Update with something to set are used, what is allocated
   while a unit is built is at most 15 times its size, and a constant. *)
Theorem C116_allocates_in_proportion_partial : forall (E : Env) pr b m b' out m', geometric E -> prog_simple False pr -> hdisabled b = false -> wf m (hbuf b) ->
  h_run pr [b] m = HOk ([b'], out) m' -> hberr b' = None ->
  allocated m' <= allocated m + 15 * hlen (hbuf b') + 2710.
Proof.
  intros E pr b m b' out m' HE Hp D W Hr He. destruct (run_step E False pr b m b' out m' HE Hp D W Hr He) as (_ & _ & _ & C & g & [->|[]] & _ & Q). lia.
Qed.

(* C116: and nothing if the buffer the pipe had is large enough. *)
Theorem C116_only_when_the_buffer_grows : forall (E : Env) pr b m b' out m', geometric E -> prog_simple True pr -> hdisabled b = false -> wf m (hbuf b) ->
  h_run pr [b] m = HOk ([b'], out) m' -> hberr b' = None ->
  3 * hlen (hbuf b') + 542 <= hcap (hbuf b) -> allocated m' <= allocated m /\ hcap (hbuf b') = hcap (hbuf b).
Proof.
  intros E pr b m b' out m' HE Hp D W Hr He Hc. destruct (run_step E True pr b m b' out m' HE Hp D W Hr He) as (_ & _ & C1 & C2 & g & _ & G & Q).
  assert (hcap (hbuf b') = hcap (hbuf b)) by lia. assert (g = 0) by lia. subst g. split; [lia|assumption].
Qed.

(* C116: whatever the unit contains, it is at most the square of the size, divided by 170 or so. *)
Theorem C116_at_most_the_square : forall (E : Env) pr b m b' out m', geometric E -> prog_simple True pr -> hdisabled b = false -> wf m (hbuf b) ->
  h_run pr [b] m = HOk ([b'], out) m' -> hberr b' = None ->
  512 * allocated m' <= 512 * allocated m + (3 * hlen (hbuf b') + 542) * (hlen (hbuf b') + 3082).
Proof.
  intros E pr b m b' out m' HE Hp D W Hr He. destruct (run_step E True pr b m b' out m' HE Hp D W Hr He) as (_ & _ & C1 & C2 & g & _ & G & Q).
  set (l := hlen (hbuf b')) in *. set (c := hcap (hbuf b)) in *. set (c' := hcap (hbuf b')) in *.
  assert (Hd : c' - c <= 3 * l + 542) by lia. assert (Hg : 512 * g <= 3 * l + 542) by lia.
  assert (M : 512 * (g * (l + 10 + 512)) <= (3 * l + 542) * (l + 522)).
  { rewrite Nat.mul_assoc. replace (l + 10 + 512) with (l + 522) by lia. apply Nat.mul_le_mono_r. exact Hg. }
  replace (l + 3082) with (l + 522 + 2560) by lia. rewrite (Nat.mul_add_distr_l (3 * l + 542) (l + 522) 2560). lia.
Qed.

(* The code violates C116: with any first capacity, however the runtime's append grows slices, and for any
   factor c there is a batch of one-column updates of one table (after a Prepare) for which more than c
   times its size is allocated. *)
Theorem C116_refuted : forall (E : Env) n c m, exists stmt k b m1 b' m',
  h_new_pipe n m = HOk b m1 /\ h_run (batch stmt k) [b] m1 = HOk ([b'], []) m' /\ hberr b' = None /\ 0 < hlen (hbuf b') /\
  allocated m1 + c * hlen (hbuf b') <= allocated m'.
Proof. exact @batch_runs. Qed.

Print Assumptions C116_allocates_in_proportion_partial.
Print Assumptions C116_only_when_the_buffer_grows.
Print Assumptions C116_at_most_the_square.
Print Assumptions C116_refuted.

(* A runtime whose append doubles what is needed, and a unit with a block, a row and arguments. *)
Definition doubling : Env := {| fresh := fun _ new => repeat 0%N new; word32 := false |}.
Example doubling_geometric : geometric doubling.
Proof. intros old new H. cbn [fresh doubling]. rewrite repeat_length. lia. Qed.

Definition unit_of_work : prog :=
  PCall 0 (CStmtExecute (s2b "CALL p(?, ?)") [VInt 7%Z; VString (s2b "x")])
    (PBlock 0 (KTx 0%N)
      (PInsertRow 0 (s2b "t") [s2b "a"] [VInt64 7%Z] (fun f => PCall 0 (CDelete (s2b "u") f) (Ret None [f])))
      (fun out => PCall 0 (CDeallocate 7%N) (Ret None out))).

Example spend_meets : exists b m b' out m',
  h_new_pipe 16 [] = HOk b m /\ prog_simple False unit_of_work /\ hdisabled b = false /\ wf m (hbuf b) /\
  h_run (E := doubling) unit_of_work [b] m = HOk ([b'], out) m' /\ hberr b' = None /\ allocated m = 16 /\ hlen (hbuf b') = 173 /\ allocated m' = 664.
Proof.
  do 5 eexists. split; [reflexivity|]. split.
  { cbn [prog_simple unit_of_work call_simple]. split; [repeat constructor|]. split; [split; [repeat constructor|]|].
    - intros o Ho. split; [exact Ho|]. repeat constructor. exact Ho.
    - intros out Ho. split; [exact I|exact Ho]. }
  split; [reflexivity|]. split; [split; cbn; lia|]. split; [vm_compute; reflexivity|]. split; [reflexivity|]. split; [reflexivity|]. split; vm_compute; reflexivity.
Qed.

(* What the batch does: with twice as many updates, three times as much is allocated. *)
Example batch_grows : forall k l a, In (k, l, a) [(31, 1808, 4312); (61, 3428, 13216)] ->
  exists b m b' m', h_new_pipe 0 [] = HOk b m /\ h_run (E := doubling) (batch (repeat 120%N 119) k) [b] m = HOk ([b'], []) m' /\
  hlen (hbuf b') = l /\ allocated m' = a.
Proof.
  intros k l a [H|[H|[]]]; injection H as <- <- <-; do 4 eexists; (split; [reflexivity|]); (split; [vm_compute; reflexivity|]); split; vm_compute; reflexivity.
Qed.
