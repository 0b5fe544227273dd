(* C115: how large the messages and the units of work get. *)
From Coq Require Import String List NArith ZArith Arith Bool Lia ZifyN ZifyNat ZifyBool.
From Coq Require Import List.
From Verif Require Import Base GoSlice SpecWire SpecMsg WireProofs Values MsgModel Builder
  SpecValue SpecProg SpecUnit SpecBig SpecSize MsgProofs BuilderProofs UnitProofs ShapeProofs BigProofs SizeProofs.
From Verif Require ThmBuilder ThmBig.
Import ListNotations.
Open Scope N_scope.
Open Scope list_scope.

(* C115: what a program sends is no larger than its arguments make it, as a whole and message by message. (2^31: above it lengths of frames wrap.) *)
Theorem C115_size_of_what_is_sent : forall (E : Env) b pr bs m n, empty b -> prog_ok word32 pr -> 1024 <= m <= 2 ^ 31 -> fits_in m n pr -> delivers b pr bs ->
  nlen bs <= n /\ exists fs, bs = concat (map frame fs) /\ Forall (fun f => nlen (frame f) <= m) fs.
Proof.
  intros E b pr bs m n (He & Hb & Hd) Hok [Hm1 Hm2] Hf (b' & out & Hr & Hs).
  destruct (run_step pr b [] _ out Hok (Forall_nil _) Hd Hr) as (_ & b2 & Hb2 & S1 & _). assert (b2 = b') by congruence. subst b2.
  unfold send in Hs. rewrite S1 in Hs. destruct (berr b') eqn:He'; [discriminate|].
  assert (Hbs : data (buf b') = bs) by congruence.
  destruct (run_grows m Hm1 Hm2 pr n b [] b' out Hok Hf (Forall_nil _) Hd Hr Hb He') as (_ & x & Hx & H).
  rewrite He, app_nil_l, Hbs in Hx. subst x. exact H.
Qed.

(* One call. *)
Theorem C115_size_of_a_call : forall (E : Env) b c bs, empty b -> call_ok word32 c -> 8 + call_weight c <= 2 ^ 31 -> delivers b (one_call c) bs ->
  nlen bs <= 8 + call_weight c.
Proof.
  intros E b c bs He Hc Hw Hd.
  apply (C115_size_of_what_is_sent E b (one_call c) bs (N.max 1024 (8 + call_weight c)) (8 + call_weight c) He); [split; [exact Hc|constructor]|lia| |exact Hd].
  cbn [one_call fits_in]. split; [lia|]. exists 0. split; [lia|constructor].
Qed.

Lemma fits_below : forall m pr n, m <= 2 ^ 31 -> fits_in m n pr -> calls_below (2 ^ 31) pr.
Proof.
  intros m pr. unfold calls_below. induction pr as [cberr out|lvl c next IH|lvl name cols row next IH|lvl k body IHb next IHn]; intros n Hm H; cbn [fits_in prog_all] in *.
  - exact H.
  - destruct H as (H1 & r & _ & H2). split; [lia|eauto].
  - destruct H as (H1 & r & _ & H2). split; [lia|eauto].
  - destruct H as (n1 & n2 & _ & H1 & H2). split; [exact Logic.I|]. split; eauto.
Qed.

(* C115: so that a program whose arguments are below a size is sent, in messages and as a whole of no more than that, and read as what was written. *)
Theorem C115_known_before_it_is_sent : forall (E : Env) b pr m n, empty b -> prog_ok word32 pr -> inner_only pr -> prog_accepted pr ->
  1024 <= m <= 2 ^ 31 -> fits_in m n pr -> n < 2 ^ 63 ->
  exists bs, delivers b pr bs /\ nlen bs <= n /\ (exists fs, bs = concat (map frame fs) /\ Forall (fun f => nlen (frame f) <= m) fs) /\
    exists ms ids out, dstream bs = Some ms /\ prog_msgs pr ms ids out /\ NoDup ids.
Proof.
  intros E b pr m n He Hok Hi Ha Hm Hf Hn.
  destruct (ThmBig.C08_accepted_units_of_any_size E b pr He Hok Hi Ha (fits_below _ _ _ (proj2 Hm) Hf)) as (bs & Hd & H).
  destruct (C115_size_of_what_is_sent E b pr bs m n He Hok Hm Hf Hd) as [H1 H2].
  exists bs. repeat (split; [assumption|]). apply H. lia.
Qed.

(* ---- the hypotheses can be met ---- *)
(* The sample of C08 (two blocks, an InsertRow whose variable is used by an Insert, an Update, a Delete, ...), with messages of up to 8 KiB and less than 32 KiB in all. *)
Example size_meets : fits_in 8192 32768 ThmBuilder.sample /\ exists bs, @delivers ThmBuilder.plain (new_pipe 0) ThmBuilder.sample bs /\ nlen bs = 464.
Proof.
  split; [|destruct ThmBuilder.sample_sent as (bs & H1 & H2 & _); eauto].
  unfold ThmBuilder.sample. cbn [fits_in].
  exists 26000, 4000. split; [lia|]. split.
  - exists 20000, 3000. split; [lia|]. split.
    + split; [ThmBuilder.sizes|]. exists 15000. split; [ThmBuilder.sizes|]. intros o (id & -> & Hid & Hl).
      split; [ThmBuilder.sizes|]. exists 8000. split; [ThmBuilder.sizes|].
      split; [ThmBuilder.sizes|]. exists 2000. split; [ThmBuilder.sizes|].
      split; [ThmBuilder.sizes|]. exists 0. split; [ThmBuilder.sizes|]. constructor; [|constructor]. exists id. auto.
    + intros out Ho. split; [ThmBuilder.sizes|]. exists 0. split; [ThmBuilder.sizes|exact Ho].
  - intros out Ho. split; [ThmBuilder.sizes; change (nlen [0; 255]) with 2; lia|]. exists 0. split; [ThmBuilder.sizes; change (nlen [0; 255]) with 2; lia|constructor].
Qed.

Print Assumptions C115_size_of_what_is_sent.
Print Assumptions C115_size_of_a_call.
Print Assumptions C115_known_before_it_is_sent.
