(* C88: expressions built from slices that change afterwards. *)
From Coq Require Import String List NArith ZArith Arith Bool Lia.
From Coq Require Import List.
From Verif Require Import Base GoSlice Text Values ExprModel SpecWire SpecMsg SpecValue MsgModel Builder SpecProg SpecUnit Alias.
From Verif Require Operators ThmBuilder.
Import ListNotations.
Open Scope list_scope.
Local Notation length := List.length.

(* What is encoded for x while the memory is m, if the encoder ever comes to an end. *)
Definition encoded_as (m : memory) (x : aval) (v : gvalue) : Prop := exists fuel, found fuel m x = Some v.

(* Values that refer to no memory. *)
Inductive memoryless : aval -> Prop :=
| ML_val v : memoryless (AVal v)
| ML_operator name ps : Forall memoryless ps -> memoryless (AOperator name ps).

Lemma all_some : forall A (l : list (option A)) ys, all l = Some ys <-> Forall2 (fun x y => x = Some y) l ys.
Proof.
  intros A. induction l as [|x l IH]; intros ys; cbn [all]; split; intros H.
  - injection H as <-. constructor.
  - inversion H. reflexivity.
  - destruct x as [y|]; [|discriminate]. destruct (all l) as [zs|]; [|discriminate]. injection H as <-. constructor; [reflexivity|]. apply IH. reflexivity.
  - inversion H as [|? y ? zs -> Hl]; subst. apply IH in Hl. rewrite Hl. reflexivity.
Qed.

Lemma all_map : forall A B (f : A -> option B) l ys, all (map f l) = Some ys <-> Forall2 (fun x y => f x = Some y) l ys.
Proof.
  intros A B f. induction l as [|x l IH]; intros ys; rewrite all_some in *; cbn [map].
  - split; intros H; inversion H; constructor.
  - split; intros H; inversion H; subst; constructor; try assumption; (apply IH + idtac); try (apply all_some; assumption).
    apply all_some. apply IH. assumption.
Qed.

Lemma Forall2_impl : forall A B (R S : A -> B -> Prop) l ys, (forall x y, R x y -> S x y) -> Forall2 R l ys -> Forall2 S l ys.
Proof. intros A B R S l ys H F. induction F; constructor; auto. Qed.

Lemma found_more : forall k m x v, found k m x = Some v -> forall k', (k <= k')%nat -> found k' m x = Some v.
Proof.
  induction k as [|k IH]; intros m x v H k' Hk; [discriminate|]. destruct k' as [|k']; [lia|]. cbn [found] in *. destruct x as [w|a|name ps|name ps]; try exact H.
  - destruct (all (map (found k m) ps)) as [vs|] eqn:A; [|discriminate]. apply all_map in A.
    replace (all (map (found k' m) ps)) with (Some vs); [exact H|]. symmetry. apply all_map. refine (Forall2_impl _ _ _ _ _ _ _ A). intros y w Hw. apply (IH _ _ _ Hw). lia.
  - destruct (all (map (fun a => found k m (element m a)) ps)) as [vs|] eqn:A; [|discriminate]. apply (all_map _ _ (fun a => found k m (element m a))) in A.
    replace (all (map (fun a => found k' m (element m a)) ps)) with (Some vs); [exact H|]. symmetry. apply (all_map _ _ (fun a => found k' m (element m a))).
    refine (Forall2_impl _ _ _ _ _ _ _ A). intros y w Hw. apply (IH _ _ _ Hw). lia.
Qed.

Lemma encoded_list : forall m xs vs, Forall2 (encoded_as m) xs vs -> exists k, all (map (found k m) xs) = Some vs.
Proof.
  intros m xs vs H. induction H as [|x v xs vs [k1 H1] H [k2 H2]]; [exists O; reflexivity|]. exists (k1 + k2)%nat. cbn [map all].
  rewrite (found_more _ _ _ _ H1) by lia. apply all_map in H2. replace (all (map (found (k1 + k2) m) xs)) with (Some vs); [reflexivity|].
  symmetry. apply all_map. refine (Forall2_impl _ _ _ _ _ _ _ H2). intros y w Hw. apply (found_more _ _ _ _ Hw). lia.
Qed.

(* At any time there is at most one thing an expression stands for. *)
Lemma encoded_once : forall m x v w, encoded_as m x v -> encoded_as m x w -> v = w.
Proof.
  intros m x v w [k H] [k' H']. pose proof (found_more _ _ _ _ H (k + k')%nat ltac:(lia)). pose proof (found_more _ _ _ _ H' (k + k')%nat ltac:(lia)). congruence.
Qed.

Lemma encoded_operator : forall m name xs w, encoded_as m (AOperator name xs) w <-> exists vs, Forall2 (encoded_as m) xs vs /\ w = VFunc (Some (EOperator name vs)).
Proof.
  intros m name xs w. split.
  - intros [[|k] H]; [discriminate|]. cbn [found] in H. destruct (all _) as [vs|] eqn:A; [|discriminate]. injection H as <-. exists vs. split; [|reflexivity].
    apply all_map in A. refine (Forall2_impl _ _ _ _ _ _ _ A). intros x v Hv. exists k. exact Hv.
  - intros (vs & H & ->). apply encoded_list in H. destruct H as [k H]. exists (S k). cbn [found]. rewrite H. reflexivity.
Qed.

Lemma encoded_call : forall m name xs w, encoded_as m (ACall name xs) w <-> exists vs, Forall2 (encoded_as m) (map (element m) xs) vs /\ w = VFunc (Some (ECall name vs)).
Proof.
  intros m name xs w. split.
  - intros [[|k] H]; [discriminate|]. cbn [found] in H. destruct (all _) as [vs|] eqn:A; [|discriminate]. injection H as <-. exists vs. split; [|reflexivity].
    rewrite <- (map_map (element m) (found k m)) in A. apply all_map in A. refine (Forall2_impl _ _ _ _ _ _ _ A). intros x v Hv. exists k. exact Hv.
  - intros (vs & H & ->). apply encoded_list in H. destruct H as [k H]. exists (S k). cbn [found]. rewrite <- (map_map (element m) (found k m)), H. reflexivity.
Qed.

(* An induction that goes through the lists. *)
Fixpoint memoryless_same (x : aval) (H : memoryless x) {struct H} : exists v, forall m, encoded_as m x v.
Proof.
  destruct H as [v|name ps Hp].
  - exists v. intros m. exists 1%nat. reflexivity.
  - assert (G : exists vs, forall m, Forall2 (encoded_as m) ps vs).
    { induction Hp as [|y ps Hy Hp IH]; [exists []; constructor|]. destruct (memoryless_same y Hy) as [v Hv]. destruct IH as [vs Hvs]. exists (v :: vs). intros m. constructor; auto. }
    destruct G as [vs G]. exists (VFunc (Some (EOperator name vs))). intros m. apply encoded_operator. exists vs. split; [apply G|reflexivity].
Qed.

Lemma memoryless_all : forall xs, Forall memoryless xs -> exists vs, forall m, Forall2 (encoded_as m) xs vs.
Proof.
  intros xs H. induction H as [|x xs Hx H [vs IH]]; [exists []; constructor|]. destruct (memoryless_same x Hx) as [v Hv]. exists (v :: vs). intros m. constructor; auto.
Qed.

(* C88: In, InV, NotIn, NotInV and operators with fixed operands stand for the operands they were given, whatever is in the slice
   when they are encoded, as long as the operands themselves refer to no memory. *)
Theorem C88_operators_keep_their_operands : forall m a b, memoryless a -> Forall memoryless (map (element m) b) ->
  exists v vs, encoded_as m a v /\ Forall2 (encoded_as m) (map (element m) b) vs /\
    forall later,
      encoded_as later (In m a b) (VFunc (Some (Operators.In v vs))) /\
      encoded_as later (InV m a b) (VFunc (Some (Operators.InV v vs))) /\
      encoded_as later (NotIn m a b) (VFunc (Some (Operators.NotIn v vs))) /\
      encoded_as later (NotInV m a b) (VFunc (Some (Operators.NotInV v vs))) /\
      Forall2 (fun y w => encoded_as later (Eq m a y) (VFunc (Some (Operators.Eq v w)))) (map (element m) b) vs.
Proof.
  intros m a b Ha Hb. destruct (memoryless_same a Ha) as [v Hv]. destruct (memoryless_all _ Hb) as [vs Hvs]. exists v, vs. split; [apply Hv|]. split; [apply Hvs|].
  intros later. split; [|split; [|split; [|split]]]; [apply encoded_operator; exists (v :: vs); (split; [constructor; [apply Hv|apply Hvs]|reflexivity])..|].
  refine (Forall2_impl _ _ _ _ _ _ _ (Hvs later)). intros y w Hw. apply encoded_operator. exists [v; w]. split; [|reflexivity]. constructor; [apply Hv|]. constructor; [exact Hw|constructor].
Qed.

(* So that is what is sent: a Delete with it, at any later time, says the operands of the time when In was called. *)
Theorem C88_operands_are_sent : forall (E : Env) m a b v vs later f pipe name bs, memoryless a -> Forall memoryless (map (element m) b) ->
  encoded_as m a v -> Forall2 (encoded_as m) (map (element m) b) vs -> encoded_as later (In m a b) (VFunc (Some f)) ->
  empty pipe -> call_ok word32 (CDelete name (Some f)) -> delivers pipe (one_call (CDelete name (Some f))) bs -> (nlen bs < 2 ^ 32)%N ->
  exists dm x xs, dstream bs = Some [MDelete name dm (Some (XOperator (s2b "in") (x :: xs)))] /\ expr_denotes v x /\ Forall2 expr_denotes vs xs.
Proof.
  intros E m a b v vs later f pipe name bs Ha Hb Hv Hvs Hf He Hok Hd Hl. destruct (C88_operators_keep_their_operands m a b Ha Hb) as (v' & vs' & Hv' & Hvs' & K).
  assert (v' = v) as -> by exact (encoded_once _ _ _ _ Hv' Hv).
  assert (vs' = vs) as ->. { clear - Hvs Hvs'. revert vs' Hvs'. induction Hvs as [|x w l ws Hx H IH]; intros vs' H'; inversion H'; subst; [reflexivity|]. f_equal; [eapply encoded_once; eassumption|apply IH; assumption]. }
  pose proof (encoded_once _ _ _ _ Hf (proj1 (K later))) as Q. injection Q as ->.
  destruct (ThmBuilder.C19_delete_criteria E pipe name _ bs He Hok Hd Hl) as (dm & c & Hs & Hc). destruct c as [e|]; [|contradiction].
  unfold Operators.In in Hc. inversion Hc; subst. match goal with H : Forall2 expr_denotes (v :: vs) _ |- _ => rename H into Hes end. inversion Hes as [|? x ? xs Hx Hxs]; subst. exists dm, x, xs. auto.
Qed.

(* C88 is false of Concat(xs...): it stands for what the slice holds when it is encoded... *)
Theorem C88_concat_follows_the_slice : forall m b later w,
  encoded_as later (Concat m b) w <-> exists vs, Forall2 (encoded_as later) (map (element later) b) vs /\ w = VFunc (Some (Operators.Concat vs)).
Proof. intros m b later w. apply encoded_call. Qed.

(* ...so that every Concat of one or more operands of a slice stands for something else if the slice is reused. *)
Theorem C88_concat_refuted : forall m b w, b <> [] -> encoded_as m (Concat m b) w ->
  exists later w', (forall i, content later i = content m i) /\ encoded_as later (Concat m b) w' /\ w' <> w.
Proof.
  intros m b w Hb Hw. pose (f := fun w => match w with VFunc (Some (ECall _ (VBool true :: _))) => true | _ => false end). pose (sees_true := f w).
  exists {| element := fun _ => AVal (VBool (negb sees_true)); content := content m |}, (VFunc (Some (Operators.Concat (map (fun _ => VBool (negb sees_true)) b)))).
  split; [reflexivity|]. split.
  - apply C88_concat_follows_the_slice. eexists. split; [|reflexivity]. cbn [element]. clear. induction b as [|x b IH]; constructor; [exists 1%nat; reflexivity|exact IH].
  - intros Hc. destruct b as [|x b]; [contradiction|]. apply (f_equal f) in Hc. fold sees_true in Hc. cbn [map] in Hc.
    assert (R : forall t l, f (VFunc (Some (Operators.Concat (VBool t :: l)))) = t) by (intros [|] l; reflexivity). rewrite R in Hc. destruct sees_true; discriminate.
Qed.

(* C88: byte slices are referred to by every operator: they stand for their content when they are encoded. *)
Theorem C88_byte_slices_refuted : forall m a i, memoryless a -> element m i = ABytes i ->
  exists v, encoded_as m a v /\ forall later, encoded_as later (In m a [i]) (VFunc (Some (Operators.In v [VBytes (Some (content later i))]))).
Proof.
  intros m a i Ha Hi. destruct (memoryless_same a Ha) as [v Hv]. exists v. split; [apply Hv|]. intros later. apply encoded_operator. exists [v; VBytes (Some (content later i))].
  split; [|reflexivity]. constructor; [apply Hv|]. constructor; [|constructor]. rewrite Hi. exists 1%nat. reflexivity.
Qed.

(* C88: an expression without references is always encoded in finitely many steps... *)
Theorem C88_memoryless_ends : forall (E : Env) x, memoryless x -> exists fuel v, forall m p tag, append_expr_at fuel m x p tag = Some (append_expr v p tag).
Proof.
  intros E x Hx.
  assert (G : forall x, memoryless x -> exists k v, forall m, found k m x = Some v).
  { clear. fix IH 2. intros x [v|name ps Hp].
    - exists 1%nat, v. reflexivity.
    - assert (G : exists k vs, forall m, all (map (found k m) ps) = Some vs).
      { induction Hp as [|y ps Hy Hp IHp]; [exists O, []; reflexivity|]. destruct (IH y Hy) as (k1 & v & Hv). destruct IHp as (k2 & vs & Hvs). exists (k1 + k2)%nat, (v :: vs). intros m.
        cbn [map all]. rewrite (found_more _ _ _ _ (Hv m)) by lia. specialize (Hvs m). apply all_map in Hvs. replace (all (map (found (k1 + k2) m) ps)) with (Some vs); [reflexivity|].
        symmetry. apply all_map. refine (Forall2_impl _ _ _ _ _ _ _ Hvs). intros z w Hw. apply (found_more _ _ _ _ Hw). lia. }
      destruct G as (k & vs & G). exists (S k), (VFunc (Some (EOperator name vs))). intros m. cbn [found]. rewrite G. reflexivity. }
  destruct (G x Hx) as (k & v & H). exists k, v. intros m p tag. unfold append_expr_at. rewrite H. reflexivity.
Qed.

(* ...but a Concat that has been put into its own slice never is. *)
Theorem C88_concat_of_itself_refuted : forall (E : Env) m b i, List.In i b -> element m i = Concat m b ->
  forall fuel p tag, append_expr_at fuel m (Concat m b) p tag = None.
Proof.
  intros E m b i Hi He fuel p tag. unfold append_expr_at. replace (found fuel m (Concat m b)) with (@None gvalue); [reflexivity|]. symmetry.
  induction fuel as [|fuel IH]; [reflexivity|]. cbn [found Concat]. replace (all (map (fun a => found fuel m (element m a)) b)) with (@None (list gvalue)); [reflexivity|].
  symmetry. assert (G : forall l, List.In i l -> all (map (fun a => found fuel m (element m a)) l) = None); [|exact (G b Hi)].
  induction l as [|x l IHl]; [intros []|]. intros [->|Hx]; cbn [map all].
  - rewrite He, IH. reflexivity.
  - rewrite IHl by exact Hx. destruct (found fuel m (element m x)); reflexivity.
Qed.

Open Scope nat_scope.
(* ---- a slice that is used for two expressions, one after the other ---- *)
#[local] Existing Instance ThmBuilder.plain.
Definition holding (x y : gvalue) : memory := {| element := fun i => match i with 0 => AVal x | 1 => AVal y | 2 => Concat {| element := fun _ => AVal VNil; content := fun _ => [] |} [2] | _ => AVal VNil end; content := fun _ => [] |}.
Definition first := holding (VInt 1) (VInt 2).
Definition second := holding (VInt 3) (VInt 4).
Definition id_column := AVal (VFunc (Some (EColumn (s2b "id")))).
Example operands_meet : memoryless id_column /\ Forall memoryless (map (element first) [0; 1]) /\
  found 2 second (In first id_column [0; 1]) = Some (VFunc (Some (Operators.In (VFunc (Some (EColumn (s2b "id")))) [VInt 1; VInt 2]))) /\
  exists bs, delivers (new_pipe 0) (one_call (CDelete (s2b "t") (Some (Operators.In (VFunc (Some (EColumn (s2b "id")))) [VInt 1; VInt 2])))) bs /\
    dstream bs = Some [MDelete (s2b "t") None (Some (XOperator (s2b "in") [XColumn (s2b "id"); XLiteral (SSint 1); XLiteral (SSint 2)]))].
Proof.
  split; [constructor|]. split; [repeat constructor|]. split; [reflexivity|]. eexists. split; [eexists; eexists; split; vm_compute; reflexivity|]. vm_compute. reflexivity.
Qed.
Example concat_changes : [0; 1] <> [] /\
  found 2 first (Concat first [0; 1]) = Some (VFunc (Some (Operators.Concat [VInt 1; VInt 2]))) /\
  found 2 second (Concat first [0; 1]) = Some (VFunc (Some (Operators.Concat [VInt 3; VInt 4]))).
Proof. split; [discriminate|]. split; reflexivity. Qed.
Example itself_meets : List.In 2 [2] /\ element first 2 = Concat first [2].
Proof. split; [left; reflexivity|reflexivity]. Qed.
Example bytes_meet : let m := {| element := ABytes; content := fun _ => s2b "x" |} in memoryless id_column /\ element m 5 = ABytes 5.
Proof. split; [constructor|reflexivity]. Qed.

Print Assumptions C88_operators_keep_their_operands.
Print Assumptions C88_operands_are_sent.
Print Assumptions C88_concat_follows_the_slice.
Print Assumptions C88_concat_refuted.
Print Assumptions C88_byte_slices_refuted.
Print Assumptions C88_memoryless_ends.
Print Assumptions C88_concat_of_itself_refuted.
