(* Collation names: C44. *)
From Coq Require Import String NArith Arith Bool Lia.
From Coq Require Import List.
From Verif Require Import Base GoSlice SpecValue Text TextProofs CollationTable Collation.
Import ListNotations.
Open Scope N_scope.
Open Scope list_scope.

(* The MySQL name of a constant: its identifier in lower case, but for underscores. *)
Definition lower (c : N) : N := if (65 <=? c) && (c <=? 90) then c + 32 else c.
Definition matches (identifier name : bytes) : Prop := map lower identifier = filter (fun c => negb (c =? 95)) name.
(* Names consist of lower case letters, digits and underscores. *)
Definition name_char (c : N) : bool := ((97 <=? c) && (c <=? 122)) || ((48 <=? c) && (c <=? 57)) || (c =? 95).

Definition beq (a b : bytes) : bool := if list_eq_dec N.eq_dec a b then true else false.
Lemma beq_true : forall a b, beq a b = true -> a = b.
Proof. intros a b H. unfold beq in H. destruct (list_eq_dec N.eq_dec a b); [assumption|discriminate]. Qed.

Definition good (t : string * N) : bool :=
  let n := name_of (snd t) in
  beq (map lower (s2b (fst t))) (filter (fun c => negb (c =? 95)) n) && forallb name_char n && negb (beq n []).
Lemma all_good : forallb good constants = true.
Proof. vm_compute. reflexivity. Qed.

Theorem C44_constants_print_their_name : forall identifier c, In (identifier, c) constants ->
  matches (s2b identifier) (name_of c) /\ forallb name_char (name_of c) = true /\ name_of c <> [].
Proof.
  intros i c H. pose proof all_good as G. rewrite forallb_forall in G. specialize (G _ H). unfold good in G. cbn [fst snd] in G. apply andb_true_iff in G. destruct G as [G G3]. apply andb_true_iff in G. destruct G as [G1 G2].
  split; [exact (beq_true _ _ G1)|]. split; [exact G2|]. intros E. rewrite E in G3. discriminate G3. Qed.

(* The declared values are those of the table. *)
Lemma keys : map snd constants = map fst collation_map.
Proof. vm_compute. reflexivity. Qed.
Lemma lookup_none : forall c m, ~ In c (map fst m) -> lookup c m = None.
Proof. induction m as [|[k [a b]] m IH]; intros H; cbn [lookup]; [reflexivity|]. cbn in H. destruct (N.eqb_spec c k); [exfalso; apply H; auto|apply IH; tauto]. Qed.
Lemma lookup_some : forall c m, In c (map fst m) -> lookup c m <> None.
Proof. induction m as [|[k [a b]] m IH]; intros H; cbn [lookup]; [destruct H|]. destruct (N.eqb_spec c k); [discriminate|]. apply IH. destruct H as [H|H]; [cbn in H; congruence|exact H]. Qed.

Theorem C44_other_values : forall c, ~ In c (map snd constants) -> exists digits, name_of c = s2b "Collation(" ++ digits ++ s2b ")" /\ decimal digits = Some c.
Proof. intros c H. rewrite keys in H. exists (dec c). unfold name_of. rewrite (lookup_none _ _ H). split; [reflexivity|apply decimal_dec]. Qed.

(* Different collations print differently, whether declared or not. *)
Fixpoint nodupb (l : list bytes) : bool := match l with [] => true | x :: l => negb (existsb (beq x) l) && nodupb l end.
Lemma nodupb_ok : forall l, nodupb l = true -> NoDup l.
Proof.
  induction l as [|x l IH]; intros H; [constructor|]. cbn in H. apply andb_true_iff in H. destruct H as [H1 H2]. constructor; [|auto]. intros I. apply negb_true_iff in H1.
  assert (existsb (beq x) l = true); [|congruence]. apply existsb_exists. exists x. split; [exact I|]. unfold beq. destruct (list_eq_dec N.eq_dec x x); [reflexivity|contradiction]. Qed.
Lemma names_nodup : NoDup (map (fun t : string * N => name_of (snd t)) constants).
Proof. apply nodupb_ok. vm_compute. reflexivity. Qed.
Lemma nodup_map_inj : forall A B (f : A -> B) l x y, NoDup (map f l) -> In x l -> In y l -> f x = f y -> x = y.
Proof.
  induction l as [|z l IH]; intros x y N Hx Hy E; [destruct Hx|]. cbn in N. inversion_clear N as [|? ? N1 N2]. destruct Hx as [->|Hx], Hy as [->|Hy]; auto.
  - exfalso. apply N1. rewrite E. apply in_map. exact Hy.
  - exfalso. apply N1. rewrite <- E. apply in_map. exact Hx.
Qed.

Theorem C44_different_names : forall c c', name_of c = name_of c' -> c = c'.
Proof.
  intros c c' E. destruct (in_dec N.eq_dec c (map snd constants)) as [I|I], (in_dec N.eq_dec c' (map snd constants)) as [I'|I'].
  - apply in_map_iff in I, I'. destruct I as ([i k] & <- & I), I' as ([i' k'] & <- & I'). cbn [snd] in *. pose proof (nodup_map_inj _ _ (fun t : string * N => name_of (snd t)) constants _ _ names_nodup I I' E) as Q. congruence.
  - exfalso. destruct (C44_other_values _ I') as (d & D & _). apply in_map_iff in I. destruct I as ([i k] & <- & I). destruct (C44_constants_print_their_name _ _ I) as (_ & G & _). cbn [snd] in E. rewrite E, D in G. cbn in G. discriminate G.
  - exfalso. destruct (C44_other_values _ I) as (d & D & _). apply in_map_iff in I'. destruct I' as ([i k] & <- & I'). destruct (C44_constants_print_their_name _ _ I') as (_ & G & _). cbn [snd] in E. rewrite <- E, D in G. cbn in G. discriminate G.
  - destruct (C44_other_values _ I) as (d & D & V), (C44_other_values _ I') as (d' & D' & V'). rewrite D, D' in E. apply app_inv_head in E. apply app_inv_tail in E. congruence.
Qed.

(* IsBinary holds of the collation called binary and no other. *)
Theorem C44_is_binary : forall c, is_binary c = true <-> name_of c = s2b "binary".
Proof.
  assert (B : name_of 63 = s2b "binary") by (vm_compute; reflexivity). intros c. unfold is_binary. rewrite N.eqb_eq. split; [intros ->; exact B|]. intros H. apply C44_different_names. rewrite B. exact H. Qed.

(* Well known values, from the MySQL manual. *)
Example known : name_of 33 = s2b "utf8_general_ci" /\ name_of 45 = s2b "utf8mb4_general_ci" /\ name_of 46 = s2b "utf8mb4_bin" /\ name_of 8 = s2b "latin1_swedish_ci" /\
  name_of 255 = s2b "utf8mb4_0900_ai_ci" /\ name_of 0 = s2b "Collation(0)" /\ name_of 17 = s2b "Collation(17)" /\ name_of 18446744073709551615 = s2b "Collation(18446744073709551615)".
Proof. repeat split; vm_compute; reflexivity. Qed.
Example declared : nth_error constants 223 = Some ("UTF8mb40900AiCi"%string, 255) /\ length constants = 270%nat /\ ~ In 17 (map snd constants).
Proof. split; [vm_compute; reflexivity|]. split; [reflexivity|]. intros I. apply (count_occ_In N.eq_dec) in I. vm_compute in I. inversion I. Qed.

Print Assumptions C44_constants_print_their_name.
Print Assumptions C44_other_values.
Print Assumptions C44_different_names.
Print Assumptions C44_is_binary.
