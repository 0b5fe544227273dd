(* Proofs for SpecProto: what the strict decoders of SpecMsg accept, a reader that knows the .proto files reads as well. *)
From Coq Require Import String List NArith ZArith Arith Bool Lia ZifyN ZifyNat ZifyBool.
From Coq Require Import List.
From Verif Require Import Base SpecWire SpecMsg Unmarshal UnmarshalProofs SpecSchema SpecProto SpecNames.
Import ListNotations.
Open Scope string_scope.
Open Scope list_scope.
Open Scope N_scope.

(* ---- the lexer ---- *)

Lemma dvarint_k_shorter k : forall bs x r, dvarint_k k bs = Some (x, r) -> (length r < length bs)%nat.
Proof.
  induction k as [|k IH]; intros bs x r H; [discriminate|]. destruct bs as [|b bs]; [discriminate|]. cbn [dvarint_k] in H.
  destruct (b <? 128); [injection H as <- <-; cbn [List.length]; lia|]. destruct (b <? 256); [|discriminate].
  destruct (dvarint_k k bs) as [[y r']|] eqn:Hy; [|discriminate]. injection H as <- <-. apply IH in Hy. cbn [List.length]. lia.
Qed.

Lemma dvarint_shorter bs x r : dvarint bs = Some (x, r) -> (length r < length bs)%nat.
Proof.
  unfold dvarint. destruct (dvarint_k 10 bs) as [[y r']|] eqn:H; [|discriminate]. destruct (y <? 2 ^ 64); [|discriminate].
  intros [= <- <-]. exact (dvarint_k_shorter _ _ _ _ H).
Qed.

Lemma take_length n bs x r : take n bs = Some (x, r) -> (length x + length r = length bs)%nat.
Proof.
  unfold take. destruct (n <=? nlen bs); [|discriminate]. intros [= <- <-]. rewrite firstn_length, skipn_length. lia.
Qed.

Lemma dfield_body bs n v r : dfield bs = Some (n, v, r) -> (length r < length bs)%nat /\ forall b, v = WLen b -> (length b + 2 <= length bs)%nat.
Proof.
  unfold dfield. destruct (dvarint bs) as [[key r0]|] eqn:H0; [|discriminate]. apply dvarint_shorter in H0.
  cbv zeta. destruct ((key / 8 =? 0) || (536870911 <? key / 8)); [discriminate|].
  destruct (key mod 8) as [|[[p|[p|p|]|]|[p|p|]|]]; try discriminate.
  - destruct (dvarint r0) as [[x r']|] eqn:H1; [|discriminate]. apply dvarint_shorter in H1. intros [= <- <- <-]. split; [lia|discriminate].
  - destruct (take 4 r0) as [[x r']|] eqn:H1; [|discriminate]. apply take_length in H1. intros [= <- <- <-]. split; [lia|discriminate].
  - destruct (dvarint r0) as [[x r']|] eqn:H1; [|discriminate]. apply dvarint_shorter in H1.
    destruct (take x r') as [[y r'']|] eqn:H2; [|discriminate]. apply take_length in H2. intros [= <- <- <-]. split; [lia|intros b [= <-]; lia].
  - destruct (take 8 r0) as [[x r']|] eqn:H1; [|discriminate]. apply take_length in H1. intros [= <- <- <-]. split; [lia|discriminate].
Qed.

Lemma dfields_k_body k : forall bs fs, dfields_k k bs = Some fs -> forall n b, In (n, WLen b) fs -> (length b + 2 <= length bs)%nat.
Proof.
  induction k as [|k IH]; intros bs fs H n b Hin.
  { destruct bs; [injection H as <-; contradiction|discriminate]. }
  destruct bs as [|x bs]; [injection H as <-; contradiction|]. cbn [dfields_k] in H.
  destruct (dfield (x :: bs)) as [[[m v] r]|] eqn:Hf; [|discriminate]. destruct (dfields_k k r) as [gs|] eqn:Hg; [|discriminate].
  injection H as <-. apply dfield_body in Hf. destruct Hf as [Hr Hv]. destruct Hin as [[= -> ->]|Hin]; [exact (Hv _ eq_refl)|].
  specialize (IH _ _ Hg _ _ Hin). lia.
Qed.

(* A field is shorter than the message it is in. *)
Lemma body_shorter bs fs n b : dfields bs = Some fs -> In (WLen b) (all_of n fs) -> (length b < length bs)%nat.
Proof.
  intros H Hin. unfold all_of in Hin. apply in_map_iff in Hin. destruct Hin as [[m w] [Hw Hin]]. cbn [snd] in Hw. subst w.
  apply filter_In in Hin. destruct Hin as [Hin _]. pose proof (dfields_k_body _ _ _ H _ _ Hin). lia.
Qed.

(* ---- strictness ---- *)

Lemma only_absent ns fs n : only ns fs = true -> existsb (N.eqb n) ns = false -> all_of n fs = [].
Proof.
  intros Ho Hn. unfold all_of. replace (filter (fun f => fst f =? n) fs) with (@nil (N * wval)); [reflexivity|].
  symmetry. induction fs as [|[m w] fs IH]; [reflexivity|]. cbn [only forallb fst] in Ho. apply andb_prop in Ho. destruct Ho as [Hm Ho].
  cbn [filter fst]. destruct (m =? n) eqn:E; [|exact (IH Ho)]. apply N.eqb_eq in E. subst m.
  exfalso. rewrite Hm in Hn. discriminate.
Qed.

Lemma req_one n fs w : req_field n fs = Some w -> all_of n fs = [w].
Proof. unfold req_field. destruct (all_of n fs) as [|a [|? ?]]; try discriminate. intros [= ->]. reflexivity. Qed.

Lemma opt_one n fs w : opt_field n fs = Some (Some w) -> all_of n fs = [w].
Proof. unfold opt_field. destruct (all_of n fs) as [|a [|? ?]]; try discriminate. intros [= ->]. reflexivity. Qed.

Lemma opt_none n fs : opt_field n fs = Some None -> all_of n fs = [].
Proof. unfold opt_field. destruct (all_of n fs) as [|a [|? ?]]; try discriminate. reflexivity. Qed.

Lemma obind_some {A B} (m : option A) (f : A -> option B) b : obind m f = Some b -> exists a, m = Some a /\ f a = Some b.
Proof. destruct m as [a|]; [eauto|discriminate]. Qed.

Lemma as_len_some w b : as_len w = Some b -> w = WLen b.
Proof. destruct w; try discriminate. intros [= ->]. reflexivity. Qed.
Lemma as_varint_some w b : as_varint w = Some b -> w = WVarint b.
Proof. destruct w; try discriminate. intros [= ->]. reflexivity. Qed.
Lemma as_i64_some w b : as_i64 w = Some b -> w = WI64 b.
Proof. destruct w; try discriminate. intros [= ->]. reflexivity. Qed.
Lemma as_i32_some w b : as_i32 w = Some b -> w = WI32 b.
Proof. destruct w; try discriminate. intros [= ->]. reflexivity. Qed.

Lemma len_field n fs b : obind (req_field n fs) as_len = Some b -> all_of n fs = [WLen b].
Proof. intros H. apply obind_some in H. destruct H as (w & H & Hw). apply as_len_some in Hw. subst w. exact (req_one _ _ _ H). Qed.
Lemma varint_field n fs b : obind (req_field n fs) as_varint = Some b -> all_of n fs = [WVarint b].
Proof. intros H. apply obind_some in H. destruct H as (w & H & Hw). apply as_varint_some in Hw. subst w. exact (req_one _ _ _ H). Qed.

(* A list of submessages, read by the strict decoder d and by the other. *)
Lemma omap_sub {A} (d : bytes -> option A) (dec : bytes -> option pval) (f : A -> pval) ws : forall xs,
  omap (dsub d) ws = Some xs -> (forall b x, In (WLen b) ws -> d b = Some x -> dec b = Some (f x)) ->
  omap dec (collect as_len ws) = Some (map f xs).
Proof.
  induction ws as [|w ws IH]; intros xs H Hd; [injection H as <-; reflexivity|]. cbn [omap] in H.
  apply obind_some in H. destruct H as (x & Hx & H). apply obind_some in H. destruct H as (ys & Hy & H). injection H as <-.
  unfold dsub in Hx. apply obind_some in Hx. destruct Hx as (b & Hb & Hx). apply as_len_some in Hb. subst w.
  cbn [collect as_len omap]. rewrite (Hd b x (or_introl eq_refl) Hx). cbn [obind].
  rewrite (IH ys Hy); [reflexivity|]. intros b' x' Hin Hdx. apply Hd; [right; exact Hin|exact Hdx].
Qed.

Ltac step H := let x := fresh "x" in let H1 := fresh "E" in apply obind_some in H; destruct H as (x & H1 & H).
Ltac check H := match type of H with (if ?b then _ else _) = Some _ => let E := fresh "K" in destruct b eqn:E; [|discriminate H] end.
(* rewrite with the known occurrences of the declared fields *)
Ltac known := repeat match goal with
  | H : all_of ?n ?fs = _ |- context [all_of ?n ?fs] => rewrite H
  | H : only ?ns ?fs = true |- context [all_of ?n ?fs] => rewrite (only_absent ns fs n H eq_refl)
  end.
Ltac fields_of m := let t := constr:(lookup m messages) in let v := eval vm_compute in t in
  replace (lookup m messages) with v by reflexivity.

(* Shape of a message read by decode_k. *)
Lemma decode_fields o k m ds bs fs : lookup m messages = Some ds -> dfields bs = Some fs ->
  decode_k o (S k) m bs = let? vs := omap (fun d => let? l := values o (decode_k o k) d fs in Some (map (pair (fname d)) l)) ds in Some (PMessage (concat vs)).
Proof. intros H1 H2. cbn [decode_k]. rewrite H1, H2, (dfields_ufields _ _ H2). destruct o; reflexivity. Qed.


(* open the declaration of the message to be read *)
Ltac declared E := match goal with |- decode_k ?o (S ?k) ?m ?bs = _ =>
  let t := eval vm_compute in (lookup m messages) in
  match t with Some ?l => rewrite (decode_fields o k m l bs _ eq_refl E) end end.
Ltac shown := cbn [omap]; unfold values; cbn [ftype flabel fnumber fname]; known; cbn [collect as_len scalar_value last_one obind map concat app omap].
(* fuel for a field's bytes *)
Ltac inside := match goal with
  | H : dfields ?bs = Some ?fs, A : all_of ?n ?fs = [WLen ?b] |- (length ?b < _)%nat =>
      let S := fresh in assert (S := body_shorter bs fs n b H); rewrite A in S; specialize (S (or_introl eq_refl)); lia
  end.

Lemma small n : n <? 2 ^ 32 = true -> n mod 2 ^ 32 = n.
Proof. intros H. apply N.ltb_lt in H. apply N.mod_small. exact H. Qed.

Lemma read_string o k bs v c : (length bs < k)%nat -> dvalue_opt bs = Some (v, c) ->
  decode_k o k "Mysqlx.Datatypes.Scalar.String" bs = Some (PMessage (("value", PBytes v) :: opt_named "collation" number c)).
Proof.
  intros Hk H. destruct k as [|k]; [lia|]. unfold dvalue_opt in H. step H. check H. step H. step H. apply len_field in E0.
  declared E. destruct x1 as [w|].
  - step H. injection H as <- <-. apply as_varint_some in E2. subst w. apply opt_one in E1. shown. reflexivity.
  - injection H as <- <-. apply opt_none in E1. shown. reflexivity.
Qed.

Lemma read_octets o k bs v c : (length bs < k)%nat -> dvalue_opt bs = Some (v, c) -> match c with Some n => n <? 2 ^ 32 | None => true end = true ->
  decode_k o k "Mysqlx.Datatypes.Scalar.Octets" bs = Some (PMessage (("value", PBytes v) :: opt_named "content_type" number c)).
Proof.
  intros Hk H Hc. destruct k as [|k]; [lia|]. unfold dvalue_opt in H. step H. check H. step H. step H. apply len_field in E0.
  declared E. destruct x1 as [w|].
  - step H. injection H as <- <-. apply as_varint_some in E2. subst w. apply opt_one in E1. shown. rewrite (small _ Hc). reflexivity.
  - injection H as <- <-. apply opt_none in E1. shown. reflexivity.
Qed.

Lemma i64_field n fs b : obind (req_field n fs) as_i64 = Some b -> all_of n fs = [WI64 b].
Proof. intros H. apply obind_some in H. destruct H as (w & H & Hw). apply as_i64_some in Hw. subst w. exact (req_one _ _ _ H). Qed.
Lemma i32_field n fs b : obind (req_field n fs) as_i32 = Some b -> all_of n fs = [WI32 b].
Proof. intros H. apply obind_some in H. destruct H as (w & H & Hw). apply as_i32_some in Hw. subst w. exact (req_one _ _ _ H). Qed.

Lemma read_scalar o k bs s : (length bs < k)%nat -> dscalar bs = Some s ->
  decode_k o k "Mysqlx.Datatypes.Scalar" bs = Some (name_scalar s).
Proof.
  intros Hk H. destruct k as [|k]; [lia|]. unfold dscalar in H. step H. step H. apply varint_field in E0.
  declared E.
  destruct x0 as [|p]; [discriminate|].
  destruct p as [[[p|p|]|[p|p|]|]|[[p|p|]|[p|[p|p|]|]|]|]; try discriminate H; check H.
  - (* 7 *) step H. apply varint_field in E1. check H. injection H as <-. shown.
    destruct x0 as [|[p|p|]]; [reflexivity| | |reflexivity]; exfalso; apply N.ltb_lt in K0; lia.
  - (* 5 *) step H. apply i64_field in E1. injection H as <-. shown. reflexivity.
  - (* 3 *) injection H as <-. shown. reflexivity.
  - (* 6 *) step H. apply i32_field in E1. injection H as <-. shown. reflexivity.
  - (* 8 *) step H. apply len_field in E1. step H. destruct x1 as [v c]. injection H as <-. shown. rewrite app_nil_r.
    rewrite (read_string o k x0 v c); [reflexivity|inside|exact E2].
  - (* 4 *) step H. apply len_field in E1. step H. destruct x1 as [v c]. check H. injection H as <-. shown. rewrite app_nil_r.
    rewrite (read_octets o k x0 v c); [reflexivity|inside|exact E2|exact K0].
  - (* 2 *) step H. apply varint_field in E1. injection H as <-. shown. reflexivity.
  - (* 1 *) step H. apply varint_field in E1. injection H as <-. shown. reflexivity.
Qed.

Lemma read_any o k bs s : (length bs < k)%nat -> dany bs = Some s -> decode_k o k "Mysqlx.Datatypes.Any" bs = Some (name_any s).
Proof.
  intros Hk H. destruct k as [|k]; [lia|]. unfold dany in H. step H. check H. step H. apply varint_field in E0. check H.
  step H. apply len_field in E1. apply N.eqb_eq in K0. subst x0. declared E. shown. rewrite app_nil_r.
  rewrite (read_scalar o k x1 s); [reflexivity|inside|exact H].
Qed.

Ltac one_name := let Hk := fresh "Hk" in let H := fresh "H" in intros Hk H;
  match type of Hk with (_ < ?k)%nat => destruct k as [|?k]; [lia|] end; unfold dname in H; step H; check H;
  match goal with E : dfields _ = Some _ |- _ => declared E end; apply len_field in H; shown; reflexivity.

Lemma read_collection o k bs n : (length bs < k)%nat -> dname 1 bs = Some n -> decode_k o k "Mysqlx.Crud.Collection" bs = Some (named n).
Proof. one_name. Qed.
Lemma read_column o k bs n : (length bs < k)%nat -> dname 1 bs = Some n -> decode_k o k "Mysqlx.Crud.Column" bs = Some (named n).
Proof. one_name. Qed.
Lemma read_identifier o k bs n : (length bs < k)%nat -> dname 1 bs = Some n -> decode_k o k "Mysqlx.Expr.Identifier" bs = Some (named n).
Proof. one_name. Qed.
Lemma read_column_identifier o k bs n : (length bs < k)%nat -> dname 2 bs = Some n -> decode_k o k "Mysqlx.Expr.ColumnIdentifier" bs = Some (named n).
Proof. one_name. Qed.
Lemma read_stmt o k bs n : (length bs < k)%nat -> dname 1 bs = Some n -> decode_k o k "Mysqlx.Sql.StmtExecute" bs = Some (PMessage [("stmt", PBytes n)]).
Proof. one_name. Qed.

Lemma pair_map {A} (name : string) (f : A -> pval) l : map (pair name) (map f l) = map (fun a => (name, f a)) l.
Proof. apply map_map. Qed.

Lemma read_expr o : forall k j bs e, (length bs < k)%nat -> dexpr_k j bs = Some e -> decode_k o k "Mysqlx.Expr.Expr" bs = Some (name_expr e).
Proof.
  induction k as [k IH] using lt_wf_ind. intros j bs e Hk H. destruct k as [|k]; [lia|]. destruct j as [|j]; [discriminate|].
  cbn [dexpr_k] in H. step H. step H. apply varint_field in E0. declared E.
  destruct x0 as [|p]; [discriminate|].
  destruct p as [[p|[p|p|]|]|[[p|p|]|[p|p|]|]|]; try discriminate H; check H.
  - (* 5: operator *) step H. apply len_field in E1. step H. check H. step H. apply len_field in E3. step H. injection H as <-. shown. rewrite app_nil_r.
    destruct k as [|k]; [exfalso; assert (length x0 < 0)%nat by inside; lia|].
    match goal with |- context [decode_k o (S k) ?m x0] => replace (decode_k o (S k) m x0) with (Some (PMessage (("name", PBytes x2) :: map (fun e => ("param", name_expr e)) x3))) end; [reflexivity|].
    symmetry. declared E2. shown.
    rewrite (omap_sub (dexpr_k j) _ name_expr _ _ E4); [cbn [obind concat app map]; rewrite pair_map, app_nil_r; reflexivity|].
    intros b x4 Hin Hx. apply (IH k ltac:(lia) j); [|exact Hx]. pose proof (body_shorter _ _ _ _ E2 Hin).
    assert (length x0 < S k)%nat by inside. lia.
  - (* 3: variable *) step H. apply len_field in E1. injection H as <-. shown. reflexivity.
  - (* 6: placeholder *) step H. apply varint_field in E1. check H. injection H as <-. shown. rewrite (small _ K0). reflexivity.
  - (* 4: call *) step H. apply len_field in E1. step H. check H. step H. step E3. apply len_field in E4. step H. injection H as <-. shown. rewrite app_nil_r.
    destruct k as [|k]; [exfalso; assert (length x0 < 0)%nat by inside; lia|].
    match goal with |- context [decode_k o (S k) ?m x0] => replace (decode_k o (S k) m x0) with (Some (PMessage (("name", PMessage [("name", PBytes x2)]) :: map (fun e => ("param", name_expr e)) x4))) end; [reflexivity|].
    symmetry. declared E2. shown. rewrite app_nil_r.
    assert (Hx0 : (length x0 < S k)%nat) by inside.
    rewrite (read_identifier o k x3 x2); [|clear Hk; inside|exact E3]. cbn [obind].
    rewrite (omap_sub (dexpr_k j) _ name_expr _ _ E5); [cbn [obind concat app map]; rewrite pair_map, app_nil_r; reflexivity|].
    intros b x5 Hin Hx. apply (IH k ltac:(lia) j); [|exact Hx]. pose proof (body_shorter _ _ _ _ E2 Hin). lia.
  - (* 2: literal *) step H. apply len_field in E1. step H. injection H as <-. shown. rewrite app_nil_r.
    rewrite (read_scalar o k x0 x1); [reflexivity|inside|exact E2].
  - (* 1: column *) step H. apply len_field in E1. step H. injection H as <-. shown. rewrite app_nil_r.
    rewrite (read_column_identifier o k x0 x1); [reflexivity|inside|exact E2].
Qed.

Lemma read_whole_expr o k bs e : (length bs < k)%nat -> dexpr bs = Some e -> decode_k o k "Mysqlx.Expr.Expr" bs = Some (name_expr e).
Proof. intros Hk H. exact (read_expr o k _ bs e Hk H). Qed.

(* each of the parts, in a message being read with fuel k *)
Lemma read_each {A} (d : bytes -> option A) (dec : bytes -> option pval) (f : A -> pval) bs fs n k xs :
  (length bs < S k)%nat -> dfields bs = Some fs -> omap (dsub d) (all_of n fs) = Some xs ->
  (forall b x, (length b < k)%nat -> d b = Some x -> dec b = Some (f x)) ->
  omap dec (collect as_len (all_of n fs)) = Some (map f xs).
Proof.
  intros Hk Hf H Hd. apply (omap_sub d dec f _ _ H). intros b x Hin Hx. apply Hd; [|exact Hx].
  pose proof (body_shorter _ _ _ _ Hf Hin). lia.
Qed.

Ltac parts f l := match goal with
  | Hk : (length ?bs < S ?k)%nat, E : dfields ?bs = Some ?fs, H : omap (dsub ?d) (all_of ?n ?fs) = Some ?xs |- context [omap ?dec (collect as_len (all_of ?n ?fs))] =>
      rewrite (read_each d dec f bs fs n k xs Hk E H (fun b x => l b x)); cbn [obind]
  end.

Lemma read_row o k bs row : (length bs < k)%nat -> drow bs = Some row -> decode_k o k "Mysqlx.Crud.Insert.TypedRow" bs = Some (name_row row).
Proof.
  intros Hk H. destruct k as [|k]; [lia|]. unfold drow in H. step H. check H. declared E. shown.
  parts name_expr (read_whole_expr o k). cbn [map concat]. rewrite pair_map, app_nil_r. reflexivity.
Qed.

Lemma sub_field {A} n fs (d : bytes -> option A) x : obind (req_field n fs) (dsub d) = Some x -> exists b, all_of n fs = [WLen b] /\ d b = Some x.
Proof.
  intros H. step H. unfold dsub in H. step H. apply as_len_some in E0. subst x0. exists x1. split; [exact (req_one _ _ _ E)|exact H].
Qed.

Lemma read_set o k bs s : (length bs < k)%nat -> dset bs = Some s -> decode_k o k "Mysqlx.Crud.UpdateOperation" bs = Some (name_set s).
Proof.
  intros Hk H. destruct k as [|k]; [lia|]. unfold dset in H. step H. check H. step H. apply sub_field in E0. destruct E0 as (b & Eb & Hb).
  step H. apply varint_field in E0. check H. apply N.eqb_eq in K0. subst x1. step H. apply sub_field in E1. destruct E1 as (c & Ec & Hc).
  injection H as <-. declared E. shown. rewrite !app_nil_r.
  rewrite (read_column_identifier o k b x0); [|inside|exact Hb]. cbn [obind map concat app].
  rewrite (read_whole_expr o k c x1); [reflexivity|inside|exact Hc].
Qed.

Lemma read_cond o k bs c : (length bs < k)%nat -> dcond bs = Some c -> decode_k o k "Mysqlx.Expect.Open.Condition" bs = Some (name_cond c).
Proof.
  intros Hk H. destruct k as [|k]; [lia|]. unfold dcond in H. step H. check H. step H. apply varint_field in E0. step H. apply len_field in E1.
  declared E. destruct x0 as [|[p|[p|p|]|]]; try discriminate H; injection H as <-; shown; reflexivity.
Qed.

Lemma read_capability o k bs c : (length bs < k)%nat -> dcapability bs = Some c -> decode_k o k "Mysqlx.Connection.Capability" bs = Some (name_capability c).
Proof.
  intros Hk H. destruct k as [|k]; [lia|]. unfold dcapability in H. step H. check H. step H. apply len_field in E0.
  step H. apply sub_field in E1. destruct E1 as (b & Eb & Hb). injection H as <-. declared E. shown. rewrite app_nil_r.
  rewrite (read_any o k b x1); [reflexivity|inside|exact Hb].
Qed.

(* ---- the messages ---- *)

Lemma du32_field n fs x : obind (req_field n fs) du32 = Some x -> all_of n fs = [WVarint x] /\ x mod 2 ^ 32 = x.
Proof.
  intros H. step H. unfold du32 in H. step H. check H. injection H as <-. apply as_varint_some in E0. subst x0.
  split; [exact (req_one _ _ _ E)|exact (small _ K)].
Qed.

Lemma model_field n fs m : obind (opt_field n fs) (dopt dmodel) = Some m ->
  all_of n fs = match m with Some x => [WVarint x] | None => [] end /\ match m with Some x => x = 1 \/ x = 2 | None => True end.
Proof.
  intros H. step H. destruct x as [w|]; cbn [dopt] in H; [|injection H as <-; split; [exact (opt_none _ _ E)|exact I]].
  step H. injection H as <-. unfold dmodel in E0. step E0. check E0. injection E0 as <-. apply as_varint_some in E1. subst w.
  split; [exact (opt_one _ _ _ E)|]. apply orb_prop in K. destruct K as [K|K]; apply N.eqb_eq in K; auto.
Qed.

Lemma opt_sub_field {A} n fs (d : bytes -> option A) m : obind (opt_field n fs) (dopt (dsub d)) = Some m ->
  match m with Some x => exists b, all_of n fs = [WLen b] /\ d b = Some x | None => all_of n fs = [] end.
Proof.
  intros H. step H. destruct x as [w|]; cbn [dopt] in H; [|injection H as <-; exact (opt_none _ _ E)].
  step H. injection H as <-. unfold dsub in E0. step E0. apply as_len_some in E1. subst w. exists x0. split; [exact (opt_one _ _ _ E)|exact E0].
Qed.

Lemma opt_len_field n fs m : obind (opt_field n fs) (dopt as_len) = Some m -> all_of n fs = match m with Some b => [WLen b] | None => [] end.
Proof.
  intros H. step H. destruct x as [w|]; cbn [dopt] in H; [|injection H as <-; exact (opt_none _ _ E)].
  step H. injection H as <-. apply as_len_some in E0. subst w. exact (opt_one _ _ _ E).
Qed.

Definition reads_msg (o : bool) (bs : bytes) (m : msg) : Prop := decode o (fst (name_msg m)) bs = Some (snd (name_msg m)).

Ltac msg_start := unfold reads_msg, decode; match goal with |- context [decode_k _ (S (length ?bs)) _ _] =>
  let Hk := fresh "Hk" in assert (Hk : (length bs < S (length bs))%nat) by lia; revert Hk; generalize (length bs) at 2 3 as k; intros k Hk end.

Lemma read_stmt_execute o bs m : dstmt_execute bs = Some m -> reads_msg o bs m.
Proof.
  intros H. unfold dstmt_execute in H. step H. check H. step H. apply len_field in E0. step H. injection H as <-. msg_start. cbn [name_msg fst snd].
  declared E. shown. parts name_any (read_any o k). cbn [map concat]. rewrite pair_map, app_nil_r. reflexivity.
Qed.

Lemma read_execute o bs m : dexecute bs = Some m -> reads_msg o bs m.
Proof.
  intros H. unfold dexecute in H. step H. check H. step H. apply du32_field in E0. destruct E0 as [E0 Hs]. step H. injection H as <-. msg_start. cbn [name_msg fst snd].
  declared E. shown. rewrite Hs. parts name_any (read_any o k). cbn [map concat]. rewrite pair_map, app_nil_r. reflexivity.
Qed.

Lemma read_prepare o bs m : dprepare bs = Some m -> reads_msg o bs m.
Proof.
  intros H. unfold dprepare in H. step H. check H. step H. apply du32_field in E0. destruct E0 as [E0 Hs]. step H. apply len_field in E1.
  step H. check H. step H. apply varint_field in E3. check H. apply N.eqb_eq in K1. subst x3. step H. apply len_field in E4. step H. injection H as <-.
  msg_start. cbn [name_msg fst snd]. declared E. shown. rewrite app_nil_r, Hs.
  assert (H1 : (length x1 < k)%nat) by inside. destruct k as [|k]; [lia|].
  match goal with |- context [decode_k o (S k) ?m x1] =>
    replace (decode_k o (S k) m x1) with (Some (PMessage [("type", PEnum "STMT"); ("stmt_execute", PMessage [("stmt", PBytes x4)])])) end; [reflexivity|].
  symmetry. declared E2. shown. rewrite app_nil_r. rewrite (read_stmt o k x3 x4); [reflexivity|clear Hk; inside|exact E5].
Qed.

Lemma read_deallocate o bs m : ddeallocate bs = Some m -> reads_msg o bs m.
Proof.
  intros H. unfold ddeallocate in H. step H. check H. step H. apply du32_field in E0. destruct E0 as [E0 Hs]. injection H as <-. msg_start. cbn [name_msg fst snd].
  declared E. shown. rewrite Hs. reflexivity.
Qed.

Lemma read_insert o bs m : dinsert bs = Some m -> reads_msg o bs m.
Proof.
  intros H. unfold dinsert in H. step H. check H. step H. apply sub_field in E0. destruct E0 as (b & Eb & Hb).
  step H. apply model_field in E0. destruct E0 as [Em Hm]. step H. step H. injection H as <-. msg_start. cbn [name_msg fst snd]. declared E.
  shown. rewrite app_nil_r. rewrite (read_collection o k b x0); [|inside|exact Hb]. cbn [obind].
  parts named (read_column o k). parts name_row (read_row o k).
  destruct x1 as [mo|]; [destruct Hm as [-> | ->]|]; cbn [map concat]; rewrite !pair_map, !app_nil_r; reflexivity.
Qed.

Lemma read_update o bs m : dupdate bs = Some m -> reads_msg o bs m.
Proof.
  intros H. unfold dupdate in H. step H. check H. step H. apply sub_field in E0. destruct E0 as (b & Eb & Hb).
  step H. apply model_field in E0. destruct E0 as [Em Hm]. step H. apply opt_sub_field in E0. step H. injection H as <-. msg_start. cbn [name_msg fst snd]. declared E.
  destruct x2 as [cr|]; [destruct E0 as (c & Ec & Hc)|]; shown; rewrite ?app_nil_r; rewrite (read_collection o k b x0); try exact Hb; try inside; cbn [obind];
    [rewrite (read_whole_expr o k c cr); [|inside|exact Hc]; cbn [obind]|];
    parts name_set (read_set o k);
    (destruct x1 as [mo|]; [destruct Hm as [-> | ->]|]); cbn [map concat]; rewrite !pair_map, ?app_nil_r; reflexivity.
Qed.

Lemma read_delete o bs m : ddelete bs = Some m -> reads_msg o bs m.
Proof.
  intros H. unfold ddelete in H. step H. check H. step H. apply sub_field in E0. destruct E0 as (b & Eb & Hb).
  step H. apply model_field in E0. destruct E0 as [Em Hm]. step H. apply opt_sub_field in E0. injection H as <-. msg_start. cbn [name_msg fst snd]. declared E.
  destruct x2 as [cr|]; [destruct E0 as (c & Ec & Hc)|]; shown; rewrite ?app_nil_r; rewrite (read_collection o k b x0); try exact Hb; try inside; cbn [obind];
    [rewrite (read_whole_expr o k c cr); [|inside|exact Hc]; cbn [obind]|];
    (destruct x1 as [mo|]; [destruct Hm as [-> | ->]|]); reflexivity.
Qed.

Lemma read_expect_open o bs m : dexpect_open bs = Some m -> reads_msg o bs m.
Proof.
  intros H. unfold dexpect_open in H. step H. check H. step H. apply varint_field in E0. check H. step H. injection H as <-. msg_start. cbn [name_msg fst snd]. declared E.
  shown. parts name_cond (read_cond o k). cbn [map concat]. rewrite pair_map, app_nil_r.
  destruct x0 as [|[p|p|]]; [reflexivity| | |reflexivity]; exfalso; apply N.ltb_lt in K0; lia.
Qed.

Lemma read_expect_close o bs m : dexpect_close bs = Some m -> reads_msg o bs m.
Proof. unfold dexpect_close. destruct bs; [|discriminate]. intros [= <-]. destruct o; reflexivity. Qed.

Lemma read_reset o bs m : dreset bs = Some m -> reads_msg o bs m.
Proof.
  intros H. unfold dreset in H. step H. check H. step H. destruct x0 as [w|].
  - step H. check H. injection H as <-. apply as_varint_some in E1. subst w. apply N.eqb_eq in K0. subst x0. apply opt_one in E0.
    msg_start. cbn [name_msg fst snd]. declared E. shown. reflexivity.
  - injection H as <-. apply opt_none in E0. msg_start. cbn [name_msg fst snd]. declared E. shown. reflexivity.
Qed.

Lemma read_auth_start o bs m : dauth_start bs = Some m -> reads_msg o bs m.
Proof.
  intros H. unfold dauth_start in H. step H. check H. step H. apply len_field in E0. step H. apply opt_len_field in E1. injection H as <-.
  msg_start. cbn [name_msg fst snd]. declared E. shown. destruct x1; reflexivity.
Qed.

Lemma read_auth_continue o bs m : dauth_continue bs = Some m -> reads_msg o bs m.
Proof.
  intros H. unfold dauth_continue, dname in H. step H. step E. check E. apply len_field in E. injection H as <-.
  msg_start. cbn [name_msg fst snd]. declared E0. shown. reflexivity.
Qed.

Lemma read_capabilities_set o bs m : dcapabilities_set bs = Some m -> reads_msg o bs m.
Proof.
  intros H. unfold dcapabilities_set, dname in H. step H. step E. check E. apply len_field in E. step H. check H. step H. injection H as <-.
  msg_start. cbn [name_msg fst snd]. declared E0. shown. rewrite app_nil_r.
  assert (H1 : (length x < k)%nat) by inside. destruct k as [|k]; [lia|].
  match goal with |- context [decode_k o (S k) ?m x] =>
    replace (decode_k o (S k) m x) with (Some (PMessage (each "capabilities" name_capability x2))) end; [reflexivity|].
  symmetry. declared E1. shown. parts name_capability (read_capability o k). cbn [map concat]. rewrite pair_map, app_nil_r. reflexivity.
Qed.

(* Every message the strict decoders accept. *)
Lemma read_msg o ty bs m : dmsg ty bs = Some m -> message_name ty client_messages = Some (fst (name_msg m)) /\ reads_msg o bs m.
Proof.
  intros H. destruct ty as [|p]; [discriminate|]. unfold dmsg in H.
  repeat match type of H with context [match ?q with _ => _ end] => is_var q; destruct q as [q|q|]; try discriminate H end;
  (split; [
    first [progress unfold dprepare in H|progress unfold dinsert in H|progress unfold dauth_continue in H|progress unfold dstmt_execute in H|progress unfold dreset in H|progress unfold dexpect_open in H
          |progress unfold dexpect_close in H|progress unfold dauth_start in H|progress unfold dexecute in H|progress unfold ddeallocate in H|progress unfold dupdate in H|progress unfold ddelete in H|progress unfold dcapabilities_set in H];
    repeat first [step H | check H | match type of H with match ?x with _ => _ end = _ => destruct x; try discriminate H end]; injection H as <-; reflexivity
  | first [exact (read_prepare o bs m H)|exact (read_insert o bs m H)|exact (read_auth_continue o bs m H)|exact (read_stmt_execute o bs m H)
          |exact (read_reset o bs m H)|exact (read_expect_open o bs m H)|exact (read_expect_close o bs m H)|exact (read_auth_start o bs m H)
          |exact (read_execute o bs m H)|exact (read_deallocate o bs m H)|exact (read_update o bs m H)|exact (read_delete o bs m H)
          |exact (read_capabilities_set o bs m H)]]).
Qed.

Lemma reads_stream bs ms : dstream bs = Some ms -> server_reads bs = Some (map name_msg ms).
Proof.
  unfold dstream, server_reads. intros H. step H. rewrite E. cbn [obind]. clear E. revert ms H.
  induction x as [|[ty p] fs IH]; intros ms H; [injection H as <-; reflexivity|]. cbn [omap fst snd] in H. step H. step H. injection H as <-.
  destruct (read_msg false ty p x E) as [Hn Hr]. cbn [omap fst snd map]. rewrite Hn. cbn [obind]. unfold reads_msg in Hr. rewrite Hr. cbn [obind].
  rewrite (IH _ E0). cbn [obind]. destruct (name_msg x) as [n v]. reflexivity.
Qed.
