(* C20 and C53: what messages say before their values, when these may also be values that are encoded wrongly. *)
From Coq Require Import String List NArith ZArith Arith Bool Lia ZifyN ZifyNat ZifyBool.
From Coq Require Import List.
From Verif Require Import Base GoSlice SliceProofs SpecWire SpecMsg WireProofs Pure Text Values AnyModel ExprModel MsgModel Builder SpecValue SpecProg SpecUnit
  HeadProofs ValueProofs MsgProofs BuilderProofs UnitProofs SpecTyped TypedProofs TypedRunProofs TypedFrameProofs.
From Verif Require ThmValues ThmBuilder ThmDefects ThmTyped.
Import ListNotations.
Open Scope N_scope.
Open Scope list_scope.

(* A message that was begun on an empty builder, and what is added to it before its length is set. *)
Lemma tail_frame : forall (E : Env) Q K S W (g : enc) h ty hb sp q2 q, lays Message word32 Q K S W g -> length h = 4%nat -> ty < 256 -> is_bytes hb ->
  g E (mk (h ++ ty :: hb) sp) = Ok (q2, None) -> patch_length q2 0 = Ok q -> nlen (data q) < 2 ^ 32 ->
  exists rest, good word32 g rest /\ dframes (data q) = Some [(ty, hb ++ rest)].
Proof.
  intros E Q K S W g h ty hb sp q2 q HL Hh Ht Hb Hg Hp Hl. pose proof (patch_len _ _ _ Hp) as Hpl.
  destruct HL as [(rest & Ir & _ & G)|[[[B _] _]|[B _]]].
  - exists rest. split; [exact G|]. destruct (G E eq_refl (mk (h ++ ty :: hb) sp)) as [sp2 H2]. rewrite H2 in Hg. apply ok_fst in Hg. subst q2. cbn [data] in *.
    pose proof (patch_ok [] h (ty :: hb ++ rest) sp2 0 eq_refl Hh) as P. cbn [app] in P. rewrite <- app_assoc in Hp. cbn [app] in Hp. rewrite P in Hp.
    assert (q = mk (lebytes 4 (nlen (ty :: hb ++ rest)) ++ ty :: hb ++ rest) sp2) as -> by congruence. cbn [data] in *. rewrite nlen_cons. apply framed_dframes.
    pose proof (framed_cons (1 + nlen (hb ++ rest)) ty (hb ++ rest) [] [] eq_refl) as F. rewrite app_nil_r in F. apply F; [|exact Ht|apply app_bytes; assumption|apply framed_nil].
    rewrite nlen_app, !nlen_cons in Hl. lia.
  - destruct (B E eq_refl _ _ Hg).
  - exfalso. destruct (B E eq_refl _ _ Hg) as [_ Big]. cbn [limit] in Big. unfold len, nlen in *. lia.
Qed.

(* C20, whatever the values: Execute sends one frame, which begins with the id it was given, followed by what the arguments are encoded as, in order, in any other message. *)
Theorem C20_execute_whatever_the_values : forall (E : Env) b id args bs, empty b -> typed_call word32 (CExecute id args) ->
  delivers b (one_call (CExecute id args)) bs -> nlen bs < 2 ^ 32 ->
  exists head rest, dframes bs = Some [(41, head ++ rest)] /\ dfields head = Some [(1, WVarint id)] /\
    forall s, exists sp, append_args 2 args s = Ok (mk (data s ++ rest) sp, None).
Proof.
  intros E b id args bs (He & Hb & Hd) [Hi Ha] (x & out & Hr & Hsend) Hl.
  cbn [one_call run nth_error] in Hr. unfold exec_call, guarded in Hr. rewrite Hd, Hb in Hr. rewrite execute_eq in Hr.
  destruct (execute_head_ok id Hi (buf b)) as (h & sp & Hh & Hq). rewrite Hq, He, app_nil_l in Hr. cbn [bind] in Hr. unfold len in Hr. rewrite He in Hr. cbn [length] in Hr.
  destruct (append_args _ _ _) as [[q2 [e|]]|] eqn:H2; cbn [bind] in Hr; [|unfold okm in Hr; destruct (patch_length q2 0) as [q3|] eqn:H3; [|discriminate]|discriminate]; cbn [bind set_nth] in Hr.
  - assert (x = mkb q2 (Some e) false) as -> by congruence. discriminate.
  - assert (x = mkb q3 None false) as -> by congruence. assert (data q3 = bs) as Hbs by (unfold send in Hsend; cbn [disabled berr buf] in Hsend; congruence). subst bs.
    destruct (tail_frame E _ _ _ _ (fun E p => append_args 2 args p) h 41 (pvar 1 id) sp q2 q3 (lays_message _ _ _ _ _ _ (args_lays word32 2 args ltac:(lia) Ha)) Hh ltac:(lia) (pvar_bytes 1 id ltac:(lia) ltac:(lia)) H2 H3 Hl) as (rest & G & F).
    exists (pvar 1 id), rest. split; [exact F|]. split; [apply reads_pvar; lia|exact (G E eq_refl)].
Qed.

Lemma one_sent : forall (E : Env) b c bs, empty b -> delivers b (one_call c) bs ->
  exists dis q, run_call dis c E (buf b) = Ok (q, None) /\ data q = bs /\ data (buf b) = [] /\ len (buf b) = 0%nat.
Proof.
  intros E b c bs (He & Hb & Hd) (x & out & Hr & Hsend). cbn [one_call run nth_error] in Hr. unfold exec_call, guarded in Hr. rewrite Hd, Hb in Hr.
  match type of Hr with bind (bind ?m _) _ = _ => destruct m as [[q e]|] eqn:Hq end; cbn [bind set_nth] in Hr; [|discriminate].
  assert (x = mkb q e false) as -> by congruence. unfold send in Hsend. cbn [disabled berr buf] in Hsend. destruct e as [e|]; [discriminate|].
  eexists _, q. split; [exact Hq|]. split; [congruence|]. split; [exact He|]. unfold len. rewrite He. reflexivity.
Qed.
Lemma insert_begins : forall (E : Env) name cols p, go_string name -> Forall go_string cols -> data p = [] -> exists h sp columns, length h = 4%nat /\
  msg_insert p name cols = Ok (mk (h ++ 18 :: plen 1 (plen 1 name) ++ pvar 2 2 ++ pcolumns cols) sp) /\
  dfields (plen 1 (plen 1 name) ++ pvar 2 2 ++ pcolumns cols) = Some ((1, WLen (plen 1 name)) :: (2, WVarint table_model) :: columns) /\ Forall (fun f => fst f = 3) columns /\
  is_bytes (plen 1 (plen 1 name) ++ pvar 2 2 ++ pcolumns cols).
Proof.
  intros E name cols p [Hb Hl] Hc He. destruct (insert_head_ok name cols Hl ltac:(eapply Forall_impl; [|exact Hc]; intros c [_ H]; exact H) p) as (h & sp & Hh & Hq).
  rewrite He, app_nil_l in Hq. pose proof (nlen_plen 1 name ltac:(lia)). destruct (reads_plen 1 name ltac:(lia) ltac:(lia) Hb) as [R1 _].
  assert (R : WireProofs.reads (plen 1 (plen 1 name) ++ pvar 2 2 ++ pcolumns cols) ([(1, WLen (plen 1 name))] ++ [(2, WVarint 2)] ++ lens 3 (map (plen 1) cols))).
  { apply reads_app; [apply reads_plen; [lia|lia|assumption]|]. apply reads_app; [apply reads_pvar; lia|]. apply reads_columns. assumption. }
  exists h, sp, (lens 3 (map (plen 1) cols)). split; [exact Hh|]. split; [exact Hq|]. split; [exact (proj2 R)|]. split; [|exact (proj1 R)].
  clear. induction cols as [|c cols IH]; cbn; constructor; [reflexivity|exact IH].
Qed.
Lemma update_begins : forall (E : Env) name p, go_string name -> data p = [] -> exists h sp, length h = 4%nat /\
  update_head name p = Ok (mk (h ++ 19 :: plen 2 (plen 1 name) ++ pvar 3 2) sp) /\
  dfields (plen 2 (plen 1 name) ++ pvar 3 2) = Some [(2, WLen (plen 1 name)); (3, WVarint table_model)] /\ is_bytes (plen 2 (plen 1 name) ++ pvar 3 2).
Proof.
  intros E name p [Hb Hl] He. destruct (update_head_ok name Hl p) as (h & sp & Hh & Hq). rewrite He, app_nil_l in Hq.
  pose proof (nlen_plen 1 name ltac:(lia)). destruct (reads_plen 1 name ltac:(lia) ltac:(lia) Hb) as [R1 _].
  assert (R : WireProofs.reads (plen 2 (plen 1 name) ++ pvar 3 2) ([(2, WLen (plen 1 name))] ++ [(3, WVarint 2)])) by (apply reads_app; [apply reads_plen; [lia|lia|assumption]|apply reads_pvar; lia]).
  exists h, sp. split; [exact Hh|]. split; [exact Hq|]. split; [exact (proj2 R)|exact (proj1 R)].
Qed.

(* C53, whatever the values: the frames of inserts and updates say table, after the name and before anything a value is encoded as. *)
Theorem C53_tables_whatever_the_values : forall (E : Env) b c bs, empty b -> typed_call word32 c -> delivers b (one_call c) bs -> nlen bs < 2 ^ 32 ->
  match c with
  | CInsert name _ _ | CInsertF name _ _ _ => exists t columns head rest, dframes bs = Some [(18, head ++ rest)] /\
      dfields head = Some ((1, WLen t) :: (2, WVarint table_model) :: columns) /\ dname 1 t = Some name /\ Forall (fun f => fst f = 3) columns
  | CUpdate name _ _ | CUpdateF name _ _ _ => exists t head rest, dframes bs = Some [(19, head ++ rest)] /\
      dfields head = Some [(2, WLen t); (3, WVarint table_model)] /\ dname 1 t = Some name
  | _ => True
  end.
Proof.
  intros E b c bs He Hok Hd Hl. destruct (one_sent E b c bs He Hd) as (dis & q & Hr & Hq & He0 & Hp0). subst bs.
  destruct c as [stmt args|id stmt|id args|id|name cols rows|name cols ops e|name cr set|name cr ops e|name cr]; try exact Logic.I; cbn [typed_call] in Hok; unfold run_call in Hr.
  - destruct Hok as (Hn & Hc & Hv). unfold do_insert in Hr. destruct (insert_begins E name cols (buf b) Hn Hc He0) as (h & sp & columns & Hh & Hi & R & Hcol & Ib). rewrite Hi in Hr. cbn [bind] in Hr. rewrite Hp0 in Hr.
    destruct (insert_rows _ _ _ _) as [[q2 [e|]]|] eqn:H2; cbn [bind] in Hr; try discriminate. unfold okm in Hr. destruct (patch_length q2 0) as [q3|] eqn:H3; cbn [bind] in Hr; [|discriminate]. apply ok_fst in Hr. subst q3.
    destruct (tail_frame E _ _ _ _ _ h 18 _ sp q2 q (rows_lays word32 (length cols) rows 0 Hv) Hh ltac:(lia) Ib H2 H3 Hl) as (rest & _ & F).
    exists (plen 1 name), columns. eexists _, rest. split; [exact F|]. split; [exact R|]. split; [apply dname_plen; [lia|exact Hn]|exact Hcol].
  - destruct Hok as (Hn & Hc & Hv). unfold do_insert_f in Hr. destruct (insert_begins E name cols (buf b) Hn Hc He0) as (h & sp & columns & Hh & Hi & R & Hcol & Ib). rewrite Hi in Hr. cbn [bind] in Hr. rewrite Hp0 in Hr.
    destruct (run_iops _ _ _ _) as [[q2 e2]|] eqn:H2; cbn [bind] in Hr; try discriminate. destruct (patch_length q2 0) as [q3|] eqn:H3; cbn [bind] in Hr; [|discriminate]. assert (e2 = None) as -> by congruence. assert (q3 = q) as -> by congruence.
    destruct (tail_frame E _ _ _ _ _ h 18 _ sp q2 q (iops_lays word32 dis ops Hv) Hh ltac:(lia) Ib H2 H3 Hl) as (rest & _ & F).
    exists (plen 1 name), columns. eexists _, rest. split; [exact F|]. split; [exact R|]. split; [apply dname_plen; [lia|exact Hn]|exact Hcol].
  - destruct Hok as (Hn & Hc & Hv). unfold do_update in Hr. rewrite update_eq in Hr. destruct (update_begins E name (buf b) Hn He0) as (h & sp & Hh & Hi & R & Ib). rewrite Hi in Hr. cbn [bind] in Hr. rewrite Hp0 in Hr.
    pose proof (lays_seq Message word32 _ _ True _ _ _ _ _ _ (criteria_lays word32 4 cr ltac:(lia) Hc) (sets_lays word32 set Hv)) as L.
    destruct (match cr with Some _ => _ | None => _ end) as [[q1 [e|]]|] eqn:H1; cbn [bind] in Hr; try discriminate.
    destruct (update_sets _ _) as [[q2 [e|]]|] eqn:H2; cbn [bind] in Hr; try discriminate. unfold okm in Hr. destruct (patch_length q2 0) as [q3|] eqn:H3; cbn [bind] in Hr; [|discriminate]. apply ok_fst in Hr. subst q3.
    assert (L2 : seq (fun E p => match cr with None => Ok (p, None) | Some f => run_fun f p 4 end) (fun E p => update_sets set p) E (mk (h ++ 19 :: plen 2 (plen 1 name) ++ pvar 3 2) sp) = Ok (q2, None)).
    { unfold seq. change tagUpdateCriteria with 4 in H1. rewrite H1. exact H2. }
    destruct (tail_frame E _ _ _ _ _ h 19 _ sp q2 q L Hh ltac:(lia) Ib L2 H3 Hl) as (rest & _ & F).
    exists (plen 1 name). eexists _, rest. split; [exact F|]. split; [exact R|]. apply dname_plen; [lia|exact Hn].
  - destruct Hok as (Hn & Hc & Hv). unfold do_update_f in Hr. rewrite update_eq in Hr. destruct (update_begins E name (buf b) Hn He0) as (h & sp & Hh & Hi & R & Ib). rewrite Hi in Hr. cbn [bind] in Hr. rewrite Hp0 in Hr.
    pose proof (lays_seq Message word32 _ _ True _ _ _ _ _ _ (criteria_lays word32 4 cr ltac:(lia) Hc) (uops_lays word32 dis ops Hv)) as L.
    destruct (match cr with Some _ => _ | None => _ end) as [[q1 e1]|] eqn:H1; cbn [bind] in Hr; try discriminate.
    destruct (run_uops _ _ _ _) as [[q2 e2]|] eqn:H2; cbn [bind] in Hr; try discriminate. destruct (patch_length q2 0) as [q3|] eqn:H3; cbn [bind] in Hr; [|discriminate]. assert (e2 = None) as -> by congruence. assert (q3 = q) as -> by congruence.
    destruct e1 as [e1|]. { destruct (uops_error E dis ops q1 e1) as [X|X]; rewrite X in H2; discriminate. }
    assert (L2 : seq (fun E p => match cr with None => Ok (p, None) | Some f => run_fun f p 4 end) (fun E p => run_uops dis ops p None) E (mk (h ++ 19 :: plen 2 (plen 1 name) ++ pvar 3 2) sp) = Ok (q2, None)).
    { unfold seq. change tagUpdateCriteria with 4 in H1. rewrite H1. exact H2. }
    destruct (tail_frame E _ _ _ _ _ h 19 _ sp q2 q L Hh ltac:(lia) Ib L2 H3 Hl) as (rest & _ & F).
    exists (plen 1 name). eexists _, rest. split; [exact F|]. split; [exact R|]. apply dname_plen; [lia|exact Hn].
Qed.

(* ---- the hypotheses can be met ---- *)
#[local] Existing Instance ThmBuilder.plain.

Definition wrong_variable : gvalue := VFunc (Some (EVariable ThmValues.long_name)).
Example wrong_heads_meet : empty (new_pipe 0) /\ typed_values word32 [ThmDefects.least] /\ ~ values_ok word32 [ThmDefects.least] /\
  (exists bs, typed_call word32 (CExecute 300 [ThmDefects.least]) /\ delivers (new_pipe 0) (one_call (CExecute 300 [ThmDefects.least])) bs /\ nlen bs < 2 ^ 32) /\
  (exists bs, typed_call word32 (CInsert (s2b "t") [s2b "a"] [[wrong_variable]]) /\ delivers (new_pipe 0) (one_call (CInsert (s2b "t") [s2b "a"] [[wrong_variable]])) bs /\ nlen bs < 2 ^ 32) /\
  (exists bs, typed_call word32 (CUpdate (s2b "t") None [(s2b "a", wrong_variable)]) /\ delivers (new_pipe 0) (one_call (CUpdate (s2b "t") None [(s2b "a", wrong_variable)])) bs /\ nlen bs < 2 ^ 32).
Proof.
  pose proof ThmTyped.long_name_string as Hn. pose proof (ThmDefects.least_well_formed false) as Hl.
  split; [split; [reflexivity|split; reflexivity]|]. split; [constructor; [exact Hl|constructor]|].
  split; [intros H; inversion_clear H as [|? ? [_ H1] _]; cbn in H1; lia|].
  split; [|split]; (eexists; split; [|split; [unfold delivers; do 2 eexists; split; vm_compute; reflexivity|vm_compute; reflexivity]]); cbn [typed_call].
  - split; [lia|]. constructor; [exact Hl|constructor].
  - split; [ThmBuilder.ok|]. split; [constructor; [ThmBuilder.ok|constructor]|]. constructor; [|constructor]. constructor; [exact Hn|constructor].
  - split; [ThmBuilder.ok|]. split; [exact Logic.I|]. split; [constructor; [ThmBuilder.ok|constructor]|]. cbn [map snd]. constructor; [exact Hn|constructor].
Qed.

Print Assumptions C20_execute_whatever_the_values.
Print Assumptions C53_tables_whatever_the_values.
