(* C19: whether Update, UpdateF and Delete carry a criterion, when criteria and values may also be encoded wrongly. *)
From Coq Require Import String List NArith ZArith Arith Bool Lia ZifyN ZifyNat ZifyBool.
From Coq Require Import List.
From Verif Require Import Base GoSlice SliceProofs SpecWire SpecMsg WireProofs Pure Text Values AnyModel ExprModel MsgModel Builder SpecValue SpecProg SpecUnit
  HeaderProofs HeadProofs ValueProofs MsgProofs BuilderProofs UnitProofs SpecTyped TypedProofs TypedRunProofs TypedFrameProofs ThmTypedHeads.
From Verif Require ThmValues ThmBuilder ThmDefects ThmTyped.
Import ListNotations.
Open Scope N_scope.
Open Scope list_scope.

(* A criterion that is itself a variable is only encoded as a field if its name is not too long (C22). *)
Definition names_no_long_variable (f : exprfun) : Prop := match f with EVariable name => nlen name <= 123 | _ => True end.

(* The bytes are one frame of that type, which has the field of the criterion once if one was given and not at all otherwise.
   Unless the criterion has one of the values that are encoded wrongly, the field is read as that criterion. *)
Definition filters (w32 : bool) (bs : bytes) (ty tag : N) (criteria : option exprfun) : Prop :=
  exists pl fs, dframes bs = Some [(ty, pl)] /\ dfields pl = Some fs /\
    match criteria with
    | None => filter (fun f => fst f =? tag) fs = []
    | Some f => exists x, filter (fun f => fst f =? tag) fs = [(tag, WLen x)] /\ (no_known_defect_fun w32 f -> exists e, dexpr x = Some e /\ fun_denotes f e)
    end.

Lemma headed_adds : forall (E : Env) Q K S W (f : enc) (hd : slice -> nat -> res slice) pure p q, lays Value word32 Q K S W f ->
  (forall a b sp, nlen b < 2 ^ 62 -> exists sp', hd (mk (a ++ b) sp) (length a) = Ok (mk (a ++ pure b) sp')) ->
  (forall p i q, hd p i = Ok q -> (len p <= len q)%nat) ->
  (do (q, e) <- f E p; match e with Some e => Ok (q, Some e) | None => okm (hd q (len p)) end) = Ok (q, None) -> nlen (data q) < 2 ^ 32 ->
  exists b, is_bytes b /\ nlen b < 2 ^ 32 /\ data q = data p ++ pure b.
Proof.
  intros E Q K S W f hd pure p q HL Hok Hlen H Hl. destruct (f E p) as [[q1 [e|]]|] eqn:H1; cbn [bind] in H; try discriminate.
  unfold okm in H. destruct (hd q1 (len p)) as [q2|] eqn:H2; cbn [bind] in H; [|discriminate]. apply ok_fst in H. subst q2.
  pose proof (Hlen _ _ _ H2) as L. destruct HL as [(b & Ib & _ & G)|[[[B _] _]|[B _]]].
  - destruct (G E eq_refl p) as [sp G1]. rewrite G1 in H1. apply ok_fst in H1. subst q1. unfold len in L. cbn [data] in L. rewrite app_length in L.
    assert (nlen b < 2 ^ 32) by (unfold nlen in *; lia). destruct (Hok (data p) b sp ltac:(lia)) as [sp' H3]. unfold len in H2. rewrite H3 in H2.
    exists b. split; [exact Ib|]. split; [assumption|]. assert (q = mk (data p ++ pure b) sp') as -> by congruence. reflexivity.
  - destruct (B E eq_refl _ _ H1).
  - destruct (B E eq_refl _ _ H1) as [_ Big]. cbn [limit] in Big. unfold len, nlen in *. lia.
Qed.

Lemma set_adds : forall (E : Env) name v p q, go_string name -> well_formed word32 v -> append_update_set p name v = Ok (q, None) -> nlen (data q) < 2 ^ 32 ->
  exists bs x, WireProofs.reads bs [(7, WLen x)] /\ data q = data p ++ bs.
Proof.
  intros E name v p q [Hb Hn] Hw H Hl.
  destruct (headed_adds E _ _ _ _ (fun E p => append_expr v p tagUpdateOperationValue) (fun p i => set_header p i name) (pset name) p q (expr_lays word32 v tagUpdateOperationValue ltac:(unfold tagUpdateOperationValue; lia) Hw)) as (b & Ib & Lb & D).
  - intros a b sp Hs. apply set_header_ok; assumption.
  - intros p0 i q0. apply set_header_len.
  - exact H.
  - exact Hl.
  - exists (pset name b). eexists. split; [|exact D]. unfold pset. pose proof (nlen_plen 2 name ltac:(lia)). pose proof (nlen_plen 1 (plen 2 name) ltac:(lia)). pose proof (nlen_pvar 2 1 ltac:(lia)).
    apply reads_plen; [lia|rewrite !nlen_app; lia|]. apply app_bytes; [apply plen_bytes; [lia|lia|]; apply plen_bytes; [lia|lia|assumption]|].
    apply app_bytes; [apply pvar_bytes; lia|assumption].
Qed.

Definition operations (fs : fields) : Prop := Forall (fun f => fst f = 7) fs.
Lemma sets_add : forall (E : Env) set p q, typed_sets word32 set -> update_sets set p = Ok (q, None) -> nlen (data q) < 2 ^ 32 ->
  exists bs fs, WireProofs.reads bs fs /\ operations fs /\ data q = data p ++ bs.
Proof.
  intros E set. induction set as [|[k v] set IH]; intros p q [H1 H2] H Hl; cbn [update_sets] in H.
  - apply ok_fst in H. subst q. exists [], []. split; [apply reads_nil|]. split; [constructor|]. rewrite app_nil_r. reflexivity.
  - destruct (append_update_set p k v) as [[p1 [e|]]|] eqn:Hs; cbn [bind] in H; try discriminate.
    cbn [map snd] in H2. inversion H1; subst. inversion H2; subst. cbn [fst] in *.
    destruct (IH p1 q ltac:(split; assumption) H Hl) as (bs & fs & R & F & D). rewrite D, nlen_app in Hl.
    destruct (set_adds E k v p p1 ltac:(assumption) ltac:(assumption) Hs ltac:(lia)) as (b & x & R1 & D1).
    exists (b ++ bs), ([(7, WLen x)] ++ fs). split; [apply reads_app; assumption|]. split; [constructor; [reflexivity|exact F]|]. rewrite D, D1, app_assoc. reflexivity.
Qed.
Lemma uops_add : forall (E : Env) dis ops p q, typed_sets word32 (sets_of ops) -> run_uops dis ops p None = Ok (q, None) -> nlen (data q) < 2 ^ 32 ->
  exists bs fs, WireProofs.reads bs fs /\ operations fs /\ data q = data p ++ bs.
Proof.
  intros E dis ops. induction ops as [|[k v|lvl] ops IH]; intros p q Ht H Hl; cbn [run_uops sets_of] in *.
  - apply ok_fst in H. subst q. exists [], []. split; [apply reads_nil|]. split; [constructor|]. rewrite app_nil_r. reflexivity.
  - destruct Ht as [H1 H2]. destruct (append_update_set p k v) as [[p1 [e|]]|] eqn:Hs; cbn [bind] in H; try discriminate.
    { destruct (uops_error E dis ops p1 e) as [X|X]; rewrite X in H; discriminate. }
    cbn [map snd] in H2. inversion H1; subst. inversion H2; subst. cbn [fst] in *.
    destruct (IH p1 q ltac:(split; assumption) H Hl) as (bs & fs & R & F & D). rewrite D, nlen_app in Hl.
    destruct (set_adds E k v p p1 ltac:(assumption) ltac:(assumption) Hs ltac:(lia)) as (b & x & R1 & D1).
    exists (b ++ bs), ([(7, WLen x)] ++ fs). split; [apply reads_app; assumption|]. split; [constructor; [reflexivity|exact F]|]. rewrite D, D1, app_assoc. reflexivity.
  - destruct (use_outer dis lvl); cbn [bind] in H; [|discriminate]. apply IH; assumption.
Qed.

(* What a criterion adds. *)
Lemma outcome_adds : forall (E : Env) f tag p q, 0 < tag < 16 -> well_formed_fun word32 f -> no_known_defect_fun word32 f -> run_fun f p tag = Ok (q, None) -> nlen (data q) < 2 ^ 32 ->
  exists bs x e, WireProofs.reads bs [(tag, WLen x)] /\ data q = data p ++ bs /\ dexpr x = Some e /\ fun_denotes f e.
Proof.
  intros E f tag p q Ht Hw Hd H Hl. destruct (fun_outcome word32 f tag Ht Hw Hd) as [(e & bs & x & De & R & X & _ & G)|[[[B _] _]|[B _]]].
  - destruct (G E eq_refl p) as [sp G1]. rewrite G1 in H. apply ok_fst in H. subst q. exists bs, x, e. auto.
  - destruct (B E eq_refl _ _ H).
  - destruct (B E eq_refl _ _ H) as [_ Big]. lia.
Qed.
Lemma fun_adds : forall (E : Env) f tag p q, 0 < tag < 16 -> well_formed_fun word32 f -> names_no_long_variable f -> run_fun f p tag = Ok (q, None) -> nlen (data q) < 2 ^ 32 ->
  exists bs x, WireProofs.reads bs [(tag, WLen x)] /\ data q = data p ++ bs.
Proof.
  intros E f tag p q Ht Hw Hv H Hl. destruct f as [name|name ps|name ps|name|pos|u];
    try (destruct (outcome_adds E _ tag p q Ht Hw Hv H Hl) as (bs & x & e & R & D & _); exists bs, x; split; assumption).
  all: destruct Hw as [[Hb Hn] Hw]; cbn [run_fun] in H.
  - destruct (headed_adds E _ _ _ _ (fun E p => each (fun v p => append_expr v p tagOperatorParam) EParam 0 ps p) (fun p i => operator_header p i tag name) (poper tag name) p q
      (params_lays word32 ps tagOperatorParam ltac:(unfold tagOperatorParam; lia) ltac:(apply Forall_forall; intros v _; apply expr_lays) Hw EParam)) as (b & Ib & Lb & D);
      [intros a b sp Hs; apply operator_header_ok; assumption|intros p0 i q0; apply operator_header_len|exact H|exact Hl|].
    exists (poper tag name b). eexists. split; [|exact D]. unfold poper.
    pose proof (nlen_plen 1 name ltac:(lia)). pose proof (nlen_app (plen 1 name) b). pose proof (nlen_plen 6 (plen 1 name ++ b) ltac:(lia)). pose proof (nlen_pvar 1 5 ltac:(lia)).
    apply reads_plen; [exact Ht|rewrite nlen_app; lia|]. apply app_bytes; [apply pvar_bytes; lia|]. apply plen_bytes; [lia|lia|].
    apply app_bytes; [apply plen_bytes; [lia|lia|assumption]|assumption].
  - destruct (headed_adds E _ _ _ _ (fun E p => each (fun v p => append_expr v p tagFunctionCallParam) EParam 0 ps p) (fun p i => call_header p i tag name) (pcall tag name) p q
      (params_lays word32 ps tagFunctionCallParam ltac:(unfold tagFunctionCallParam; lia) ltac:(apply Forall_forall; intros v _; apply expr_lays) Hw EParam)) as (b & Ib & Lb & D);
      [intros a b sp Hs; apply call_header_ok; assumption|intros p0 i q0; apply call_header_len|exact H|exact Hl|].
    exists (pcall tag name b). eexists. split; [|exact D]. unfold pcall.
    pose proof (nlen_plen 1 name ltac:(lia)). pose proof (nlen_plen 1 (plen 1 name) ltac:(lia)). pose proof (nlen_app (plen 1 (plen 1 name)) b). pose proof (nlen_plen 5 (plen 1 (plen 1 name) ++ b) ltac:(lia)).
    pose proof (nlen_pvar 1 4 ltac:(lia)).
    apply reads_plen; [exact Ht|rewrite nlen_app; lia|]. apply app_bytes; [apply pvar_bytes; lia|]. apply plen_bytes; [lia|lia|].
    apply app_bytes; [apply plen_bytes; [lia|lia|]; apply plen_bytes; [lia|lia|assumption]|assumption].
Qed.
Definition field_of (w : bool) (tag : N) (cr : option exprfun) (fs : fields) : Prop :=
  match cr with None => fs = [] | Some f => exists x, fs = [(tag, WLen x)] /\ (no_known_defect_fun w f -> exists e, dexpr x = Some e /\ fun_denotes f e) end.
Lemma criteria_add : forall (E : Env) cr tag p q, 0 < tag < 16 -> opt (well_formed_fun word32) cr -> opt names_no_long_variable cr ->
  match cr with None => Ok (p, None) | Some f => run_fun f p tag end = Ok (q, None) -> nlen (data q) < 2 ^ 32 ->
  exists bs fs, WireProofs.reads bs fs /\ field_of word32 tag cr fs /\ data q = data p ++ bs.
Proof.
  intros E [f|] tag p q Ht Hw Hv H Hl; cbn [opt field_of] in *.
  - destruct (fun_adds E f tag p q Ht Hw Hv H Hl) as (bs & x & R & D). exists bs, [(tag, WLen x)]. split; [exact R|]. split; [|exact D].
    exists x. split; [reflexivity|]. intros Hd. destruct (outcome_adds E f tag p q Ht Hw Hd H Hl) as (bs2 & x2 & e & R2 & D2 & X & De).
    rewrite D in D2. apply app_inv_head in D2. subst bs2. destruct R as [_ R], R2 as [_ R2]. exists e. split; [congruence|exact De].
  - apply ok_fst in H. subst q. exists [], []. split; [apply reads_nil|]. split; [reflexivity|]. rewrite app_nil_r. reflexivity.
Qed.

(* A message of which the parts are read. *)
Lemma filters_frame : forall w h ty hb hf cb cf ob of tag cr sp q, length h = 4%nat -> ty < 256 -> WireProofs.reads hb hf -> WireProofs.reads cb cf -> WireProofs.reads ob of -> field_of w tag cr cf ->
  filter (fun f => fst f =? tag) hf = [] -> filter (fun f => fst f =? tag) of = [] ->
  patch_length (mk (h ++ ty :: hb ++ cb ++ ob) sp) 0 = Ok q -> nlen (data q) < 2 ^ 32 -> filters w (data q) ty tag cr.
Proof.
  intros w h ty hb hf cb cf ob of tag cr sp q Hh Ht Rh Rc Ro Hc Fh Fo Hp Hl.
  pose proof (reads_app _ _ _ _ Rh (reads_app _ _ _ _ Rc Ro)) as [Ib R].
  pose proof (patch_ok [] h (ty :: hb ++ cb ++ ob) sp 0 eq_refl Hh) as P. cbn [app] in P. rewrite P in Hp.
  assert (q = mk (lebytes 4 (nlen (ty :: hb ++ cb ++ ob)) ++ ty :: hb ++ cb ++ ob) sp) as -> by congruence. cbn [data] in *. rewrite nlen_cons in *.
  exists (hb ++ cb ++ ob), (hf ++ cf ++ of). split; [|split; [exact R|]].
  - apply framed_dframes. pose proof (framed_cons (1 + nlen (hb ++ cb ++ ob)) ty (hb ++ cb ++ ob) [] [] eq_refl) as F. rewrite app_nil_r in F. apply F; [|exact Ht|exact Ib|apply framed_nil].
    rewrite nlen_app, nlen_cons in Hl. lia.
  - rewrite !filter_app, Fh, Fo, app_nil_r. cbn [app]. destruct cr as [f|]; cbn [field_of] in Hc.
    + destruct Hc as (x & -> & Hx). exists x. split; [cbn [filter fst]; rewrite N.eqb_refl; reflexivity|exact Hx].
    + subst cf. reflexivity.
Qed.
Lemma no_operations : forall fs tag, operations fs -> tag <> 7 -> filter (fun f : N * wval => fst f =? tag) fs = [].
Proof. intros fs tag H Ht. induction H as [|[t x] fs H1 H IH]; [reflexivity|]. cbn [filter fst] in *. subst t. destruct (N.eqb_spec 7 tag); [congruence|exact IH]. Qed.

(* C19, whatever the values: what Update, UpdateF and Delete send is restricted exactly when a criterion was given. *)
Theorem C19_filter_whatever_the_values : forall (E : Env) b c bs, empty b -> typed_call word32 c -> delivers b (one_call c) bs -> nlen bs < 2 ^ 32 ->
  match c with
  | CUpdate _ criteria _ | CUpdateF _ criteria _ _ => opt names_no_long_variable criteria -> filters word32 bs 19 4 criteria
  | CDelete _ criteria => opt names_no_long_variable criteria -> filters word32 bs 20 3 criteria
  | _ => True
  end.
Proof.
  intros E b c bs He Hok Hd Hl. destruct (one_sent E b c bs He Hd) as (dis & q & Hr & Hq & He0 & Hp0). subst bs.
  destruct c as [stmt args|id stmt|id args|id|name cols rows|name cols ops e|name cr set|name cr ops e|name cr]; try exact Logic.I; intros Hv; cbn [typed_call] in Hok; unfold run_call in Hr.
  - destruct Hok as (Hn & Hc & Hs). unfold do_update in Hr. rewrite update_eq in Hr. destruct (update_begins E name (buf b) Hn He0) as (h & sp & Hh & Hi & R & Ib). rewrite Hi in Hr. cbn [bind] in Hr. rewrite Hp0 in Hr.
    destruct (match cr with Some _ => _ | None => _ end) as [[q1 [e|]]|] eqn:H1; cbn [bind] in Hr; try discriminate.
    destruct (update_sets _ _) as [[q2 [e|]]|] eqn:H2; cbn [bind] in Hr; try discriminate. unfold okm in Hr. destruct (patch_length q2 0) as [q3|] eqn:H3; cbn [bind] in Hr; [|discriminate]. apply ok_fst in Hr. subst q3.
    assert (L2 : nlen (data q2) < 2 ^ 32) by (pose proof (patch_len _ _ _ H3) as P; unfold len, nlen in *; lia).
    destruct (sets_add E set q1 q2 Hs H2 L2) as (ob & of & Ro & Fo & D2). pose proof L2 as L1. rewrite D2, nlen_app in L1.
    destruct (criteria_add E cr 4 _ q1 ltac:(lia) Hc Hv H1 ltac:(lia)) as (cb & cf & Rc & Fc & D1). cbn [data] in D1.
    destruct q2 as [d2 sp2]. cbn [data] in D2. rewrite D1 in D2. repeat rewrite <- app_assoc in D2. cbn [app] in D2. repeat rewrite <- app_assoc in D2. subst d2.
    apply (filters_frame word32 h 19 (plen 2 (plen 1 name) ++ pvar 3 2) _ cb cf ob of 4 cr sp2 q Hh ltac:(lia) (conj Ib R) Rc Ro Fc eq_refl (no_operations of 4 Fo ltac:(lia))); [|exact Hl].
    rewrite <- app_assoc. exact H3.
  - destruct Hok as (Hn & Hc & Hs). unfold do_update_f in Hr. rewrite update_eq in Hr. destruct (update_begins E name (buf b) Hn He0) as (h & sp & Hh & Hi & R & Ib). rewrite Hi in Hr. cbn [bind] in Hr. rewrite Hp0 in Hr.
    destruct (match cr with Some _ => _ | None => _ end) as [[q1 e1]|] eqn:H1; cbn [bind] in Hr; try discriminate.
    destruct (run_uops _ _ _ _) as [[q2 e2]|] eqn:H2; cbn [bind] in Hr; try discriminate. destruct (patch_length q2 0) as [q3|] eqn:H3; cbn [bind] in Hr; [|discriminate]. assert (e2 = None) as -> by congruence. assert (q3 = q) as -> by congruence.
    destruct e1 as [e1|]. { destruct (uops_error E dis ops q1 e1) as [X|X]; rewrite X in H2; discriminate. }
    assert (L2 : nlen (data q2) < 2 ^ 32) by (pose proof (patch_len _ _ _ H3) as P; unfold len, nlen in *; lia).
    destruct (uops_add E dis ops q1 q2 Hs H2 L2) as (ob & of & Ro & Fo & D2). pose proof L2 as L1. rewrite D2, nlen_app in L1.
    destruct (criteria_add E cr 4 _ q1 ltac:(lia) Hc Hv H1 ltac:(lia)) as (cb & cf & Rc & Fc & D1). cbn [data] in D1.
    destruct q2 as [d2 sp2]. cbn [data] in D2. rewrite D1 in D2. repeat rewrite <- app_assoc in D2. cbn [app] in D2. repeat rewrite <- app_assoc in D2. subst d2.
    apply (filters_frame word32 h 19 (plen 2 (plen 1 name) ++ pvar 3 2) _ cb cf ob of 4 cr sp2 q Hh ltac:(lia) (conj Ib R) Rc Ro Fc eq_refl (no_operations of 4 Fo ltac:(lia))); [|exact Hl].
    rewrite <- app_assoc. exact H3.
  - destruct Hok as (Hn & Hc). rewrite delete_eq in Hr. pose proof Hn as [Hnb Hnl]. destruct (delete_head_ok name Hnl (buf b)) as (h & sp & Hh & Hi). rewrite He0, app_nil_l in Hi. rewrite Hi in Hr. cbn [bind] in Hr. rewrite Hp0 in Hr.
    destruct (match cr with Some _ => _ | None => _ end) as [[q1 e1]|] eqn:H1; cbn [bind] in Hr; try discriminate.
    destruct (patch_length q1 0) as [q3|] eqn:H3; cbn [bind] in Hr; [|discriminate]. assert (e1 = None) as -> by congruence. assert (q3 = q) as -> by congruence.
    assert (L1 : nlen (data q1) < 2 ^ 32) by (pose proof (patch_len _ _ _ H3) as P; unfold len, nlen in *; lia).
    destruct (criteria_add E cr 3 _ q1 ltac:(lia) Hc Hv H1 L1) as (cb & cf & Rc & Fc & D1). cbn [data] in D1.
    destruct q1 as [d1 sp1]. cbn [data] in D1. repeat rewrite <- app_assoc in D1. cbn [app] in D1. repeat rewrite <- app_assoc in D1. subst d1.
    pose proof (nlen_plen 1 name ltac:(lia)). destruct (reads_plen 1 name ltac:(lia) ltac:(lia) Hnb) as [R1 _].
    apply (filters_frame word32 h 20 (plen 1 (plen 1 name)) [(1, WLen (plen 1 name))] cb cf [] [] 3 cr sp1 q Hh ltac:(lia) ltac:(apply reads_plen; [lia|lia|exact R1]) Rc reads_nil Fc eq_refl eq_refl); [|exact Hl].
    rewrite app_nil_r. exact H3.
Qed.

(* ---- the hypotheses can be met ---- *)
#[local] Existing Instance ThmBuilder.plain.

Definition wrong_filter : exprfun := EOperator (s2b "==") [VBool true; wrong_variable].
Definition filtered : call := CUpdate (s2b "t") (Some wrong_filter) [(s2b "a", wrong_variable)].
Definition unfiltered : call := CUpdate (s2b "t") None [(s2b "a", wrong_variable)].
Example wrong_filters_meet : empty (new_pipe 0) /\ names_no_long_variable wrong_filter /\ ~ no_known_defect_fun word32 wrong_filter /\
  (exists bs, typed_call word32 filtered /\ delivers (new_pipe 0) (one_call filtered) bs /\ nlen bs < 2 ^ 32) /\
  (exists bs, typed_call word32 unfiltered /\ delivers (new_pipe 0) (one_call unfiltered) bs /\ nlen bs < 2 ^ 32) /\
  (exists bs, typed_call word32 (CDelete (s2b "t") (Some wrong_filter)) /\ delivers (new_pipe 0) (one_call (CDelete (s2b "t") (Some wrong_filter))) bs /\ nlen bs < 2 ^ 32).
Proof.
  pose proof ThmTyped.long_name_string as Hn. assert (Hf : well_formed_fun word32 wrong_filter).
  { split; [ThmBuilder.ok|]. split; [exact Logic.I|]. split; [exact Hn|exact Logic.I]. }
  split; [split; [reflexivity|split; reflexivity]|]. split; [exact Logic.I|]. split; [intros (_ & H & _); vm_compute in H; apply H; reflexivity|].
  split; [|split]; (eexists; split; [|split; [unfold delivers; do 2 eexists; split; vm_compute; reflexivity|vm_compute; reflexivity]]); cbn [typed_call filtered unfiltered].
  - split; [ThmBuilder.ok|]. split; [exact Hf|]. split; [constructor; [ThmBuilder.ok|constructor]|]. cbn [map snd]. constructor; [exact Hn|constructor].
  - split; [ThmBuilder.ok|]. split; [exact Logic.I|]. split; [constructor; [ThmBuilder.ok|constructor]|]. cbn [map snd]. constructor; [exact Hn|constructor].
  - split; [ThmBuilder.ok|exact Hf].
Qed.

Print Assumptions C19_filter_whatever_the_values.
