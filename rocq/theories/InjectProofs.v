(* Data and SQL. *)
From Coq Require Import String List NArith ZArith Arith Bool Lia ZifyN ZifyNat ZifyBool.
From Coq Require Import List.
From Verif Require Import Base GoSlice SpecWire SpecMsg Text TextProofs Values SpecValue MsgModel Builder SpecProg SpecUnit SpecInject BuilderProofs.
Import ListNotations.
Open Scope N_scope.
Open Scope list_scope.

Lemma appends_one : forall A (decode : bytes -> option A) u x y, appends decode u x -> appends decode u y -> x = y.
Proof.
  intros A decode u x y Hx Hy. destruct (Hx 1 ltac:(lia)) as (bs & pl & _ & _ & D & V & F). destruct (Hy 1 ltac:(lia)) as (bs' & pl' & _ & _ & D' & V' & F').
  destruct (F (mk [] [])) as [sp G]. destruct (F' (mk [] [])) as [sp' G']. rewrite G in G'. injection G' as G' _. cbn [data app] in G'. subst bs'.
  rewrite D in D'. injection D' as ->. congruence.
Qed.

Lemma data_literal : forall v e, plain_data v -> expr_denotes v e -> exists s, e = XLiteral s.
Proof.
  induction v; intros e Hp He; inversion He; subst; cbn [plain_data] in Hp; eauto; try contradiction.
  destruct Hp as [s Hs]. exists s. eapply appends_one; eassumption.
Qed.

Lemma same_value_expr : forall R v v', same_value R v v' -> forall e e', expr_denotes v e -> expr_denotes v' e' -> same_expr R e e'
with same_fun_expr : forall R f f', same_fun R f f' -> forall e e', fun_denotes f e -> fun_denotes f' e' -> same_expr R e e'.
Proof.
  - intros R v v' [v0 v0' Hd Hd'|i v0 i' v0' Hv|f f' Hf|a u a'] e e' He He'.
    + destruct (data_literal _ _ Hd He) as [s ->]. destruct (data_literal _ _ Hd' He') as [s' ->]. constructor.
    + inversion He; subst; [match goal with H : lit_denotes _ _ |- _ => inversion H end|].
      inversion He'; subst; [match goal with H : lit_denotes _ _ |- _ => inversion H end|]. eapply same_value_expr; eassumption.
    + inversion He; subst; [match goal with H : lit_denotes _ _ |- _ => inversion H end|].
      inversion He'; subst; [match goal with H : lit_denotes _ _ |- _ => inversion H end|]. eapply same_fun_expr; eassumption.
    + inversion He; subst; [match goal with H : lit_denotes _ _ |- _ => inversion H end|].
      inversion He'; subst; [match goal with H : lit_denotes _ _ |- _ => inversion H end|].
      replace e' with e by (eapply appends_one; eassumption). apply SE_same.
  - intros R f f' [name|n|name|i i' Hi|name ps ps' Hps|name ps ps' Hps|u] e e' He He'; inversion He; subst; inversion He'; subst; try apply SE_same.
    + apply SE_row. exact Hi.
    + apply SE_operator. match goal with H : Forall2 expr_denotes ps ?a, H' : Forall2 expr_denotes ps' ?b |- _ => rename a into es, b into es'; rename H into K, H' into K' end.
      clear He He'. revert es es' K K'.
      induction Hps as [|x x' l l' Hx Hl IH]; intros es es' K K'; inversion K; inversion K'; subst; constructor;
        [eapply same_value_expr; eassumption|apply IH; assumption].
    + apply SE_call. match goal with H : Forall2 expr_denotes ps ?a, H' : Forall2 expr_denotes ps' ?b |- _ => rename a into es, b into es'; rename H into K, H' into K' end.
      clear He He'. revert es es' K K'.
      induction Hps as [|x x' l l' Hx Hl IH]; intros es es' K K'; inversion K; inversion K'; subst; constructor;
        [eapply same_value_expr; eassumption|apply IH; assumption].
    + replace e' with e by (eapply appends_one; eassumption). apply SE_same.
Qed.

(* Two relations composed through a third, element by element. *)
Lemma forall2_through : forall A B A' B' (S : A -> A' -> Prop) (D : A -> B -> Prop) (D' : A' -> B' -> Prop) (T : B -> B' -> Prop),
  (forall a a' b b', S a a' -> D a b -> D' a' b' -> T b b') ->
  forall l l' m m', Forall2 S l l' -> Forall2 D l m -> Forall2 D' l' m' -> Forall2 T m m'.
Proof.
  intros A B A' B' S D D' T Ht l l' m m' Hs. revert m m'. induction Hs as [|a a' l l' Ha Hl IH]; intros m m' Hm Hm'; inversion Hm; inversion Hm'; subst; constructor; eauto.
Qed.

Lemma forall2_len : forall A B (P : A -> B -> Prop) l m, Forall2 P l m -> length l = length m.
Proof. intros A B P l m H. induction H; cbn; congruence. Qed.

Lemma same_criteria_filter : forall R cr cr' c c', same_criteria R cr cr' -> criteria_denotes cr c -> criteria_denotes cr' c' -> same_filter R c c'.
Proof.
  intros R cr cr' c c' Hs Hc Hc'. inversion Hs; subst; inversion Hc; inversion Hc'; subst; constructor. eapply same_fun_expr; eassumption.
Qed.
Lemma same_sets : forall R set set' sets sets', Forall2 (same_set R) set set' -> Forall2 set_denotes set sets -> Forall2 set_denotes set' sets' ->
  Forall2 (fun a b => fst a = fst b /\ same_expr R (snd a) (snd b)) sets sets'.
Proof.
  intros R. apply forall2_through. intros a a' b b' [S1 S2] [D1 D2] [D1' D2']. split; [congruence|]. eapply same_value_expr; eassumption.
Qed.
Lemma same_row : forall R row row' es es', Forall2 (same_value R) row row' -> Forall2 expr_denotes row es -> Forall2 expr_denotes row' es' ->
  Forall2 (same_expr R) es es'.
Proof. intros R. apply forall2_through. intros. eapply same_value_expr; eassumption. Qed.
Lemma same_rows : forall R rows rows' es es', Forall2 (Forall2 (same_value R)) rows rows' ->
  Forall2 (Forall2 expr_denotes) rows es -> Forall2 (Forall2 expr_denotes) rows' es' -> Forall2 (Forall2 (same_expr R)) es es'.
Proof. intros R. apply forall2_through. apply same_row. Qed.

Lemma same_call_msg : forall R c c' m m', same_call R c c' -> call_denotes c m -> call_denotes c' m' -> same_msg R m m'.
Proof.
  intros R c c' m m' Hs Hc Hc'.
  inversion Hs; subst; inversion Hc; subst; inversion Hc'; subst; constructor;
    try (eapply same_criteria_filter; eassumption); try (eapply same_sets; eassumption); try (eapply same_rows; eassumption);
    repeat match goal with H : Forall2 any_denotes _ _ |- _ => apply forall2_len in H end; congruence.
Qed.

(* ---- monotonicity ---- *)

Lemma same_expr_incl : forall R R', incl R R' -> forall e e', same_expr R e e' -> same_expr R' e e'.
Proof.
  intros R R' Hi. fix IH 3. intros e e' [s s'|e0|i i' Hin|name es es' Hes|name es es' Hes].
  - constructor.
  - apply SE_same.
  - apply SE_row. apply Hi. exact Hin.
  - apply SE_operator. revert es es' Hes. fix IHl 3. intros es es' [|x x' l l' Hx Hl]; constructor; [exact (IH _ _ Hx)|exact (IHl _ _ Hl)].
  - apply SE_call. revert es es' Hes. fix IHl 3. intros es es' [|x x' l l' Hx Hl]; constructor; [exact (IH _ _ Hx)|exact (IHl _ _ Hl)].
Qed.
Lemma forall2_incl : forall A B (P Q : A -> B -> Prop), (forall a b, P a b -> Q a b) -> forall l m, Forall2 P l m -> Forall2 Q l m.
Proof. intros A B P Q H l m Hl. induction Hl; constructor; auto. Qed.
Lemma same_filter_incl : forall R R', incl R R' -> forall c c', same_filter R c c' -> same_filter R' c c'.
Proof. intros R R' Hi c c' [|e e' He]; constructor. exact (same_expr_incl R R' Hi _ _ He). Qed.
Lemma same_msg_incl : forall R R', incl R R' -> forall m m', same_msg R m m' -> same_msg R' m m'.
Proof.
  intros R R' Hi m m' Hm. inversion Hm; subst; try (constructor; auto; fail).
  - constructor. eapply forall2_incl; [|eassumption]. intros a b. apply forall2_incl. apply same_expr_incl. exact Hi.
  - constructor; [eapply same_filter_incl; eassumption|]. eapply forall2_incl; [|eassumption]. cbn. intros a b [A B]. split; [exact A|]. eapply same_expr_incl; eassumption.
  - constructor. eapply same_filter_incl; eassumption.
Qed.
Lemma same_msgs_incl : forall R R', incl R R' -> forall m m', Forall2 (same_msg R) m m' -> Forall2 (same_msg R') m m'.
Proof. intros R R' Hi. apply forall2_incl. apply same_msg_incl. exact Hi. Qed.

Lemma same_value_incl : forall R R', incl R R' -> forall v v', same_value R v v' -> same_value R' v v'
with same_fun_incl : forall R R', incl R R' -> forall f f', same_fun R f f' -> same_fun R' f f'.
Proof.
  - intros R R' Hi v v' [v0 v0' Hd Hd'|i v0 i' v0' Hv|f f' Hf|a u a'].
    + apply SV_data; assumption.
    + apply SV_ptr. exact (same_value_incl R R' Hi _ _ Hv).
    + apply SV_func. exact (same_fun_incl R R' Hi _ _ Hf).
    + apply SV_user.
  - intros R R' Hi f f' [name|n|name|i i' Hin|name ps ps' Hps|name ps ps' Hps|u]; try (constructor; fail).
    + apply SF_row. apply Hi. exact Hin.
    + apply SF_operator. induction Hps as [|x x' l l' Hx Hl IH]; constructor; [exact (same_value_incl R R' Hi _ _ Hx)|exact IH].
    + apply SF_call. induction Hps as [|x x' l l' Hx Hl IH]; constructor; [exact (same_value_incl R R' Hi _ _ Hx)|exact IH].
Qed.
Lemma same_result_incl : forall R R', incl R R' -> forall o o', same_result R o o' -> same_result R' o o'.
Proof. intros R R' Hi o o' [|f f' Hf]; constructor. exact (same_fun_incl R R' Hi _ _ Hf). Qed.

(* ---- programs ---- *)

Lemma same_prog_msgs : forall R pr pr', same_prog R pr pr' -> forall ms ids out ms' ids' out',
  prog_msgs pr ms ids out -> prog_msgs pr' ms' ids' out' ->
  length ids = length ids' /\ Forall2 (same_msg (combine ids ids' ++ R)) ms ms' /\ Forall2 (same_result (combine ids ids' ++ R)) out out'.
Proof.
  intros R pr pr' Hs. induction Hs as [R e e' out0 out0' Ho|R c c' next next' Hc Hn IH|R name cols row row' next next' Hr Hn IH|R k body body' next next' Hb IHb Hn IHn];
    intros ms ids out ms' ids' out' Hp Hp'; inversion Hp; inversion Hp'; subst.
  - split; [reflexivity|]. split; [constructor|exact Ho].
  - edestruct IH as (L & M & O); [eassumption..|]. split; [exact L|]. split; [|exact O]. constructor; [|exact M].
    apply same_msg_incl with R; [apply incl_appr, incl_refl|]. eapply same_call_msg; eassumption.
  - edestruct IH as (L & M & O); [eassumption..|]. cbn [length combine app].
    match goal with |- context [(?a, ?b) :: combine ?x ?y ++ R] => assert (Hi : incl (combine x y ++ (a, b) :: R) ((a, b) :: combine x y ++ R)) end.
    { intros z Hz. apply in_app_or in Hz. destruct Hz as [Hz|[Hz|Hz]]; [right; apply in_or_app; auto|left; exact Hz|right; apply in_or_app; auto]. }
    split; [congruence|]. split; [|exact (forall2_incl _ _ _ _ (same_result_incl _ _ Hi) _ _ O)].
    constructor; [|constructor; [apply SM_row; left; reflexivity|exact (same_msgs_incl _ _ Hi _ _ M)]].
    apply SM_insert. constructor; [|constructor].
    eapply forall2_incl; [|eapply same_row; eassumption]. apply same_expr_incl. apply incl_tl, incl_appr, incl_refl.
  - match goal with H1 : opening k = Some ?a, H2 : opening k = Some ?b |- _ => rename a into op, b into op'; rewrite H1 in H2; injection H2 as H2; subst op' end.
    edestruct IHb as (L1 & M1 & O1); [eassumption..|].
    edestruct IHn as (L2 & M2 & O2); [apply incl_appr, incl_refl|exact O1|eassumption..|].
    match goal with |- context [combine (?a ++ ?b) (?a' ++ ?b')] => assert (Hcb : combine (a ++ b) (a' ++ b') = combine a a' ++ combine b b') end.
    { clear -L1. revert L1. generalize ids1 ids0. intros l l'. revert l'. induction l as [|x l IH]; destruct l' as [|x' l']; cbn [length app combine]; intros L; try discriminate; [reflexivity|].
      injection L as L. rewrite IH by exact L. reflexivity. }
    rewrite Hcb. clear Hcb. rewrite !app_length.
    assert (Hi : incl (combine ids2 ids3 ++ combine ids1 ids0 ++ R) ((combine ids1 ids0 ++ combine ids2 ids3) ++ R)).
    { intros z Hz. rewrite !in_app_iff in *. tauto. }
    assert (Hi1 : incl (combine ids1 ids0 ++ R) ((combine ids1 ids0 ++ combine ids2 ids3) ++ R)).
    { intros z Hz. rewrite !in_app_iff in *. tauto. }
    split; [congruence|]. split; [|exact (forall2_incl _ _ _ _ (same_result_incl _ _ Hi) _ _ O2)].
    apply Forall2_app; [|apply Forall2_app; [exact (same_msgs_incl _ _ Hi1 _ _ M1)|constructor; [|exact (same_msgs_incl _ _ Hi _ _ M2)]]].
    + match goal with H : opening k = Some _ |- _ => revert H end. destruct k as [level|context]; cbn [opening].
      * destruct (tx_opening level) as [l|]; cbn [option_map]; [|discriminate]. intros [= <-]. clear. induction l as [|x l IH]; cbn [map]; constructor; [constructor; reflexivity|exact IH].
      * intros [= <-]. constructor; constructor.
    + destruct k as [level|context]; cbn [closing]; constructor. reflexivity.
Qed.

Lemma ids_texts : forall lo hi ids, ids_between lo hi ids -> Forall (fun id => row_text (s2b "SET " ++ id ++ s2b " = LAST_INSERT_ID()")) ids.
Proof.
  intros lo hi ids (ns & -> & _ & _). apply Forall_map. apply Forall_forall. intros n _.
  exists (dec n). pose proof (decimal_dec n) as Hd. split; [|split].
  - intros Hz. rewrite Hz in Hd. discriminate.
  - clear -Hd. unfold decimal in Hd. destruct (dec n) as [|b l] eqn:E; [discriminate|]. revert Hd. generalize (b :: l), 0. clear. intros l.
    induction l as [|b l IH]; intros acc H; [constructor|]. cbn [digits] in H.
    destruct ((48 <=? b) && (b <=? 57)) eqn:Hb; [|discriminate]. constructor; [lia|exact (IH _ H)].
  - unfold id_of. rewrite <- app_assoc. rewrite app_assoc. reflexivity.
Qed.

Lemma text_from_more : forall pr pr', (forall P, may P pr -> may P pr') -> forall m, text_from pr m -> text_from pr' m.
Proof. intros pr pr' H m. destruct m; cbn [text_from]; auto. intros [Hm|Hm]; [left; auto|right; exact Hm]. Qed.

Ltac listed := unfold tx_texts; apply in_map; cbn [In]; tauto.
Lemma tx_opening_texts : forall level l, tx_opening level = Some l -> Forall (fun s => In s tx_texts) l.
Proof.
  intros level l H. unfold tx_opening in H.
  destruct level as [|[[[p|p|]|[p|p|]|]|[[p|p|]|[p|p|]|]|]]; try discriminate; injection H as <-; repeat (apply Forall_cons; [listed|]); apply Forall_nil.
Qed.

Lemma prog_texts : forall pr ms ids out, prog_msgs pr ms ids out ->
  Forall (fun id => row_text (s2b "SET " ++ id ++ s2b " = LAST_INSERT_ID()")) ids -> Forall (text_from pr) ms.
Proof.
  intros pr ms ids out Hp. induction Hp as [cberr out|c next m ms ids out Hc Hn IH|name cols row next id es ms ids out He Hn IH|k body next open ms1 ids1 out1 ms2 ids2 out Ho Hb IHb Hn IHn]; intros Hi.
  - constructor.
  - constructor.
    + inversion Hc; subst; cbn [text_from]; auto; [left; apply May_here; eauto|apply May_here; reflexivity].
    + eapply Forall_impl; [|exact (IH Hi)]. apply text_from_more. intros P. apply May_after_call.
  - inversion Hi as [|? ? H1 H2]; subst. constructor; [exact I|]. constructor.
    + right. split; [reflexivity|]. right. exact H1.
    + eapply Forall_impl; [|exact (IH H2)]. apply text_from_more. intros P. apply May_after_row.
  - apply Forall_app in Hi. destruct Hi as [H1 H2]. rewrite !Forall_app. split; [|split; [|split]].
    + destruct k as [level|context]; cbn [opening] in Ho.
      * destruct (tx_opening level) as [l|] eqn:E; cbn [option_map] in Ho; [|discriminate]. injection Ho as <-. apply Forall_map.
        eapply Forall_impl; [|exact (tx_opening_texts _ _ E)]. cbn. intros s Hs. right. auto.
      * injection Ho as <-. constructor; [exact I|constructor].
    + eapply Forall_impl; [|exact (IHb H1)]. apply text_from_more. intros P. apply May_inside.
    + constructor; [|constructor]. destruct k as [level|context]; cbn [closing]; [|exact I]. right. split; [reflexivity|]. left. listed.
    + eapply Forall_impl; [|exact (IHn H2)]. apply text_from_more. intros P. apply May_after_block.
Qed.
