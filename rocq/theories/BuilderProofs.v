(* Programs of builder calls: the buffer holds the messages the program stands for. *)
From Coq Require Import String Sorted FinFun.
From Coq Require Import List NArith ZArith Arith Bool Lia ZifyN ZifyNat ZifyBool.
From Verif Require Import Base GoSlice SliceProofs Varint VarintProofs SpecWire SpecMsg WireProofs Pure
  Text TextProofs Values AnyModel ExprModel MsgModel AnyProofs SpecValue ValueProofs HeadProofs Builder SpecProg MsgProofs.
Import ListNotations.
Open Scope N_scope.
Open Scope list_scope.

Ltac Zify.zify_post_hook ::= Z.div_mod_to_equations.

(* q extends p; if q is below 4 GiB then by bytes with P. *)
Definition grows (p q : slice) (P : bytes -> Prop) : Prop :=
  (len p <= len q)%nat /\ (nlen (data q) < 2 ^ 32 -> exists bs, data q = data p ++ bs /\ P bs).

Lemma grows_refl : forall p (P : bytes -> Prop), P [] -> grows p p P.
Proof. intros p P HP. split; [lia|]. intros _. exists []. rewrite app_nil_r. auto. Qed.
Lemma grows_trans : forall p q r P1 P2 (P : bytes -> Prop), grows p q P1 -> grows q r P2 ->
  ((len p <= len q <= len r)%nat -> forall a b, P1 a -> P2 b -> P (a ++ b)) -> grows p r P.
Proof.
  intros p q r P1 P2 P [L1 H1] [L2 H2] HP. split; [lia|]. intros Hr.
  assert (Hq : nlen (data q) < 2 ^ 32) by (unfold len, nlen in *; lia).
  destruct (H1 Hq) as (a & Ha & Pa). destruct (H2 Hr) as (b & Hb & Pb). exists (a ++ b). split; [|auto].
  rewrite Hb, Ha, app_assoc. reflexivity.
Qed.
Lemma grows_weaken : forall p q (P P' : bytes -> Prop), grows p q P -> (forall bs, P bs -> P' bs) -> grows p q P'.
Proof. intros p q P P' [L H] HP. split; [exact L|]. intros Hq. destruct (H Hq) as (bs & H1 & H2). eauto. Qed.

Definition says1 (D : msg -> Prop) (bs : bytes) : Prop := exists m, D m /\ says bs [m].

Lemma outcome_grows : forall E D Q S W (f : enc) p q, msg_outcome (@word32 E) D Q S W f -> f E p = Ok (q, None) -> grows p q (says1 D).
Proof.
  intros E D Q S W f p q [(m & bs & H1 & H2 & _ & H3)|[[[B1 _] _]|[Hb _]]] Hq.
  - destruct (H3 E eq_refl p) as [sp Hp]. rewrite Hp in Hq. apply ok_fst in Hq. subst q. split.
    + unfold len. cbn [data]. rewrite app_length. lia.
    + intros _. exists bs. split; [reflexivity|]. exists m. auto.
  - exfalso. exact (B1 E eq_refl p q Hq).
  - destruct (Hb E eq_refl p q Hq). split; [assumption|]. lia.
Qed.

(* ---- steps of one builder ---- *)

(* b became b': errors stay, otherwise the buffer grew. *)
Definition step (b b' : builder) (P : bytes -> Prop) : Prop :=
  disabled b' = false /\ (berr b <> None -> b' = b) /\
  (berr b = None -> berr b' = None -> grows (buf b) (buf b') P).

Section Steps.
Context `{E : Env}.

Lemma call_step : forall dis c b b', call_ok word32 c -> disabled b = false -> exec_call dis c b = Ok b' ->
  step b b' (says1 (call_denotes c)).
Proof using.
  intros dis c b b' Hc Hd H. unfold exec_call, guarded in H. rewrite Hd in H.
  destruct (berr b) as [e|] eqn:He.
  - injection H as <-. split; [assumption|]. split; [reflexivity|]. congruence.
  - pose proof (call_outcome word32 dis c Hc) as Ho.
    change (match c with CStmtExecute stmt args => _ | _ => _ end) with (run_call dis c E (buf b)) in H.
    destruct (run_call dis c E (buf b)) as [[q e]|] eqn:Hr; cbn [bind] in H; [|discriminate]. injection H as <-.
    split; [reflexivity|]. split; [congruence|]. intros _. cbn [berr buf]. intros ->.
    exact (outcome_grows E _ _ _ _ _ _ _ Ho Hr).
Qed.

Lemma statement_step : forall s b b', go_string s -> disabled b = false -> b_stmt_execute s [] b = Ok b' ->
  step b b' (fun bs => says bs [statement s]).
Proof using.
  intros s b b' Hs Hd H.
  destruct (call_step [] (CStmtExecute s []) b b') as (H1 & H2 & H3); [split; [assumption|constructor]|assumption|exact H|].
  split; [assumption|]. split; [assumption|]. intros Ha Hb. eapply grows_weaken; [exact (H3 Ha Hb)|].
  intros bs (m & Hm & Hsay). inversion Hm as [? ? ss Hss| | | | | | | |]; subst. inversion Hss; subst. exact Hsay.
Qed.

Lemma s2b_go : forall s, Forall (fun b => b < 256) (s2b s) /\ nlen (s2b s) = N.of_nat (String.length s).
Proof using.
  intros s. unfold s2b, nlen. rewrite map_length. split.
  - apply Forall_map. apply Forall_forall. intros a _. exact (Ascii.N_ascii_bounded a).
  - f_equal. induction s as [|a s IH]; [reflexivity|]. cbn. f_equal. exact IH.
Qed.

Lemma go_string_app : forall a b, Forall (fun x => x < 256) a -> Forall (fun x => x < 256) b -> nlen a + nlen b < 2 ^ 62 -> go_string (a ++ b).
Proof using. intros a b Ha Hb Hl. split; [apply Forall_app; auto|]. rewrite nlen_app. exact Hl. Qed.

(* The variable names of InsertRow *)
Definition id_of (n : N) : bytes := s2b "@id$" ++ dec n.
Lemma id_of_inj : forall a b, id_of a = id_of b -> a = b.
Proof using.
  intros a b H. apply app_inv_head in H. pose proof (decimal_dec a) as Ha. rewrite H, decimal_dec in Ha. congruence.
Qed.
Lemma id_of_small : forall n, n < 2 ^ 63 -> Forall (fun x => x < 256) (id_of n) /\ nlen (id_of n) <= 23.
Proof using.
  intros n Hn. assert (Hd : n < 10 ^ N.of_nat 19) by (change (10 ^ N.of_nat 19) with (10 ^ 19); lia).
  pose proof (dec_upper n 18 Hd). split.
  - apply Forall_app. split; [apply s2b_go|apply dec_bytes].
  - unfold id_of. rewrite nlen_app. destruct (s2b_go "@id$") as [_ ->]. cbn [String.length]. unfold nlen. lia.
Qed.

(* ids are the names of increasing numbers in (lo, hi]. *)
Definition ids_between (lo hi : nat) (ids : list bytes) : Prop :=
  exists ns, ids = map id_of ns /\ Sorted.StronglySorted N.lt ns /\ Forall (fun n => N.of_nat lo < n <= N.of_nat hi) ns.

Lemma ids_nil : forall lo hi, ids_between lo hi [].
Proof using. intros lo hi. exists []. repeat split; constructor. Qed.
Lemma ids_app : forall a b c ia ib, (a <= b)%nat -> (b <= c)%nat -> ids_between a b ia -> ids_between b c ib -> ids_between a c (ia ++ ib).
Proof using.
  intros a b c ia ib Hab Hbc (na & -> & Sa & Fa) (nb & -> & Sb & Fb). exists (na ++ nb). split; [rewrite map_app; reflexivity|]. split.
  - induction Sa as [|x na Sa IH Hx]; [exact Sb|]. inversion Fa; subst. cbn [app]. constructor; [apply IH; assumption|].
    apply Forall_app. split; [exact Hx|]. eapply Forall_impl; [|exact Fb]. cbn. intros y Hy. lia.
  - apply Forall_app. split; [eapply Forall_impl; [|exact Fa]|eapply Forall_impl; [|exact Fb]]; cbn; intros; lia.
Qed.
Lemma ids_nodup : forall lo hi ids, ids_between lo hi ids -> NoDup ids.
Proof using.
  intros lo hi ids (ns & -> & S & _). apply FinFun.Injective_map_NoDup; [exact id_of_inj|].
  induction S as [|x ns S IH Hx]; constructor; [|exact IH]. intros Hin. rewrite Forall_forall in Hx. specialize (Hx x Hin). lia.
Qed.
Lemma ids_wider : forall a b c d ids, (a <= b)%nat -> (c <= d)%nat -> ids_between b c ids -> ids_between a d ids.
Proof using.
  intros a b c d ids Hab Hcd (ns & -> & S & F). exists ns. split; [reflexivity|]. split; [exact S|].
  eapply Forall_impl; [|exact F]. cbn. intros. lia.
Qed.

Lemma row_outcome : forall w name cols row, go_string name -> Forall go_string cols -> values_ok w row ->
  msg_outcome w (fun m => exists es, m = MInsert name (Some table_model) cols [es] /\ Forall2 expr_denotes row es) (Forall panic_free row) (Forall expr_accepted row)
    (row_size name cols row)
    (patched (seq (fun E p => okm (msg_insert p name cols)) (fun E p => append_insert_row p row))).
Proof using.
  intros w name cols row Hn Hc Hr.
  eapply msg_outcome_weaken; [intros m Hm; exact Hm|intros H; exact (conj I H)|intros H; exact (conj I H)|apply N.le_refl|].
  eapply (patched_outcome w 18 _ _ _ _ _ _ ltac:(lia)) with True; [|apply heads_seq; [apply insert_head_heads; assumption|apply row_parts; assumption]].
  intros fs (f1 & f2 & -> & Hf1 & Hf2).
  destruct (insert_decode name cols [row] Hn Hc (f1 ++ f2)) as (ess & H1 & H2).
  { exists f1, f2. split; [reflexivity|]. split; [exact Hf1|]. apply many_cons. exists f2, []. rewrite app_nil_r. split; [reflexivity|]. split; [assumption|apply many_nil]. }
  inversion H1 as [|? es ? ? Hes Hr']; subst. inversion Hr'; subst. eauto.
Qed.

Lemma insert_row_step : forall name cols row b b' o, go_string name -> Forall go_string cols -> values_ok word32 row ->
  disabled b = false -> b_insert_row name cols row b = Ok (b', o) ->
  row_result o /\
  step b b' (fun bs => exists es id, says bs [MInsert name (Some table_model) cols [es]; set_last_id id] /\
    Forall2 expr_denotes row es /\ o = Some (EVariable id) /\ ids_between (len (buf b)) (len (buf b')) [id]).
Proof using.
  intros name cols row b b' o Hn Hc Hr Hd H. unfold b_insert_row in H. rewrite Hd in H.
  destruct (berr b) as [e|] eqn:He.
  { injection H as <- <-. split; [exact I|]. split; [assumption|]. split; [reflexivity|]. congruence. }
  pose proof (row_outcome word32 name cols row Hn Hc Hr) as Ho.
  destruct (patched (seq (fun E p => okm (msg_insert p name cols)) (fun E p => append_insert_row p row)) E (buf b)) as [[q [e|]]|] eqn:Hf.
  - unfold patched, seq, okm in Hf.
    destruct (msg_insert (buf b) name cols) as [p1|]; cbn [bind] in *; [|discriminate].
    destruct (append_insert_row p1 row) as [[p2 [e2|]]|]; cbn [bind] in *; [| |discriminate].
    + injection H as <- <-. split; [exact I|]. split; [reflexivity|]. split; [congruence|]. intros _. discriminate.
    + destruct (patch_length p2 _); discriminate.
  - pose proof (outcome_grows E _ _ _ _ _ _ _ Ho Hf) as Hg. unfold patched, seq, okm in Hf.
    destruct (msg_insert (buf b) name cols) as [p1|]; cbn [bind] in *; [|discriminate].
    destruct (append_insert_row p1 row) as [[p2 [e2|]]|]; cbn [bind] in *; [discriminate| |discriminate].
    destruct (patch_length p2 (len (buf b))) as [p3|]; cbn [bind] in *; [|discriminate]. injection Hf as <-.
    set (id := insert_id p3) in *.
    destruct (b_stmt_execute _ [] _) as [b2|] eqn:Hs in H; cbn [bind] in H; [|discriminate]. injection H as <- <-.
    assert (Hid : Forall (fun x => x < 256) id /\ nlen id <= 23) by (apply id_of_small; apply N.mod_upper_bound; discriminate).
    split; [exists id; split; [reflexivity|]; split; [split; [apply Hid|]|]; destruct Hid; lia|].
    apply statement_step in Hs; [|apply go_string_app; [apply s2b_go|apply Forall_app; split; [apply Hid|apply s2b_go]|]|reflexivity].
    2: { rewrite nlen_app. rewrite !(proj2 (s2b_go _)). cbn [String.length]. lia. }
    destruct Hs as (S1 & S2 & S3). split; [exact S1|]. split; [congruence|]. intros _ Hb.
    specialize (S3 eq_refl Hb). cbn [buf] in S3.
    destruct Hg as [G1 G2]. destruct S3 as [S3 S4]. split; [lia|]. intros Hsm.
    assert (Hsm3 : nlen (data p3) < 2 ^ 32) by (unfold len, nlen in *; lia).
    destruct (G2 Hsm3) as (x & Hx & m & (es & -> & Hes) & Hm). destruct (S4 Hsm) as (y & Hy & Hm2).
    exists (x ++ y). split; [rewrite Hy, Hx, app_assoc; reflexivity|]. exists es, id.
    split; [exact (says_app x y [_] [_] Hm Hm2)|]. split; [exact Hes|]. split; [reflexivity|].
    exists [N.of_nat (len p3)]. split; [|split; [repeat constructor|constructor; [|constructor]]].
    + cbn [map]. unfold id, insert_id, id_of. rewrite N.mod_small; [reflexivity|]. unfold len, nlen in *. lia.
    + split; [|lia]. assert (Hx0 : x <> []).
      { intros ->. destruct Hm as (fs & Hfs & Hm). apply framed_dframes in Hfs. cbn in Hfs. injection Hfs as <-. inversion Hm. }
      unfold len. rewrite Hx, app_length. destruct x; [contradiction|]. cbn [length]. lia.
  - unfold patched, seq, okm in Hf.
    destruct (msg_insert (buf b) name cols) as [p1|]; cbn [bind] in *; [|discriminate].
    destruct (append_insert_row p1 row) as [[p2 [e2|]]|]; cbn [bind] in *; [discriminate| |discriminate].
    destruct (patch_length p2 _); cbn [bind] in *; discriminate.
Qed.

(* ---- blocks ---- *)

Definition blk_ok (k : block) : Prop := match k with KTx _ => True | KExpectFailOnError context => context < 2 end.

Lemma step_trans : forall b b1 b2 P1 P2 (P : bytes -> Prop), step b b1 P1 -> step b1 b2 P2 ->
  ((len (buf b) <= len (buf b1) <= len (buf b2))%nat -> forall x y, P1 x -> P2 y -> P (x ++ y)) -> step b b2 P.
Proof using.
  intros b b1 b2 P1 P2 P (A1 & A2 & A3) (B1 & B2 & B3) HP. split; [exact B1|]. split.
  - intros He. specialize (A2 He). subst b1. auto.
  - intros He H2. destruct (berr b1) as [e|] eqn:H1.
    + rewrite B2 in H2 by congruence. congruence.
    + eapply grows_trans; [apply A3; auto|apply B3; auto|exact HP].
Qed.

Ltac go_const := split; [apply s2b_go|reflexivity].

Lemma block_begin_step : forall k b b1 en, blk_ok k -> disabled b = false -> block_begin k b = Ok (b1, en) ->
  if en then berr b = None /\ exists open, opening k = Some open /\ step b b1 (fun bs => says bs open)
  else berr b1 <> None /\ disabled b1 = false /\ (berr b <> None -> b1 = b).
Proof using.
  intros k b b1 en Hk Hd H. unfold block_begin in H. rewrite Hd in H. destruct (berr b) as [e|] eqn:He.
  { injection H as <- <-. split; [congruence|]. auto. }
  destruct k as [lvl|ctx].
  - assert (Hone : forall s, go_string s -> (do b <- b_stmt_execute s [] b; Ok (b, true)) = Ok (b1, en) ->
      if en then berr b = None /\ step b b1 (fun bs => says bs [statement s]) else False).
    { intros s Hs H1. destruct (b_stmt_execute s [] b) as [b2|] eqn:Hb; [|discriminate]. cbn [bind] in H1. injection H1 as <- <-.
      split; [assumption|]. apply statement_step; assumption. }
    assert (Htwo : forall s1 s2, go_string s1 -> go_string s2 ->
      (do b <- b_stmt_execute s1 [] b; do b <- b_stmt_execute s2 [] b; Ok (b, true)) = Ok (b1, en) ->
      if en then berr b = None /\ step b b1 (fun bs => says bs [statement s1; statement s2]) else False).
    { intros s1 s2 Hs1 Hs2 H1. destruct (b_stmt_execute s1 [] b) as [b2|] eqn:Hb; [|discriminate]. cbn [bind] in H1.
      destruct (b_stmt_execute s2 [] b2) as [b3|] eqn:Hb3; [|discriminate]. cbn [bind] in H1. injection H1 as <- <-.
      split; [assumption|]. apply statement_step in Hb; [|assumption..]. apply statement_step in Hb3; [|assumption|apply Hb].
      eapply step_trans; [exact Hb|exact Hb3|]. intros _ x y Hx Hy. exact (says_app x y [_] [_] Hx Hy). }
    unfold tx_begin in H. cbn [opening].
    destruct lvl as [|[[[lvl|lvl|]|[lvl|lvl|]|]|[[lvl|lvl|]|[lvl|lvl|]|]|]]; cbn [bind] in H;
      try (injection H as <- <-; split; [discriminate|]; split; [assumption|congruence]).
    all: first [apply Hone in H; [|go_const] | apply Htwo in H; [|go_const..]]; destruct en; [|contradiction];
      destruct H as [H1 H2]; split; [reflexivity|]; eexists; split; [reflexivity|exact H2].
  - cbn [opening blk_ok] in *. pose proof (open_outcome word32 ctx (eq (MExpectOpen ctx [no_error_1])) True True 512 Hk ltac:(lia) eq_refl) as Ho.
    destruct (expect_open (buf b) ctx [ONoError true]) as [q|] eqn:Hq; [|discriminate]. cbn [bind] in H. injection H as <- <-.
    split; [reflexivity|]. eexists. split; [reflexivity|]. split; [reflexivity|]. split; [congruence|]. intros _ _. cbn [buf].
    eapply grows_weaken; [apply (outcome_grows E _ _ _ _ _ _ _ Ho); unfold okm; rewrite Hq; reflexivity|].
    intros bs (m & <- & Hm). exact Hm.
Qed.

Lemma block_end_step : forall k b b', disabled b = false -> block_end k b = Ok b' ->
  disabled b' = false /\ (berr b <> None -> berr b' = berr b) /\
  (berr b = None -> berr b' = None -> grows (buf b) (buf b') (fun bs => says bs [closing k])).
Proof using.
  intros [lvl|ctx] b b' Hd H; cbn [block_end closing] in *.
  - apply statement_step in H; [|go_const|assumption]. destruct H as (H1 & H2 & H3). split; [assumption|]. split; [|assumption].
    intros He. rewrite (H2 He). reflexivity.
  - injection H as <-. cbn [disabled berr buf]. split; [assumption|]. split; [reflexivity|]. intros _ _.
    pose proof (close_outcome word32 (eq MExpectClose) True True 512 eq_refl) as Ho.
    eapply grows_weaken; [apply (outcome_grows E _ _ _ _ _ _ _ Ho); reflexivity|]. intros bs (m & <- & Hm). exact Hm.
Qed.

(* ---- programs ---- *)

Definition prog_bytes (pr : prog) (out : list (option exprfun)) (lo hi : nat) (bs : bytes) : Prop :=
  exists ms ids, says bs ms /\ prog_msgs pr ms ids out /\ ids_between lo hi ids.

(* Only the innermost builder is usable. *)
Lemma only_inner : forall b outer lvl x, Forall (fun b => disabled b = true) outer -> nth_error (b :: outer) (S lvl) = Some x -> disabled x = true.
Proof using. intros b outer lvl x H Hx. cbn in Hx. apply nth_error_In in Hx. rewrite Forall_forall in H. auto. Qed.

Lemma exec_disabled : forall dis c b, disabled b = true -> exec_call dis c b = Panic.
Proof using. intros dis c b H. unfold exec_call, guarded. rewrite H. reflexivity. Qed.
Lemma insert_row_disabled : forall name cols row b, disabled b = true -> b_insert_row name cols row b = Panic.
Proof using. intros name cols row b H. unfold b_insert_row. rewrite H. reflexivity. Qed.
Lemma block_disabled : forall k b, disabled b = true -> block_begin k b = Panic.
Proof using. intros k b H. unfold block_begin. rewrite H. reflexivity. Qed.

Lemma run_step : forall pr b outer st out, prog_ok word32 pr -> Forall (fun b => disabled b = true) outer -> disabled b = false ->
  run pr (b :: outer) = Ok (st, out) ->
  Forall row_result out /\ exists b', st = b' :: outer /\ step b b' (prog_bytes pr out (len (buf b)) (len (buf b'))).
Proof using.
  induction pr as [cberr out0|lvl c next IH|lvl name cols row next IH|lvl k body IHb next IHn];
    intros b outer st out Hok Hout Hd H; cbn [run prog_ok] in *.
  - injection H as <- <-. split; [assumption|]. exists b. split; [reflexivity|]. split; [assumption|]. split; [reflexivity|].
    intros _ _. apply grows_refl. exists [], []. split; [apply says_nil|]. split; [constructor|apply ids_nil].
  - destruct Hok as [Hc Hok]. destruct lvl as [|lvl].
    2: { destruct (nth_error (b :: outer) (S lvl)) as [x|] eqn:Hx; [|discriminate]. apply only_inner in Hx; [|assumption].
         rewrite exec_disabled in H by assumption. discriminate. }
    cbn [nth_error set_nth map] in H. destruct (exec_call _ c b) as [b1|] eqn:Hb; [|discriminate]. cbn [bind] in H.
    apply call_step in Hb; [|assumption..]. destruct (IH b1 outer st out Hok Hout (proj1 Hb) H) as (Ho & b' & -> & Hs).
    split; [exact Ho|]. exists b'. split; [reflexivity|].
    eapply step_trans; [exact Hb|exact Hs|]. intros Hl x y (m & Hm & Hx) (ms & ids & Hy & Hp & Hi).
    exists (m :: ms), ids. split; [exact (says_app x y [m] ms Hx Hy)|]. split; [constructor; assumption|].
    eapply ids_wider; [| |exact Hi]; lia.
  - destruct Hok as (Hn & Hc & Hr & Hok). destruct lvl as [|lvl].
    2: { destruct (nth_error (b :: outer) (S lvl)) as [x|] eqn:Hx; [|discriminate]. apply only_inner in Hx; [|assumption].
         rewrite insert_row_disabled in H by assumption. discriminate. }
    cbn [nth_error set_nth] in H. destruct (b_insert_row name cols row b) as [[b1 o]|] eqn:Hb; [|discriminate]. cbn [bind] in H.
    apply insert_row_step in Hb; [|assumption..]. destruct Hb as [Hrow Hb].
    destruct (IH o b1 outer st out (Hok o Hrow) Hout (proj1 Hb) H) as (Ho & b' & -> & Hs).
    split; [exact Ho|]. exists b'. split; [reflexivity|].
    eapply step_trans; [exact Hb|exact Hs|]. intros Hl x y (es & id & Hx & Hes & -> & Hid) (ms & ids & Hy & Hp & Hi).
    exists (MInsert name (Some table_model) cols [es] :: set_last_id id :: ms), (id :: ids).
    split; [exact (says_app x y [_; _] ms Hx Hy)|]. split; [constructor; assumption|].
    apply (ids_app (len (buf b)) (len (buf b1)) (len (buf b')) [id] ids); [lia|lia|exact Hid|exact Hi].
  - destruct Hok as (Hk & Hokb & Hokn). destruct lvl as [|lvl].
    2: { destruct (nth_error (b :: outer) (S lvl)) as [x|] eqn:Hx; [|discriminate]. apply only_inner in Hx; [|assumption].
         rewrite block_disabled in H by assumption. discriminate. }
    cbn [nth_error set_nth] in H. destruct (block_begin k b) as [[b1 en]|] eqn:Hb; [|discriminate]. cbn [bind] in H.
    apply block_begin_step in Hb; [|assumption..]. destruct en.
    + destruct Hb as (He & open & Hopen & H1).
      destruct (run body _) as [[st2 out1]|] eqn:Hbody; [|discriminate]. cbn [bind] in H.
      apply IHb in Hbody; [|assumption|constructor; [reflexivity|assumption]|reflexivity].
      destruct Hbody as (Ho1 & child & -> & H2).
      destruct (block_end k _) as [b3|] eqn:H3; [|discriminate]. cbn [bind set_nth] in H.
      apply block_end_step in H3; [|reflexivity]. cbn [berr buf] in H3.
      destruct (IHn out1 b3 outer st out (Hokn out1 Ho1) Hout (proj1 H3) H) as (Ho & b' & -> & H4).
      split; [exact Ho|]. exists b'. split; [reflexivity|].
      destruct H1 as (A1 & A2 & A3), H2 as (B1 & B2 & B3), H3 as (C1 & C2 & C3), H4 as (D1 & D2 & D3). cbn [berr buf disabled] in *.
      split; [exact D1|]. split; [congruence|]. intros _ Hb'.
      assert (He3 : berr b3 = None) by (destruct (berr b3) eqn:Hx; [rewrite D2 in Hb' by congruence; congruence|reflexivity]).
      assert (Hec : berr child = None) by (destruct (berr child) eqn:Hx; [rewrite C2 in He3 by congruence; congruence|reflexivity]).
      assert (He1 : berr b1 = None) by (destruct (berr b1) eqn:Hx; [rewrite B2 in Hec by congruence; cbn [berr] in Hec; congruence|reflexivity]).
      specialize (A3 He He1). specialize (B3 He1 Hec). specialize (C3 Hec He3). specialize (D3 He3 Hb').
      destruct A3 as [A3 A4], B3 as [B3 B4], C3 as [C3 C4], D3 as [D3 D4].
      split; [lia|]. intros Hsm.
      destruct (D4 Hsm) as (d & Ed & (ms2 & ids2 & Sd & Pd & Id)).
      destruct C4 as (c & Ec & Sc); [unfold len, nlen in *; lia|].
      destruct B4 as (bb & Eb & (ms1 & ids1 & Sb & Pb & Ib)); [unfold len, nlen in *; lia|].
      destruct A4 as (a & Ea & Sa); [unfold len, nlen in *; lia|].
      exists (a ++ bb ++ c ++ d). split; [rewrite Ed, Ec, Eb, Ea, <- !app_assoc; reflexivity|].
      exists (open ++ ms1 ++ [closing k] ++ ms2), (ids1 ++ ids2).
      split; [repeat (apply says_app; [assumption|]); assumption|]. split; [eapply M_block; eassumption|].
      apply (ids_app _ (len (buf b3))); [lia|lia|eapply ids_wider; [| |exact Ib]; lia|exact Id].
    + destruct Hb as (He & Hd1 & Heq).
      destruct (IHn [] b1 outer st out (Hokn [] (Forall_nil _)) Hout Hd1 H) as (Ho & b' & -> & H4).
      split; [exact Ho|]. exists b'. split; [reflexivity|]. destruct H4 as (D1 & D2 & D3). specialize (D2 He). subst b'.
      split; [exact D1|]. split; [exact Heq|]. congruence.
Qed.

(* ---- running to the end ---- *)

(* With an error nothing happens. *)
Lemma run_error : forall pr b outer, inner_only pr -> disabled b = false -> berr b <> None ->
  exists out, run pr (b :: outer) = Ok (b :: outer, out).
Proof using.
  induction pr as [cberr out0|lvl c next IH|lvl name cols row next IH|lvl k body IHb next IHn]; intros b outer Hi Hd He; cbn [run inner_only] in *.
  - eauto.
  - destruct Hi as [-> Hi]. cbn [nth_error set_nth]. unfold exec_call, guarded. rewrite Hd. destruct (berr b) eqn:Hb; [|congruence].
    cbn [bind]. apply IH; [assumption..|congruence].
  - destruct Hi as [-> Hi]. cbn [nth_error set_nth]. unfold b_insert_row. rewrite Hd. destruct (berr b) eqn:Hb; [|congruence].
    cbn [bind]. apply IH; [apply Hi|assumption|congruence].
  - destruct Hi as (-> & Hib & Hin). cbn [nth_error set_nth]. unfold block_begin. rewrite Hd. destruct (berr b) eqn:Hb; [|congruence].
    cbn [bind]. apply IHn; [apply Hin|assumption|congruence].
Qed.

(* A message that is not refused is appended; when its parts do not panic, it does not panic. *)
Lemma outcome_total : forall D Q S W (f : enc) p, msg_outcome (@word32 E) D Q S W f -> W < 2 ^ 61 -> Q \/ S ->
  exists q e, f E p = Ok (q, e) /\ (S -> e = None).
Proof using.
  intros D Q S W f p [(m & bs & H1 & H2 & _ & H3)|[[[_ B2] Hs]|(_ & _ & Hg)]] HW HQ.
  - destruct (H3 E eq_refl p) as [sp Hp]. eauto.
  - destruct HQ as [HQ|HS]; [|contradiction]. destruct (B2 HQ E eq_refl p) as (r & e & Hr & _). exists r, (Some e). split; [exact Hr|]. contradiction.
  - destruct (Hg HW) as (bs & _ & H3). destruct (H3 E eq_refl p) as [sp Hp]. eauto.
Qed.

Lemma call_total : forall dis c b, call_ok word32 c -> call_fits c -> call_quiet c \/ call_accepted c -> disabled b = false -> berr b = None ->
  exists b', exec_call dis c b = Ok b' /\ disabled b' = false /\ (call_accepted c -> berr b' = None).
Proof using.
  intros dis c b Hc Hf HQ Hd He. pose proof (call_outcome word32 dis c Hc) as Ho.
  destruct (outcome_total _ _ _ _ _ (buf b) Ho Hf HQ) as (q & e & Hq & Ha).
  exists (mkb q e (disabled b)). split; [|cbn; auto]. unfold exec_call, guarded. rewrite Hd, He.
  change (match c with CStmtExecute stmt args => _ | _ => _ end) with (run_call dis c E (buf b)). rewrite Hq. reflexivity.
Qed.

Lemma statement_total : forall s b, go_string s -> nlen s < 2 ^ 60 -> disabled b = false -> berr b = None ->
  exists b', b_stmt_execute s [] b = Ok b' /\ disabled b' = false /\ berr b' = None.
Proof using.
  intros s b Hs Hl Hd He. destruct (call_total [] (CStmtExecute s []) b) as (b' & H1 & H2 & H3); try assumption.
  - split; [assumption|constructor].
  - unfold call_fits. cbn [call_weight total_weight]. unfold name_weight. lia.
  - left. constructor.
  - exists b'. split; [exact H1|]. split; [exact H2|]. apply H3. constructor.
Qed.

Lemma insert_row_total : forall name cols row b, go_string name -> Forall go_string cols -> values_ok word32 row -> row_fits name cols row ->
  Forall panic_free row \/ Forall expr_accepted row -> disabled b = false -> berr b = None ->
  exists b' o, b_insert_row name cols row b = Ok (b', o) /\ disabled b' = false /\ (Forall expr_accepted row -> berr b' = None) /\
    (berr b' = None -> row_variable o).
Proof using.
  intros name cols row b Hn Hc Hr Hf HQ Hd He. pose proof (row_outcome word32 name cols row Hn Hc Hr) as Ho.
  destruct (outcome_total _ _ _ _ _ (buf b) Ho Hf HQ) as (q & e & Hq & Ha).
  unfold b_insert_row. rewrite Hd, He. unfold patched, seq, okm in Hq.
  destruct (msg_insert (buf b) name cols) as [p1|]; cbn [bind] in *; [|discriminate].
  destruct (append_insert_row p1 row) as [[p2 [e2|]]|]; cbn [bind] in *; [| |discriminate].
  - injection Hq as <- <-. eexists _, _. split; [reflexivity|]. cbn [disabled berr]. split; [reflexivity|].
    split; [intros HS; specialize (Ha HS); discriminate|discriminate].
  - destruct (patch_length p2 (len (buf b))) as [p3|]; cbn [bind] in *; [|discriminate].
    assert (Hid : Forall (fun x => x < 256) (insert_id p3) /\ nlen (insert_id p3) <= 23) by (apply id_of_small; apply N.mod_upper_bound; discriminate).
    destruct (statement_total (s2b "SET " ++ insert_id p3 ++ s2b " = LAST_INSERT_ID()") (mkb p3 None false)) as (b' & H1 & H2 & H3); [|..|reflexivity|reflexivity|].
    + apply go_string_app; [apply s2b_go|apply Forall_app; split; [apply Hid|apply s2b_go]|].
      rewrite nlen_app. rewrite !(proj2 (s2b_go _)). cbn [String.length]. lia.
    + rewrite !nlen_app. rewrite !(proj2 (s2b_go _)). cbn [String.length]. lia.
    + rewrite H1. cbn [bind]. eexists _, _. split; [reflexivity|]. split; [exact H2|]. split; [auto|]. intros _.
      exists (insert_id p3). split; [reflexivity|]. destruct Hid. split; [split; [assumption|lia]|lia].
Qed.

Lemma block_begin_total : forall k b, blk_ok k -> disabled b = false -> berr b = None ->
  exists b1 en, block_begin k b = Ok (b1, en) /\ disabled b1 = false /\
    (en = true -> berr b1 = None) /\ (en = false -> berr b1 <> None) /\ (opening k <> None -> en = true).
Proof using.
  intros [lvl|ctx] b Hk Hd He; unfold block_begin; rewrite Hd, He.
  - assert (Hone : forall s (K : Prop), go_string s -> nlen s < 2 ^ 60 ->
      exists b1 en, (do b <- b_stmt_execute s [] b; Ok (b, true)) = Ok (b1, en) /\ disabled b1 = false /\ (en = true -> berr b1 = None) /\
        (en = false -> berr b1 <> None) /\ (K -> en = true)).
    { intros s K Hs Hl. destruct (statement_total s b Hs Hl Hd He) as (b1 & -> & H2 & H3). cbn [bind].
      exists b1, true. split; [reflexivity|]. split; [assumption|]. split; [auto|]. split; [discriminate|auto]. }
    assert (Htwo : forall s1 s2 (K : Prop), go_string s1 -> go_string s2 -> nlen s1 < 2 ^ 60 -> nlen s2 < 2 ^ 60 ->
      exists b1 en, (do b <- b_stmt_execute s1 [] b; do b <- b_stmt_execute s2 [] b; Ok (b, true)) = Ok (b1, en) /\ disabled b1 = false /\
        (en = true -> berr b1 = None) /\ (en = false -> berr b1 <> None) /\ (K -> en = true)).
    { intros s1 s2 K Hs1 Hs2 Hl1 Hl2. destruct (statement_total s1 b Hs1 Hl1 Hd He) as (b0 & -> & H2 & H3). cbn [bind].
      destruct (statement_total s2 b0 Hs2 Hl2 H2 H3) as (b1 & -> & H4 & H5). cbn [bind].
      exists b1, true. split; [reflexivity|]. split; [assumption|]. split; [auto|]. split; [discriminate|auto]. }
    unfold tx_begin.
    destruct lvl as [|[[[lvl|lvl|]|[lvl|lvl|]|]|[[lvl|lvl|]|[lvl|lvl|]|]|]];
      first [apply Hone; [go_const|reflexivity] | apply Htwo; [go_const|go_const|reflexivity|reflexivity] |
        eexists _, false; split; [reflexivity|]; cbn [disabled berr]; split; [exact Hd|]; split; [discriminate|]; split; [discriminate|];
        intros H; exfalso; apply H; reflexivity].
  - cbn [blk_ok] in Hk. pose proof (open_outcome word32 ctx (eq (MExpectOpen ctx [no_error_1])) True True 512 Hk ltac:(lia) eq_refl) as Ho.
    destruct (outcome_total _ _ _ _ _ (buf b) Ho ltac:(lia) (or_introl I)) as (q & e & Hq & Ha). unfold okm in Hq.
    destruct (expect_open (buf b) ctx [ONoError true]) as [q'|]; [|discriminate]. cbn [bind].
    eexists _, true. split; [reflexivity|]. cbn [disabled berr]. repeat split; discriminate.
Qed.

Lemma block_end_total : forall k b, disabled b = false -> exists b', block_end k b = Ok b' /\ disabled b' = false /\ berr b' = berr b.
Proof using.
  intros [lvl|ctx] b Hd; cbn [block_end].
  - destruct (berr b) as [e|] eqn:He.
    + exists b. split; [|auto]. unfold b_stmt_execute, guarded. rewrite Hd, He. reflexivity.
    + destruct (statement_total (s2b "COMMIT") b) as (b' & H1 & H2 & H3); [go_const|reflexivity|assumption..|]. exists b'. auto.
  - eexists. split; [reflexivity|]. cbn. auto.
Qed.

Section Total.
Variables (C : call -> Prop) (R : bytes -> list bytes -> list gvalue -> Prop) (K : block -> Prop) (A : Prop).
Hypothesis HC : forall c, C c -> call_fits c /\ (call_quiet c \/ call_accepted c) /\ (A -> call_accepted c).
Hypothesis HR : forall name cols row, R name cols row ->
  row_fits name cols row /\ (Forall panic_free row \/ Forall expr_accepted row) /\ (A -> Forall expr_accepted row).
Hypothesis HK : forall k, K k -> A -> opening k <> None.

Lemma run_total : forall pr b outer, inner_only pr -> prog_ok word32 pr -> prog_all C R K pr -> disabled b = false -> berr b = None ->
  exists b' out, run pr (b :: outer) = Ok (b' :: outer, out) /\ disabled b' = false /\ (berr b' = None -> Forall row_variable out) /\
    (A -> berr b' = None).
Proof using HC HR HK.
  assert (Err : forall (Q : Prop) pr b outer, (A -> False) -> inner_only pr -> disabled b = false -> berr b <> None ->
    exists b' out, run pr (b :: outer) = Ok (b' :: outer, out) /\ disabled b' = false /\ (berr b' = None -> Forall row_variable out) /\ (A -> berr b' = None)).
  { intros Q pr b outer HA Hi Hd He. destruct (run_error pr b outer Hi Hd He) as [out Ho]. exists b, out.
    split; [exact Ho|]. split; [exact Hd|]. split; [congruence|]. intros a. destruct (HA a). }
  induction pr as [cberr out0|lvl c next IH|lvl name cols row next IH|lvl k body IHb next IHn]; intros b outer Hi Hok Hall Hd He;
    cbn [run inner_only prog_ok prog_all] in *.
  - exists b, out0. auto.
  - destruct Hi as [-> Hi], Hok as [Hc Hok], Hall as [Hcc Hall]. destruct (HC c Hcc) as (F1 & F2 & F3). cbn [nth_error set_nth].
    destruct (call_total (set_nth (map disabled (b :: outer)) 0 true) c b Hc F1 F2 Hd He) as (b1 & -> & H1 & H2). cbn [bind].
    destruct (berr b1) as [e|] eqn:He1.
    + apply (Err True); [|assumption..|congruence]. intros a. specialize (H2 (F3 a)). congruence.
    + apply IH; assumption.
  - destruct Hi as [-> Hi], Hok as (Hn & Hc & Hr & Hok), Hall as [Hcc Hall]. destruct (HR _ _ _ Hcc) as (F1 & F2 & F3). cbn [nth_error set_nth].
    destruct (insert_row_total name cols row b Hn Hc Hr F1 F2 Hd He) as (b1 & o & -> & H1 & H2 & H3). cbn [bind].
    destruct (berr b1) as [e|] eqn:He1.
    + apply (Err True); [|apply Hi|assumption|congruence]. intros a. specialize (H2 (F3 a)). congruence.
    + specialize (H3 eq_refl). apply IH; [apply Hi|apply Hok|apply Hall; exact H3|assumption..].
      destruct H3 as (id & -> & Hid & Hl). exists id. auto.
  - destruct Hi as (-> & Hib & Hin), Hok as (Hk & Hokb & Hokn), Hall as (Hkk & Hallb & Halln). cbn [nth_error set_nth].
    destruct (block_begin_total k b Hk Hd He) as (b1 & en & -> & H1 & H2 & H3 & H4). cbn [bind]. destruct en.
    + specialize (H2 eq_refl).
      destruct (IHb (mkb (buf b1) (berr b1) false) (mkb (buf b1) (berr b1) true :: outer) Hib Hokb Hallb eq_refl H2) as (c & out1 & -> & G1 & G2 & G3).
      cbn [bind]. destruct (block_end_total k (mkb (buf c) (berr c) false) eq_refl) as (b2 & -> & G4 & G5). cbn [bind set_nth]. cbn [berr] in G5.
      destruct (berr c) as [e|] eqn:Hec.
      * apply (Err True); [|apply Hin|assumption|congruence]. intros a. specialize (G3 a). congruence.
      * specialize (G2 eq_refl). apply IHn; [apply Hin|apply Hokn|apply Halln; exact G2|assumption..].
        eapply Forall_impl; [|exact G2]. intros o (id & -> & Hid & Hl). exists id. auto.
    + apply (Err True); [|apply Hin|assumption|apply H3; reflexivity]. intros a. specialize (H4 (HK k Hkk a)). discriminate.
Qed.
End Total.

Lemma quiet_total : forall pr b outer, inner_only pr -> prog_ok word32 pr -> prog_quiet pr -> disabled b = false ->
  exists b' out, run pr (b :: outer) = Ok (b' :: outer, out).
Proof using.
  intros pr b outer Hi Hok Hq Hd. destruct (berr b) as [e|] eqn:He.
  - destruct (run_error pr b outer Hi Hd ltac:(congruence)) as [out Ho]. eauto.
  - unfold prog_quiet in Hq. edestruct (fun A HC HR HK => run_total _ _ _ A HC HR HK pr b outer Hi Hok Hq Hd He) as (b' & out & H & _);
      [..|exists b', out; exact H].
    + instantiate (1 := False). intros c [H1 H2]. tauto.
    + intros name cols row [H1 H2]. tauto.
    + intros k _ [].
Qed.

Lemma accepted_total : forall pr b outer, inner_only pr -> prog_ok word32 pr -> prog_accepted pr -> disabled b = false -> berr b = None ->
  exists b' out, run pr (b :: outer) = Ok (b' :: outer, out) /\ berr b' = None.
Proof using.
  intros pr b outer Hi Hok Hq Hd He.
  unfold prog_accepted in Hq. edestruct (fun A HC HR HK => run_total _ _ _ A HC HR HK pr b outer Hi Hok Hq Hd He) as (b' & out & H & _ & _ & Hb);
    [..|exists b', out; split; [exact H|exact (Hb I)]].
  - intros c [H1 H2]. tauto.
  - intros name cols row [H1 H2]. tauto.
  - intros k H _. exact H.
Qed.

End Steps.
