(* C102: data cannot become SQL. *)
From Coq Require Import String List NArith ZArith Arith Bool Lia ZifyN ZifyNat ZifyBool.
From Coq Require Import List.
From Verif Require Import Base GoSlice SliceProofs Varint VarintProofs SpecWire SpecMsg WireProofs Pure Text Values AnyModel ExprModel MsgModel Builder
  SpecValue SpecProg SpecUnit SpecBig SpecInject AnyProofs StringProofs HeadProofs MsgProofs BuilderProofs UnitProofs ShapeProofs BigProofs InjectProofs.
From Verif Require ThmBuilder ThmBig.
Import ListNotations.
Open Scope N_scope.
Open Scope list_scope.

(* C102: every statement text that is sent is a text of the program: one it passed to StmtExecute or Prepare, or one of Tx or
   InsertRow. Nothing else, so no argument, row value or criterion, gets into a text. *)
Theorem C102_statements_are_the_programs_own : forall (E : Env) b pr bs, empty b -> prog_ok word32 pr -> calls_below (2 ^ 31) pr -> delivers b pr bs -> nlen bs < 2 ^ 63 ->
  exists ms, dstream bs = Some ms /\ Forall (text_from pr) ms.
Proof.
  intros E b pr bs He Hok Hw Hd Hl. destruct (ThmBig.delivers_any_size E b pr bs He Hok Hw Hd Hl) as (ms & ids & out & Hs & Hp & Hi).
  exists ms. split; [exact (says_dstream _ _ Hs)|]. exact (prog_texts _ _ _ _ Hp (ids_texts _ _ _ Hi)).
Qed.

(* C102: two programs that differ in their data only send the same messages, but for the scalars in them; where the one has the
   variable of its k-th InsertRow the other has that of its k-th InsertRow. *)
Theorem C102_data_changes_only_scalars : forall (E : Env) b b' pr pr' bs bs', empty b -> empty b' -> same_prog [] pr pr' ->
  prog_ok word32 pr -> calls_below (2 ^ 31) pr -> delivers b pr bs -> nlen bs < 2 ^ 63 ->
  prog_ok word32 pr' -> calls_below (2 ^ 31) pr' -> delivers b' pr' bs' -> nlen bs' < 2 ^ 63 ->
  exists ms ms' ids ids', dstream bs = Some ms /\ dstream bs' = Some ms' /\
    (exists out, prog_msgs pr ms ids out) /\ (exists out', prog_msgs pr' ms' ids' out') /\ NoDup ids /\ NoDup ids' /\
    length ids = length ids' /\ Forall2 (same_msg (combine ids ids')) ms ms'.
Proof.
  intros E b b' pr pr' bs bs' He He' Hs Hok Hw Hd Hl Hok' Hw' Hd' Hl'.
  destruct (ThmBig.delivers_any_size E b pr bs He Hok Hw Hd Hl) as (ms & ids & out & Hsay & Hp & Hi).
  destruct (ThmBig.delivers_any_size E b' pr' bs' He' Hok' Hw' Hd' Hl') as (ms' & ids' & out' & Hsay' & Hp' & Hi').
  destruct (same_prog_msgs _ _ _ Hs _ _ _ _ _ _ Hp Hp') as (L & M & _). rewrite app_nil_r in M.
  exists ms, ms', ids, ids'. split; [exact (says_dstream _ _ Hsay)|]. split; [exact (says_dstream _ _ Hsay')|].
  split; [eauto|]. split; [eauto|]. split; [exact (ids_nodup _ _ _ Hi)|]. split; [exact (ids_nodup _ _ _ Hi')|]. split; [exact L|exact M].
Qed.

(* ---- 4 GiB of data ---- *)

Lemma le_lebytes4 : forall x, lebytes 4 x = lebytes 4 (x mod 2 ^ 32).
Proof.
  intros x. cbn [lebytes]. rewrite !N.div_div by lia. change (256 * 256) with 65536. change (65536 * 256) with 16777216. change (2 ^ 32) with 4294967296.
  pose proof (N.div_mod x 4294967296 ltac:(lia)) as Hx. set (q := x / 4294967296) in *. set (r := x mod 4294967296) in *. clearbody q r. subst x.
  f_equal; [|f_equal; [|f_equal; [|f_equal]]].
  - replace (4294967296 * q + r) with (r + 16777216 * q * 256) by lia. apply N.mod_add. lia.
  - replace (4294967296 * q + r) with (r + 16777216 * q * 256) by lia. rewrite N.div_add by lia.
    replace (r / 256 + 16777216 * q) with (r / 256 + 65536 * q * 256) by lia. apply N.mod_add. lia.
  - replace (4294967296 * q + r) with (r + 65536 * q * 65536) by lia. rewrite N.div_add by lia.
    replace (r / 65536 + 65536 * q) with (r / 65536 + 256 * q * 256) by lia. apply N.mod_add. lia.
  - replace (4294967296 * q + r) with (r + q * 256 * 16777216) by lia. rewrite N.div_add by lia. apply N.mod_add. lia.
Qed.

Lemma plen_front : forall t a, t < 16 -> nlen a < 2 ^ 64 -> is_bytes a -> exists h, plen t a = h ++ a /\ nlen h <= 11 /\ is_bytes h.
Proof.
  intros t a Ht Ha Hb. exists (8 * t + 2 :: uvarint (nlen a)). split; [reflexivity|]. split.
  - rewrite nlen_cons, nlen_uvarint by exact Ha. pose proof (size_small (nlen a) Ha). lia.
  - apply is_bytes_cons; [lia|]. apply uvarint_bytes.
Qed.

(* s ends with x, and begins with at most k other bytes. *)
Definition ends_with (k : N) (x s : bytes) : Prop := exists h, s = h ++ x /\ nlen h <= k /\ is_bytes h.
Lemma ends_plen : forall k x s t, ends_with k x s -> t < 16 -> is_bytes x -> k < 2 ^ 40 -> nlen x <= 2 ^ 40 -> ends_with (k + 11) x (plen t s).
Proof.
  intros k x s t (h & -> & Hk & Hb) Ht Hx K1 K2.
  destruct (plen_front t (h ++ x) Ht) as (h1 & -> & L & B); [rewrite nlen_app; lia|apply is_bytes_app; assumption|].
  exists (h1 ++ h). split; [apply app_assoc|]. split; [rewrite nlen_app; lia|apply is_bytes_app; assumption].
Qed.
Lemma ends_after : forall k j x a s, ends_with k x s -> is_bytes a -> nlen a <= j -> ends_with (j + k) x (a ++ s).
Proof. intros k j x a s (h & -> & Hk & Hb) Ha Hj. exists (a ++ h). split; [apply app_assoc|]. split; [rewrite nlen_app; lia|apply is_bytes_app; assumption]. Qed.

Lemma any_ends : forall x, is_bytes x -> nlen x <= 2 ^ 40 -> ends_with 60 x (pany 2 (SOctets x None)).
Proof.
  intros x Hx Hl. unfold pany. cbn [pscalar poct app].
  assert (P : forall a, a < 128 -> is_bytes (pvar 1 a) /\ nlen (pvar 1 a) <= 2).
  { intros a Ha. unfold pvar. rewrite uvarint_small by exact Ha. split; [|cbn; lia]. repeat (apply is_bytes_cons; [lia|]). constructor. }
  destruct (P 1 ltac:(lia)) as [A1 A2]. destruct (P 4 ltac:(lia)) as [B1 B2].
  assert (H0 : ends_with 0 x x) by (exists []; repeat split; [cbn; lia|constructor]).
  pose proof (ends_plen _ x _ 1 H0 ltac:(lia) Hx ltac:(lia) Hl) as H1.
  pose proof (ends_plen _ x _ 5 H1 ltac:(lia) Hx ltac:(lia) Hl) as H2.
  pose proof (ends_after _ 2 x _ _ H2 B1 B2) as H3.
  pose proof (ends_plen _ x _ 2 H3 ltac:(lia) Hx ltac:(lia) Hl) as H4.
  pose proof (ends_after _ 2 x _ _ H4 A1 A2) as H5.
  pose proof (ends_plen _ x _ 2 H5 ltac:(lia) Hx ltac:(lia) Hl) as (h & E1 & E2 & E3).
  exists h. split; [exact E1|]. split; [lia|exact E3].
Qed.

(* C102 fails for data of 4 GiB: whatever the statement, an argument of exactly 2^32 bytes that is itself a sequence of frames
   is read as those frames, after a frame that is what comes before the data in the message. *)
Theorem C102_four_gigabytes_are_read_as_messages_refuted : forall (E : Env) b stmt x fs, word32 = false -> empty b ->
  go_string stmt -> nlen stmt < 2 ^ 31 -> nlen x = 2 ^ 32 -> dframes x = Some fs ->
  exists bs first, delivers b (one_call (CStmtExecute stmt [VBytes (Some x)])) bs /\ dframes bs = Some ((12, first) :: fs).
Proof.
  intros E b stmt x fs _ (He & Hb & Hd) Hs Hl Hx Hf.
  assert (HF : framed x fs).
  { unfold dframes in Hf. destruct (forallb (fun b => b <? 256) x) eqn:Hby; [|discriminate]. split; [|exact Hf].
    apply Forall_forall. intros y Hy. rewrite forallb_forall in Hby. apply N.ltb_lt. apply Hby. exact Hy. }
  pose proof (proj1 HF) as Hxb.
  destruct (plen_front 1 stmt ltac:(lia) ltac:(lia) (proj1 Hs)) as (h1 & E1 & L1 & B1).
  destruct (any_ends x Hxb ltac:(lia)) as (h2 & E2 & L2 & B2).
  set (first := (h1 ++ stmt) ++ h2).
  assert (Hfl : 1 + nlen first < 2 ^ 32) by (unfold first; rewrite !nlen_app; lia).
  exists (lebytes 4 (1 + nlen first) ++ 12 :: first ++ x), first. split.
  - destruct (stmt_head_ok stmt ltac:(lia) (buf b)) as (h & sp & Hh & Hq).
    destruct (emits_any_bytes 2 (Some x) 0 ltac:(lia) ltac:(cbv iota; lia) ltac:(lia) (mk (data (buf b) ++ h ++ 12 :: plen 1 stmt) sp)) as [sp2 Ha].
    change (optc 0) with (@None N) in Ha.
    unfold delivers. cbn [one_call run nth_error set_nth]. unfold exec_call, guarded. rewrite Hd, Hb, stmt_execute_eq, Hq. cbn [bind]. unfold append_args, each.
    change tagStmtExecuteArgs with 2. cbn [append_any type_switch]. change ContentTypePlain with 0. unfold okm at 1. rewrite Ha. cbn [bind data].
    rewrite He. cbn [app]. rewrite <- app_assoc.
    assert (Hn : len (buf b) = 0%nat) by (unfold len; rewrite He; reflexivity). rewrite Hn.
    pose proof (patch_ok [] h ((12 :: plen 1 stmt) ++ pany 2 (SOctets x None)) sp2 0 eq_refl Hh) as Hp. cbn [app] in Hp. cbn [app]. rewrite Hp. unfold okm. cbn [bind].
    eexists _, _. split; [reflexivity|]. unfold send. cbn [disabled berr buf data]. do 2 f_equal.
    rewrite E1, E2, (le_lebytes4 (nlen _)). unfold first. rewrite <- !app_assoc. f_equal. f_equal.
    rewrite !nlen_cons, !nlen_app, Hx. replace (1 + (nlen h1 + (nlen stmt + (nlen h2 + 2 ^ 32)))) with (1 + (nlen h1 + (nlen stmt + nlen h2)) + 1 * 2 ^ 32) by lia.
    rewrite N.mod_add by lia. apply N.mod_small. lia.
  - apply framed_dframes. apply framed_cons; try reflexivity; [exact Hfl| |exact HF].
    unfold first. repeat apply is_bytes_app; try assumption. apply Hs.
Qed.

Lemma one_statement : forall (E : Env) sql, go_string sql -> nlen sql < 2 ^ 30 ->
  framed (lebytes 4 (1 + nlen (plen 1 sql)) ++ 12 :: plen 1 sql) [(12, plen 1 sql)] /\ dmsg 12 (plen 1 sql) = Some (statement sql).
Proof.
  intros E sql Hq Hl. destruct (plen_front 1 sql ltac:(lia) ltac:(lia) (proj1 Hq)) as (h1 & E1 & L1 & B1).
  assert (Hn : 1 + nlen (plen 1 sql) < 2 ^ 31) by (rewrite E1, nlen_app; lia).
  assert (Hf : framed (lebytes 4 (1 + nlen (plen 1 sql)) ++ 12 :: plen 1 sql) [(12, plen 1 sql)]).
  { rewrite <- (app_nil_r (plen 1 sql)) at 2. apply framed_cons; try reflexivity; [lia| |apply framed_nil]. rewrite E1. apply is_bytes_app; [exact B1|apply Hq]. }
  split; [exact Hf|].
  assert (Hd : delivers (new_pipe 0) (one_call (CStmtExecute sql [])) (lebytes 4 (1 + nlen (plen 1 sql)) ++ 12 :: plen 1 sql)).
  { destruct (new_empty 0) as (He & Hb & Hd). set (b := new_pipe 0) in *. clearbody b.
    destruct (stmt_head_ok sql ltac:(lia) (buf b)) as (h & sp & Hh & Hr).
    unfold delivers. cbn [one_call run nth_error set_nth]. unfold exec_call, guarded. rewrite Hd, Hb, stmt_execute_eq, Hr. cbn [bind]. unfold append_args, each. cbn [bind].
    assert (Hz : len (buf b) = 0%nat) by (unfold len; rewrite He; reflexivity). rewrite Hz, He.
    rewrite (patch_ok [] h (12 :: plen 1 sql) sp 0 eq_refl Hh). unfold okm. cbn [bind]. eexists _, _. split; [reflexivity|].
    unfold send. cbn [disabled berr buf data app]. rewrite nlen_cons. reflexivity. }
  destruct (ThmBuilder.C08_one_call_one_message E (new_pipe 0) (CStmtExecute sql []) _ (new_empty 0) (conj Hq (Forall_nil _)) Hd) as (m & Hm & Hc).
  { rewrite nlen_app, nlen_cons. unfold nlen at 1. rewrite lebytes_length. lia. }
  unfold dstream in Hm. rewrite (framed_dframes _ _ Hf) in Hm. cbn [obind omap fst snd] in Hm.
  destruct (dmsg 12 (plen 1 sql)) as [m'|]; [|discriminate]. cbn [obind] in Hm. injection Hm as ->.
  inversion Hc as [? ? ss Hss| | | | | | | |]; subst. inversion Hss; subst. reflexivity.
Qed.

(* Such an argument can hold any statement. *)
Theorem C102_data_becomes_sql_refuted : forall (E : Env) b stmt sql, word32 = false -> empty b -> go_string stmt -> nlen stmt < 2 ^ 31 ->
  go_string sql -> nlen sql < 2 ^ 30 ->
  exists x bs fs f, go_string x /\ delivers b (one_call (CStmtExecute stmt [VBytes (Some x)])) bs /\ dframes bs = Some fs /\
    In f fs /\ dmsg (fst f) (snd f) = Some (statement sql).
Proof.
  intros E b stmt sql Hw He Hs Hl Hq Hql. destruct (one_statement E sql Hq Hql) as [Hf Hm].
  set (y := lebytes 4 (1 + nlen (plen 1 sql)) ++ 12 :: plen 1 sql) in *.
  assert (Hy : nlen y < 2 ^ 31).
  { unfold y. destruct (plen_front 1 sql ltac:(lia) ltac:(lia) (proj1 Hq)) as (h1 & -> & L1 & B1). rewrite nlen_app, nlen_cons, nlen_app. unfold nlen at 1. rewrite lebytes_length. lia. }
  set (n := N.to_nat (2 ^ 32 - nlen y - 5)). assert (Hn : N.of_nat n = 2 ^ 32 - nlen y - 5) by apply N2Nat.id. clearbody n.
  set (z := repeat 0 n). assert (Hz : nlen z = 2 ^ 32 - nlen y - 5) by (unfold nlen, z; rewrite repeat_length; exact Hn).
  assert (Hzb : is_bytes z) by (apply Forall_forall; intros c Hc; apply repeat_spec in Hc; subst c; reflexivity).
  pose proof (framed_cons (1 + nlen z) 0 z [] [] eq_refl ltac:(lia) ltac:(lia) Hzb framed_nil) as Hg. rewrite app_nil_r in Hg.
  pose proof (framed_app _ _ _ _ Hf Hg) as Hx. set (x := y ++ lebytes 4 (1 + nlen z) ++ 0 :: z) in *.
  assert (Hxl : nlen x = 2 ^ 32).
  { unfold x. rewrite !nlen_app, nlen_cons, Hz. unfold nlen at 2. rewrite lebytes_length. lia. }
  destruct (C102_four_gigabytes_are_read_as_messages_refuted E b stmt x _ Hw He Hs Hl Hxl (framed_dframes _ _ Hx)) as (bs & first & Hd & Hfs).
  exists x, bs, ((12, first) :: [(12, plen 1 sql)] ++ [(0, z)]), (12, plen 1 sql). split; [split; [exact (proj1 Hx)|lia]|]. split; [exact Hd|]. split; [exact Hfs|].
  split; [cbn; auto|exact Hm].
Qed.

(* ---- the hypotheses are met ---- *)

(* A unit of work that stores what a visitor wrote. *)
Definition post (author text : bytes) : prog :=
  PBlock 0 (KTx 0)
    (PInsertRow 0 (s2b "posts") [s2b "author"; s2b "text"] [VString author; VString text] (fun id =>
      PCall 0 (CUpdate (s2b "authors") (Some (EOperator (s2b "==") [VFunc (Some (EColumn (s2b "name"))); VString author])) [(s2b "last", VFunc id)])
      (PCall 0 (CStmtExecute (s2b "CALL notify(?, ?)") [VString author; VBytes (Some text)]) (Ret None []))))
    (fun _ => Ret None []).

Example posts_alike : forall a t a' t', same_prog [] (post a t) (post a' t').
Proof.
  intros a t a' t'. apply SP_block; [|intros; constructor; constructor]. apply SP_row; [repeat constructor|]. intros i i'.
  apply SP_call; [|apply SP_call; [constructor; reflexivity|constructor; constructor]].
  apply SA_update.
  - constructor. apply SF_operator. constructor; [apply SV_func, SF_column|]. constructor; [apply SV_data; exact I|constructor].
  - constructor; [|constructor]. split; [reflexivity|]. cbn [snd]. apply SV_func, SF_row. left. reflexivity.
Qed.

Example posts_fine : forall a t, go_string a -> go_string t -> nlen a < 1000 -> nlen t < 1000000 ->
  prog_ok false (post a t) /\ inner_only (post a t) /\ prog_accepted (post a t) /\ calls_below (2 ^ 31) (post a t).
Proof.
  intros a t Ha Ht La Lt. unfold post. split; [|split; [|split]].
  - ThmBuilder.ok; try (apply ThmBuilder.bound_row; assumption).
  - ThmBuilder.ok.
  - unfold prog_accepted. ThmBuilder.ok; try discriminate; try (right; exact I); ThmBuilder.sizes; try (eexists; split; [reflexivity|split; assumption]).
  - unfold calls_below. ThmBuilder.ok; ThmBuilder.sizes; try (eexists; split; [reflexivity|split; assumption]).
Qed.

(* A visitor who tries. *)
#[local] Existing Instance ThmBuilder.plain.
Example tried : exists bs, delivers (new_pipe 0) (post (s2b "x' OR '1'='1") (s2b "'); DROP TABLE posts; COMMIT; --")) bs /\
  dstream bs = Some [statement (s2b "START TRANSACTION");
    MInsert (s2b "posts") (Some 2) [s2b "author"; s2b "text"]
      [[XLiteral (SString (s2b "x' OR '1'='1") None); XLiteral (SString (s2b "'); DROP TABLE posts; COMMIT; --") None)]];
    statement (s2b "SET @id$128 = LAST_INSERT_ID()");
    MUpdate (s2b "authors") (Some 2) (Some (XOperator (s2b "==") [XColumn (s2b "name"); XLiteral (SString (s2b "x' OR '1'='1") None)]))
      [(s2b "last", XVariable (s2b "@id$128"))];
    MStmtExecute (s2b "CALL notify(?, ?)") [SString (s2b "x' OR '1'='1") None; SOctets (s2b "'); DROP TABLE posts; COMMIT; --") None];
    statement (s2b "COMMIT")].
Proof. eexists. split; [eexists _, _; split; vm_compute; reflexivity|]. vm_compute. reflexivity. Qed.

Print Assumptions C102_statements_are_the_programs_own.
Print Assumptions C102_data_changes_only_scalars.
Print Assumptions C102_four_gigabytes_are_read_as_messages_refuted.
Print Assumptions C102_data_becomes_sql_refuted.
