(* What the message headers, column lists, conditions and row prefixes look like in bytes. *)
From Coq Require Import List NArith ZArith Arith Bool Lia ZifyN ZifyNat ZifyBool.
From Verif Require Import Base GoSlice SliceProofs Varint VarintProofs Chunks SpecWire SpecMsg WireProofs Pure
  Text Values AnyModel ExprModel MsgModel AnyProofs StringProofs HeaderProofs.
Import ListNotations.
Open Scope N_scope.

Ltac Zify.zify_post_hook ::= Z.div_mod_to_equations.

(* Appends four bytes to be overwritten later, then bs. *)
Definition emitsh (m : slice -> res slice) (bs : bytes) : Prop :=
  forall p, exists h sp, length h = 4%nat /\ m p = Ok (mk (data p ++ h ++ bs) sp).

Lemma le32_lebytes : forall x, le32 x = lebytes 4 x.
Proof.
  intros x. unfold le32, byte. rewrite !N.shiftr_div_pow2. cbn [lebytes].
  rewrite !N.div_div by lia. reflexivity.
Qed.

Section WithEnv.
Context `{E : Env}.

(* ---- frame lengths ---- *)

Lemma patch_ok : forall a h b sp n, n = length a -> length h = 4%nat ->
  patch_length (mk (a ++ h ++ b) sp) n = Ok (mk (a ++ lebytes 4 (nlen b) ++ b) sp).
Proof.
  intros a h b sp n -> Hh. unfold patch_length.
  replace (len (mk (a ++ h ++ b) sp) - length a - 4)%nat with (length b) by (unfold len; cbn [data]; rewrite !app_length; lia).
  rewrite le32_lebytes. apply put_chunk; [reflexivity|]. rewrite lebytes_length. exact Hh.
Qed.
Lemma patch_len : forall p n q, patch_length p n = Ok q -> len q = len p.
Proof. intros p n q H. exact (put_len _ _ _ _ H). Qed.
Lemma patch_some : forall p n, (n + 4 <= len p)%nat -> exists q, patch_length p n = Ok q.
Proof.
  intros p n H. unfold patch_length, put. cbn [le32 length]. destruct (Nat.leb_spec (n + 4) (len p)); [eauto|lia].
Qed.

(* ---- headers ---- *)

Definition stmt_head (stmt : bytes) (p : slice) : res slice :=
  let x := nlen stmt in
  let p := append p [0; 0; 0; 0; SQL_STMT_EXECUTE; hdr tagStmtExecuteStmt wireBytes;
              b80 x; b80 (N.shiftr x 7); b80 (N.shiftr x 14); b80 (N.shiftr x 21); b80 (N.shiftr x 28);
              b80 (N.shiftr x 35); b80 (N.shiftr x 42); b80 (N.shiftr x 49); b80 (N.shiftr x 56); 1] in
  let i := (len p + size_varint x - 10)%nat in
  do p <- mask_truncate p i;
  Ok (append p stmt).
Lemma stmt_execute_eq : forall p stmt args, stmt_execute p stmt args =
  (do q <- stmt_head stmt p; do (q, e) <- append_args tagStmtExecuteArgs args q;
   match e with Some e => Ok (q, Some e) | None => okm (patch_length q (len p)) end).
Proof.
  intros p stmt args. unfold stmt_execute, stmt_head. cbv zeta.
  destruct (mask_truncate _ _); reflexivity.
Qed.

Lemma stmt_head_ok : forall stmt, nlen stmt < 2 ^ 64 -> emitsh (stmt_head stmt) (12 :: plen 1 stmt).
Proof.
  intros stmt Hs p. unfold stmt_head. cbv zeta. set (x := nlen stmt) in *. hdrs.
  change [0; 0; 0; 0; SQL_STMT_EXECUTE; 10; b80 x; b80 (N.shiftr x 7); b80 (N.shiftr x 14); b80 (N.shiftr x 21); b80 (N.shiftr x 28);
              b80 (N.shiftr x 35); b80 (N.shiftr x 42); b80 (N.shiftr x 49); b80 (N.shiftr x 56); 1]
    with ([0; 0; 0; 0; 12; 10] ++ chain64w x).
  destruct (append_spec p ([0; 0; 0; 0; 12; 10] ++ chain64w x)) as [sp0 ->]. rewrite app_assoc.
  match goal with |- context [mask_truncate (mk (?l ++ chain64w x) ?s) ?n] =>
    destruct (mask_truncate_agree (chain64w x) l x s n Hs (agree64w x Hs)) as [sp1 ->] end.
  { unfold len; cbn [data]. rewrite !app_length. change (length (chain64w x)) with 10%nat. lia. }
  cbn [bind]. destruct (append_spec (mk ((data p ++ [0; 0; 0; 0; 12; 10]) ++ uvarint x) sp1) stmt) as [sp2 ->].
  exists [0; 0; 0; 0], sp2. split; [reflexivity|]. f_equal. f_equal. cbn [data]. unfold plen. fold x.
  rewrite <- !app_assoc. reflexivity.
Qed.

Definition execute_head (id : N) (p : slice) : res slice :=
  let p := append p [0; 0; 0; 0; PREPARE_EXECUTE; hdr tagExecuteStmtId wireVarint;
              b80 id; b80 (N.shiftr id 7); b80 (N.shiftr id 14); b80 (N.shiftr id 21); byte (N.shiftr id 28)] in
  mask_truncate p (len p - 5 + size_varint id).
Lemma execute_eq : forall p id args, msg_execute p id args =
  (do q <- execute_head id p; do (q, e) <- append_args tagExecuteArgs args q;
   match e with Some e => Ok (q, Some e) | None => okm (patch_length q (len p)) end).
Proof. reflexivity. Qed.

Lemma execute_head_ok : forall id, id < 2 ^ 32 -> emitsh (execute_head id) (41 :: pvar 1 id).
Proof.
  intros id Hi p. unfold execute_head. cbv zeta. hdrs.
  change [0; 0; 0; 0; PREPARE_EXECUTE; 8; b80 id; b80 (N.shiftr id 7); b80 (N.shiftr id 14); b80 (N.shiftr id 21); byte (N.shiftr id 28)]
    with ([0; 0; 0; 0; 41; 8] ++ chain32 id).
  destruct (append_spec p ([0; 0; 0; 0; 41; 8] ++ chain32 id)) as [sp0 ->]. rewrite app_assoc.
  match goal with |- context [mask_truncate (mk (?l ++ chain32 id) ?s) ?n] =>
    destruct (mask_truncate_agree (chain32 id) l id s n ltac:(lia) (agree32 id Hi)) as [sp1 ->] end.
  { unfold len; cbn [data]. rewrite !app_length. change (length (chain32 id)) with 5%nat. lia. }
  exists [0; 0; 0; 0], sp1. split; [reflexivity|]. f_equal. f_equal. rewrite <- !app_assoc. reflexivity.
Qed.

Lemma deallocate_ok : forall id, id < 2 ^ 32 ->
  emits (fun p => msg_deallocate p id) (lebytes 4 (1 + nlen (pvar 1 id)) ++ 42 :: pvar 1 id).
Proof.
  intros id Hi p. unfold msg_deallocate. cbv zeta. hdrs.
  pose proof (size_small id ltac:(lia)) as Hs.
  set (n := byte (2 + byte (N.of_nat (size_varint id)))).
  change [n; 0; 0; 0; PREPARE_DEALLOCATE; 8; b80 id; b80 (N.shiftr id 7); b80 (N.shiftr id 14); b80 (N.shiftr id 21); byte (N.shiftr id 28)]
    with ([n; 0; 0; 0; 42; 8] ++ chain32 id).
  destruct (append_spec p ([n; 0; 0; 0; 42; 8] ++ chain32 id)) as [sp0 ->]. rewrite app_assoc.
  match goal with |- context [mask_truncate (mk (?l ++ chain32 id) ?s) ?n] =>
    destruct (mask_truncate_agree (chain32 id) l id s n ltac:(lia) (agree32 id Hi)) as [sp1 ->] end.
  { unfold len; cbn [data]. rewrite !app_length. change (length (chain32 id)) with 5%nat. lia. }
  exists sp1. f_equal. f_equal. rewrite <- !app_assoc. f_equal.
  unfold n. rewrite (byte_id (N.of_nat (size_varint id))), byte_id by lia.
  unfold pvar. rewrite nlen_cons, nlen_uvarint by lia.
  replace (1 + (1 + N.of_nat (size_varint id))) with (2 + N.of_nat (size_varint id)) by lia.
  set (y := N.of_nat (size_varint id)) in *. clearbody y. clear - Hs.
  cbn [app lebytes]. rewrite (N.mod_small (2 + y)), (N.div_small (2 + y)) by lia. reflexivity.
Qed.

(* ---- headers of the CRUD messages ---- *)

Definition delete_head (name : bytes) (p : slice) : res slice :=
  let n := length name in
  let n1 := (1 + sizev n + n)%nat in
  let b := len p in
  let p := for_append p (4 + 1 + 1 + sizev n1 + n1) in
  do (p, k) <- put_uvarint p (b + 6) (N.of_nat n1);
  let i := (b + (6 + k))%nat in
  do p <- put p (b + 4) [CRUD_DELETE];
  do p <- put p (b + 5) [hdr tagDeleteCollection wireBytes];
  do p <- put p i [hdr tagCollectionName wireBytes];
  let i := (i + 1)%nat in
  do (p, k) <- put_uvarint p i (N.of_nat n);
  let i := (i + k)%nat in
  copy_at p i name.
Lemma delete_eq : forall p name criteria, msg_delete p name criteria =
  (do q <- delete_head name p;
   do (q, e) <- match criteria with None => Ok (q, None) | Some f => run_fun f q tagDeleteCriteria end;
   do q <- patch_length q (len p); Ok (q, e)).
Proof.
  intros p name criteria. unfold msg_delete, delete_head. cbv zeta.
  destruct (put_uvarint _ _ _) as [[q k]|]; [|reflexivity]. cbn [bind].
  do 3 (destruct (put _ _ _) as [?q|]; [|reflexivity]; cbn [bind]).
  destruct (put_uvarint _ _ _) as [[q3 k3]|]; [|reflexivity]. cbn [bind]. reflexivity.
Qed.

Lemma delete_head_ok : forall name, nlen name < 2 ^ 62 -> emitsh (delete_head name) (20 :: plen 1 (plen 1 name)).
Proof.
  intros name Hs p. unfold delete_head. cbv zeta.
  pose proof (sizev_bounds (length name) ltac:(unfold nlen in *; lia)) as Hn.
  remember (1 + sizev (length name) + length name)%nat as n1 eqn:En1.
  assert (H1 : N.of_nat n1 < 2 ^ 63) by (unfold nlen in *; lia).
  pose proof (sizev_bounds n1 ltac:(lia)) as Hn1.
  grow p (4 + 1 + 1 + sizev n1 + n1)%nat [4; 1; 1; sizev n1; 1; sizev (length name); length name]%nat.
  exists c. eexists. hdrs. split; [assumption|].
  wvar 4%nat. wput 2%nat. wput 3%nat. wput 5%nat. wvar 6%nat. wcopy 7%nat.
  f_equal. f_equal. cbn [concat]. f_equal. rewrite ?app_nil_r.
  assert (K0 : length (plen 1 name) = n1) by (rewrite length_plen by lia; subst n1; unfold sizev, nlen; lia).
  rewrite (plen_eq 1 _ _ K0). unfold plen.
  repeat (cbn [app]; rewrite <- ?app_assoc). reflexivity.
Qed.

Definition update_head (name : bytes) (p : slice) : res slice :=
  let n := length name in
  let n1 := (1 + sizev n + n)%nat in
  let b := len p in
  let p := for_append p (4 + 1 + 3 + sizev n1 + n1) in
  do (p, k) <- put_uvarint p (b + 6) (N.of_nat n1);
  let i := (b + (6 + k))%nat in
  do p <- put p (b + 4) [CRUD_UPDATE];
  do p <- put p (b + 5) [hdr tagUpdateCollection wireBytes];
  do p <- put p i [hdr tagCollectionName wireBytes];
  let i := (i + 1)%nat in
  do (p, k) <- put_uvarint p i (N.of_nat n);
  let i := (i + k)%nat in
  let c := Nat.min (len p - i) (length name) in
  do p <- copy_at p i name;
  let i := (i + c)%nat in
  do p <- put p i [hdr tagUpdateDataModel wireVarint];
  let i := (i + 1)%nat in
  put p i [DataModel_TABLE].
Lemma update_eq : forall p name criteria, msg_update p name criteria =
  (do q <- update_head name p; match criteria with None => Ok (q, None) | Some f => run_fun f q tagUpdateCriteria end).
Proof.
  intros p name criteria. unfold msg_update, update_head. cbv zeta.
  destruct (put_uvarint _ _ _) as [[q k]|]; [|reflexivity]. cbn [bind].
  do 3 (destruct (put _ _ _) as [?q|]; [|reflexivity]; cbn [bind]).
  destruct (put_uvarint _ _ _) as [[q3 k3]|]; [|reflexivity]. cbn [bind].
  destruct (copy_at _ _ _) as [q4|]; [|reflexivity]; cbn [bind].
  destruct (put _ _ _) as [q5|]; [|reflexivity]; cbn [bind]. reflexivity.
Qed.

Ltac full name := match goal with |- context [Nat.min (len ?p - ?o) (length name)] =>
    replace (Nat.min (len p - o) (length name)) with (length name)
      by (unfold len; cbn [data concat]; repeat rewrite app_length; cbn [length];
          repeat rewrite uvarint_length by (unfold nlen in *; lia); unfold sizev, nlen in *; lia) end.

Lemma update_head_ok : forall name, nlen name < 2 ^ 62 -> emitsh (update_head name) (19 :: plen 2 (plen 1 name) ++ pvar 3 2).
Proof.
  intros name Hs p. unfold update_head. cbv zeta.
  pose proof (sizev_bounds (length name) ltac:(unfold nlen in *; lia)) as Hn.
  remember (1 + sizev (length name) + length name)%nat as n1 eqn:En1.
  assert (H1 : N.of_nat n1 < 2 ^ 63) by (unfold nlen in *; lia).
  pose proof (sizev_bounds n1 ltac:(lia)) as Hn1.
  grow p (4 + 1 + 3 + sizev n1 + n1)%nat [4; 1; 1; sizev n1; 1; sizev (length name); length name; 1; 1]%nat.
  exists c. eexists. hdrs. split; [assumption|].
  wvar 4%nat. wput 2%nat. wput 3%nat. wput 5%nat. wvar 6%nat. full name. wcopy 7%nat. wput 8%nat. wput 9%nat.
  f_equal. f_equal. cbn [concat]. f_equal. rewrite ?app_nil_r.
  assert (K0 : length (plen 1 name) = n1) by (rewrite length_plen by lia; subst n1; unfold sizev, nlen; lia).
  rewrite (plen_eq 2 _ _ K0). unfold plen, pvar.
  repeat (cbn [app]; rewrite <- ?app_assoc). reflexivity.
Qed.

Definition pcolumns (names : list bytes) : bytes := concat (map (fun n => plen 3 (plen 1 n)) names).

Lemma insert_columns_ok : forall names, Forall (fun name => nlen name < 2 ^ 62) names -> emits (insert_columns names) (pcolumns names).
Proof.
  intros names H. induction H as [|name names Hs H IH]; intros p.
  - exists (spare p). cbn. rewrite app_nil_r. destruct p; reflexivity.
  - cbn [insert_columns]. cbv zeta.
    pose proof (sizev_bounds (length name) ltac:(unfold nlen in *; lia)) as Hn.
    remember (1 + sizev (length name) + length name)%nat as n1 eqn:En1.
    assert (H1 : N.of_nat n1 < 2 ^ 63) by (unfold nlen in *; lia).
    pose proof (sizev_bounds n1 ltac:(lia)) as Hn1.
    grow p (1 + sizev n1 + n1)%nat [1; sizev n1; 1; sizev (length name); length name]%nat.
    hdrs. wput 1%nat. wvar 2%nat. wput 3%nat. wvar 4%nat. wcopy 5%nat.
    match goal with |- context [insert_columns names ?q] => destruct (IH q) as [sp' ->] end.
    exists sp'. f_equal. f_equal. cbn [data concat]. unfold pcolumns. cbn [map concat].
    assert (K0 : length (plen 1 name) = n1) by (rewrite length_plen by lia; subst n1; unfold sizev, nlen; lia).
    rewrite (plen_eq 3 _ _ K0). unfold plen. rewrite ?app_nil_r.
    repeat (cbn [app]; rewrite <- ?app_assoc). reflexivity.
Qed.

Lemma insert_head_ok : forall name cols, nlen name < 2 ^ 62 -> Forall (fun name => nlen name < 2 ^ 62) cols ->
  emitsh (fun p => msg_insert p name cols) (18 :: plen 1 (plen 1 name) ++ pvar 2 2 ++ pcolumns cols).
Proof.
  intros name cols Hs Hc p. unfold msg_insert. cbv zeta.
  pose proof (sizev_bounds (length name) ltac:(unfold nlen in *; lia)) as Hn.
  remember (1 + sizev (length name) + length name)%nat as n1 eqn:En1.
  assert (H1 : N.of_nat n1 < 2 ^ 63) by (unfold nlen in *; lia).
  pose proof (sizev_bounds n1 ltac:(lia)) as Hn1.
  grow p (5 + 3 + sizev n1 + n1)%nat [4; 1; 1; sizev n1; 1; sizev (length name); length name; 1; 1]%nat.
  exists c. hdrs.
  wput 2%nat. wput 3%nat. wvar 4%nat. wput 5%nat. wvar 6%nat. full name. wcopy 7%nat. wput 8%nat. wput 9%nat.
  match goal with |- context [insert_columns cols ?q] => destruct (insert_columns_ok cols Hc q) as [sp' ->] end.
  exists sp'. split; [assumption|]. f_equal. f_equal. cbn [data concat]. rewrite ?app_nil_r.
  assert (K0 : length (plen 1 name) = n1) by (rewrite length_plen by lia; subst n1; unfold sizev, nlen; lia).
  rewrite (plen_eq 1 _ _ K0). unfold plen, pvar.
  repeat (cbn [app]; rewrite <- ?app_assoc). reflexivity.
Qed.

(* ---- Prepare ---- *)

Definition pprepare (id : N) (stmt : bytes) : bytes := pvar 1 id ++ plen 2 (pvar 1 5 ++ plen 6 (plen 1 stmt)).

Lemma prepare_ok : forall id stmt, id < 2 ^ 32 -> nlen stmt < 2 ^ 62 ->
  emits (fun p => msg_prepare p id stmt) (lebytes 4 (1 + nlen (pprepare id stmt)) ++ 40 :: pprepare id stmt).
Proof.
  intros id stmt Hi Hs p. unfold msg_prepare. cbv zeta.
  pose proof (sizev_bounds (length stmt) ltac:(unfold nlen in *; lia)) as Hn.
  remember (1 + sizev (length stmt) + length stmt)%nat as n0 eqn:En0.
  assert (H0 : N.of_nat n0 < 2 ^ 63) by (unfold nlen in *; lia).
  pose proof (sizev_bounds n0 ltac:(lia)) as Hn0.
  remember (3 + sizev n0 + n0)%nat as n1 eqn:En1.
  assert (H1 : N.of_nat n1 < 2 ^ 63) by (unfold nlen in *; lia).
  pose proof (sizev_bounds n1 ltac:(lia)) as Hn1.
  pose proof (size_varint_bounds id ltac:(lia)) as Hid.
  remember (2 + size_varint id + sizev n1 + n1)%nat as n2 eqn:En2.
  assert (L0 : length (plen 1 stmt) = n0) by (rewrite length_plen by lia; subst n0; unfold sizev, nlen; lia).
  assert (L1 : length (pvar 1 5 ++ plen 6 (plen 1 stmt)) = n1).
  { rewrite app_length, length_plen by (unfold nlen; rewrite L0; lia). unfold nlen; rewrite L0.
    change (length (pvar 1 5)) with 2%nat. subst n1; unfold sizev; lia. }
  assert (L2 : length (pprepare id stmt) = n2).
  { unfold pprepare. rewrite app_length, length_plen by (unfold nlen; rewrite L1; lia). unfold nlen; rewrite L1.
    rewrite length_pvar by lia. subst n2; unfold sizev; lia. }
  grow p (4 + 1 + n2)%nat [4; 1; 1; size_varint id; 1; sizev n1; 1; 1; 1; sizev n0; 1; sizev (length stmt); length stmt]%nat.
  hdrs. unfold le32.
  wvar 4%nat. wput 1%nat. wput 2%nat. wput 3%nat. wput 5%nat. wvar 6%nat. wput 7%nat. wput 8%nat. wput 9%nat.
  wvar 10%nat. wput 11%nat. wvar 12%nat. wcopy 13%nat.
  eexists. f_equal. f_equal. cbn [concat]. f_equal. rewrite ?app_nil_r.
  assert (Hl : nlen (pprepare id stmt) = N.of_nat n2) by (unfold nlen; rewrite L2; reflexivity).
  rewrite Hl. replace (1 + N.of_nat n2) with (N.of_nat (1 + n2)) by lia. rewrite <- le32_lebytes. unfold le32. f_equal.
  unfold pprepare. rewrite (plen_eq 2 _ _ L1), (plen_eq 6 _ _ L0). unfold plen, pvar.
  repeat (cbn [app]; rewrite <- ?app_assoc). reflexivity.
Qed.

(* ---- expectation conditions ---- *)

Definition pcond (c : open_condition) : bytes :=
  match c with
  | ONoError b => plen 2 (pvar 1 1 ++ plen 2 [if b then 49 else 48])
  | OFieldExists f => plen 2 (pvar 1 2 ++ plen 2 f)
  end.
Definition cond_small (c : open_condition) : Prop := match c with ONoError _ => True | OFieldExists f => nlen f < 2 ^ 31 end.

Lemma condition_ok : forall c, cond_small c -> emits (append_condition c) (pcond c).
Proof.
  intros [[|]|f] Hc p; cbn [append_condition pcond].
  - hdrs. destruct (append_spec p [18; 5; 8; EXPECT_NO_ERROR; 18; 1; 49]) as [sp ->]. exists sp. reflexivity.
  - hdrs. destruct (append_spec p [18; 5; 8; EXPECT_NO_ERROR; 18; 1; 48]) as [sp ->]. exists sp. reflexivity.
  - cbn [cond_small] in Hc. cbv zeta. hdrs. set (x := nlen f) in *.
    pose proof (size_small x ltac:(lia)) as Hs.
    set (y := 3 + N.of_nat (size_varint x) + x) in *.
    assert (Hy : y < 2 ^ 32) by (unfold y; lia).
    change [18; b80 y; b80 (N.shiftr y 7); b80 (N.shiftr y 14); b80 (N.shiftr y 21); byte (N.shiftr y 28)] with ([18] ++ chain32 y).
    destruct (append_spec p ([18] ++ chain32 y)) as [sp0 ->]. rewrite app_assoc.
    match goal with |- context [mask_truncate (mk (?l ++ chain32 y) ?s) ?n] =>
    destruct (mask_truncate_agree (chain32 y) l y s n ltac:(lia) (agree32 y Hy)) as [sp1 ->] end.
    { unfold len; cbn [data]. rewrite !app_length. change (length (chain32 y)) with 5%nat. lia. }
    cbn [bind].
    change [8; EXPECT_FIELD_EXIST; 18; b80 x; b80 (N.shiftr x 7); b80 (N.shiftr x 14); b80 (N.shiftr x 21); byte (N.shiftr x 28)] with ([8; 2; 18] ++ chain32 x).
    match goal with |- context [append ?q ([8; 2; 18] ++ chain32 x)] => destruct (append_spec q ([8; 2; 18] ++ chain32 x)) as [sp2 ->] end.
    cbn [data]. rewrite app_assoc.
    match goal with |- context [mask_truncate (mk (?l ++ chain32 x) ?s) ?n] =>
      destruct (mask_truncate_agree (chain32 x) l x s n ltac:(lia) (agree32 x ltac:(lia))) as [sp3 ->] end.
    { unfold len; cbn [data]. rewrite !app_length. change (length (chain32 x)) with 5%nat. lia. }
    cbn [bind]. match goal with |- context [append ?q f] => destruct (append_spec q f) as [sp4 ->] end.
    exists sp4. f_equal. f_equal. cbn [data]. unfold plen, pvar.
    rewrite !nlen_app, !nlen_cons, (uvarint_small 2) by lia.
    fold x. rewrite nlen_app, nlen_uvarint by lia. fold x. rewrite nlen_cons, nlen_nil.
    replace (1 + (1 + 0) + (1 + (N.of_nat (size_varint x) + x))) with y by (unfold y; lia).
    repeat (cbn [app]; rewrite <- ?app_assoc). reflexivity.
Qed.

Lemma conditions_ok : forall cs, Forall cond_small cs -> emits (append_conditions cs) (concat (map pcond cs)).
Proof.
  intros cs H. induction H as [|c cs Hc H IH]; intros p.
  - exists (spare p). cbn. rewrite app_nil_r. destruct p; reflexivity.
  - cbn [append_conditions map concat]. destruct (condition_ok c Hc p) as [sp ->]. cbn [bind].
    destruct (IH (mk (data p ++ pcond c) sp)) as [sp' ->]. exists sp'. cbn [data]. rewrite app_assoc. reflexivity.
Qed.

Definition popen (op : N) (cs : list open_condition) : bytes := pvar 1 op ++ concat (map pcond cs).

Lemma expect_open_ok : forall op cs, op < 128 -> Forall cond_small cs ->
  emits (fun p => expect_open p op cs) (lebytes 4 (1 + nlen (popen op cs)) ++ 24 :: popen op cs).
Proof.
  intros op cs Ho Hc p. unfold expect_open. cbv zeta. hdrs. rewrite byte_id by lia.
  destruct (append_spec p [0; 0; 0; 0; EXPECT_OPEN; 8; op]) as [sp ->].
  destruct (conditions_ok cs Hc (mk (data p ++ [0; 0; 0; 0; EXPECT_OPEN; 8; op]) sp)) as [sp' ->]. cbn [bind data].
  replace ((data p ++ [0; 0; 0; 0; EXPECT_OPEN; 8; op]) ++ concat (map pcond cs)) with (data p ++ [0; 0; 0; 0] ++ 24 :: popen op cs).
  2: { unfold popen, pvar. rewrite uvarint_small by assumption. repeat (cbn [app]; rewrite <- ?app_assoc). reflexivity. }
  rewrite patch_ok by reflexivity. exists sp'. rewrite nlen_cons. reflexivity.
Qed.

Lemma expect_close_ok : emits (fun p => Ok (expect_close p)) (lebytes 4 (1 + nlen []) ++ [25]).
Proof.
  intros p. unfold expect_close. destruct (append_spec p [1; 0; 0; 0; EXPECT_CLOSE]) as [sp ->]. exists sp. reflexivity.
Qed.

(* ---- rows ---- *)

Definition row_fix (p : slice) (i : nat) : res slice :=
  let n := (len p - i)%nat in
  do p <- (if (sizev n =? 2)%nat then Ok p else
             do h <- reslice p (i + sizev n - 2);
             do t <- from p i;
             Ok (append h t));
  do (p, _) <- put_uvarint p (i - 2) (N.of_nat n);
  Ok p.

Lemma insert_row_eq : forall p row, append_insert_row p row =
  (let q := append p [34; 0; 0] in
   do (r, e) <- each (fun v p => append_expr v p tagTypedRowField) EColumnErr 0 row q;
   match e with Some e => Ok (r, Some e) | None => okm (row_fix r (len q)) end).
Proof.
  intros p row. unfold append_insert_row, row_fix. cbv zeta. hdrs.
  destruct (each _ _ _ _ _) as [[r [e|]]|]; [reflexivity| |reflexivity]. cbn [bind].
  match goal with |- context [if ?c then Ok ?a else ?b] => destruct (if c then Ok a else b) as [q|]; [|reflexivity] end.
  cbn [bind]. destruct (put_uvarint _ _ _) as [[q2 k]|]; reflexivity.
Qed.

Lemma row_fix_ok : forall a bs sp i, nlen bs < 2 ^ 62 -> i = (length a + 3)%nat ->
  exists sp', row_fix (mk (a ++ [34; 0; 0] ++ bs) sp) i = Ok (mk (a ++ plen 4 bs) sp').
Proof.
  intros a bs sp i Hb ->. unfold row_fix. cbv zeta.
  assert (Hl : len (mk (a ++ [34; 0; 0] ++ bs) sp) = (length a + 3 + length bs)%nat)
    by (unfold len; cbn [data]; rewrite !app_length; cbn [length]; lia).
  rewrite Hl. replace (length a + 3 + length bs - (length a + 3))%nat with (length bs) by lia. clear Hl.
  pose proof (size_varint_bounds (nlen bs) ltac:(lia)) as Hn. pose proof (uvarint_length (nlen bs) ltac:(lia)) as Hu.
  unfold sizev. fold (nlen bs).
  (* the shape before the length is written *)
  assert (Hs : exists old sp', length old = size_varint (nlen bs) /\
    (if (size_varint (nlen bs) =? 2)%nat then Ok (mk (a ++ [34; 0; 0] ++ bs) sp) else
       do h <- reslice (mk (a ++ [34; 0; 0] ++ bs) sp) (length a + 3 + size_varint (nlen bs) - 2);
       do t <- from (mk (a ++ [34; 0; 0] ++ bs) sp) (length a + 3);
       Ok (append h t)) = Ok (mk ((a ++ [34]) ++ old ++ bs) sp')).
  { destruct (Nat.eqb_spec (size_varint (nlen bs)) 2) as [H2|H2].
    - exists [0; 0], sp. split; [symmetry; assumption|]. rewrite <- app_assoc. reflexivity.
    - assert (Hf : from (mk (a ++ [34; 0; 0] ++ bs) sp) (length a + 3) = Ok bs).
      { unfold from, len. cbn [data]. rewrite app_assoc.
        replace (length a + 3)%nat with (length (a ++ [34; 0; 0])) by (rewrite app_length; reflexivity).
        rewrite (app_length (a ++ [34; 0; 0]) bs). destruct (Nat.leb_spec (length (a ++ [34; 0; 0])) (length (a ++ [34; 0; 0]) + length bs)); [|lia].
        rewrite skipn_app, Nat.sub_diag, skipn_all. reflexivity. }
      rewrite Hf. destruct (Nat.eq_dec (size_varint (nlen bs)) 1) as [H1|H1].
      + exists [0]. rewrite H1.
        replace (a ++ [34; 0; 0] ++ bs) with ((a ++ [34; 0]) ++ 0 :: bs) by (rewrite <- app_assoc; reflexivity).
        rewrite reslice_app by (rewrite app_length; cbn [length]; lia). cbn [bind].
        match goal with |- context [append ?h bs] => destruct (append_spec h bs) as [sp' ->] end.
        exists sp'. split; [reflexivity|]. cbn [data]. rewrite <- !app_assoc. reflexivity.
      + assert (Hlen : (size_varint (nlen bs) - 2 <= length bs)%nat).
        { assert (size_varint (nlen bs) <= 10)%nat by lia. destruct (Nat.le_gt_cases 10 (length bs)); [lia|].
          exfalso. apply H1. unfold nlen. rewrite <- (uvarint_length (N.of_nat (length bs))) by lia. rewrite uvarint_small by lia. reflexivity. }
        exists ([0; 0] ++ firstn (size_varint (nlen bs) - 2) bs).
        replace (a ++ [34; 0; 0] ++ bs) with ((a ++ [34; 0; 0] ++ firstn (size_varint (nlen bs) - 2) bs) ++ skipn (size_varint (nlen bs) - 2) bs)
          by (rewrite <- !app_assoc, firstn_skipn; reflexivity).
        rewrite reslice_app by (rewrite !app_length, firstn_length; cbn [length]; lia). cbn [bind].
        match goal with |- context [append ?h bs] => destruct (append_spec h bs) as [sp' ->] end.
        exists sp'. split; [rewrite app_length, firstn_length; cbn [length]; lia|]. cbn [data]. rewrite <- !app_assoc. reflexivity. }
  destruct Hs as (old & sp' & Ho & ->). cbn [bind]. exists sp'.
  erewrite (put_uvarint_chunk (a ++ [34]) old bs sp' _ (nlen bs)); [|rewrite app_length; cbn [length]; lia|lia|lia].
  cbn [bind]. f_equal. f_equal. unfold plen. rewrite <- !app_assoc. reflexivity.
Qed.

Lemma row_fix_len : forall p i q, row_fix p i = Ok q -> (3 <= i <= len p)%nat -> (len p <= 1 + len q)%nat.
Proof.
  intros p i q H Hi. unfold row_fix in H. cbv zeta in H.
  match type of H with bind ?m _ = _ => destruct m as [r|] eqn:Hr; [|discriminate H] end. cbn [bind] in H.
  steps H. injection H as <-. destruct (sizev (len p - i) =? 2)%nat eqn:Hs.
  - injection Hr as <-. lia.
  - destruct (reslice p _) as [h|] eqn:Hh; [|discriminate]. cbn [bind] in Hr.
    unfold from in Hr. destruct (Nat.leb_spec i (len p)); [|discriminate]. cbn [bind] in Hr. injection Hr as <-.
    rewrite len_append in Hp. rewrite skipn_length in Hp. fold (len p) in Hp.
    unfold reslice in Hh. destruct (Nat.leb_spec (i + sizev (len p - i) - 2) (cap p)) as [Hc|]; [|discriminate].
    injection Hh as <-. unfold len at 2 in Hp. cbn [data] in Hp. rewrite firstn_length, app_length in Hp. unfold cap in Hc.
    assert (Hz : (1 <= sizev (len p - i))%nat) by (unfold sizev, size_varint; clear; lia). lia.
Qed.

End WithEnv.
