(* C87: builders used from inside one of their own calls. *)
From Coq Require Import String List NArith ZArith Arith Bool Lia ZifyN ZifyNat ZifyBool.
From Coq Require Import List.
From Verif Require Import Base GoSlice SliceProofs Varint SpecWire SpecMsg WireProofs Text Values ExprModel MsgModel Builder
  SpecValue SpecProg SpecUnit SpecReuse Pure HeadProofs MsgProofs BuilderProofs UnitProofs ReuseProofs Reenter.
From Verif Require ThmBuilder.
Import ListNotations.
Open Scope N_scope.
Open Scope list_scope.
Local Notation length := List.length.

Lemma delete_head_cap : forall name p q, delete_head name p = Ok q -> (len q <= cap p)%nat -> cap q = cap p.
Proof.
  intros name p q H Hl. unfold delete_head in H. cbv zeta in H. match type of H with context [for_append p ?n] => set (k := n) in * end.
  pose proof (cap_for_append p k) as Hc. pose proof (len_for_append p k) as Hn. set (p0 := for_append p k) in *. clearbody p0.
  destruct (put_uvarint p0 _ _) as [[p1 k1]|] eqn:H1; [|discriminate]. cbn [bind] in H.
  assert (U : forall a o x c j, put_uvarint a o x = Ok (c, j) -> len c = len a /\ cap c = cap a).
  { intros a o x c j Hu. unfold put_uvarint in Hu. destruct (o <=? len a)%nat; [|discriminate].
    destruct (x <? 128); destruct (put a o _) as [c'|] eqn:Hp; try discriminate; cbn [bind] in Hu; injection Hu as <- <-; destruct (put_shape _ _ _ _ Hp) as (_ & A & B); auto. }
  destruct (U _ _ _ _ _ H1) as [L1 C1]. do 3 (destruct (put _ _ _) as [?q|] eqn:?P in H; [|discriminate]; cbn [bind] in H).
  destruct (put_uvarint _ _ _) as [[p5 k5]|] eqn:H5 in H; [|discriminate]. cbn [bind] in H.
  destruct (U _ _ _ _ _ H5) as [L5 C5]. destruct (copy_shape _ _ _ _ H) as [L6 C6].
  repeat match goal with P : put _ _ _ = Ok _ |- _ => apply put_shape in P; destruct P as (_ & ? & ?) end.
  destruct (Nat.leb_spec (len p + k) (cap p)); lia.
Qed.

(* C87 fails whenever there is room. Take a Delete whose criteria runs any program on the builder, and then appends an expression. If the program's messages ws fit
   the builder's array, and are not shorter than what Delete writes before its criteria (as much as a Delete without criteria), then Delete succeeds, and has appended one message with the
   type and the content of the program's first message, as far as they go, followed by the expression. Neither the Delete nor the program is there. *)
Theorem C87_garbled_whenever_it_fits_refuted : forall (E : Env) dis b name b0 pr f x b1 out,
  disabled b = false -> berr b = None -> nlen name < 2 ^ 62 -> prog_ok word32 pr -> prog_in_place pr -> appends_expr f x ->
  exec_call dis (CDelete name None) b = Ok b0 ->
  run pr [b] = Ok ([b1], out) -> berr b1 = None -> nlen (data (buf b1)) < 2 ^ 32 -> cap (buf b1) = cap (buf b) -> (len (buf b0) <= len (buf b1))%nat ->
  exists b' ws ms ids e,
    exec_call dis (CDelete name (Some (EUserFn (reenter b pr f)))) b = Ok b' /\ berr b' = None /\ disabled b' = false /\
    dstream ws = Some ms /\ prog_msgs pr ms ids out /\ (forall p, exists sp, f p 3 = Ok (mk (data p ++ e) sp, None)) /\
    data (buf b') = data (buf b) ++ lebytes 4 (N.of_nat (len (buf b0) - len (buf b) - 4) + nlen e) ++
      firstn (len (buf b0) - len (buf b) - 4) (skipn 4 ws) ++ e.
Proof.
  intros E dis b name b0 pr f x b1 out Hd He Hname Hok Hip Hf H0 Hr He1 Hn1 Hc1 Hl.
  destruct (Hf 3 ltac:(lia)) as (e & payload & _ & _ & _ & _ & Hfp).
  unfold exec_call, guarded in *. rewrite Hd, He in *. rewrite delete_eq in *.
  destruct (delete_head_ok name Hname (buf b)) as (h & sp & Hh & Hq). rewrite Hq in *. cbn [bind] in *.
  set (hd := 20 :: plen 1 (plen 1 name)) in *. set (q := mk (data (buf b) ++ h ++ hd) sp) in *.
  assert (Lq : len q = (len (buf b) + 4 + length hd)%nat) by (unfold len, q; cbn [data]; rewrite !app_length; lia).
  assert (L0 : len (buf b0) = len q).
  { destruct (patch_length q (len (buf b))) as [q'|] eqn:Hp; [|discriminate]. cbn [bind] in H0. injection H0 as <-. exact (patch_len _ _ _ Hp). }
  assert (Hcap : cap q = cap (buf b)).
  { apply (delete_head_cap name); [exact Hq|]. pose proof (len_le_cap (buf b1)). lia. }
  cbn [run_fun]. unfold reenter at 1. rewrite Hcap, Nat.eqb_refl. rewrite Hd, He.
  set (d := mkb (view (len (buf b)) q) None false) in *.
  assert (Dd : data (buf d) = data (buf b)).
  { unfold d, view, q, len. cbn [buf data spare]. rewrite <- !app_assoc. rewrite firstn_app, Nat.sub_diag, firstn_O, app_nil_r, firstn_all. reflexivity. }
  assert (Ld : len (buf d) = len (buf b)) by (unfold len; rewrite Dd; reflexivity).
  assert (Cd : cap (buf d) = cap (buf b)).
  { rewrite <- Hcap. unfold d, view, cap. cbn [buf data spare]. rewrite <- !app_length, firstn_skipn. reflexivity. }
  destruct (run_after pr b d [] [] b1 out Hip (Forall_nil _) (Forall_nil _) eq_refl (conj Hd He) (conj eq_refl eq_refl) Ld Hr He1) as (Lb & _ & Hafter).
  destruct (Hafter ltac:(left; lia)) as (d1 & R1 & [D1 E1] & L1 & C1). fold d. rewrite R1. cbn [bind].
  destruct (run_step pr d [] _ _ Hok (Forall_nil _) eq_refl R1) as (_ & d2 & Hd2 & _ & _ & Sg). injection Hd2 as <-.
  destruct (Sg eq_refl E1) as [_ Hg]. destruct (Hg ltac:(unfold nlen, len in *; lia)) as (ws & Hw & ms & ids & Hm & Hpm & _).
  rewrite Dd in Hw. assert (Hws : (len q <= len (buf b) + length ws)%nat).
  { unfold len in *. rewrite Hw, app_length in L1. lia. }
  replace (cap (buf d1) =? cap (buf b))%nat with true by (symmetry; apply Nat.eqb_eq; lia).
  destruct (Hfp (view (len q) (buf d1))) as [sp2 Hu]. unfold tagDeleteCriteria. rewrite Hu. cbn [bind].
  assert (Dv : data (view (len q) (buf d1)) = data (buf b) ++ firstn 4 ws ++ firstn (length hd) (skipn 4 ws)).
  { unfold view. cbn [data]. rewrite Hw, <- !app_assoc, Lq. replace (len (buf b) + 4 + length hd)%nat with (length (data (buf b)) + (4 + length hd))%nat by (unfold len; lia).
    rewrite firstn_app_2. f_equal. rewrite firstn_app. replace (4 + length hd - length ws)%nat with O by lia. rewrite firstn_O, app_nil_r.
    rewrite <- (firstn_skipn 4 ws) at 1. rewrite firstn_app, firstn_firstn, firstn_length. replace (Nat.min 4 (length ws)) with 4%nat by lia. replace (Nat.min (4 + length hd) 4) with 4%nat by lia.
    replace (4 + length hd - 4)%nat with (length hd) by lia. reflexivity. }
  rewrite Dv. rewrite <- !app_assoc. rewrite patch_ok; [|reflexivity|rewrite firstn_length; lia]. cbn [bind].
  eexists. exists ws, ms, ids, e. split; [reflexivity|]. split; [reflexivity|]. split; [reflexivity|]. split; [exact (says_dstream _ _ Hm)|]. split; [exact Hpm|]. split; [exact Hfp|].
  cbn [buf data]. replace (len (buf b0) - len (buf b) - 4)%nat with (length hd) by lia. f_equal. f_equal.
  rewrite (nlen_app (firstn (length hd) (skipn 4 ws)) e). f_equal. f_equal. unfold nlen. rewrite firstn_length, skipn_length. lia.
Qed.

(* C87: if Delete had to move to a larger array, it is intact, but the program is lost all the same, with its error, if it has one. *)
Theorem C87_lost_otherwise_refuted : forall (E : Env) dis b name q pr f st out, disabled b = false -> berr b = None ->
  delete_head name (buf b) = Ok q -> cap q <> cap (buf b) -> run pr [b] = Ok (st, out) ->
  exec_call dis (CDelete name (Some (EUserFn (reenter b pr f)))) b = exec_call dis (CDelete name (Some (EUserFn f))) b.
Proof.
  intros E dis b name q pr f st out Hd He Hq Hc Hr. unfold exec_call, guarded. rewrite Hd, He, !delete_eq, Hq. cbn [bind run_fun]. unfold reenter.
  destruct (Nat.eqb_spec (cap q) (cap (buf b))); [contradiction|]. rewrite Hr. reflexivity.
Qed.

(* ---- what does hold: inside of the callbacks of InsertF and UpdateF the builder is disabled ---- *)

Definition uses (pr : prog) : Prop := match pr with Ret _ _ => False | _ => True end.
Lemma reenter_disabled : forall (E : Env) b pr f p tag, disabled b = true -> uses pr -> reenter b pr f p tag = Panic.
Proof.
  intros E b pr f p tag Hd Hu. assert (R : forall b, disabled b = true -> run pr [b] = Panic \/ exists o, nth_error [b] o = None /\ run pr [b] = Panic).
  { clear - Hu. intros b Hd. left. destruct pr as [|lvl c next|lvl name cols row next|lvl k body next]; [destruct Hu| | |]; cbn [run]; (destruct lvl as [|lvl]; [cbn [nth_error]|cbn [nth_error]; destruct lvl; reflexivity]);
      [rewrite exec_disabled by exact Hd|rewrite insert_row_disabled by exact Hd|rewrite block_disabled by exact Hd]; reflexivity. }
  unfold reenter. destruct (_ =? _)%nat.
  - destruct (R (mkb (view (len (buf b)) p) (berr b) (disabled b)) Hd) as [->|(o & _ & ->)]; reflexivity.
  - destruct (R b Hd) as [->|(o & _ & ->)]; reflexivity.
Qed.

Lemma each_dies : forall A (f : A -> slice -> res (slice * option err)) w before x after n p, (forall p, f x p = Panic) ->
  forall q, each f w n (before ++ x :: after) p <> Ok (q, None).
Proof.
  intros A f w before x after. induction before as [|y before IH]; intros n p Hx q; cbn [app each].
  - rewrite Hx. discriminate.
  - destruct (f y p) as [[p' [e|]]|]; cbn [bind]; try discriminate. apply IH. exact Hx.
Qed.

(* C87: a row that contains a value whose encoder uses the builder is never sent by InsertF: it panics there, unless a value before it is refused. *)
Theorem C87_detected_in_rows : forall (E : Env) dis b name cols ops1 ops2 before after pr f cberr busy b', uses pr -> disabled busy = true -> disabled b = false -> berr b = None ->
  exec_call dis (CInsertF name cols (ops1 ++ IRow (before ++ VFunc (Some (EUserFn (reenter busy pr f))) :: after) :: ops2) cberr) b = Ok b' -> berr b' <> None.
Proof.
  intros E dis b name cols ops1 ops2 before after pr f cberr busy b' Hu Hb Hd He H He'. unfold exec_call, guarded in H. rewrite Hd, He in H. unfold do_insert_f in H.
  destruct (msg_insert (buf b) name cols) as [p|]; [|discriminate]. cbn [bind] in H.
  assert (G : forall ops p e q, run_iops dis (ops ++ IRow (before ++ VFunc (Some (EUserFn (reenter busy pr f))) :: after) :: ops2) p e <> Ok (q, None)).
  { clear - Hu Hb. assert (S : forall ops p e q, run_iops dis ops p (Some e) <> Ok (q, None)).
    { induction ops as [|o ops IH]; intros p e q; cbn [run_iops]; [discriminate|]. destruct o; [apply IH|]. destruct (use_outer _ _); [apply IH|discriminate]. }
    induction ops as [|o ops IH]; intros p e q; cbn [app run_iops].
    - destruct e as [e|]; [apply S|]. unfold append_insert_row. cbv zeta.
      match goal with |- context [each ?F ?W ?n ?l ?p0] => destruct (each F W n l p0) as [[p1 [e1|]]|] eqn:Hx end; cbn [bind]; try discriminate; [apply S|].
      exfalso. revert Hx. apply each_dies. intros p2. cbn [append_expr run_fun]. apply reenter_disabled; assumption.
    - destruct o.
      + destruct e as [e|]; [apply IH|]. destruct (append_insert_row p row) as [[p1 e1]|]; cbn [bind]; [apply IH|discriminate].
      + destruct (use_outer _ _); cbn [bind]; [apply IH|discriminate]. }
  destruct (run_iops _ _ p None) as [[q [e|]]|] eqn:Hr; [| |discriminate]; cbn [bind] in H.
  - destruct (patch_length q _); [|discriminate]. cbn [bind] in H. injection H as <-. discriminate.
  - exact (G _ _ _ _ Hr).
Qed.

(* C87: the same for a value given to Set inside of UpdateF. *)
Theorem C87_detected_in_sets : forall (E : Env) dis b name cr ops1 ops2 column pr f cberr busy b', uses pr -> disabled busy = true -> disabled b = false -> berr b = None ->
  exec_call dis (CUpdateF name cr (ops1 ++ USet column (VFunc (Some (EUserFn (reenter busy pr f)))) :: ops2) cberr) b = Ok b' -> berr b' <> None.
Proof.
  intros E dis b name cr ops1 ops2 column pr f cberr busy b' Hu Hb Hd He H He'. unfold exec_call, guarded in H. rewrite Hd, He in H. unfold do_update_f in H.
  destruct (msg_update (buf b) name cr) as [[p e0]|]; [|discriminate]. cbn [bind] in H.
  assert (G : forall ops p e q, run_uops dis (ops ++ USet column (VFunc (Some (EUserFn (reenter busy pr f)))) :: ops2) p e <> Ok (q, None)).
  { clear - Hu Hb. assert (S : forall ops p e q, run_uops dis ops p (Some e) <> Ok (q, None)).
    { induction ops as [|o ops IH]; intros p e q; cbn [run_uops]; [discriminate|]. destruct o; [apply IH|]. destruct (use_outer _ _); [apply IH|discriminate]. }
    induction ops as [|o ops IH]; intros p e q; cbn [app run_uops].
    - destruct e as [e|]; [apply S|]. unfold append_update_set. cbv zeta. cbn [append_expr run_fun]. rewrite reenter_disabled by assumption. cbn [bind]. discriminate.
    - destruct o.
      + destruct e as [e|]; [apply IH|]. destruct (append_update_set p name value) as [[p1 e1]|]; cbn [bind]; [apply IH|discriminate].
      + destruct (use_outer _ _); cbn [bind]; [apply IH|discriminate]. }
  destruct (run_uops _ _ p e0) as [[q [e|]]|] eqn:Hr; [| |discriminate]; cbn [bind] in H.
  - destruct (patch_length q _); [|discriminate]. cbn [bind] in H. injection H as <-. discriminate.
  - exact (G _ _ _ _ Hr).
Qed.

(* ---- the hypotheses can be met ---- *)

#[local] Existing Instance ThmBuilder.plain.

(* An encoder of the literal TRUE, written by a user, and one that first notes something in another table. *)
Definition true_bytes : bytes := [8; 2; 34; 4; 8; 7; 64; 1].
Definition say_true : ufun := fun p tag => Ok (append p (plen tag true_bytes), None).
Definition nested := one_call (CStmtExecute (s2b "INSERT INTO audit VALUES (1)") []).
Definition pipe := new_pipe 256.
Example say_true_appends : appends_expr say_true (XLiteral (SBool true)).
Proof.
  intros tag Ht. exists (plen tag true_bytes), true_bytes. pose proof (reads_plen tag true_bytes ltac:(lia) ltac:(reflexivity) ltac:(repeat constructor)) as [H1 H2].
  split; [exact H1|]. split; [eapply N.le_lt_trans; [apply nlen_plen; reflexivity|reflexivity]|]. split; [exact H2|]. split; [vm_compute; reflexivity|].
  intros p. exists (spare (append p (plen tag true_bytes))). unfold say_true. rewrite <- data_append. destruct (append p _). reflexivity.
Qed.
Example garbled_meets : exists b0 b1 b',
  disabled pipe = false /\ berr pipe = None /\ prog_ok word32 nested /\ prog_in_place nested /\
  exec_call [] (CDelete (s2b "t") None) pipe = Ok b0 /\ run nested [pipe] = Ok ([b1], []) /\ berr b1 = None /\ nlen (data (buf b1)) < 2 ^ 32 /\
  cap (buf b1) = cap (buf pipe) /\ (len (buf b0) <= len (buf b1))%nat /\
  (* what is sent: not a Delete, but a statement of 28 bytes of which there are 3 *)
  exec_call [] (CDelete (s2b "t") (Some (EUserFn (reenter pipe nested say_true)))) pipe = Ok b' /\ berr b' = None /\
  dframes (data (buf b')) = Some [(12, 10 :: 28 :: s2b "INS" ++ plen 3 true_bytes)] /\ dstream (data (buf b')) = None.
Proof.
  do 3 eexists. split; [reflexivity|]. split; [reflexivity|]. split; [unfold nested, one_call; ThmBuilder.ok|]. split; [repeat constructor|].
  split; [vm_compute; reflexivity|]. split; [vm_compute; reflexivity|]. split; [reflexivity|]. split; [vm_compute; reflexivity|]. split; [vm_compute; reflexivity|].
  split; [vm_compute; lia|]. split; [vm_compute; reflexivity|]. split; [reflexivity|]. split; vm_compute; reflexivity.
Qed.
(* In a pipe that is too small for the Delete, the Delete is intact and the statement is gone. *)
Example lost_meets : exists q st out b', delete_head (s2b "t") (buf (new_pipe 0)) = Ok q /\ cap q <> cap (buf (new_pipe 0)) /\ run nested [new_pipe 0] = Ok (st, out) /\
  exec_call [] (CDelete (s2b "t") (Some (EUserFn (reenter (new_pipe 0) nested say_true)))) (new_pipe 0) = Ok b' /\ berr b' = None /\
  dstream (data (buf b')) = Some [MDelete (s2b "t") None (Some (XLiteral (SBool true)))].
Proof.
  do 4 eexists. split; [vm_compute; reflexivity|]. split; [vm_compute; discriminate|]. split; [vm_compute; reflexivity|].
  split; [vm_compute; reflexivity|]. split; [reflexivity|]. vm_compute. reflexivity.
Qed.
(* A value refused before it hides the one that uses the builder; else there is a panic. *)
Example rows_meet :
  let v := VFunc (Some (EUserFn (reenter (mkb (buf pipe) None true) nested say_true))) in
  (exists b', exec_call [] (CInsertF (s2b "t") [s2b "a"] ([] ++ IRow ([VOther] ++ v :: []) :: []) None) pipe = Ok b' /\ berr b' <> None) /\
  exec_call [] (CInsertF (s2b "t") [s2b "a"] [IRow [VInt 1%Z]; IRow [v]] None) pipe = Panic /\
  (exists b', exec_call [] (CUpdateF (s2b "t") None ([USet (s2b "a") VOther] ++ USet (s2b "b") v :: []) None) pipe = Ok b' /\ berr b' <> None) /\
  exec_call [] (CUpdateF (s2b "t") None [USet (s2b "b") v] None) pipe = Panic.
Proof.
  split; [eexists; split; [vm_compute; reflexivity|discriminate]|]. split; [vm_compute; reflexivity|]. split; [eexists; split; [vm_compute; reflexivity|discriminate]|]. vm_compute. reflexivity.
Qed.

Print Assumptions C87_garbled_whenever_it_fits_refuted.
Print Assumptions C87_lost_otherwise_refuted.
Print Assumptions C87_detected_in_rows.
Print Assumptions C87_detected_in_sets.
