(* C87: builders used from inside one of their own calls, when the program run there may also hold values that are encoded wrongly. *)
From Coq Require Import String List NArith ZArith Arith Bool Lia ZifyN ZifyNat ZifyBool.
From Coq Require Import List.
From Verif Require Import Base GoSlice SliceProofs Varint SpecWire SpecMsg WireProofs Text Values ExprModel MsgModel Builder
  SpecValue SpecProg SpecUnit SpecReuse Pure HeadProofs MsgProofs BuilderProofs UnitProofs ReuseProofs Reenter ThmReenter SpecTyped TypedProofs TypedRunProofs TypedFrameProofs.
From Verif Require ThmValues ThmBuilder ThmDefects ThmTyped.
Import ListNotations.
Open Scope N_scope.
Open Scope list_scope.
Local Notation length := List.length.

(* C87 fails whenever there is room, whatever the values: Delete, with a criteria that runs any program on the builder and then appends an expression, succeeds,
   and has appended one frame with the type and the content of the program's first frame, as far as they go, followed by the expression. *)
Theorem C87_garbled_whatever_the_values_refuted : forall (E : Env) dis b name b0 pr f x b1 out,
  disabled b = false -> berr b = None -> nlen name < 2 ^ 62 -> typed_prog word32 pr -> prog_in_place pr -> appends_expr f x ->
  exec_call dis (CDelete name None) b = Ok b0 ->
  run pr [b] = Ok ([b1], out) -> berr b1 = None -> nlen (data (buf b1)) < 2 ^ 32 -> cap (buf b1) = cap (buf b) -> (len (buf b0) <= len (buf b1))%nat ->
  exists b' ws fs ids e,
    exec_call dis (CDelete name (Some (EUserFn (reenter b pr f)))) b = Ok b' /\ berr b' = None /\ disabled b' = false /\
    dframes ws = Some fs /\ prog_frames word32 pr fs ids out /\ (forall p, exists sp, f p 3 = Ok (mk (data p ++ e) sp, None)) /\
    data (buf b') = data (buf b) ++ lebytes 4 (N.of_nat (len (buf b0) - len (buf b) - 4) + nlen e) ++
      firstn (len (buf b0) - len (buf b) - 4) (skipn 4 ws) ++ e.
Proof.
  intros E dis b name b0 pr f x b1 out Hd He Hname Hok Hip Hf H0 Hr He1 Hn1 Hc1 Hl.
  destruct (Hf 3 ltac:(lia)) as (e & payload & _ & _ & _ & _ & Hfp).
  unfold exec_call, guarded in *. rewrite Hd, He in *. rewrite delete_eq in *.
  destruct (delete_head_ok name Hname (buf b)) as (h & sp & Hh & Hq). rewrite Hq in *. cbn [bind] in *.
  set (hd := 20 :: plen 1 (plen 1 name)) in *. set (q := mk (data (buf b) ++ h ++ hd) sp) in *.
  assert (Lq : len q = (len (buf b) + 4 + length hd)%nat) by (unfold len, q; cbn [data]; rewrite !app_length; lia).
  assert (L0 : len (buf b0) = len q).
  { destruct (patch_length q (len (buf b))) as [q'|] eqn:Hp; [|discriminate]. cbn [bind] in H0. injection H0 as <-. exact (patch_len _ _ _ Hp). }
  assert (Hcap : cap q = cap (buf b)).
  { apply (delete_head_cap name); [exact Hq|]. pose proof (len_le_cap (buf b1)). lia. }
  cbn [run_fun]. unfold reenter at 1. rewrite Hcap, Nat.eqb_refl. rewrite Hd, He.
  set (d := mkb (view (len (buf b)) q) None false) in *.
  assert (Dd : data (buf d) = data (buf b)).
  { unfold d, view, q, len. cbn [buf data spare]. rewrite <- !app_assoc. rewrite firstn_app, Nat.sub_diag, firstn_O, app_nil_r, firstn_all. reflexivity. }
  assert (Ld : len (buf d) = len (buf b)) by (unfold len; rewrite Dd; reflexivity).
  assert (Cd : cap (buf d) = cap (buf b)).
  { rewrite <- Hcap. unfold d, view, cap. cbn [buf data spare]. rewrite <- !app_length, firstn_skipn. reflexivity. }
  destruct (run_after pr b d [] [] b1 out Hip (Forall_nil _) (Forall_nil _) eq_refl (conj Hd He) (conj eq_refl eq_refl) Ld Hr He1) as (Lb & _ & Hafter).
  destruct (Hafter ltac:(left; lia)) as (d1 & R1 & [D1 E1] & L1 & C1). fold d. rewrite R1. cbn [bind].
  destruct (frame_step pr d [] _ _ Hok (Forall_nil _) eq_refl R1) as (_ & d2 & Hd2 & _ & _ & Sg). injection Hd2 as <-.
  destruct (Sg eq_refl E1) as [_ Hg]. destruct (Hg ltac:(unfold nlen, len in *; lia)) as (ws & Hw & ms & ids & Hm & Hpm & _).
  rewrite Dd in Hw. assert (Hws : (len q <= len (buf b) + length ws)%nat).
  { unfold len in *. rewrite Hw, app_length in L1. lia. }
  replace (cap (buf d1) =? cap (buf b))%nat with true by (symmetry; apply Nat.eqb_eq; lia).
  destruct (Hfp (view (len q) (buf d1))) as [sp2 Hu]. unfold tagDeleteCriteria. rewrite Hu. cbn [bind].
  assert (Dv : data (view (len q) (buf d1)) = data (buf b) ++ firstn 4 ws ++ firstn (length hd) (skipn 4 ws)).
  { unfold view. cbn [data]. rewrite Hw, <- !app_assoc, Lq. replace (len (buf b) + 4 + length hd)%nat with (length (data (buf b)) + (4 + length hd))%nat by (unfold len; lia).
    rewrite firstn_app_2. f_equal. rewrite firstn_app. replace (4 + length hd - length ws)%nat with O by lia. rewrite firstn_O, app_nil_r.
    rewrite <- (firstn_skipn 4 ws) at 1. rewrite firstn_app, firstn_firstn, firstn_length. replace (Nat.min 4 (length ws)) with 4%nat by lia. replace (Nat.min (4 + length hd) 4) with 4%nat by lia.
    replace (4 + length hd - 4)%nat with (length hd) by lia. reflexivity. }
  rewrite Dv. rewrite <- !app_assoc. rewrite patch_ok; [|reflexivity|rewrite firstn_length; lia]. cbn [bind].
  eexists. exists ws, ms, ids, e. split; [reflexivity|]. split; [reflexivity|]. split; [reflexivity|]. split; [exact (framed_dframes _ _ Hm)|]. split; [exact Hpm|]. split; [exact Hfp|].
  cbn [buf data]. replace (len (buf b0) - len (buf b) - 4)%nat with (length hd) by lia. f_equal. f_equal.
  rewrite (nlen_app (firstn (length hd) (skipn 4 ws)) e). f_equal. f_equal. unfold nlen. rewrite firstn_length, skipn_length. lia.
Qed.

(* ---- the hypotheses can be met ---- *)
#[local] Existing Instance ThmBuilder.plain.

(* A nested Delete with a variable name that is too long. *)
Definition wrong_nested := one_call (CDelete (s2b "u") (Some (EVariable ThmValues.long_name))).
Definition room := new_pipe 512.
Example wrong_garbled_meets : exists b0 b1 b' f,
  disabled room = false /\ berr room = None /\ typed_prog word32 wrong_nested /\ ~ prog_ok word32 wrong_nested /\ prog_in_place wrong_nested /\
  exec_call [] (CDelete (s2b "t") None) room = Ok b0 /\ run wrong_nested [room] = Ok ([b1], []) /\ berr b1 = None /\ nlen (data (buf b1)) < 2 ^ 32 /\
  cap (buf b1) = cap (buf room) /\ (len (buf b0) <= len (buf b1))%nat /\
  (* what is sent is a Delete from u, where there should be one from t *)
  exec_call [] (CDelete (s2b "t") (Some (EUserFn (reenter room wrong_nested say_true)))) room = Ok b' /\ berr b' = None /\
  dframes (data (buf b')) = Some [f] /\ reads f (MDelete (s2b "u") None (Some (XLiteral (SBool true)))).
Proof.
  do 4 eexists. split; [reflexivity|]. split; [reflexivity|]. split; [unfold wrong_nested, one_call; cbn [typed_prog typed_call]; split; [split; [ThmBuilder.ok|exact ThmTyped.long_name_string]|constructor]|].
  split. { unfold wrong_nested, one_call. cbn [prog_ok call_ok]. intros ((_ & H) & _). vm_compute in H. destruct H as [_ H]. apply H. reflexivity. }
  split; [repeat constructor|].
  split; [vm_compute; reflexivity|]. split; [vm_compute; reflexivity|]. split; [reflexivity|]. split; [vm_compute; reflexivity|]. split; [vm_compute; reflexivity|].
  split; [vm_compute; lia|]. split; [vm_compute; reflexivity|]. split; [reflexivity|]. split; [vm_compute; reflexivity|]. vm_compute. reflexivity.
Qed.

Print Assumptions C87_garbled_whatever_the_values_refuted.
