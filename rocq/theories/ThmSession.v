(* Expectation blocks, session and capability messages, slice helpers: C21, C45, C50. *)
From Coq Require Import String List NArith ZArith Arith Bool Lia ZifyN ZifyNat ZifyBool.
From Coq Require Import List.
From Verif Require Import Base GoSlice SpecWire SpecMsg Varint VarintProofs WireProofs SpecValue MsgModel SpecProg SpecUnit.
From Verif Require SliceProofs HeadProofs SessionProofs ShapeProofs ThmBuilder.
Import ListNotations.
Open Scope N_scope.
Open Scope list_scope.
Ltac Zify.zify_post_hook ::= Z.div_mod_to_equations.

Lemma Ok_inj : forall A (x y : A), Ok x = Ok y -> x = y.
Proof. intros A x y H. injection H as H. exact H. Qed.

(* [bs] is exactly one frame, of type [ty], whose content the server reads as [m]. *)
Definition one_message (bs : bytes) (ty : N) (m : msg) : Prop :=
  exists payload, bs = frame (ty, payload) /\ dmsg ty payload = Some m /\ 1 + nlen payload < 2 ^ 32.

(* ---- C21: expectation conditions and context ---- *)

(* The condition each constructor stands for: EXPECT_NO_ERROR with the text 1 or 0,
   EXPECT_FIELD_EXIST with the field. *)
Definition stands_for (c : open_condition) : cond :=
  match c with
  | ONoError true => CNoError (s2b "1")
  | ONoError false => CNoError (s2b "0")
  | OFieldExists f => CFieldExist f
  end.
Definition condition_ok (c : open_condition) : Prop :=
  match c with ONoError _ => True | OFieldExists f => go_string f /\ nlen f < 2 ^ 31 end.

(* Every condition list (whose message is shorter than 4 GiB), both context operations, any buffer. *)
Theorem C21_expect_open : forall (E : Env) p op cs q,
  op < 2 -> Forall condition_ok cs -> expect_open p op cs = Ok q -> nlen (data q) < 2 ^ 32 ->
  exists bs, data q = data p ++ bs /\ one_message bs 24 (MExpectOpen op (map stands_for cs)).
Proof.
  intros E p op cs q Ho Hc Hq Hl.
  assert (C1 : Forall HeadProofs.cond_small cs) by (eapply Forall_impl; [|exact Hc]; intros [v|f]; [exact (fun _ => I)|exact (@proj2 _ _)]).
  assert (C2 : Forall (fun c => match c with ONoError _ => True | OFieldExists f => go_string f end) cs) by (eapply Forall_impl; [|exact Hc]; intros [v|f]; [exact (fun _ => I)|exact (@proj1 _ _)]).
  destruct (HeadProofs.expect_open_ok op cs ltac:(lia) C1 p) as [sp H]. cbn beta in H. rewrite H in Hq. apply Ok_inj in Hq. subst q. cbn [data] in *.
  destruct (SessionProofs.decode_open op cs Ho C1 C2) as [_ D].
  assert (L : 1 + nlen (HeadProofs.popen op cs) < 2 ^ 32) by (rewrite !nlen_app, nlen_cons in Hl; lia).
  eexists. split; [reflexivity|]. exists (HeadProofs.popen op cs). split; [apply SessionProofs.frame_lebytes; exact L|]. split; [|exact L].
  rewrite D. do 2 f_equal. apply map_ext. intros [[]|f]; reflexivity.
Qed.

(* It never panics. *)
Theorem C21_expect_open_returns : forall (E : Env) p op cs,
  op < 2 -> Forall condition_ok cs -> exists q, expect_open p op cs = Ok q.
Proof.
  intros E p op cs Ho Hc.
  assert (C1 : Forall HeadProofs.cond_small cs) by (eapply Forall_impl; [|exact Hc]; intros [v|f]; [exact (fun _ => I)|exact (@proj2 _ _)]).
  destruct (HeadProofs.expect_open_ok op cs ltac:(lia) C1 p) as [sp H]. eexists. exact H.
Qed.

Theorem C21_expect_close : forall (E : Env) p,
  exists bs, data (expect_close p) = data p ++ bs /\ one_message bs 25 MExpectClose.
Proof.
  intros E p. unfold expect_close. rewrite SliceProofs.data_append. eexists. split; [reflexivity|]. exists []. repeat split. Qed.

Example C21_sample : let cs := [ONoError true; OFieldExists (s2b "6.1"); ONoError false; OFieldExists []] in
  Forall condition_ok cs /\ exists q, expect_open (E := ThmBuilder.plain) (mk [7] []) 1 cs = Ok q /\ nlen (data q) = 37 /\
  dstream (tl (data q)) = Some [MExpectOpen 1 [CNoError (s2b "1"); CFieldExist (s2b "6.1"); CNoError (s2b "0"); CFieldExist []]].
Proof.
  cbv zeta. split; [repeat constructor|]. eexists. split; [vm_compute; reflexivity|]. split; vm_compute; reflexivity.
Qed.

(* ---- C50: session and capability messages ---- *)

Theorem C50_reset : forall (E : Env) p keepOpen,
  exists bs, data (msg_reset p keepOpen) = data p ++ bs /\ one_message bs 6 (MReset keepOpen).
Proof. intros E p k. destruct (SessionProofs.reset_sent p k) as (pl & A & B & C). eexists. split; [exact A|]. exists pl. auto. Qed.

(* The authentication messages replace what p holds: p's bytes are not sent again. *)
Theorem C50_authenticate_start : forall (E : Env) p mechanism authData,
  go_string mechanism -> go_string authData -> nlen mechanism + nlen authData < 2 ^ 31 ->
  exists q, authenticate_start p mechanism authData = Ok q /\
    one_message (data q) 4 (MAuthStart mechanism (match authData with [] => None | _ => Some authData end)).
Proof.
  intros E p m a Hm Ha Hl. destruct (SessionProofs.auth_start_sent p m a Hm Ha Hl) as (q & A & B & C & D). exists q. split; [exact A|]. eexists. eauto. Qed.

Theorem C50_authenticate_continue : forall (E : Env) p authData,
  go_string authData -> nlen authData < 2 ^ 31 ->
  exists q, authenticate_continue p authData = Ok q /\ one_message (data q) 5 (MAuthContinue authData).
Proof.
  intros E p a Ha Hl. destruct (SessionProofs.auth_continue_sent p a Ha Hl) as (q & A & B & C & D). exists q. split; [exact A|]. eexists. eauto. Qed.

Theorem C50_capability_set : forall name enable, go_string name -> nlen name < 2 ^ 31 ->
  one_message (capability_set name enable) 2 (MCapabilitiesSet [(name, SBool enable)]).
Proof.
  intros n e Hn Hl. destruct (SessionProofs.decode_capability n e Hn Hl) as [D L]. eexists. split; [|split; [exact D|exact L]].
  rewrite SessionProofs.capability_eq. apply SessionProofs.frame_lebytes. exact L.
Qed.

Example C50_sample :
  dstream (data (msg_reset (E := ThmBuilder.plain) (mk [] []) true)) = Some [MReset true] /\
  (exists q, authenticate_start (E := ThmBuilder.plain) (mk [9; 9] [5]) (s2b "PLAIN") (s2b "secret") = Ok q /\
     dstream (data q) = Some [MAuthStart (s2b "PLAIN") (Some (s2b "secret"))]) /\
  dstream (capability_set (s2b "tls") true) = Some [MCapabilitiesSet [(s2b "tls", SBool true)]].
Proof.
  split; [vm_compute; reflexivity|]. split; [|vm_compute; reflexivity].
  eexists. split; [vm_compute; reflexivity|]. vm_compute. reflexivity.
Qed.

(* ---- C45: slice helpers ---- *)

(* ForAppend: all bytes of p, then exactly n more. *)
Theorem C45_for_append : forall p n,
  exists gap, data (for_append p n) = data p ++ gap /\ List.length gap = n.
Proof. intros p n. destruct (SliceProofs.for_append_spec p n) as (gap & sp & -> & H). exists gap. auto. Qed.

(* Insert: the first pos bytes, exactly n more, and the remaining bytes. *)
Theorem C45_insert : forall (E : Env) p pos n, (pos <= List.length (data p))%nat ->
  exists q gap, insert p pos n = Ok q /\ data q = firstn pos (data p) ++ gap ++ skipn pos (data p) /\ List.length gap = n.
Proof.
  intros E [d sp] pos n H. cbn [data] in *. destruct (SliceProofs.insert_spec (firstn pos d) (skipn pos d) sp pos n ltac:(rewrite firstn_length, Nat.min_l; [reflexivity|exact H])) as (gap & sp' & A & B).
  rewrite firstn_skipn in A. eexists _, gap. split; [exact A|]. auto.
Qed.

(* Beyond the end it panics unless nothing is to be inserted. *)
Theorem C45_insert_out_of_range : forall (E : Env) p pos n, (List.length (data p) < pos)%nat -> (0 < n)%nat -> insert p pos n = Panic.
Proof.
  intros E p pos n H Hn. unfold insert. destruct n; [lia|]. assert (F : from p pos = Panic) by (unfold from, len; destruct (Nat.leb_spec pos (List.length (data p))); [lia|reflexivity]).
  rewrite F. destruct (pos + S n <=? cap p)%nat; [destruct (reslice p (pos + S n)); reflexivity|reflexivity].
Qed.

(* Allocate: a region of n bytes at the end of the result, which holds besides it either all of p or nothing. *)
Theorem C45_allocate : forall p n,
  exists kept region, data (fst (allocate p n)) = kept ++ region /\ List.length region = n /\
    snd (allocate p n) = List.length kept /\ (kept = data p \/ kept = []).
Proof.
  intros p n. destruct (SessionProofs.allocate_spec p n) as (region & sp & L & [-> | ->]).
  - exists (data p), region. auto.
  - exists [], region. auto.
Qed.

(* ForAppend and Allocate use the memory there is if it is enough, without changing any of it; if not they return new memory, zero where nothing was copied, with room for at least as much again. *)
Theorem C45_room_to_grow : forall p n,
  ((len p + n <= cap p)%nat ->
    data (for_append p n) ++ spare (for_append p n) = data p ++ spare p /\ data (fst (allocate p n)) ++ spare (fst (allocate p n)) = data p ++ spare p) /\
  ((cap p < len p + n)%nat ->
    for_append p n = mk (data p ++ repeat 0 n) (repeat 0 (len p + n)) /\ fst (allocate p n) = mk (repeat 0 n) (repeat 0 (n + 512))).
Proof.
  intros p n. unfold for_append, allocate. destruct (Nat.leb_spec (len p + n) (cap p)) as [L|L]; (split; intros H; [|lia || idtac]); try lia.
  - cbn [data spare fst]. rewrite firstn_skipn. auto.
  - cbn [fst]. unfold make, ow. cbn [firstn app]. rewrite Nat.add_0_l.
    split; [|match goal with |- mk _ (repeat _ ?a) = _ => replace a with (n + 512)%nat by lia end; reflexivity].
    replace (2 * (len p + n) - (len p + n))%nat with (len p + n)%nat by lia. f_equal. f_equal. unfold len.
    assert (Hs : forall a b, skipn a (repeat 0 (a + b)) = repeat 0 b) by (induction a as [|a IH]; intros b; [reflexivity|apply IH]). apply Hs.
Qed.

Example C45_sample :
  insert (H := ThmBuilder.plain) (mk [1; 2; 3] [8; 9; 8]) 1 2 = Ok (mk [1; 2; 3; 2; 3] [8]) /\
  data (for_append (mk [1; 2; 3] [8]) 2) = [1; 2; 3; 0; 0] /\
  allocate (mk [1; 2] [3; 4; 5]) 2 = (mk [1; 2; 3; 4] [5], 2%nat).
Proof. repeat split. Qed.

Print Assumptions C21_expect_open.
Print Assumptions C21_expect_open_returns.
Print Assumptions C21_expect_close.
Print Assumptions C50_reset.
Print Assumptions C50_authenticate_start.
Print Assumptions C50_authenticate_continue.
Print Assumptions C50_capability_set.
Print Assumptions C45_for_append.
Print Assumptions C45_insert.
Print Assumptions C45_insert_out_of_range.
Print Assumptions C45_allocate.
Print Assumptions C45_room_to_grow.
