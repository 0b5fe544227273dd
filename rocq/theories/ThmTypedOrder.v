(* C18: the order in which Update meets the entries of the map, when they may also be values that are encoded wrongly. *)
From Coq Require Import String List NArith ZArith Arith Bool Lia ZifyN ZifyNat ZifyBool Permutation.
From Coq Require Import List.
From Verif Require Import Base GoSlice SliceProofs SpecWire SpecMsg WireProofs Text Values AnyModel ExprModel MsgModel Builder SpecValue SpecProg SpecUnit
  HeadProofs ValueProofs MsgProofs BuilderProofs UnitProofs SpecTyped TypedProofs TypedRunProofs TypedFrameProofs.
From Verif Require ThmValues ThmBuilder ThmDefects ThmTyped.
Import ListNotations.
Open Scope N_scope.
Open Scope list_scope.

(* r is what the assignment adds to any Update, on any machine with words of this size. *)
Definition adds_set (w32 : bool) (kv : bytes * gvalue) (r : bytes) : Prop :=
  forall E, @word32 E = w32 -> forall s, exists sp, append_update_set s (fst kv) (snd kv) = Ok (mk (data s ++ r) sp, None).

Lemma typed_sets_grow : forall (E : Env) set p q, typed_sets word32 set -> update_sets set p = Ok (q, None) -> (len p <= len q)%nat.
Proof.
  intros E set p q Hs H. destruct (sets_lays word32 set Hs) as [(bs & _ & _ & G)|[[[B _] _]|[B _]]].
  - destruct (G E eq_refl p) as [sp Hp]. rewrite Hp in H. apply ok_fst in H. subst q. unfold len. cbn [data]. rewrite app_length. lia.
  - destruct (B E eq_refl p q H).
  - apply (B E eq_refl p q H).
Qed.
Lemma typed_pieces : forall (E : Env) set p q, typed_sets word32 set -> update_sets set p = Ok (q, None) -> nlen (data q) < 2 ^ 32 ->
  exists T, map fst T = set /\ Forall (fun t => is_bytes (snd t) /\ adds_set word32 (fst t) (snd t)) T.
Proof.
  intros E set. induction set as [|[k v] set IH]; intros p q Hs H Hl; [exists []; auto|].
  destruct Hs as [H1 H2]. cbn [map snd] in H2. inversion H1; subst. inversion H2 as [|? ? Hv H2']; subst. cbn [fst] in *.
  assert (Hs' : typed_sets word32 set) by (split; assumption). cbn [update_sets] in H.
  destruct (append_update_set p k v) as [[q1 [e|]]|] eqn:Hq1; cbn [bind] in H; try discriminate.
  destruct (IH q1 q Hs' H Hl) as (T & HT1 & HT2).
  destruct (set_lays word32 k v ltac:(assumption) Hv) as [(bs & Hb & _ & G)|[[[B _] _]|[B _]]].
  - exists (((k, v), bs) :: T). split; [cbn [map fst]; congruence|]. constructor; [|exact HT2]. split; [exact Hb|exact G].
  - destruct (B E eq_refl p q1 Hq1).
  - destruct (B E eq_refl p q1 Hq1). pose proof (typed_sets_grow E set q1 q Hs' H). cbn [limit] in *. unfold len, nlen in *. lia.
Qed.
Lemma typed_sets_good : forall w T, Forall (fun t => is_bytes (snd t) /\ adds_set w (fst t) (snd t)) T ->
  good w (fun E p => update_sets (map fst T) p) (concat (map snd T)) /\ is_bytes (concat (map snd T)).
Proof.
  intros w T H. induction H as [|[[k v] r] T [Hb G] H [IH1 IH2]]; cbn [map concat fst snd] in *.
  - split; [|constructor]. intros E HE p. exists (spare p). cbn [update_sets]. rewrite app_nil_r. destruct p; reflexivity.
  - split; [|apply app_bytes; assumption]. intros E HE p. cbn [update_sets]. destruct (G E HE p) as [sp Hp]. cbn [fst snd] in Hp. rewrite Hp. cbn [bind].
    destruct (IH1 E HE (mk (data p ++ r) sp)) as [sp' ->]. exists sp'. cbn [data]. rewrite app_assoc. reflexivity.
Qed.

(* C18, whatever the values: for any other order of the entries Update succeeds alike, and sends one frame of the same length. Both frames begin alike, up to the
   assignments; these are the same bytes for the same entries, in the order in which Update met them. *)
Theorem C18_map_order_whatever_the_values : forall (E : Env) b b' name criteria set set' bs, empty b -> empty b' ->
  typed_call word32 (CUpdate name criteria set) -> Permutation set set' ->
  delivers b (one_call (CUpdate name criteria set)) bs -> nlen bs < 2 ^ 32 ->
  exists bs' head rs rs', delivers b' (one_call (CUpdate name criteria set')) bs' /\ nlen bs' = nlen bs /\
    dframes bs = Some [(19, head ++ concat rs)] /\ dframes bs' = Some [(19, head ++ concat rs')] /\
    Forall2 (adds_set word32) set rs /\ Forall2 (adds_set word32) set' rs' /\ Permutation rs rs'.
Proof.
  intros E b b' name cr set set' bs (He & Hb & Hd) (He' & Hb' & Hd') (Hn & Hc & Hs) HP (x & out & Hr & Hsend) Hl.
  cbn [one_call run nth_error] in Hr. unfold exec_call, guarded in Hr. rewrite Hd, Hb in Hr.
  destruct (do_update name cr set (buf b)) as [[q e]|] eqn:H; cbn [bind set_nth] in Hr; [|discriminate].
  assert (x = mkb q e false) as -> by congruence. unfold send in Hsend. cbn [disabled berr buf] in Hsend.
  destruct e as [e|]; [discriminate|]. assert (data q = bs) as Hbs by congruence. pose proof H as Hall. unfold do_update in H.
  destruct (msg_update (buf b) name cr) as [[q1 [e|]]|] eqn:Hq1; cbn [bind] in H; try discriminate.
  destruct (update_sets set q1) as [[q2 [e|]]|] eqn:Hq2; cbn [bind] in H; try discriminate.
  unfold okm in H. destruct (patch_length q2 (len (buf b))) as [q3|] eqn:Hq3; cbn [bind] in H; [|discriminate]. apply ok_fst in H. subst q3.
  assert (Hl2 : nlen (data q2) < 2 ^ 32) by (apply patch_len in Hq3; unfold len, nlen in *; rewrite <- Hbs in Hl; lia).
  destruct (typed_pieces E set q1 q2 Hs Hq2 Hl2) as (T & HT1 & HT2).
  destruct (update_layh word32 name cr Hn Hc) as [(hb & Ib & _ & G)|[[[B _] _]|[B _]]].
  2: { destruct (B E eq_refl _ q1 Hq1). }
  2: { destruct (B E eq_refl _ q1 Hq1). pose proof (typed_sets_grow E set q1 q2 Hs Hq2). unfold len, nlen in *. lia. }
  assert (Msg : forall T, Forall (fun t => is_bytes (snd t) /\ adds_set word32 (fst t) (snd t)) T ->
    let pl := hb ++ concat (map snd T) in
    good word32 (fun E p => do_update name cr (map fst T) p) (lebytes 4 (1 + nlen pl) ++ 19 :: pl) /\
    (1 + nlen pl < 2 ^ 32 -> dframes (lebytes 4 (1 + nlen pl) ++ 19 :: pl) = Some [(19, pl)]) /\
    Forall2 (adds_set word32) (map fst T) (map snd T)).
  { clear - G Ib. intros T HT pl. destruct (typed_sets_good word32 T HT) as [SG SB].
    split; [|split].
    - intros E' HE p. destruct (G E' HE p) as (h & sp & Hh & Hq). unfold do_update. rewrite Hq. cbn [bind].
      destruct (SG E' HE (mk (data p ++ h ++ 19 :: hb) sp)) as [sp' Hq']. rewrite Hq'. cbn [bind data].
      replace ((data p ++ h ++ 19 :: hb) ++ concat (map snd T)) with (data p ++ h ++ 19 :: pl) by (subst pl; rewrite <- !app_assoc; reflexivity).
      unfold okm. rewrite patch_ok by (assumption || reflexivity). rewrite nlen_cons. exists sp'. reflexivity.
    - intros Hl. apply framed_dframes. pose proof (framed_cons (1 + nlen pl) 19 pl [] [] eq_refl Hl ltac:(lia) ltac:(apply app_bytes; assumption) framed_nil) as F.
      rewrite app_nil_r in F. exact F.
    - clear - HT. induction HT as [|t T [_ H] HT IH]; cbn [map]; constructor; assumption. }
  destruct (Msg T HT2) as (M1 & M2 & M3). cbn zeta in *.
  assert (Hq : bs = lebytes 4 (1 + nlen (hb ++ concat (map snd T))) ++ 19 :: hb ++ concat (map snd T)).
  { destruct (M1 E eq_refl (buf b)) as [sp Hsp]. rewrite HT1, Hall in Hsp. apply ok_fst in Hsp. subst q. cbn [data] in Hbs. rewrite He, app_nil_l in Hbs. congruence. }
  assert (Hsmall : 1 + nlen (hb ++ concat (map snd T)) < 2 ^ 32).
  { rewrite Hq in Hl. rewrite (nlen_app (lebytes _ _)), nlen_cons in Hl. lia. }
  rewrite <- HT1 in HP. apply Permutation_sym in HP. destruct (Permutation_map_inv fst T HP) as (T' & -> & HPT).
  assert (HT' : Forall (fun t => is_bytes (snd t) /\ adds_set word32 (fst t) (snd t)) T') by (rewrite Forall_forall in *; intros t Hin; apply HT2; exact (Permutation_in t (Permutation_sym HPT) Hin)).
  destruct (Msg T' HT') as (M1' & M2' & M3'). cbn zeta in *.
  assert (Hlen : nlen (concat (map snd T')) = nlen (concat (map snd T))).
  { clear - HPT. induction HPT; cbn [map concat]; rewrite ?nlen_app; lia. }
  assert (Hlen2 : nlen (hb ++ concat (map snd T')) = nlen (hb ++ concat (map snd T))) by (rewrite !nlen_app; lia).
  destruct (M1' E eq_refl (buf b')) as [sp Hq']. rewrite He', app_nil_l in Hq'.
  eexists _, hb, (map snd T), (map snd T').
  split. { unfold delivers. cbn [one_call run nth_error]. unfold exec_call, guarded. rewrite Hd', Hb', Hq'. cbn [bind set_nth]. eexists (mkb (mk _ sp) None false), []. split; reflexivity. }
  split. { cbn [buf data]. rewrite Hq, Hlen2, !nlen_app, !nlen_cons, !nlen_app, Hlen. reflexivity. }
  split; [rewrite Hq; apply M2; exact Hsmall|]. split; [cbn [buf data]; apply M2'; lia|]. split; [rewrite <- HT1; exact M3|]. split; [exact M3'|].
  apply Permutation_map. exact HPT.
Qed.

(* ---- the hypotheses can be met ---- *)
#[local] Existing Instance ThmBuilder.plain.

(* An assignment with a variable name that is too long, and one without. *)
Definition wrong_map : list (bytes * gvalue) := [(s2b "a", VFunc (Some (EVariable ThmValues.long_name))); (s2b "b", VInt 2%Z)].
Example wrong_map_meets : exists bs, empty (new_pipe 0) /\ typed_call word32 (CUpdate (s2b "t") None wrong_map) /\ ~ call_ok word32 (CUpdate (s2b "t") None wrong_map) /\
  Permutation wrong_map (rev wrong_map) /\ delivers (new_pipe 0) (one_call (CUpdate (s2b "t") None wrong_map)) bs /\ nlen bs < 2 ^ 32.
Proof.
  eexists. split; [split; [reflexivity|split; reflexivity]|].
  split. { cbn [typed_call wrong_map]. split; [ThmBuilder.ok|]. split; [exact Logic.I|]. split; [repeat constructor; ThmBuilder.ok|]. cbn [map snd]. constructor; [exact ThmTyped.long_name_string|]. ThmBuilder.ok. }
  split. { cbn [call_ok wrong_map]. intros (_ & _ & _ & H). cbn [map snd] in H. inversion_clear H as [|? ? [_ H1] _]. vm_compute in H1. apply H1. reflexivity. }
  split; [apply Permutation_rev|]. split; [unfold delivers; do 2 eexists; split; vm_compute; reflexivity|]. vm_compute. reflexivity.
Qed.

Print Assumptions C18_map_order_whatever_the_values.
