(* The order in which Update meets the entries of the map. *)
From Coq Require Import List NArith ZArith Arith Bool Lia ZifyN ZifyNat ZifyBool Permutation.
From Verif Require Import Base GoSlice SliceProofs Varint VarintProofs SpecWire SpecMsg WireProofs Pure
  Text Values AnyModel ExprModel MsgModel AnyProofs SpecValue ValueProofs HeadProofs Builder SpecProg MsgProofs.
Import ListNotations.
Open Scope N_scope.

Ltac Zify.zify_post_hook ::= Z.div_mod_to_equations.

(* An entry of the map, and its encoding. *)
Record piece := { kv : bytes * gvalue; pbs : bytes; ppl : bytes; pss : bytes * expr }.
Definition encoded (w : bool) (t : piece) : Prop :=
  reads (pbs t) [(7, WLen (ppl t))] /\ dset (ppl t) = Some (pss t) /\ set_denotes (kv t) (pss t) /\
  good w (fun E p => append_update_set p (fst (kv t)) (snd (kv t))) (pbs t).

Lemma sets_grow : forall (E : Env) set p q, sets_ok word32 set -> update_sets set p = Ok (q, None) -> (len p <= len q)%nat.
Proof.
  intros E set p q Hs H. destruct (sets_parts word32 set Hs) as [(bs & fs & _ & _ & _ & G)|[[[B _] _]|[B _]]].
  - destruct (G E eq_refl p) as [sp Hp]. rewrite Hp in H. apply ok_fst in H. subst q. unfold len. cbn [data]. rewrite app_length. lia.
  - destruct (B E eq_refl p q H).
  - apply (B E eq_refl p q H).
Qed.

Lemma pieces_of : forall (E : Env) set p q, sets_ok word32 set -> update_sets set p = Ok (q, None) -> nlen (data q) < 2 ^ 32 ->
  exists T, map kv T = set /\ Forall (encoded word32) T.
Proof.
  intros E set. induction set as [|[k v] set IH]; intros p q Hs H Hl; [exists []; auto|].
  destruct Hs as [H1 H2]. cbn [map snd] in H2. inversion H1; subst. inversion H2 as [|? ? [Hv1 Hv2] H2']; subst. cbn [fst] in *.
  assert (Hs' : sets_ok word32 set) by (split; assumption). cbn [update_sets] in H.
  destruct (append_update_set p k v) as [[q1 [e|]]|] eqn:Hq1; cbn [bind] in H; try discriminate.
  destruct (IH q1 q Hs' H Hl) as (T & HT1 & HT2).
  destruct (set_parts word32 k v ltac:(assumption) Hv1 Hv2) as [(bs & fs & R & (y & pl & -> & Hd & HD) & _ & G)|[[[B _] _]|[B _]]].
  - exists ({| kv := (k, v); pbs := bs; ppl := pl; pss := y |} :: T). split; [cbn [map kv]; congruence|].
    constructor; [|exact HT2]. unfold encoded. cbn [kv pbs ppl pss fst snd]. auto.
  - destruct (B E eq_refl p q1 Hq1).
  - destruct (B E eq_refl p q1 Hq1). pose proof (sets_grow E set q1 q Hs' H). unfold len, nlen in *. lia.
Qed.

Lemma sets_good : forall w T, Forall (encoded w) T ->
  good w (fun E p => update_sets (map kv T) p) (concat (map pbs T)) /\ reads (concat (map pbs T)) (lens 7 (map ppl T)).
Proof.
  intros w T H. induction H as [|t T (R & _ & _ & G) H [IH1 IH2]]; cbn [map concat].
  - split; [|apply reads_nil]. intros E HE p. exists (spare p). cbn [update_sets]. rewrite app_nil_r. destruct p; reflexivity.
  - split.
    + intros E HE p. destruct (kv t) as [k v]. cbn [fst snd] in G. cbn [update_sets]. destruct (G E HE p) as [sp ->]. cbn [bind].
      destruct (IH1 E HE (mk (data p ++ pbs t) sp)) as [sp' ->]. exists sp'. cbn [data]. rewrite app_assoc. reflexivity.
    + exact (reads_app _ _ _ _ R IH2).
Qed.

(* Decoding, with the criterion and the sets determined by their bytes. *)
Lemma update_decode_ordered : forall name cr f2, go_string name -> crit 4 cr f2 -> exists c, criteria_denotes cr c /\
  forall pls ss pl, Forall2 (fun pl y => dset pl = Some y) pls ss ->
    dfields pl = Some ((([(2, WLen (plen 1 name))] ++ [(3, WVarint 2)]) ++ f2) ++ lens 7 pls) ->
    dmsg 19 pl = Some (MUpdate name (Some table_model) c ss).
Proof.
  intros name cr f2 Hn Hcr.
  assert (Hc : exists c, criteria_denotes cr c /\ only [2; 3; 4; 7] f2 = true /\ all_of 2 f2 = [] /\ all_of 3 f2 = [] /\ all_of 7 f2 = [] /\
    match all_of 4 f2 with [] => c = None | [WLen b] => exists e, c = Some e /\ dexpr b = Some e | _ => False end).
  { destruct cr as [f|]; cbn [crit] in Hcr.
    - destruct Hcr as (e & pl & -> & Hd & Hf). exists (Some e). split; [constructor; assumption|]. repeat (split; [reflexivity|]). cbn. eauto.
    - subst f2. exists None. split; [constructor|]. repeat (split; [reflexivity|]). reflexivity. }
  destruct Hc as (c & Hc1 & Ho & A2 & A3 & A7 & A4). exists c. split; [assumption|].
  intros pls ss pl H1 Hpl. cbn [dmsg]. unfold dupdate. rewrite Hpl. cbn [obind].
  field_calc. rewrite Ho, A2, A3, A7. cbn -[plen omap dname dset dexpr]. rewrite dname_plen by (lia || assumption). cbn -[plen omap dname dset dexpr].
  rewrite (dsub_lens _ _ _ H1). rewrite app_nil_r. destruct (all_of 4 f2) as [|[n|b|b|b] [|x r]]; try contradiction.
  - subst c. reflexivity.
  - destruct A4 as (e & -> & He). cbn -[dexpr]. unfold dsub. cbn [as_len obind]. rewrite He. reflexivity.
Qed.

(* Whatever the order: the same outcome, the same length, the same sets. *)
Lemma update_any_order : forall (E : Env) name cr set p q, go_string name -> opt (fun_ok word32) cr -> sets_ok word32 set ->
  do_update name cr set p = Ok (q, None) -> nlen (data q) < 2 ^ 32 ->
  exists c ss0 bs0, criteria_denotes cr c /\ Forall2 set_denotes set ss0 /\ says bs0 [MUpdate name (Some table_model) c ss0] /\ data q = data p ++ bs0 /\
    forall set', Permutation set set' -> exists bs ss,
      says bs [MUpdate name (Some table_model) c ss] /\ Forall2 set_denotes set' ss /\ Permutation ss0 ss /\ nlen bs = nlen bs0 /\
      good word32 (fun E p => do_update name cr set' p) bs.
Proof.
  intros E name cr set p q Hn Hc Hs H Hl. unfold do_update in H.
  destruct (msg_update p name cr) as [[q1 [e|]]|] eqn:Hq1; cbn [bind] in H; try discriminate.
  destruct (update_sets set q1) as [[q2 [e|]]|] eqn:Hq2; cbn [bind] in H; try discriminate.
  unfold okm in H. destruct (patch_length q2 (len p)) as [q3|] eqn:Hq3; cbn [bind] in H; [|discriminate]. apply ok_fst in H. subst q3.
  assert (Hl2 : nlen (data q2) < 2 ^ 32) by (apply patch_len in Hq3; unfold len, nlen in *; lia).
  destruct (pieces_of E set q1 q2 Hs Hq2 Hl2) as (T & HT1 & HT2).
  destruct (update_parts word32 name cr Hn Hc) as [(hb & hf & R & (f1 & f2 & -> & -> & Hcr) & _ & G)|[[[B _] _]|[B _]]].
  2: { destruct (B E eq_refl p q1 Hq1). }
  2: { destruct (B E eq_refl p q1 Hq1). pose proof (sets_grow E set q1 q2 Hs Hq2). unfold len, nlen in *. lia. }
  destruct (update_decode_ordered name cr f2 Hn Hcr) as (c & Hc1 & Hdec).
  (* the message for any list of pieces *)
  assert (Msg : forall T, Forall (encoded word32) T ->
    let pl := hb ++ concat (map pbs T) in
    good word32 (fun E p => do_update name cr (map kv T) p) (lebytes 4 (1 + nlen pl) ++ 19 :: pl) /\
    (1 + nlen pl < 2 ^ 32 -> says (lebytes 4 (1 + nlen pl) ++ 19 :: pl) [MUpdate name (Some table_model) c (map pss T)]) /\
    Forall2 set_denotes (map kv T) (map pss T)).
  { clear - R G Hdec. intros T HT pl. destruct (sets_good word32 T HT) as [SG SR].
    split; [|split].
    - intros E' HE p. destruct (G E' HE p) as (h & sp & Hh & Hq). unfold do_update. rewrite Hq. cbn [bind].
      destruct (SG E' HE (mk (data p ++ h ++ 19 :: hb) sp)) as [sp' Hq']. rewrite Hq'. cbn [bind data].
      replace ((data p ++ h ++ 19 :: hb) ++ concat (map pbs T)) with (data p ++ h ++ 19 :: pl) by (subst pl; rewrite <- !app_assoc; reflexivity).
      unfold okm. rewrite patch_ok by (assumption || reflexivity). rewrite nlen_cons. exists sp'. reflexivity.
    - intros Hl. pose proof (reads_app _ _ _ _ R SR) as RR. apply says_one; [lia|apply RR|exact Hl|]. refine (Hdec (map ppl T) _ pl _ (proj2 RR)).
      clear - HT. induction HT as [|t T (_ & H & _) HT IH]; cbn [map]; constructor; assumption.
    - clear - HT. induction HT as [|t T (_ & _ & H & _) HT IH]; cbn [map]; constructor; assumption. }
  destruct (Msg T HT2) as (M1 & M2 & M3). cbn zeta in *.
  assert (Hq : data q = data p ++ lebytes 4 (1 + nlen (hb ++ concat (map pbs T))) ++ 19 :: hb ++ concat (map pbs T)).
  { destruct (M1 E eq_refl p) as [sp Hsp]. unfold do_update in Hsp. rewrite HT1, Hq1 in Hsp. cbn [bind] in Hsp. rewrite Hq2 in Hsp. cbn [bind] in Hsp.
    unfold okm in Hsp. rewrite Hq3 in Hsp. cbn [bind] in Hsp. apply ok_fst in Hsp. subst q. reflexivity. }
  assert (Hsmall : 1 + nlen (hb ++ concat (map pbs T)) < 2 ^ 32).
  { rewrite Hq in Hl. rewrite (nlen_app (data p)), nlen_app, nlen_cons in Hl. lia. }
  exists c, (map pss T). eexists. split; [exact Hc1|]. split; [rewrite HT1 in M3; exact M3|]. split; [apply M2; exact Hsmall|]. split; [exact Hq|].
  intros set' HP. rewrite <- HT1 in HP. apply Permutation_sym in HP. destruct (Permutation_map_inv kv T HP) as (T' & -> & HPT).
  assert (HT' : Forall (encoded word32) T') by (rewrite Forall_forall in *; intros t Hin; apply HT2; exact (Permutation_in t (Permutation_sym HPT) Hin)).
  destruct (Msg T' HT') as (M1' & M2' & M3'). cbn zeta in *.
  assert (Hlen : nlen (concat (map pbs T')) = nlen (concat (map pbs T))).
  { clear - HPT. induction HPT; cbn [map concat]; rewrite ?nlen_app; lia. }
  eexists _, (map pss T'). split; [apply M2'; rewrite nlen_app, Hlen, <- nlen_app; exact Hsmall|]. split; [exact M3'|].
  split; [apply Permutation_map; exact HPT|]. split; [|exact M1'].
  rewrite (nlen_app (lebytes _ _)), (nlen_app (lebytes _ (1 + nlen (hb ++ concat (map pbs T))))), !nlen_cons, !(nlen_app hb), Hlen.
  f_equal.
Qed.
