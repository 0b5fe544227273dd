(* The encoders as sequences of accesses (FineModel.v) refine those over slice values (AnyModel.v, ExprModel.v, MsgModel.v, Builder.v). *)
From Coq Require Import String List NArith ZArith Arith Bool Lia.
From Coq Require Import List.
From Verif Require Import Base GoSlice Varint Text Values AnyModel ExprModel MsgModel Builder SpecValue ValueProofs SpecMem Mem MemModel Fine FineModel FineProofs.
From Verif Require MemProofs.
Import ListNotations.
Local Open Scope nat_scope.

Import MemProofs(sub_length, tl, tl_refl, tl_len).

Local Hint Resolve Nat.le_0_l : core.

(* The same slice and the same second component. *)
Definition sl2 (m : heap) (a : slice * option err) (b : hslice * option err) : Prop :=
  sl m (fst a) (fst b) /\ snd a = snd b /\ (snd a = None -> 0 <= hlen (fst b)) /\ 0 <= hlen (fst b).

Local Ltac lens := repeat match goal with S : sl _ ?p ?s |- context [len ?p] => rewrite (sl_len _ _ _ S) end.
Local Ltac tlia := lia || (repeat match goal with T : tl ?s ?b ?k |- _ => pose proof (tl_len s b k T); clear T end; lia).
Local Ltac tls := first [eassumption|apply tl_refl].
Local Ltac prim := first
 [ eapply ref_put; [eassumption|tls|tlia|tlia]
 | eapply ref_put_uvarint; [eassumption|tls|tlia|tlia]
 | eapply ref_copy; [eassumption|tls|tlia|tlia]
 | apply ref_upd; [eassumption|tlia]
 | apply ref_append; [eassumption|tlia]
 | apply ref_for_append; [eassumption|tlia]
 | apply ref_mask_truncate; [eassumption|tlia]
 | apply ref_reslice; eassumption
 | apply ref_insert; [eassumption|tlia|tlia]
 | apply ref_append_tail; [eassumption|tlia] ].
Local Ltac open R := cbv beta in R;
  repeat match goal with
  | R : _ /\ _ |- _ => destruct R
  | R : sl2 _ _ _ |- _ => destruct R
  | R : sg _ _ _ |- _ => destruct R
  | a : (_ * _)%type |- _ => destruct a
  end; cbn [fst snd length] in *;
  repeat match goal with R : ?x = ?y |- _ => is_var x; subst x end.
Local Ltac post := cbv beta;
  let m := fresh "m" in let a := fresh "a" in let b := fresh "b" in let R := fresh "R" in
  intros m a b R; open R; cbv beta iota; lens.
Local Ltac fin := cbv beta;
  let m := fresh "m" in let a := fresh "a" in let b := fresh "b" in let R := fresh "R" in
  intros m a b R; open R; split; [assumption|tlia].
Local Ltac step :=
  lazymatch goal with
  | S : sl ?m ?p ?s |- refines ?r (gbind (g_append ?s ?xs) ?g) ?m ?Q =>
      eapply (ref_pure (append p xs)); [apply ref_append; [exact S|tlia]|];
      generalize (append p xs);
      let p' := fresh "p" in let m' := fresh "m" in let s' := fresh "s" in let S' := fresh "S" in let L' := fresh "L" in
      intros p' m' s' [S' L']; cbn [length] in L'; cbv beta iota; lens
  | S : sl ?m ?p ?s |- refines ?r (gbind (g_for_append ?s ?xs) ?g) ?m ?Q =>
      eapply (ref_pure (for_append p xs)); [apply ref_for_append; [exact S|tlia]|];
      generalize (for_append p xs);
      let p' := fresh "p" in intros p'; let m' := fresh "m" in intros m';
      let s' := fresh "s" in let b' := fresh "b" in let S' := fresh "S" in let T' := fresh "T" in let L' := fresh "L" in
      intros [s' b']; cbn [fst snd]; intros [S' [T' L']]; cbv beta iota; lens
  | |- refines _ (gbind (g_from _ _) _) _ _ => eapply ref_from; [eassumption|lia|intros ? ?]
  | |- refines (bind _ _) (gbind _ _) _ _ => eapply ref_bind; [prim|post]
  | |- refines _ (gbind _ (fun _ => Return _)) _ _ => eapply ref_last; [prim|fin]
  | |- refines (Ok _) (Return _) _ _ => apply ref_ret
  | |- _ => eapply ref_weaken; [prim|fin]
  end.
Local Ltac walk := cbv zeta; lens; repeat step.
(* the optional field of a string or of octets *)
Local Ltac opt L :=
  match goal with
  | S : sl ?m ?p ?s, T : tl ?s ?b ?k |- refines (bind (if ?c then Ok (?p, ?k) else _) _) (gbind (if ?c then Return ?b else _) _) ?m _ =>
      eapply (ref_bind _ _ _ _ m (fun m' a b => sl m' (fst a) s /\ tl s b (snd a) /\ k <= snd a));
      [destruct c; [apply ref_ret; cbn [fst snd]; auto|walk; apply L; [assumption|assumption|lia|lia]]|post]
  end.
Local Ltac smalls := repeat match goal with |- context [smalls_at ?i] => destruct (smalls_at i); cbn [bind] end;
  first [eapply ref_weaken; [apply ref_append; [assumption|tlia]|fin]|eapply ref_panic; eassumption].

(* the result of the first part decides whether the second runs *)
Local Ltac two := split; [assumption|split; [reflexivity|split; [try discriminate; auto|auto]]].
Local Ltac then_ok := match goal with
  | e : option err |- refines _ (match ?e with Some _ => _ | None => _ end) _ _ =>
      destruct e; [apply ref_ret; two|]
  end.

Section Ref.
Context `{E : Env}.
Variables (P : ufun -> Prop).

Lemma ref_from_last s b k0 k j m p : sl m p s -> tl s b k -> k + j <= hlen s -> k0 <= k + j ->
  refines (Ok (p, k + j)) (g_from b j) m (fun m' a b => sl m' (fst a) s /\ tl s b (snd a) /\ k0 <= snd a).
Proof. intros S T L L0. destruct (from_tl s b k j T L) as [b' [Eb T']]. rewrite Eb. apply ref_ret. cbn [fst snd]. auto. Qed.

Lemma ref_append_any_uint8 m p s tag x : sg m p s ->
  refines (Ok (append_any_uint8 p tag x)) (g_append_any_uint8 s tag x) m sg.
Proof. intros [S L]. unfold append_any_uint8, g_append_any_uint8. destruct (_ <? _)%N; walk. Qed.

Lemma ref_append_any_uint16 m p s tag x : sg m p s ->
  refines (append_any_uint16 p tag x) (g_append_any_uint16 s tag x) m sg.
Proof. intros [S L]. unfold append_any_uint16, g_append_any_uint16. walk. Qed.

Lemma ref_append_any_uint32 m p s tag x : sg m p s ->
  refines (append_any_uint32 p tag x) (g_append_any_uint32 s tag x) m sg.
Proof. intros [S L]. unfold append_any_uint32, g_append_any_uint32. walk. Qed.

Lemma ref_append_any_uint64 m p s tag x : sg m p s ->
  refines (append_any_uint64 p tag x) (g_append_any_uint64 s tag x) m sg.
Proof. intros [S L]. unfold append_any_uint64, g_append_any_uint64. walk. Qed.

Lemma ref_append_any_int8 m p s tag x : sg m p s ->
  refines (Ok (append_any_int8 p tag x)) (g_append_any_int8 s tag x) m sg.
Proof. intros [S L]. unfold append_any_int8, g_append_any_int8. cbv zeta. destruct (_ <? _)%N; walk. Qed.

Lemma ref_append_any_int16 m p s tag x : sg m p s ->
  refines (append_any_int16 p tag x) (g_append_any_int16 s tag x) m sg.
Proof. intros [S L]. unfold append_any_int16, g_append_any_int16. walk. Qed.

Lemma ref_append_any_int32 m p s tag x : sg m p s ->
  refines (append_any_int32 p tag x) (g_append_any_int32 s tag x) m sg.
Proof. intros [S L]. unfold append_any_int32, g_append_any_int32. walk. Qed.

Lemma ref_append_any_int64 m p s tag x : sg m p s ->
  refines (append_any_int64 p tag x) (g_append_any_int64 s tag x) m sg.
Proof. intros [S L]. unfold append_any_int64, g_append_any_int64. walk. Qed.

Lemma ref_append_any_null m p s tag : sg m p s ->
  refines (Ok (append_any_null p tag)) (g_append_any_null s tag) m sg.
Proof. intros [S L]. unfold append_any_null, g_append_any_null. walk. Qed.

Lemma ref_append_any_bytes_string m p s tag x c : sg m p s ->
  refines (append_any_bytes_string p tag x c) (g_append_any_bytes_string s tag x c) m sg.
Proof. intros [S L]. unfold append_any_bytes_string, g_append_any_bytes_string. walk. opt ref_from_last. walk. Qed.

Lemma ref_append_any_string m p s tag x c : sg m p s ->
  refines (append_any_string p tag x c) (g_append_any_string s tag x c) m sg.
Proof. intros [S L]. unfold append_any_string, g_append_any_string. walk. opt ref_from_last. walk. Qed.

Lemma ref_append_any_bytes m p s tag x c : sg m p s ->
  refines (append_any_bytes p tag x c) (g_append_any_bytes s tag x c) m sg.
Proof. intros [S L]. destruct x; [apply ref_append_any_bytes_string|apply ref_append_any_null]; split; assumption. Qed.

Lemma ref_bump_lengths m p s i n : sg m p s -> 0 <= i ->
  refines (bump_lengths p i n) (g_bump_lengths s i n) m sg.
Proof. intros [S L] Li. unfold bump_lengths, g_bump_lengths. walk. Qed.

Lemma ref_append_duration m p s d : sg m p s ->
  refines (append_duration p d) (g_append_duration s d) m sg.
Proof. intros [S L]. unfold append_duration, g_append_duration. destruct (d <? 0)%Z; cbv zeta iota beta.
  - apply ref_assoc. step. cbn [gbind]. walk. smalls.
  - cbn [gbind]. walk. smalls. Qed.

Lemma ref_append_any_time m p s tag t : sg m p s ->
  refines (append_any_time p tag t) (g_append_any_time s tag t) m sg.
Proof. intros [S L]. unfold append_any_time, g_append_any_time. walk. destruct (_ <=? _)%nat; [eapply ref_panic; eassumption|apply ref_bump_lengths; [split; [assumption|tlia]|tlia]]. Qed.

Lemma ref_append_any_duration m p s tag d : sg m p s ->
  refines (append_any_duration p tag d) (g_append_any_duration s tag d) m sg.
Proof. intros [S L]. unfold append_any_duration, g_append_any_duration. walk.
  eapply ref_bind; [apply ref_append_duration; split; [eassumption|tlia]|post]. apply ref_bump_lengths; [split; [assumption|tlia]|tlia]. Qed.

Lemma ref_append_any_float64 m p s tag x : sg m p s ->
  refines (Ok (append_any_float64 p tag x)) (g_append_any_float64 s tag x) m sg.
Proof. intros [S L]. unfold append_any_float64, g_append_any_float64. walk. Qed.

Lemma ref_append_any_float32 m p s tag x : sg m p s ->
  refines (Ok (append_any_float32 p tag x)) (g_append_any_float32 s tag x) m sg.
Proof. intros [S L]. unfold append_any_float32, g_append_any_float32. walk. Qed.

Lemma ref_append_any_bool m p s tag x : sg m p s ->
  refines (Ok (append_any_bool p tag x)) (g_append_any_bool s tag x) m sg.
Proof. intros [S L]. unfold append_any_bool, g_append_any_bool. walk. Qed.

Lemma ref_append_expr_time m p s tag t : sg m p s ->
  refines (append_expr_time p tag t) (g_append_expr_time s tag t) m sg.
Proof. intros [S L]. unfold append_expr_time, g_append_expr_time. walk. destruct (_ <=? _)%nat; [eapply ref_panic; eassumption|apply ref_bump_lengths; [split; [assumption|tlia]|tlia]]. Qed.

Lemma ref_append_expr_duration m p s tag d : sg m p s ->
  refines (append_expr_duration p tag d) (g_append_expr_duration s tag d) m sg.
Proof. intros [S L]. unfold append_expr_duration, g_append_expr_duration. walk.
  eapply ref_bind; [apply ref_append_duration; split; [eassumption|tlia]|post]. apply ref_bump_lengths; [split; [assumption|tlia]|tlia]. Qed.

Lemma ref_append_expr_float64 m p s tag x : sg m p s ->
  refines (Ok (append_expr_float64 p tag x)) (g_append_expr_float64 s tag x) m sg.
Proof. intros [S L]. unfold append_expr_float64, g_append_expr_float64. walk. Qed.

Lemma ref_append_expr_float32 m p s tag x : sg m p s ->
  refines (Ok (append_expr_float32 p tag x)) (g_append_expr_float32 s tag x) m sg.
Proof. intros [S L]. unfold append_expr_float32, g_append_expr_float32. walk. Qed.

Lemma ref_append_expr_bool m p s tag x : sg m p s ->
  refines (Ok (append_expr_bool p tag x)) (g_append_expr_bool s tag x) m sg.
Proof. intros [S L]. unfold append_expr_bool, g_append_expr_bool. walk. Qed.

Lemma ref_append_expr_null m p s tag : sg m p s ->
  refines (Ok (append_expr_null p tag)) (g_append_expr_null s tag) m sg.
Proof. intros [S L]. unfold append_expr_null, g_append_expr_null. walk. Qed.

Lemma ref_append_expr_uint64 m p s tag x : sg m p s ->
  refines (append_expr_uint64 p tag x) (g_append_expr_uint64 s tag x) m sg.
Proof. intros [S L]. unfold append_expr_uint64, g_append_expr_uint64. walk. Qed.

Lemma ref_append_expr_int64 m p s tag x : sg m p s ->
  refines (append_expr_int64 p tag x) (g_append_expr_int64 s tag x) m sg.
Proof. intros [S L]. unfold append_expr_int64, g_append_expr_int64. walk. Qed.

Lemma ref_append_expr_bytes_string m p s tag x c : sg m p s ->
  refines (append_expr_bytes_string p tag x c) (g_append_expr_bytes_string s tag x c) m sg.
Proof. intros [S L]. unfold append_expr_bytes_string, g_append_expr_bytes_string. walk. opt ref_from_last. walk. Qed.

Lemma ref_append_expr_string m p s tag x c : sg m p s ->
  refines (append_expr_string p tag x c) (g_append_expr_string s tag x c) m sg.
Proof. intros [S L]. unfold append_expr_string, g_append_expr_string. walk. opt ref_from_last. walk. Qed.

Lemma ref_append_expr_bytes m p s tag x c : sg m p s ->
  refines (append_expr_bytes p tag x c) (g_append_expr_bytes s tag x c) m sg.
Proof. intros [S L]. destruct x; [apply ref_append_expr_bytes_string|apply ref_append_expr_null]; split; assumption. Qed.

Lemma ref_append_expr_column m p s tag x : sg m p s ->
  refines (append_expr_column p tag x) (g_append_expr_column s tag x) m sg.
Proof. intros [S L]. unfold append_expr_column, g_append_expr_column. walk. Qed.

Lemma ref_append_expr_placeholder m p s tag x : sg m p s ->
  refines (append_expr_placeholder p tag x) (g_append_expr_placeholder s tag x) m sg.
Proof. intros [S L]. unfold append_expr_placeholder, g_append_expr_placeholder. walk. Qed.

Lemma ref_append_expr_variable m p s tag x : sg m p s ->
  refines (append_expr_variable p tag x) (g_append_expr_variable s tag x) m sg.
Proof. intros [S L]. unfold append_expr_variable, g_append_expr_variable. walk. Qed.

Lemma ref_operator_header m p s i tag x : sg m p s -> 0 <= i ->
  refines (operator_header p i tag x) (g_operator_header s i tag x) m sg.
Proof. intros [S L] Li. unfold operator_header, g_operator_header. walk. Qed.

Lemma ref_call_header m p s i tag x : sg m p s -> 0 <= i ->
  refines (call_header p i tag x) (g_call_header s i tag x) m sg.
Proof. intros [S L] Li. unfold call_header, g_call_header. walk. Qed.



(* ------------------------------------------------------------ values *)

Lemma ref_okm r h m : refines r h m sg -> refines (okm r) (g_okm h) m sl2.
Proof.
  intros R. unfold okm, g_okm. eapply ref_bind; [exact R|]. intros m' a b [S L]. apply ref_ret. split; [exact S|]. split; [reflexivity|auto].
Qed.

Lemma ref_ok q h m : refines (Ok q) h m sg -> refines (ok q) (g_okm h) m sl2.
Proof. apply (ref_okm (Ok q)). Qed.

Lemma ref_user f m p s tag : sg m p s -> refines (f p tag) (g_user f s tag) m sl2.
Proof.
  intros [S _]. unfold g_user, refines. pose proof S as [[W1 W2] V]. unfold view in V.
  apply safe_bind, safe_loads; [exact W2|]. cbv zeta in V. rewrite V.
  destruct (f p tag) as [[q e]|]; [|exact I].
  assert (Fq : firstn (len q) (data q ++ spare q) = data q /\ skipn (len q) (data q ++ spare q) = spare q).
  { unfold len. rewrite firstn_app, skipn_app, firstn_all, skipn_all, Nat.sub_diag. cbn [firstn skipn app]. rewrite app_nil_r. auto. }
  destruct Fq as [F1 F2].
  destruct (Nat.eqb_spec (cap q) (hcap s)) as [C|C].
  - assert (Lq : length (data q ++ spare q) = hcap s) by (rewrite app_length; exact C).
    apply safe_bind, safe_stores; [lia|]. cbn [safe]. split; [|cbn; auto]. cbn [fst].
    pose proof (sl_write m p s 0 (data q ++ spare q) S ltac:(lia)) as [[W3 W4] V']. rewrite Nat.add_0_r in *.
    assert (Ef : sub (array (write m (arr s) (off s) (data q ++ spare q)) (arr s)) (off s) (hcap s) = data q ++ spare q).
    { rewrite array_write, Nat.eqb_refl by lia. unfold sub, ow.
      rewrite skipn_app, skipn_all2 by (rewrite firstn_length; lia). rewrite firstn_length, Nat.min_l by lia. rewrite Nat.sub_diag. cbn [skipn app].
      rewrite firstn_app, <- Lq, firstn_all, Nat.sub_diag. cbn [firstn]. apply app_nil_r. }
    split; [split; cbn [hlen hcap off arr]; [unfold cap, len in *; lia|exact W4]|].
    unfold view; cbn [hlen hcap off arr]. rewrite Ef, F1, F2. destruct q; reflexivity.
  - cbn [safe]. intros a Ha. split; [|cbn; auto]. cbn [fst].
    pose proof (sl_new m a (data q ++ spare q) (len q)) as Sn. rewrite app_length in Sn. specialize (Sn ltac:(unfold len; lia)).
    rewrite F1, F2 in Sn. destruct q; exact Sn.
Qed.

Definition ref_method (o : option ufun) (h : option (hslice -> N -> go (hslice * option err))) : Prop :=
  match o, h with
  | None, None => True
  | Some f, Some g => forall m p s tag, sg m p s -> refines (f p tag) (g s tag) m sl2
  | _, _ => False
  end.

Lemma ref_any_method v : value_users P v -> ref_method (any_method v) (g_any_method v).
Proof.
  intros U. unfold any_method, g_any_method, ref_method. destruct v; auto; try (intros; apply ref_okm).
  - apply ref_append_any_string; auto.
  - apply ref_append_any_bytes; auto.
  - apply ref_append_any_bytes_string; auto.
  - apply ref_append_any_bytes; auto.
  - apply ref_append_any_bytes_string; auto.
  - apply ref_append_any_bytes; auto.
  - destruct any_method as [f|]; cbn [option_map]; auto. intros. apply ref_user; assumption.
Qed.

Lemma sl_nil m p s : sg m p s -> sl m nil_slice hnil.
Proof. intros _. split; [split; cbn; lia|reflexivity]. Qed.

Ltac enc :=
  lazymatch goal with
  | |- FineProofs.refines _ (g_append_any_uint8 _ _ _) _ _ => apply ref_append_any_uint8; assumption
  | |- FineProofs.refines _ (g_append_any_uint16 _ _ _) _ _ => apply ref_append_any_uint16; assumption
  | |- FineProofs.refines _ (g_append_any_uint32 _ _ _) _ _ => apply ref_append_any_uint32; assumption
  | |- FineProofs.refines _ (g_append_any_uint64 _ _ _) _ _ => apply ref_append_any_uint64; assumption
  | |- FineProofs.refines _ (g_append_any_int8 _ _ _) _ _ => apply ref_append_any_int8; assumption
  | |- FineProofs.refines _ (g_append_any_int16 _ _ _) _ _ => apply ref_append_any_int16; assumption
  | |- FineProofs.refines _ (g_append_any_int32 _ _ _) _ _ => apply ref_append_any_int32; assumption
  | |- FineProofs.refines _ (g_append_any_int64 _ _ _) _ _ => apply ref_append_any_int64; assumption
  | |- FineProofs.refines _ (g_append_any_string _ _ _ _) _ _ => apply ref_append_any_string; assumption
  | |- FineProofs.refines _ (g_append_any_bytes _ _ _ _) _ _ => apply ref_append_any_bytes; assumption
  | |- FineProofs.refines _ (g_append_any_bytes_string _ _ _ _) _ _ => apply ref_append_any_bytes_string; assumption
  | |- FineProofs.refines _ (g_append_any_bool _ _ _) _ _ => apply ref_append_any_bool; assumption
  | |- FineProofs.refines _ (g_append_any_float32 _ _ _) _ _ => apply ref_append_any_float32; assumption
  | |- FineProofs.refines _ (g_append_any_float64 _ _ _) _ _ => apply ref_append_any_float64; assumption
  | |- FineProofs.refines _ (g_append_any_time _ _ _) _ _ => apply ref_append_any_time; assumption
  | |- FineProofs.refines _ (g_append_any_duration _ _ _) _ _ => apply ref_append_any_duration; assumption
  | |- FineProofs.refines _ (g_append_any_null _ _) _ _ => apply ref_append_any_null; assumption
  | |- FineProofs.refines _ (g_append_expr_uint64 _ _ _) _ _ => apply ref_append_expr_uint64; assumption
  | |- FineProofs.refines _ (g_append_expr_int64 _ _ _) _ _ => apply ref_append_expr_int64; assumption
  | |- FineProofs.refines _ (g_append_expr_string _ _ _ _) _ _ => apply ref_append_expr_string; assumption
  | |- FineProofs.refines _ (g_append_expr_bytes _ _ _ _) _ _ => apply ref_append_expr_bytes; assumption
  | |- FineProofs.refines _ (g_append_expr_bytes_string _ _ _ _) _ _ => apply ref_append_expr_bytes_string; assumption
  | |- FineProofs.refines _ (g_append_expr_bool _ _ _) _ _ => apply ref_append_expr_bool; assumption
  | |- FineProofs.refines _ (g_append_expr_float32 _ _ _) _ _ => apply ref_append_expr_float32; assumption
  | |- FineProofs.refines _ (g_append_expr_float64 _ _ _) _ _ => apply ref_append_expr_float64; assumption
  | |- FineProofs.refines _ (g_append_expr_time _ _ _) _ _ => apply ref_append_expr_time; assumption
  | |- FineProofs.refines _ (g_append_expr_duration _ _ _) _ _ => apply ref_append_expr_duration; assumption
  | |- FineProofs.refines _ (g_append_expr_null _ _) _ _ => apply ref_append_expr_null; assumption
  | |- FineProofs.refines _ (g_append_expr_column _ _ _) _ _ => apply ref_append_expr_column; assumption
  | |- FineProofs.refines _ (g_append_expr_variable _ _ _) _ _ => apply ref_append_expr_variable; assumption
  | |- FineProofs.refines _ (g_append_expr_placeholder _ _ _) _ _ => apply ref_append_expr_placeholder; assumption
  end.
Ltac leaf := lazymatch goal with |- FineProofs.refines (okm _) _ _ _ => apply ref_okm; enc | |- FineProofs.refines (ok _) _ _ _ => apply ref_ok; enc end.


Lemma ref_type_switch v : value_users P v -> forall m p s tag, sg m p s ->
  refines (type_switch v p tag) (g_type_switch v s tag) m sl2.
Proof.
  assert (Hm : forall v m p s tag, value_users P v -> sg m p s ->
    refines (match any_method v with Some f => f p tag | None => Ok (nil_slice, Some EUnsupported) end)
      (match g_any_method v with Some f => f s tag | None => Return (hnil, Some EUnsupported) end) m sl2).
  { intros v' m p s tag U S. pose proof (ref_any_method v' U) as M.
    destruct (any_method v'), (g_any_method v'); try contradiction; [apply M; auto|].
    apply ref_ret. split; [eapply sl_nil; eauto|]. split; [reflexivity|split; [discriminate|auto]]. }
  induction v using gvalue_ind; intros U m p s' tag S; 
    lazymatch goal with |- FineProofs.refines (type_switch ?v _ _) _ _ _ =>
      lazymatch v with
      | VNil => exact (Hm v m p s' tag U S) | VFunc _ => exact (Hm v m p s' tag U S) | VUser _ _ => exact (Hm v m p s' tag U S)
      | VStr _ _ => exact (Hm v m p s' tag U S) | VXml _ => exact (Hm v m p s' tag U S) | VXmlString _ => exact (Hm v m p s' tag U S)
      | VJson _ => exact (Hm v m p s' tag U S) | VJsonString _ => exact (Hm v m p s' tag U S) | VGeometry _ => exact (Hm v m p s' tag U S)
      | _ => unfold type_switch, g_type_switch; fold type_switch; fold g_type_switch
      end
    end; try leaf.
  - destruct word32; leaf.
  - destruct word32; leaf.
  - destruct iface; [apply IHv; auto|]. pose proof (ref_any_method v U) as M.
    destruct (any_method v), (g_any_method v); try contradiction; auto.
  - destruct any_method; [eapply ref_panic; exact (proj1 S)|leaf].
Qed.

Lemma ref_append_any v m p s tag : value_users P v -> sg m p s -> refines (append_any v p tag) (g_append_any v s tag) m sl2.
Proof. intros U S. destruct v; try (apply ref_type_switch; [exact U|exact S]). cbn [append_any g_append_any]. leaf. Qed.

Lemma ref_expr_method v : value_users P v -> ref_method (expr_method v) (g_expr_method v).
Proof.
  intros U. unfold expr_method, g_expr_method, ref_method. destruct v; auto; try (intros; apply ref_okm).
  - apply ref_append_expr_string; auto.
  - apply ref_append_expr_bytes; auto.
  - apply ref_append_expr_bytes_string; auto.
  - apply ref_append_expr_bytes; auto.
  - apply ref_append_expr_bytes_string; auto.
  - apply ref_append_expr_bytes; auto.
  - destruct expr_method as [f|]; cbn [option_map]; auto. intros. apply ref_user; assumption.
Qed.

(* a step of one element after the other *)
Lemma ref_each {A} (f : A -> slice -> res (slice * option err)) (h : A -> hslice -> go (hslice * option err)) wrap xs :
  Forall (fun x => forall m p s, sg m p s -> refines (f x p) (h x s) m sl2) xs ->
  forall j m p s, sg m p s -> refines (each f wrap j xs p) (g_each h wrap j xs s) m sl2.
Proof.
  induction 1 as [|x xs Hx _ IH]; intros j m p s S; cbn [each g_each].
  - apply ref_ret. destruct S. two.
  - eapply ref_bind; [apply Hx; exact S|post]. then_ok. apply IH. split; auto.
Qed.

Definition ref_expr_goal v := value_users P v -> forall m p s tag, sg m p s -> refines (append_expr v p tag) (g_append_expr v s tag) m sl2.
Definition ref_fun_goal f := fun_users P f -> forall m p s tag, sg m p s -> refines (run_fun f p tag) (g_run_fun f s tag) m sl2.

Lemma ref_expr_fun : (forall v, ref_expr_goal v) /\ (forall f, ref_fun_goal f).
Proof.
  assert (Hm : forall v m p s tag, value_users P v -> sg m p s ->
    refines (match expr_method v with Some f => f p tag | None => Ok (p, Some EUnsupported) end)
      (match g_expr_method v with Some f => f s tag | None => Return (s, Some EUnsupported) end) m sl2).
  { intros v' m p s tag U S. pose proof (ref_expr_method v' U) as M.
    destruct (expr_method v'), (g_expr_method v'); try contradiction; [apply M; auto|].
    apply ref_ret. destruct S. two. }
  assert (Hl : forall v, match v with VFunc (Some _) | VPtr _ _ => False | _ => True end -> ref_expr_goal v).
  { intros v L U m p s tag S. destruct v as [| | | | | | | | | | | | | | | | | | | | | | | |g| | |]; try contradiction;
    lazymatch goal with |- FineProofs.refines (append_expr ?v _ _) _ _ _ =>
      lazymatch v with
      | VUser _ _ => exact (Hm v m p s tag U S)
      | VStr _ _ => exact (Hm v m p s tag U S) | VXml _ => exact (Hm v m p s tag U S) | VXmlString _ => exact (Hm v m p s tag U S)
      | VJson _ => exact (Hm v m p s tag U S) | VJsonString _ => exact (Hm v m p s tag U S) | VGeometry _ => exact (Hm v m p s tag U S)
      | _ => unfold append_expr, g_append_expr
      end
    end; try leaf.
    - destruct g; [contradiction|]. eapply ref_panic; exact (proj1 S).
    - destruct expr_method; [eapply ref_panic; exact (proj1 S)|]. apply ref_ret. destruct S. two. }
  assert (Hf : forall f, ref_fun_goal f -> ref_expr_goal (VFunc (Some f))) by (intros f Hf; exact Hf).
  assert (Hp : forall i v, ref_expr_goal v -> ref_expr_goal (VPtr i v)).
  { intros i v _ U m p s tag S. cbn [append_expr g_append_expr]. destruct i; [apply ref_ret; destruct S; two|apply Hm; [exact U|exact S]]. }
  assert (Hfl : forall f, match f with EOperator _ _ | ECall _ _ => False | _ => True end -> ref_fun_goal f).
  { intros f L U m p s tag S. destruct f; try contradiction; cbn [run_fun g_run_fun]; try leaf. apply ref_user; exact S. }
  assert (Hps : forall ps, Forall ref_expr_goal ps -> all (value_users P) ps -> forall tag wrap j m p s, sg m p s ->
    refines (each (fun v p => append_expr v p tag) wrap j ps p) (g_each (fun v p => g_append_expr v p tag) wrap j ps s) m sl2).
  { intros ps F U tag wrap. apply ref_each. apply all_Forall in U. rewrite Forall_forall in *. intros v Hv m p s S.
    apply (F v Hv); [apply U; exact Hv|exact S]. }
  assert (Ho : forall name ps, Forall ref_expr_goal ps -> ref_fun_goal (EOperator name ps)).
  { intros name ps F U m p s tag S. cbn [run_fun g_run_fun]. cbv zeta. pose proof S as [S1 L1]. lens. eapply ref_bind; [apply Hps; eassumption|post]. then_ok.
    apply ref_okm, ref_operator_header; [split; auto|assumption]. }
  assert (Hc : forall name ps, Forall ref_expr_goal ps -> ref_fun_goal (ECall name ps)).
  { intros name ps F U m p s tag S. cbn [run_fun g_run_fun]. cbv zeta. pose proof S as [S1 L1]. lens. eapply ref_bind; [apply Hps; eassumption|post]. then_ok.
    apply ref_okm, ref_call_header; [split; auto|assumption]. }
  split; [exact (gvalue_deep _ _ Hl Hf Hp Hfl Ho Hc)|exact (exprfun_deep _ _ Hl Hf Hp Hfl Ho Hc)].
Qed.

Lemma ref_append_expr v m p s tag : value_users P v -> sg m p s -> refines (append_expr v p tag) (g_append_expr v s tag) m sl2.
Proof. intros U. apply ref_expr_fun; exact U. Qed.
Lemma ref_run_fun f m p s tag : fun_users P f -> sg m p s -> refines (run_fun f p tag) (g_run_fun f s tag) m sl2.
Proof. intros U. apply ref_expr_fun; exact U. Qed.

(* ------------------------------------------------------------ messages *)


Lemma ref_patch m p s n : sl m p s -> 0 <= n ->
  refines (patch_length p n) (g_patch_length s n) m (fun m' p' s' => sl m' p' s' /\ s' = s).
Proof.
  intros S L. unfold patch_length, g_patch_length. lens. eapply ref_last; [prim|]. intros m' a b S'. auto.
Qed.
Lemma ref_patch_length m p s n : sg m p s -> 0 <= n -> refines (patch_length p n) (g_patch_length s n) m sg.
Proof. intros [S L] Ln. eapply ref_weaken; [apply ref_patch; assumption|]. intros m' a b [S' ->]. split; assumption. Qed.

Lemma ref_append_args tag args m p s : Forall (value_users P) args -> sg m p s ->
  refines (append_args tag args p) (g_append_args tag args s) m sl2.
Proof. intros U S. apply ref_each; [|exact S]. eapply Forall_impl; [|exact U]. intros v Uv m' p' s' S'. apply ref_append_any; assumption. Qed.

Lemma ref_exprs tag wrap vs m p s : Forall (value_users P) vs -> sg m p s ->
  refines (each (fun v p => append_expr v p tag) wrap 0 vs p) (g_each (fun v p => g_append_expr v p tag) wrap 0 vs s) m sl2.
Proof. intros U S. apply ref_each; [|exact S]. eapply Forall_impl; [|exact U]. intros v Uv m' p' s' S'. apply ref_append_expr; assumption. Qed.

Lemma ref_stmt_execute m p s stmt args : Forall (value_users P) args -> sg m p s ->
  refines (stmt_execute p stmt args) (g_stmt_execute s stmt args) m sl2.
Proof.
  intros U [S L]. unfold stmt_execute, g_stmt_execute. walk.
  eapply ref_bind; [apply ref_append_args; [exact U|split; [eassumption|tlia]]|post]. then_ok. apply ref_okm, ref_patch_length; [split; auto|assumption].
Qed.

Lemma ref_criteria m p s f tag : opt (fun_users P) f -> sg m p s ->
  refines (match f with None => Ok (p, None) | Some f => run_fun f p tag end)
    (match f with None => Return (s, None) | Some f => g_run_fun f s tag end) m sl2.
Proof. intros U S. destruct f; [apply ref_run_fun; [exact U|exact S]|apply ref_ret; destruct S; two]. Qed.

Lemma ref_msg_delete m p s name criteria : opt (fun_users P) criteria -> sg m p s ->
  refines (msg_delete p name criteria) (g_msg_delete s name criteria) m sl2.
Proof.
  intros U [S L]. unfold msg_delete, g_msg_delete. walk.
  eapply ref_bind; [apply ref_criteria; [exact U|split; [eassumption|tlia]]|post].
  eapply ref_bind; [apply ref_patch; eassumption|post]. apply ref_ret. two.
Qed.

Lemma ref_insert_columns names : forall m p s, sg m p s ->
  refines (insert_columns names p) (g_insert_columns names s) m sg.
Proof.
  induction names as [|name names IH]; intros m p s S; cbn [insert_columns g_insert_columns]; [apply ref_ret; exact S|].
  destruct S as [S L]. walk. apply IH; split; [assumption|tlia].
Qed.

Lemma ref_msg_insert m p s name names : sg m p s ->
  refines (msg_insert p name names) (g_msg_insert s name names) m sg.
Proof. intros [S L]. unfold msg_insert, g_msg_insert. walk. apply ref_insert_columns; split; [assumption|tlia]. Qed.

Lemma ref_append_insert_row m p s row : Forall (value_users P) row -> sg m p s ->
  refines (append_insert_row p row) (g_append_insert_row s row) m sl2.
Proof.
  intros U [S L]. unfold append_insert_row, g_append_insert_row. walk.
  eapply ref_bind; [apply ref_exprs; [exact U|split; [eassumption|tlia]]|post]. then_ok. cbv zeta. lens.
  match goal with H : None = None -> _ |- _ => specialize (H eq_refl) end.
  eapply (ref_bind _ _ _ _ _ sg);
    [destruct (_ =? 2); [apply ref_ret; split; assumption|eapply ref_weaken; [apply ref_append_tail; [assumption|tlia]|fin]]|post].
  walk. two.
Qed.

Lemma ref_msg_update m p s name criteria : opt (fun_users P) criteria -> sg m p s ->
  refines (msg_update p name criteria) (g_msg_update s name criteria) m sl2.
Proof. intros U [S L]. unfold msg_update, g_msg_update. walk. apply ref_criteria; [exact U|split; [assumption|tlia]]. Qed.

Lemma ref_set_header m p s i name : sg m p s -> 0 <= i ->
  refines (set_header p i name) (g_set_header s i name) m sg.
Proof. intros [S L] Li. unfold set_header, g_set_header. walk. Qed.

Lemma ref_append_update_set m p s name v : value_users P v -> sg m p s ->
  refines (append_update_set p name v) (g_append_update_set s name v) m sl2.
Proof.
  intros U S. unfold append_update_set, g_append_update_set. cbv zeta. pose proof S as [S1 L1]. lens.
  eapply ref_bind; [apply ref_append_expr; [exact U|exact S]|post]. then_ok. apply ref_okm, ref_set_header; [split; auto|assumption].
Qed.

Lemma ref_msg_prepare m p s id stmt : sg m p s ->
  refines (msg_prepare p id stmt) (g_msg_prepare s id stmt) m sg.
Proof. intros [S L]. unfold msg_prepare, g_msg_prepare. walk. Qed.

Lemma ref_msg_execute m p s id args : Forall (value_users P) args -> sg m p s ->
  refines (msg_execute p id args) (g_msg_execute s id args) m sl2.
Proof.
  intros U [S L]. unfold msg_execute, g_msg_execute. walk.
  eapply ref_bind; [apply ref_append_args; [exact U|split; [eassumption|tlia]]|post]. then_ok. apply ref_okm, ref_patch_length; [split; auto|assumption].
Qed.

Lemma ref_msg_deallocate m p s id : sg m p s ->
  refines (msg_deallocate p id) (g_msg_deallocate s id) m sg.
Proof. intros [S L]. unfold msg_deallocate, g_msg_deallocate. walk. Qed.

Lemma ref_append_condition m p s c : sg m p s ->
  refines (append_condition c p) (g_append_condition c s) m sg.
Proof. intros [S L]. destruct c as [[|]|f]; unfold append_condition, g_append_condition; walk. Qed.

Lemma ref_append_conditions cs : forall m p s, sg m p s ->
  refines (append_conditions cs p) (g_append_conditions cs s) m sg.
Proof.
  induction cs as [|c cs IH]; intros m p s S; cbn [append_conditions g_append_conditions]; [apply ref_ret; exact S|].
  eapply ref_bind; [apply ref_append_condition; exact S|post]. apply IH; split; assumption.
Qed.

Lemma ref_expect_open m p s op cs : sg m p s ->
  refines (expect_open p op cs) (g_expect_open s op cs) m sg.
Proof.
  intros [S L]. unfold expect_open, g_expect_open. walk.
  eapply ref_bind; [apply ref_append_conditions; split; [eassumption|tlia]|post]. apply ref_patch_length; [split; assumption|assumption].
Qed.

Lemma ref_expect_close m p s : sg m p s -> refines (Ok (expect_close p)) (g_expect_close s) m sg.
Proof. intros [S L]. unfold expect_close, g_expect_close. walk. Qed.

End Ref.
