(* The encoders over memory (MemModel.v) refine those over slice values (AnyModel.v, ExprModel.v, MsgModel.v, Builder.v). *)
From Coq Require Import String List NArith ZArith Arith Bool Lia.
From Coq Require Import List.
From Verif Require Import Base GoSlice Varint Text Values AnyModel ExprModel MsgModel Builder SpecValue ValueProofs SpecMem Mem MemModel MemProofs.
Import ListNotations.
Local Open Scope nat_scope.

(* The same slice and the same second component; the slice is at least as long as lo, except that with an error it may be
   in other memory than that of s0. *)
Definition sl2 (m0 : mem) (s0 : hslice) (lo : nat) (m : mem) (a : slice * option err) (b : hslice * option err) : Prop :=
  sl m0 s0 lo m (fst a) (fst b) /\ snd a = snd b /\ (snd a = None -> lo <= hlen (fst b)) /\
  (lo <= hlen (fst b) \/ length m0 <= arr (fst b) \/ hcap (fst b) = 0).

(* User code that does not write before index lo of a slice longer than that. *)
Definition low (lo : nat) (u : ufun) : Prop := forall p tag q e, lo <= len p -> u p tag = Ok (q, e) ->
  (cap q = cap p -> lo <= len q /\ firstn lo (data q ++ spare q) = firstn lo (data p)) /\ (e = None -> lo <= len q).

Local Ltac lens := repeat match goal with S : sl _ _ _ _ ?p ?s |- context [len ?p] => rewrite (sl_len _ _ _ _ _ _ S) end.
Local Ltac tlia := lia || (repeat match goal with T : tl ?s ?b ?k |- _ => pose proof (tl_len s b k T); clear T end; lia).
Local Ltac tls := first [eassumption|apply tl_refl].
Local Ltac prim := first
 [ eapply ref_put; [eassumption|tls|tlia|tlia]
 | eapply ref_put_uvarint; [eassumption|tls|tlia|tlia]
 | eapply ref_copy; [eassumption|tls|tlia|left; tlia]
 | apply ref_upd; [eassumption|tlia]
 | apply ref_append; [eassumption|tlia]
 | apply ref_for_append; [eassumption|tlia]
 | apply ref_mask_truncate; [eassumption|tlia]
 | apply ref_reslice; eassumption
 | apply ref_insert; [eassumption|tlia|tlia]
 | apply ref_append_tail; [eassumption|tlia] ].
Local Ltac open R := cbv beta in R;
  repeat match goal with
  | R : _ /\ _ |- _ => destruct R
  | R : sl2 _ _ _ _ _ _ |- _ => destruct R
  | R : sg _ _ _ _ _ _ |- _ => destruct R
  | a : (_ * _)%type |- _ => destruct a
  end; cbn [fst snd length] in *;
  repeat match goal with R : ?x = ?y |- _ => is_var x; subst x end.
Local Ltac post := cbv beta;
  let m := fresh "m" in let a := fresh "a" in let b := fresh "b" in let R := fresh "R" in
  intros m a b R; open R; cbv beta iota; lens.
Local Ltac fin := cbv beta;
  let m := fresh "m" in let a := fresh "a" in let b := fresh "b" in let R := fresh "R" in
  intros m a b R; open R; split; [assumption|tlia].
Local Ltac step :=
  lazymatch goal with
  | S : sl ?m0 ?s0 ?lo ?m ?p ?s |- refines ?m0 ?s0 ?lo ?r (hbind (h_append ?s ?xs) ?g ?m) ?Q =>
      eapply (ref_pure m0 s0 lo (append p xs)); [apply ref_append; [exact S|tlia]|];
      generalize (append p xs);
      let p' := fresh "p" in let m' := fresh "m" in let s' := fresh "s" in let S' := fresh "S" in let L' := fresh "L" in
      intros p' m' s' [S' L']; cbn [length] in L'; cbv beta iota; lens
  | S : sl ?m0 ?s0 ?lo ?m ?p ?s |- refines ?m0 ?s0 ?lo ?r (hbind (h_for_append ?s ?xs) ?g ?m) ?Q =>
      eapply (ref_pure m0 s0 lo (for_append p xs)); [apply ref_for_append; [exact S|tlia]|];
      generalize (for_append p xs);
      let p' := fresh "p" in intros p'; let m' := fresh "m" in intros m';
      let s' := fresh "s" in let b' := fresh "b" in let S' := fresh "S" in let T' := fresh "T" in let L' := fresh "L" in
      intros [s' b']; cbn [fst snd]; intros [S' [T' L']]; cbv beta iota; lens
  | |- refines _ _ _ _ (hbind (h_from _ _) _ _) _ => eapply ref_from; [eassumption|lia|intros ? ?]
  | |- refines _ _ _ (bind _ _) (hbind _ _ _) _ => eapply ref_bind; [prim|post]
  | |- refines _ _ _ _ (hbind _ (fun _ => hret _) _) _ => eapply ref_last; [prim|fin]
  | |- refines _ _ _ (Ok _) (hret _ _) _ => apply ref_ret
  | |- _ => eapply ref_weaken; [prim|fin]
  end.
Local Ltac walk := cbv zeta; lens; repeat step.
(* the optional field of a string or of octets *)
Local Ltac opt L :=
  match goal with
  | S : sl ?m0 ?s0 ?lo ?m ?p ?s, T : tl ?s ?b ?k |- refines ?m0 ?s0 ?lo (bind (if ?c then Ok (?p, ?k) else _) _) (hbind (if ?c then hret ?b else _) _ ?m) _ =>
      eapply (ref_bind m0 s0 lo _ _ _ _ m (fun m' a b => sl m0 s0 lo m' (fst a) s /\ tl s b (snd a) /\ k <= snd a));
      [destruct c; [apply ref_ret; cbn [fst snd]; auto|walk; apply L; [assumption|assumption|lia|lia]]|post]
  end.
Local Ltac smalls := repeat match goal with |- context [smalls_at ?i] => destruct (smalls_at i); cbn [bind] end;
  first [eapply ref_weaken; [apply ref_append; [assumption|tlia]|fin]|eapply ref_panic; eassumption].

(* the result of the first part decides whether the second runs *)
Local Ltac two := split; [assumption|split; [reflexivity|split; [try discriminate; auto|auto]]].
Local Ltac then_ok := match goal with
  | e : option err |- refines _ _ _ _ ((match ?e with Some _ => _ | None => _ end) _) _ =>
      destruct e; [apply ref_ret; two|]
  end.

Section Ref.
Context `{E : Env}.
Variables (m0 : mem) (s0 : hslice) (lo : nat) (P : ufun -> Prop).
Hypothesis Plow : forall u, P u -> low lo u.
Local Notation sl := (sl m0 s0 lo).
Local Notation sg := (sg m0 s0 lo).
Local Notation sl2 := (sl2 m0 s0 lo).
Local Notation refines := (refines m0 s0 lo).

Lemma ref_from_last s b k0 k j m p : sl m p s -> tl s b k -> k + j <= hlen s -> k0 <= k + j ->
  refines (Ok (p, k + j)) (h_from b j m) (fun m' a b => sl m' (fst a) s /\ tl s b (snd a) /\ k0 <= snd a).
Proof. intros S T L L0. destruct (from_tl s b k j m T L) as [b' [Eb T']]. exists b', m. cbn [fst snd]. auto. Qed.

Lemma ref_append_any_uint8 m p s tag x : sg m p s ->
  refines (Ok (append_any_uint8 p tag x)) (h_append_any_uint8 s tag x m) sg.
Proof. intros [S L]. unfold append_any_uint8, h_append_any_uint8. destruct (_ <? _)%N; walk. Qed.

Lemma ref_append_any_uint16 m p s tag x : sg m p s ->
  refines (append_any_uint16 p tag x) (h_append_any_uint16 s tag x m) sg.
Proof. intros [S L]. unfold append_any_uint16, h_append_any_uint16. walk. Qed.

Lemma ref_append_any_uint32 m p s tag x : sg m p s ->
  refines (append_any_uint32 p tag x) (h_append_any_uint32 s tag x m) sg.
Proof. intros [S L]. unfold append_any_uint32, h_append_any_uint32. walk. Qed.

Lemma ref_append_any_uint64 m p s tag x : sg m p s ->
  refines (append_any_uint64 p tag x) (h_append_any_uint64 s tag x m) sg.
Proof. intros [S L]. unfold append_any_uint64, h_append_any_uint64. walk. Qed.

Lemma ref_append_any_int8 m p s tag x : sg m p s ->
  refines (Ok (append_any_int8 p tag x)) (h_append_any_int8 s tag x m) sg.
Proof. intros [S L]. unfold append_any_int8, h_append_any_int8. cbv zeta. destruct (_ <? _)%N; walk. Qed.

Lemma ref_append_any_int16 m p s tag x : sg m p s ->
  refines (append_any_int16 p tag x) (h_append_any_int16 s tag x m) sg.
Proof. intros [S L]. unfold append_any_int16, h_append_any_int16. walk. Qed.

Lemma ref_append_any_int32 m p s tag x : sg m p s ->
  refines (append_any_int32 p tag x) (h_append_any_int32 s tag x m) sg.
Proof. intros [S L]. unfold append_any_int32, h_append_any_int32. walk. Qed.

Lemma ref_append_any_int64 m p s tag x : sg m p s ->
  refines (append_any_int64 p tag x) (h_append_any_int64 s tag x m) sg.
Proof. intros [S L]. unfold append_any_int64, h_append_any_int64. walk. Qed.

Lemma ref_append_any_null m p s tag : sg m p s ->
  refines (Ok (append_any_null p tag)) (h_append_any_null s tag m) sg.
Proof. intros [S L]. unfold append_any_null, h_append_any_null. walk. Qed.

Lemma ref_append_any_bytes_string m p s tag x c : sg m p s ->
  refines (append_any_bytes_string p tag x c) (h_append_any_bytes_string s tag x c m) sg.
Proof. intros [S L]. unfold append_any_bytes_string, h_append_any_bytes_string. walk. opt ref_from_last. walk. Qed.

Lemma ref_append_any_string m p s tag x c : sg m p s ->
  refines (append_any_string p tag x c) (h_append_any_string s tag x c m) sg.
Proof. intros [S L]. unfold append_any_string, h_append_any_string. walk. opt ref_from_last. walk. Qed.

Lemma ref_append_any_bytes m p s tag x c : sg m p s ->
  refines (append_any_bytes p tag x c) (h_append_any_bytes s tag x c m) sg.
Proof. intros [S L]. destruct x; [apply ref_append_any_bytes_string|apply ref_append_any_null]; split; assumption. Qed.

Lemma ref_bump_lengths m p s i n : sg m p s -> lo <= i ->
  refines (bump_lengths p i n) (h_bump_lengths s i n m) sg.
Proof. intros [S L] Li. unfold bump_lengths, h_bump_lengths. walk. Qed.

Lemma ref_append_duration m p s d : sg m p s ->
  refines (append_duration p d) (h_append_duration s d m) sg.
Proof. intros [S L]. unfold append_duration, h_append_duration. destruct (d <? 0)%Z; cbv zeta iota beta.
  - rewrite hbind_assoc. step. eapply ref_skip; [reflexivity|]. cbv iota beta. walk. smalls.
  - eapply ref_skip; [reflexivity|]. cbv iota beta. walk. smalls. Qed.

Lemma ref_append_any_time m p s tag t : sg m p s ->
  refines (append_any_time p tag t) (h_append_any_time s tag t m) sg.
Proof. intros [S L]. unfold append_any_time, h_append_any_time. walk. destruct (_ <=? _)%nat; [eapply ref_panic; eassumption|apply ref_bump_lengths; [split; [assumption|tlia]|tlia]]. Qed.

Lemma ref_append_any_duration m p s tag d : sg m p s ->
  refines (append_any_duration p tag d) (h_append_any_duration s tag d m) sg.
Proof. intros [S L]. unfold append_any_duration, h_append_any_duration. walk.
  eapply ref_bind; [apply ref_append_duration; split; [eassumption|tlia]|post]. apply ref_bump_lengths; [split; [assumption|tlia]|tlia]. Qed.

Lemma ref_append_any_float64 m p s tag x : sg m p s ->
  refines (Ok (append_any_float64 p tag x)) (h_append_any_float64 s tag x m) sg.
Proof. intros [S L]. unfold append_any_float64, h_append_any_float64. walk. Qed.

Lemma ref_append_any_float32 m p s tag x : sg m p s ->
  refines (Ok (append_any_float32 p tag x)) (h_append_any_float32 s tag x m) sg.
Proof. intros [S L]. unfold append_any_float32, h_append_any_float32. walk. Qed.

Lemma ref_append_any_bool m p s tag x : sg m p s ->
  refines (Ok (append_any_bool p tag x)) (h_append_any_bool s tag x m) sg.
Proof. intros [S L]. unfold append_any_bool, h_append_any_bool. walk. Qed.

Lemma ref_append_expr_time m p s tag t : sg m p s ->
  refines (append_expr_time p tag t) (h_append_expr_time s tag t m) sg.
Proof. intros [S L]. unfold append_expr_time, h_append_expr_time. walk. destruct (_ <=? _)%nat; [eapply ref_panic; eassumption|apply ref_bump_lengths; [split; [assumption|tlia]|tlia]]. Qed.

Lemma ref_append_expr_duration m p s tag d : sg m p s ->
  refines (append_expr_duration p tag d) (h_append_expr_duration s tag d m) sg.
Proof. intros [S L]. unfold append_expr_duration, h_append_expr_duration. walk.
  eapply ref_bind; [apply ref_append_duration; split; [eassumption|tlia]|post]. apply ref_bump_lengths; [split; [assumption|tlia]|tlia]. Qed.

Lemma ref_append_expr_float64 m p s tag x : sg m p s ->
  refines (Ok (append_expr_float64 p tag x)) (h_append_expr_float64 s tag x m) sg.
Proof. intros [S L]. unfold append_expr_float64, h_append_expr_float64. walk. Qed.

Lemma ref_append_expr_float32 m p s tag x : sg m p s ->
  refines (Ok (append_expr_float32 p tag x)) (h_append_expr_float32 s tag x m) sg.
Proof. intros [S L]. unfold append_expr_float32, h_append_expr_float32. walk. Qed.

Lemma ref_append_expr_bool m p s tag x : sg m p s ->
  refines (Ok (append_expr_bool p tag x)) (h_append_expr_bool s tag x m) sg.
Proof. intros [S L]. unfold append_expr_bool, h_append_expr_bool. walk. Qed.

Lemma ref_append_expr_null m p s tag : sg m p s ->
  refines (Ok (append_expr_null p tag)) (h_append_expr_null s tag m) sg.
Proof. intros [S L]. unfold append_expr_null, h_append_expr_null. walk. Qed.

Lemma ref_append_expr_uint64 m p s tag x : sg m p s ->
  refines (append_expr_uint64 p tag x) (h_append_expr_uint64 s tag x m) sg.
Proof. intros [S L]. unfold append_expr_uint64, h_append_expr_uint64. walk. Qed.

Lemma ref_append_expr_int64 m p s tag x : sg m p s ->
  refines (append_expr_int64 p tag x) (h_append_expr_int64 s tag x m) sg.
Proof. intros [S L]. unfold append_expr_int64, h_append_expr_int64. walk. Qed.

Lemma ref_append_expr_bytes_string m p s tag x c : sg m p s ->
  refines (append_expr_bytes_string p tag x c) (h_append_expr_bytes_string s tag x c m) sg.
Proof. intros [S L]. unfold append_expr_bytes_string, h_append_expr_bytes_string. walk. opt ref_from_last. walk. Qed.

Lemma ref_append_expr_string m p s tag x c : sg m p s ->
  refines (append_expr_string p tag x c) (h_append_expr_string s tag x c m) sg.
Proof. intros [S L]. unfold append_expr_string, h_append_expr_string. walk. opt ref_from_last. walk. Qed.

Lemma ref_append_expr_bytes m p s tag x c : sg m p s ->
  refines (append_expr_bytes p tag x c) (h_append_expr_bytes s tag x c m) sg.
Proof. intros [S L]. destruct x; [apply ref_append_expr_bytes_string|apply ref_append_expr_null]; split; assumption. Qed.

Lemma ref_append_expr_column m p s tag x : sg m p s ->
  refines (append_expr_column p tag x) (h_append_expr_column s tag x m) sg.
Proof. intros [S L]. unfold append_expr_column, h_append_expr_column. walk. Qed.

Lemma ref_append_expr_placeholder m p s tag x : sg m p s ->
  refines (append_expr_placeholder p tag x) (h_append_expr_placeholder s tag x m) sg.
Proof. intros [S L]. unfold append_expr_placeholder, h_append_expr_placeholder. walk. Qed.

Lemma ref_append_expr_variable m p s tag x : sg m p s ->
  refines (append_expr_variable p tag x) (h_append_expr_variable s tag x m) sg.
Proof. intros [S L]. unfold append_expr_variable, h_append_expr_variable. walk. Qed.

Lemma ref_operator_header m p s i tag x : sg m p s -> lo <= i ->
  refines (operator_header p i tag x) (h_operator_header s i tag x m) sg.
Proof. intros [S L] Li. unfold operator_header, h_operator_header. walk. Qed.

Lemma ref_call_header m p s i tag x : sg m p s -> lo <= i ->
  refines (call_header p i tag x) (h_call_header s i tag x m) sg.
Proof. intros [S L] Li. unfold call_header, h_call_header. walk. Qed.



(* ------------------------------------------------------------ values *)

Lemma ref_okm r h m : refines r (h m) sg -> refines (okm r) (h_okm h m) sl2.
Proof.
  intros R. unfold okm, h_okm. eapply ref_bind; [exact R|]. intros m' a b [S L]. apply ref_ret. split; [exact S|]. split; [reflexivity|auto].
Qed.

Lemma ref_ok q h m : refines (Ok q) (h m) sg -> refines (ok q) (h_okm h m) sl2.
Proof. apply (ref_okm (Ok q)). Qed.

Lemma ref_user f m p s tag : sg m p s -> low lo f -> refines (f p tag) (h_user f s tag m) sl2.
Proof.
  intros [S L] Hf. unfold h_user. pose proof S as [[W1 W2] [V [O I]]]. unfold view in V. cbv zeta. rewrite V.
  pose proof (sl_cap _ _ _ _ _ _ S) as Cp. pose proof (sl_full _ _ _ _ _ _ S) as Fp. pose proof (sl_len _ _ _ _ _ _ S) as Lp.
  destruct (f p tag) as [[q e]|] eqn:Ef; [|exists m; split; [reflexivity|exact O]].
  destruct (Hf p tag q e ltac:(lia) Ef) as [Hk Hl].
  destruct (Nat.eqb_spec (cap q) (hcap s)) as [C|C].
  - assert (Lq : length (data q ++ spare q) = hcap s) by (rewrite app_length; exact C).
    specialize (Hk ltac:(congruence)) as [Hc Hk].
    eexists _, _. split; [reflexivity|]. split; [|split; [reflexivity|split; cbn; auto]]. cbn [fst].
    assert (Lc : len q <= hcap s) by (unfold cap, len in *; lia).
    assert (Ls : length (sub (array m (arr s)) (off s) (hcap s)) = hcap s) by (apply sub_length; auto).
    assert (Hk' : firstn lo (sub (array m (arr s)) (off s) (hcap s)) = firstn lo (data q ++ spare q)).
    { rewrite Hk, <- Fp, firstn_app. unfold len in Lp. replace (lo - length (data p)) with 0 by lia. rewrite firstn_O, app_nil_r. reflexivity. }
    assert (Ew : write m (arr s) (off s) (data q ++ spare q) = write m (arr s) (off s + lo) (skipn lo (data q ++ spare q))).
    { unfold write. f_equal. apply list_ext; [rewrite !ow_length; rewrite ?skipn_length; lia|].
      rewrite ow_length by lia. intros i Hi. rewrite !nth_ow by (rewrite ?skipn_length; lia). rewrite skipn_length, Lq.
      destruct (Nat.leb_spec (off s) i), (Nat.ltb_spec i (off s + hcap s)), (Nat.leb_spec (off s + lo) i), (Nat.ltb_spec i (off s + lo + (hcap s - lo))); cbn [andb]; try lia; auto.
      - rewrite nth_skipn. f_equal. lia.
      - rewrite <- (nth_firstn (data q ++ spare q) lo), <- Hk', nth_firstn, nth_sub by lia. f_equal. lia. }
    rewrite Ew.
    pose proof (sl_write m0 s0 lo m p s lo (skipn lo (data q ++ spare q)) S ltac:(lia) ltac:(rewrite skipn_length; lia)) as [W' [V' [O' _]]].
    split; [|split; [|split]].
    + destruct W'. split; cbn [hlen hcap off arr]; auto.
    + unfold view. cbn [hlen hcap off arr].
      rewrite write_full by (try (split; assumption); rewrite skipn_length; lia).
      replace (ow (sub (array m (arr s)) (off s) (hcap s)) lo (skipn lo (data q ++ spare q))) with (data q ++ spare q).
      * unfold len. rewrite firstn_app, skipn_app, firstn_all, skipn_all, Nat.sub_diag. cbn [firstn skipn app]. rewrite app_nil_r. destruct q; reflexivity.
      * unfold ow. rewrite Hk', skipn_length, Lq. rewrite (skipn_all2 (sub _ _ _)) by lia. rewrite app_nil_r. symmetry. apply firstn_skipn.
    + exact O'.
    + exact I.
  - eexists _, _. split; [reflexivity|]. split; [|split; [reflexivity|split; [auto|cbn; right; left; apply O]]]. cbn [fst].
    pose proof (sl_new m0 s0 lo m p s (data q ++ spare q) (len q) S) as Sn. unfold cap, len in *. rewrite app_length in Sn.
    specialize (Sn ltac:(lia)). rewrite firstn_app, skipn_app, firstn_all, skipn_all, Nat.sub_diag in Sn. cbn [firstn skipn app] in Sn.
    rewrite app_nil_r in Sn. destruct q; exact Sn.
Qed.

Definition ref_method (o : option ufun) (h : option (hslice -> N -> H (hslice * option err))) : Prop :=
  match o, h with
  | None, None => True
  | Some f, Some g => forall m p s tag, sg m p s -> refines (f p tag) (g s tag m) sl2
  | _, _ => False
  end.

Lemma ref_any_method v : value_users P v -> ref_method (any_method v) (h_any_method v).
Proof.
  intros U. unfold any_method, h_any_method, ref_method. destruct v; auto; try (intros; apply ref_okm).
  - apply ref_append_any_string; auto.
  - apply ref_append_any_bytes; auto.
  - apply ref_append_any_bytes_string; auto.
  - apply ref_append_any_bytes; auto.
  - apply ref_append_any_bytes_string; auto.
  - apply ref_append_any_bytes; auto.
  - destruct any_method as [f|]; cbn [option_map]; auto. intros. apply ref_user; [assumption|apply Plow, U].
Qed.

Lemma sl_nil m p s : sg m p s -> sl m nil_slice hnil.
Proof.
  intros [[W [V [O I]]] _]. split; [|split].
  - split; cbn; lia.
  - reflexivity.
  - split; [exact O|]. right; right; reflexivity.
Qed.

Ltac enc :=
  lazymatch goal with
  | |- MemProofs.refines _ _ _ _ (h_append_any_uint8 _ _ _ _) _ => apply ref_append_any_uint8; assumption
  | |- MemProofs.refines _ _ _ _ (h_append_any_uint16 _ _ _ _) _ => apply ref_append_any_uint16; assumption
  | |- MemProofs.refines _ _ _ _ (h_append_any_uint32 _ _ _ _) _ => apply ref_append_any_uint32; assumption
  | |- MemProofs.refines _ _ _ _ (h_append_any_uint64 _ _ _ _) _ => apply ref_append_any_uint64; assumption
  | |- MemProofs.refines _ _ _ _ (h_append_any_int8 _ _ _ _) _ => apply ref_append_any_int8; assumption
  | |- MemProofs.refines _ _ _ _ (h_append_any_int16 _ _ _ _) _ => apply ref_append_any_int16; assumption
  | |- MemProofs.refines _ _ _ _ (h_append_any_int32 _ _ _ _) _ => apply ref_append_any_int32; assumption
  | |- MemProofs.refines _ _ _ _ (h_append_any_int64 _ _ _ _) _ => apply ref_append_any_int64; assumption
  | |- MemProofs.refines _ _ _ _ (h_append_any_string _ _ _ _ _) _ => apply ref_append_any_string; assumption
  | |- MemProofs.refines _ _ _ _ (h_append_any_bytes _ _ _ _ _) _ => apply ref_append_any_bytes; assumption
  | |- MemProofs.refines _ _ _ _ (h_append_any_bytes_string _ _ _ _ _) _ => apply ref_append_any_bytes_string; assumption
  | |- MemProofs.refines _ _ _ _ (h_append_any_bool _ _ _ _) _ => apply ref_append_any_bool; assumption
  | |- MemProofs.refines _ _ _ _ (h_append_any_float32 _ _ _ _) _ => apply ref_append_any_float32; assumption
  | |- MemProofs.refines _ _ _ _ (h_append_any_float64 _ _ _ _) _ => apply ref_append_any_float64; assumption
  | |- MemProofs.refines _ _ _ _ (h_append_any_time _ _ _ _) _ => apply ref_append_any_time; assumption
  | |- MemProofs.refines _ _ _ _ (h_append_any_duration _ _ _ _) _ => apply ref_append_any_duration; assumption
  | |- MemProofs.refines _ _ _ _ (h_append_any_null _ _ _) _ => apply ref_append_any_null; assumption
  | |- MemProofs.refines _ _ _ _ (h_append_expr_uint64 _ _ _ _) _ => apply ref_append_expr_uint64; assumption
  | |- MemProofs.refines _ _ _ _ (h_append_expr_int64 _ _ _ _) _ => apply ref_append_expr_int64; assumption
  | |- MemProofs.refines _ _ _ _ (h_append_expr_string _ _ _ _ _) _ => apply ref_append_expr_string; assumption
  | |- MemProofs.refines _ _ _ _ (h_append_expr_bytes _ _ _ _ _) _ => apply ref_append_expr_bytes; assumption
  | |- MemProofs.refines _ _ _ _ (h_append_expr_bytes_string _ _ _ _ _) _ => apply ref_append_expr_bytes_string; assumption
  | |- MemProofs.refines _ _ _ _ (h_append_expr_bool _ _ _ _) _ => apply ref_append_expr_bool; assumption
  | |- MemProofs.refines _ _ _ _ (h_append_expr_float32 _ _ _ _) _ => apply ref_append_expr_float32; assumption
  | |- MemProofs.refines _ _ _ _ (h_append_expr_float64 _ _ _ _) _ => apply ref_append_expr_float64; assumption
  | |- MemProofs.refines _ _ _ _ (h_append_expr_time _ _ _ _) _ => apply ref_append_expr_time; assumption
  | |- MemProofs.refines _ _ _ _ (h_append_expr_duration _ _ _ _) _ => apply ref_append_expr_duration; assumption
  | |- MemProofs.refines _ _ _ _ (h_append_expr_null _ _ _) _ => apply ref_append_expr_null; assumption
  | |- MemProofs.refines _ _ _ _ (h_append_expr_column _ _ _ _) _ => apply ref_append_expr_column; assumption
  | |- MemProofs.refines _ _ _ _ (h_append_expr_variable _ _ _ _) _ => apply ref_append_expr_variable; assumption
  | |- MemProofs.refines _ _ _ _ (h_append_expr_placeholder _ _ _ _) _ => apply ref_append_expr_placeholder; assumption
  end.
Ltac leaf := lazymatch goal with |- MemProofs.refines _ _ _ (okm _) _ _ => apply ref_okm; enc | |- MemProofs.refines _ _ _ (ok _) _ _ => apply ref_ok; enc end.


Lemma ref_type_switch v : value_users P v -> forall m p s tag, sg m p s ->
  refines (type_switch v p tag) (h_type_switch v s tag m) sl2.
Proof.
  assert (Hm : forall v m p s tag, value_users P v -> sg m p s ->
    refines (match any_method v with Some f => f p tag | None => Ok (nil_slice, Some EUnsupported) end)
      (match h_any_method v with Some f => f s tag | None => hret (hnil, Some EUnsupported) end m) sl2).
  { intros v' m p s tag U S. pose proof (ref_any_method v' U) as M.
    destruct (any_method v'), (h_any_method v'); try contradiction; [apply M; auto|].
    apply ref_ret. split; [eapply sl_nil; eauto|]. split; [reflexivity|split; [discriminate|auto]]. }
  induction v using gvalue_ind; intros U m p s' tag S; 
    lazymatch goal with |- MemProofs.refines _ _ _ (type_switch ?v _ _) _ _ =>
      lazymatch v with
      | VNil => exact (Hm v m p s' tag U S) | VFunc _ => exact (Hm v m p s' tag U S) | VUser _ _ => exact (Hm v m p s' tag U S)
      | VStr _ _ => exact (Hm v m p s' tag U S) | VXml _ => exact (Hm v m p s' tag U S) | VXmlString _ => exact (Hm v m p s' tag U S)
      | VJson _ => exact (Hm v m p s' tag U S) | VJsonString _ => exact (Hm v m p s' tag U S) | VGeometry _ => exact (Hm v m p s' tag U S)
      | _ => unfold type_switch, h_type_switch; fold type_switch; fold h_type_switch
      end
    end; try leaf.
  - destruct word32; leaf.
  - destruct word32; leaf.
  - destruct iface; [apply IHv; auto|]. pose proof (ref_any_method v U) as M.
    destruct (any_method v), (h_any_method v); try contradiction; auto.
  - destruct any_method; [eapply ref_panic; exact (proj1 S)|leaf].
Qed.

Lemma ref_append_any v m p s tag : value_users P v -> sg m p s -> refines (append_any v p tag) (h_append_any v s tag m) sl2.
Proof. intros U S. destruct v; try (apply ref_type_switch; [exact U|exact S]). cbn [append_any h_append_any]. leaf. Qed.

Lemma ref_expr_method v : value_users P v -> ref_method (expr_method v) (h_expr_method v).
Proof.
  intros U. unfold expr_method, h_expr_method, ref_method. destruct v; auto; try (intros; apply ref_okm).
  - apply ref_append_expr_string; auto.
  - apply ref_append_expr_bytes; auto.
  - apply ref_append_expr_bytes_string; auto.
  - apply ref_append_expr_bytes; auto.
  - apply ref_append_expr_bytes_string; auto.
  - apply ref_append_expr_bytes; auto.
  - destruct expr_method as [f|]; cbn [option_map]; auto. intros. apply ref_user; [assumption|apply Plow, U].
Qed.

(* a step of one element after the other *)
Lemma ref_each {A} (f : A -> slice -> res (slice * option err)) (h : A -> hslice -> H (hslice * option err)) wrap xs :
  Forall (fun x => forall m p s, sg m p s -> refines (f x p) (h x s m) sl2) xs ->
  forall j m p s, sg m p s -> refines (each f wrap j xs p) (h_each h wrap j xs s m) sl2.
Proof.
  induction 1 as [|x xs Hx _ IH]; intros j m p s S; cbn [each h_each].
  - apply ref_ret. destruct S. two.
  - eapply ref_bind; [apply Hx; exact S|post]. then_ok. apply IH. split; auto.
Qed.

Definition ref_expr_goal v := value_users P v -> forall m p s tag, sg m p s -> refines (append_expr v p tag) (h_append_expr v s tag m) sl2.
Definition ref_fun_goal f := fun_users P f -> forall m p s tag, sg m p s -> refines (run_fun f p tag) (h_run_fun f s tag m) sl2.

Lemma ref_expr_fun : (forall v, ref_expr_goal v) /\ (forall f, ref_fun_goal f).
Proof.
  assert (Hm : forall v m p s tag, value_users P v -> sg m p s ->
    refines (match expr_method v with Some f => f p tag | None => Ok (p, Some EUnsupported) end)
      (match h_expr_method v with Some f => f s tag | None => hret (s, Some EUnsupported) end m) sl2).
  { intros v' m p s tag U S. pose proof (ref_expr_method v' U) as M.
    destruct (expr_method v'), (h_expr_method v'); try contradiction; [apply M; auto|].
    apply ref_ret. destruct S. two. }
  assert (Hl : forall v, match v with VFunc (Some _) | VPtr _ _ => False | _ => True end -> ref_expr_goal v).
  { intros v L U m p s tag S. destruct v as [| | | | | | | | | | | | | | | | | | | | | | | |g| | |]; try contradiction;
    lazymatch goal with |- MemProofs.refines _ _ _ (append_expr ?v _ _) _ _ =>
      lazymatch v with
      | VUser _ _ => exact (Hm v m p s tag U S)
      | VStr _ _ => exact (Hm v m p s tag U S) | VXml _ => exact (Hm v m p s tag U S) | VXmlString _ => exact (Hm v m p s tag U S)
      | VJson _ => exact (Hm v m p s tag U S) | VJsonString _ => exact (Hm v m p s tag U S) | VGeometry _ => exact (Hm v m p s tag U S)
      | _ => unfold append_expr, h_append_expr
      end
    end; try leaf.
    - destruct g; [contradiction|]. eapply ref_panic; exact (proj1 S).
    - destruct expr_method; [eapply ref_panic; exact (proj1 S)|]. apply ref_ret. destruct S. two. }
  assert (Hf : forall f, ref_fun_goal f -> ref_expr_goal (VFunc (Some f))) by (intros f Hf; exact Hf).
  assert (Hp : forall i v, ref_expr_goal v -> ref_expr_goal (VPtr i v)).
  { intros i v _ U m p s tag S. cbn [append_expr h_append_expr]. destruct i; [apply ref_ret; destruct S; two|apply Hm; [exact U|exact S]]. }
  assert (Hfl : forall f, match f with EOperator _ _ | ECall _ _ => False | _ => True end -> ref_fun_goal f).
  { intros f L U m p s tag S. destruct f; try contradiction; cbn [run_fun h_run_fun]; try leaf. apply ref_user; [exact S|apply Plow; exact U]. }
  assert (Hps : forall ps, Forall ref_expr_goal ps -> all (value_users P) ps -> forall tag wrap j m p s, sg m p s ->
    refines (each (fun v p => append_expr v p tag) wrap j ps p) (h_each (fun v p => h_append_expr v p tag) wrap j ps s m) sl2).
  { intros ps F U tag wrap. apply ref_each. apply all_Forall in U. rewrite Forall_forall in *. intros v Hv m p s S.
    apply (F v Hv); [apply U; exact Hv|exact S]. }
  assert (Ho : forall name ps, Forall ref_expr_goal ps -> ref_fun_goal (EOperator name ps)).
  { intros name ps F U m p s tag S. cbn [run_fun h_run_fun]. cbv zeta. pose proof S as [S1 L1]. lens. eapply ref_bind; [apply Hps; eassumption|post]. then_ok.
    apply ref_okm, ref_operator_header; [split; auto|assumption]. }
  assert (Hc : forall name ps, Forall ref_expr_goal ps -> ref_fun_goal (ECall name ps)).
  { intros name ps F U m p s tag S. cbn [run_fun h_run_fun]. cbv zeta. pose proof S as [S1 L1]. lens. eapply ref_bind; [apply Hps; eassumption|post]. then_ok.
    apply ref_okm, ref_call_header; [split; auto|assumption]. }
  split; [exact (gvalue_deep _ _ Hl Hf Hp Hfl Ho Hc)|exact (exprfun_deep _ _ Hl Hf Hp Hfl Ho Hc)].
Qed.

Lemma ref_append_expr v m p s tag : value_users P v -> sg m p s -> refines (append_expr v p tag) (h_append_expr v s tag m) sl2.
Proof. intros U. apply ref_expr_fun; exact U. Qed.
Lemma ref_run_fun f m p s tag : fun_users P f -> sg m p s -> refines (run_fun f p tag) (h_run_fun f s tag m) sl2.
Proof. intros U. apply ref_expr_fun; exact U. Qed.

(* ------------------------------------------------------------ messages *)


Lemma ref_patch m p s n : sl m p s -> lo <= n ->
  refines (patch_length p n) (h_patch_length s n m) (fun m' p' s' => sl m' p' s' /\ s' = s).
Proof.
  intros S L. unfold patch_length, h_patch_length. lens. eapply ref_last; [prim|]. intros m' a b S'. auto.
Qed.
Lemma ref_patch_length m p s n : sg m p s -> lo <= n -> refines (patch_length p n) (h_patch_length s n m) sg.
Proof. intros [S L] Ln. eapply ref_weaken; [apply ref_patch; assumption|]. intros m' a b [S' ->]. split; assumption. Qed.

Lemma ref_append_args tag args m p s : Forall (value_users P) args -> sg m p s ->
  refines (append_args tag args p) (h_append_args tag args s m) sl2.
Proof. intros U S. apply ref_each; [|exact S]. eapply Forall_impl; [|exact U]. intros v Uv m' p' s' S'. apply ref_append_any; assumption. Qed.

Lemma ref_exprs tag wrap vs m p s : Forall (value_users P) vs -> sg m p s ->
  refines (each (fun v p => append_expr v p tag) wrap 0 vs p) (h_each (fun v p => h_append_expr v p tag) wrap 0 vs s m) sl2.
Proof. intros U S. apply ref_each; [|exact S]. eapply Forall_impl; [|exact U]. intros v Uv m' p' s' S'. apply ref_append_expr; assumption. Qed.

Lemma ref_stmt_execute m p s stmt args : Forall (value_users P) args -> sg m p s ->
  refines (stmt_execute p stmt args) (h_stmt_execute s stmt args m) sl2.
Proof.
  intros U [S L]. unfold stmt_execute, h_stmt_execute. walk.
  eapply ref_bind; [apply ref_append_args; [exact U|split; [eassumption|tlia]]|post]. then_ok. apply ref_okm, ref_patch_length; [split; auto|assumption].
Qed.

Lemma ref_criteria m p s f tag : opt (fun_users P) f -> sg m p s ->
  refines (match f with None => Ok (p, None) | Some f => run_fun f p tag end)
    ((match f with None => hret (s, None) | Some f => h_run_fun f s tag end) m) sl2.
Proof. intros U S. destruct f; [apply ref_run_fun; [exact U|exact S]|apply ref_ret; destruct S; two]. Qed.

Lemma ref_msg_delete m p s name criteria : opt (fun_users P) criteria -> sg m p s ->
  refines (msg_delete p name criteria) (h_msg_delete s name criteria m) sl2.
Proof.
  intros U [S L]. unfold msg_delete, h_msg_delete. walk.
  eapply ref_bind; [apply ref_criteria; [exact U|split; [eassumption|tlia]]|post].
  eapply ref_bind; [apply ref_patch; eassumption|post]. apply ref_ret. two.
Qed.

Lemma ref_insert_columns names : forall m p s, sg m p s ->
  refines (insert_columns names p) (h_insert_columns names s m) sg.
Proof.
  induction names as [|name names IH]; intros m p s S; cbn [insert_columns h_insert_columns]; [apply ref_ret; exact S|].
  destruct S as [S L]. walk. apply IH; split; [assumption|tlia].
Qed.

Lemma ref_msg_insert m p s name names : sg m p s ->
  refines (msg_insert p name names) (h_msg_insert s name names m) sg.
Proof. intros [S L]. unfold msg_insert, h_msg_insert. walk. apply ref_insert_columns; split; [assumption|tlia]. Qed.

Lemma ref_append_insert_row m p s row : Forall (value_users P) row -> sg m p s ->
  refines (append_insert_row p row) (h_append_insert_row s row m) sl2.
Proof.
  intros U [S L]. unfold append_insert_row, h_append_insert_row. walk.
  eapply ref_bind; [apply ref_exprs; [exact U|split; [eassumption|tlia]]|post]. then_ok. cbv zeta. lens.
  match goal with H : None = None -> _ |- _ => specialize (H eq_refl) end.
  eapply (ref_bind _ _ _ _ _ _ _ _ sg);
    [destruct (_ =? 2); [apply ref_ret; split; assumption|eapply ref_weaken; [apply ref_append_tail; [assumption|tlia]|fin]]|post].
  walk. two.
Qed.

Lemma ref_msg_update m p s name criteria : opt (fun_users P) criteria -> sg m p s ->
  refines (msg_update p name criteria) (h_msg_update s name criteria m) sl2.
Proof. intros U [S L]. unfold msg_update, h_msg_update. walk. apply ref_criteria; [exact U|split; [assumption|tlia]]. Qed.

Lemma ref_set_header m p s i name : sg m p s -> lo <= i ->
  refines (set_header p i name) (h_set_header s i name m) sg.
Proof. intros [S L] Li. unfold set_header, h_set_header. walk. Qed.

Lemma ref_append_update_set m p s name v : value_users P v -> sg m p s ->
  refines (append_update_set p name v) (h_append_update_set s name v m) sl2.
Proof.
  intros U S. unfold append_update_set, h_append_update_set. cbv zeta. pose proof S as [S1 L1]. lens.
  eapply ref_bind; [apply ref_append_expr; [exact U|exact S]|post]. then_ok. apply ref_okm, ref_set_header; [split; auto|assumption].
Qed.

Lemma ref_msg_prepare m p s id stmt : sg m p s ->
  refines (msg_prepare p id stmt) (h_msg_prepare s id stmt m) sg.
Proof. intros [S L]. unfold msg_prepare, h_msg_prepare. walk. Qed.

Lemma ref_msg_execute m p s id args : Forall (value_users P) args -> sg m p s ->
  refines (msg_execute p id args) (h_msg_execute s id args m) sl2.
Proof.
  intros U [S L]. unfold msg_execute, h_msg_execute. walk.
  eapply ref_bind; [apply ref_append_args; [exact U|split; [eassumption|tlia]]|post]. then_ok. apply ref_okm, ref_patch_length; [split; auto|assumption].
Qed.

Lemma ref_msg_deallocate m p s id : sg m p s ->
  refines (msg_deallocate p id) (h_msg_deallocate s id m) sg.
Proof. intros [S L]. unfold msg_deallocate, h_msg_deallocate. walk. Qed.

Lemma ref_append_condition m p s c : sg m p s ->
  refines (append_condition c p) (h_append_condition c s m) sg.
Proof. intros [S L]. destruct c as [[|]|f]; unfold append_condition, h_append_condition; walk. Qed.

Lemma ref_append_conditions cs : forall m p s, sg m p s ->
  refines (append_conditions cs p) (h_append_conditions cs s m) sg.
Proof.
  induction cs as [|c cs IH]; intros m p s S; cbn [append_conditions h_append_conditions]; [apply ref_ret; exact S|].
  eapply ref_bind; [apply ref_append_condition; exact S|post]. apply IH; split; assumption.
Qed.

Lemma ref_expect_open m p s op cs : sg m p s ->
  refines (expect_open p op cs) (h_expect_open s op cs m) sg.
Proof.
  intros [S L]. unfold expect_open, h_expect_open. walk.
  eapply ref_bind; [apply ref_append_conditions; split; [eassumption|tlia]|post]. apply ref_patch_length; [split; assumption|assumption].
Qed.

Lemma ref_expect_close m p s : sg m p s -> refines (Ok (expect_close p)) (h_expect_close s m) sg.
Proof. intros [S L]. unfold expect_close, h_expect_close. walk. Qed.

End Ref.
