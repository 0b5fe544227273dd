(* The authentication mechanisms, Authenticate and New as sequences of accesses (FineAuth.v) do what those over slice values do, in their own memory. *)
From Coq Require Import String List NArith ZArith Arith Bool Lia.
From Coq Require Import List.
From Verif Require Import Base GoSlice Varint MsgModel Conn SpecAuth AuthModel Connector Mem Fine FineRun FineProofs FineFrame FineAuth SpecOpen.
From Verif Require Import AuthSame.
From Verif Require ThmAuth.
From Verif Require MemProofs MemAuthProofs.
Import ListNotations.
Local Open Scope nat_scope.
Local Notation length := List.length.

Import MemProofs(sub_length, nth_sub, list_ext, tl, tl_refl, tl_len, view_make, owns).
Import MemAuthProofs(rest, put_names_end, n_names).
Import ThmAuth(creds_ok).

(* t can be read and holds v. *)
Definition shows (m : heap) (t : hslice) (v : bytes) : Prop :=
  contents m t = v /\ (off t + hlen t <= length (array m (arr t)) \/ hlen t = 0).

Section Ops.
Context `{E : Env}.
Variables (m0 : heap) (s0 : hslice) (lo : nat).
Local Notation sf := (sf m0 s0 lo).

Lemma ref_sum m p s b k n d : sf m p s -> part s b k n -> length d = n -> lo <= k ->
  refines (put p k d) (g_sum b d) m (fun m' p' _ => sf m' p' s).
Proof.
  intros S [P ->] L Lo. unfold put, g_sum, g_reslice. cbn [hcap Nat.leb gbind arr off]. unfold g_append. cbn [hlen arr off hcap Nat.add].
  rewrite (sf_len _ _ _ _ _ _ S). pose proof S as [[[W1 W2] _] _].
  destruct (Nat.leb_spec (k + length d) (hlen s)); [|lia]. destruct (Nat.leb_spec (length d) (hcap s - k)); [|lia].
  unfold refines. apply safe_bind, safe_bind, safe_stores; [lia|]. cbn [safe]. rewrite Nat.add_0_r. apply sf_put; [exact S|exact Lo|lia].
Qed.

Lemma part_index {A B} m p s b k n j (f : bytes -> res A) (g : N -> go B) Q : sf m p s -> part s b k n -> j < n ->
  (forall x, refines (f [x]) (g x) m Q) ->
  refines (bind (get_bytes p (k + j) 1) f) (gbind (g_index b j) g) m Q.
Proof.
  intros S P L H. destruct (part_get _ _ _ m p s b k n j S P L) as [Lj [La En]]. unfold get_bytes, g_index. rewrite (sf_len _ _ _ _ _ _ S).
  pose proof P as [P1 _]. destruct (Nat.leb_spec (k + j + 1) (hlen s)); [|lia]. destruct (Nat.ltb_spec j (hlen b)); [|lia].
  rewrite (firstn_1_skipn _ _ _ En). cbn [bind gbind]. unfold refines. cbn [safe]. split; [exact La|]. apply H.
Qed.

Lemma ref_xor n : forall i a b N h1 h2 m p s, sf m p s -> part s h1 a N -> part s h2 b N -> i + n <= N -> lo <= b ->
  refines (xor_loop n (a + i) (b + i) p) (g_xor_loop n i h1 h2) m (fun m' p' _ => sf m' p' s).
Proof.
  induction n as [|n IH]; intros i a b N h1 h2 m p s S P1 P2 L Lo; cbn [xor_loop g_xor_loop].
  - apply ref_ret; exact S.
  - eapply part_index; [exact S|exact P1|lia|]. intros x. cbn [hd].
    eapply ref_bind; [eapply sf_upd_part; [exact S|exact P2| |reflexivity|]; lia|].
    cbv beta. intros m' p' _ S'. rewrite <- !Nat.add_succ_r. apply (IH (Datatypes.S i) a b N); auto; lia.
Qed.

Lemma ref_hex n : forall i j d dn c cn dst src m p s, sf m p s -> part s dst d dn -> part s src c cn ->
  i + n <= cn -> j + 2 * n <= dn -> lo <= d ->
  refines (hex_loop n (d + j) (c + i) p) (g_hex_loop n i j dst src) m (fun m' p' _ => sf m' p' s).
Proof.
  induction n as [|n IH]; intros i j d dn c cn dst src m p s S P1 P2 L L2 Lo; cbn [hex_loop g_hex_loop].
  - apply ref_ret; exact S.
  - eapply part_index; [exact S|exact P2|lia|]. intros x. cbn [hd].
    eapply ref_bind; [eapply sf_put_part; [exact S|exact P1|cbn [length]; lia|reflexivity|lia]|]. cbv beta. intros m' p' _ S'.
    eapply ref_bind; [eapply sf_put_part; [exact S'|exact P1|cbn [length]; lia|lia|lia]|]. cbv beta. intros m2 p2 _ S2.
    rewrite <- !Nat.add_succ_r. apply (IH (Datatypes.S i) (Datatypes.S (Datatypes.S j)) d dn c cn); auto; lia.
Qed.

Lemma ref_copy_str m p s b o i j xs : sf m p s -> tl s b o -> j = o + i -> lo <= j ->
  refines (copy_str p j xs) (g_copy b i xs) m (fun m' a n => sf m' (fst a) s /\ snd a = n).
Proof.
  intros S T -> Lo. unfold copy_str. pose proof (sf_copy m0 s0 lo m p s b o (o + i) i xs S T eq_refl Lo) as R.
  rewrite (sf_len _ _ _ _ _ _ S). pose proof (tl_len s b o T) as Tl. unfold refines in *.
  eapply safe_weaken; [|exact R]. cbv beta. intros m' z. destruct (copy_at p (o + i) xs) as [q|], z as [n|]; cbn [bind]; try contradiction; auto.
  intros [S' ->]. cbn [fst snd]. split; [exact S'|]. rewrite Tl. lia.
Qed.

Lemma ref_put_names c m p s b o : sf m p s -> tl s b o -> lo <= o ->
  refines (put_names c p o) (g_put_names c b) m (fun m' a i => sf m' (fst a) s /\ snd a = i).
Proof.
  intros S T Lo. unfold put_names, g_put_names.
  eapply ref_bind; [eapply ref_copy_str; [exact S|exact T|symmetry; apply Nat.add_0_r|lia]|]. cbv beta.
  intros m1 [p1 i] i' [S1 <-]. cbn [fst snd] in *.
  eapply ref_bind; [eapply sf_put_tl; [exact S1|exact T|reflexivity|lia]|]. cbv beta. intros m2 p2 _ S2. cbv zeta.
  eapply ref_bind; [eapply ref_copy_str; [exact S2|exact T|reflexivity|lia]|]. cbv beta.
  intros m3 [p3 n] n' [S3 <-]. cbn [fst snd] in *.
  eapply ref_bind; [eapply sf_put_tl; [exact S3|exact T|reflexivity|lia]|]. cbv beta. intros m4 p4 _ S4.
  apply ref_ret. cbn [fst snd]. auto.
Qed.

(* ------------------------------------------------------------ wire strings *)

Lemma ref_wire_string m p s tag v : sf m p s -> lo <= hlen s ->
  refines (append_wire_bytes p tag v) (g_append_wire_string s tag v) m (fun m' p' s' => sf m' p' s' /\ lo <= hlen s').
Proof.
  intros S Lo. unfold append_wire_bytes, g_append_wire_string. cbv zeta.
  match goal with |- refines _ (gbind (g_append s ?xs) _) m _ =>
    eapply (ref_pure (append p xs)); [apply sf_append; [exact S|exact Lo]|]; generalize (append p xs) end.
  intros p1 m1 s1 [S1 L1]. cbn [length] in L1. cbv beta. rewrite (sf_len _ _ _ _ _ _ S1).
  eapply ref_bind; [apply sf_mask_truncate; [exact S1|lia]|]. cbv beta. intros m2 p2 s2 [S2 L2].
  eapply ref_weaken; [apply sf_append; [exact S2|lia]|]. cbv beta. intros m3 p3 s3 [S3 L3]. split; [exact S3|lia].
Qed.

Lemma ref_wire_bytes m p s tag t v : sf m p s -> lo <= hlen s -> hlen t = length v ->
  (forall m', outside m0 s0 lo m' -> shows m' t v) ->
  refines (append_wire_bytes p tag v) (g_append_wire_bytes s tag t) m (fun m' p' s' => sf m' p' s' /\ lo <= hlen s').
Proof.
  intros S Lo Lt C. unfold append_wire_bytes, g_append_wire_bytes. cbv zeta. rewrite Lt. change (N.of_nat (length v)) with (nlen v).
  match goal with |- refines _ (gbind (g_append s ?xs) _) m _ =>
    eapply (ref_pure (append p xs)); [apply sf_append; [exact S|exact Lo]|]; generalize (append p xs) end.
  intros p1 m1 s1 [S1 L1]. cbn [length] in L1. cbv beta. rewrite (sf_len _ _ _ _ _ _ S1).
  eapply ref_bind; [apply sf_mask_truncate; [exact S1|lia]|]. cbv beta. intros m2 p2 s2 [S2 L2].
  unfold g_append_slice. destruct (C m2 (proj1 (proj2 S2))) as [Ec Lc]. eapply ref_read; [exact Lc|exact Ec|].
  eapply ref_weaken; [apply sf_append; [exact S2|lia]|]. cbv beta. intros m3 p3 s3 [S3 L3]. split; [exact S3|lia].
Qed.

End Ops.

(* ------------------------------------------------------------ the messages *)

Section Messages.
Context `{E : Env}.

Lemma rest_from s : g_from s (hlen s) = Return (rest s).
Proof. unfold g_from. rewrite Nat.leb_refl. unfold rest. rewrite Nat.sub_diag. reflexivity. Qed.

Lemma rest_wf m s : wf m s -> wf m (rest s).
Proof. intros [W1 W2]. split; cbn; lia. Qed.

Lemma rest_view m s : wf m s -> view m (rest s) = mk [] (spare (view m s)).
Proof. intros [W1 W2]. unfold view, rest. cbn [arr off hlen hcap spare firstn skipn]. rewrite skipn_sub by lia. reflexivity. Qed.

Lemma ref_auth_continue m s t v : wf m s -> hlen t = length v ->
  (forall m', outside m (rest s) 0 m' -> shows m' t v) ->
  refines (authenticate_continue (view m s) v) (g_authenticate_continue s t) m (fun m' q x => sf m (rest s) 0 m' q x).
Proof.
  intros W Lt C. unfold authenticate_continue, g_authenticate_continue. cbv zeta.
  rewrite rest_from. cbn [gbind]. rewrite <- (rest_view m s W).
  eapply ref_pure; [apply (sf_append m (rest s) 0); [apply sf_start; apply rest_wf; exact W|lia]|].
  match goal with |- context [append ?p ?xs] => generalize (append p xs) end. cbv beta. intros p1 m1 s1 [S1 L1].
  eapply ref_bind; [apply ref_wire_bytes; [exact S1|lia|exact Lt|exact C]|]. cbv beta. intros m2 p2 s2 [S2 L2].
  rewrite (sf_len _ _ _ _ _ _ S2).
  eapply ref_last; [eapply sf_put_tl; [exact S2|apply tl_refl|reflexivity|lia]|]. cbv beta. intros m3 p3 _ S3. exact S3.
Qed.

Lemma ref_auth_start m s name t v : wf m s -> hlen t = length v ->
  (forall m', outside m (rest s) 0 m' -> shows m' t v) ->
  refines (authenticate_start (view m s) name v) (g_authenticate_start s name t) m (fun m' q x => sf m (rest s) 0 m' q x).
Proof.
  intros W Lt C. unfold authenticate_start, g_authenticate_start. cbv zeta.
  rewrite rest_from. cbn [gbind]. rewrite <- (rest_view m s W).
  eapply ref_pure; [apply (sf_append m (rest s) 0); [apply sf_start; apply rest_wf; exact W|lia]|].
  match goal with |- context [append ?p ?xs] => generalize (append p xs) end. cbv beta. intros p1 m1 s1 [S1 L1].
  eapply ref_bind; [apply ref_wire_string; [exact S1|lia]|]. cbv beta. intros m2 p2 s2 [S2 L2].
  rewrite Lt.
  eapply (ref_bind _ _ _ _ _ (fun m' p' s' => sf m (rest s) 0 m' p' s' /\ 0 <= hlen s')).
  { destruct (0 <? length v); [apply ref_wire_bytes; [exact S2|lia|exact Lt|exact C]|apply ref_ret; auto]. }
  cbv beta. intros m3 p3 s3 [S3 L3].
  rewrite (sf_len _ _ _ _ _ _ S3).
  eapply ref_last; [eapply sf_put_tl; [exact S3|apply tl_refl|reflexivity|lia]|]. cbv beta. intros m4 p4 _ S4. exact S4.
Qed.

(* ------------------------------------------------------------ changing what changes are counted from *)

Lemma outside_rest m1 s o m2 s2 m3 : outside m1 s o m2 -> within m1 s s2 -> o <= hlen s2 -> hlen s2 <= hcap s2 ->
  outside m2 (rest s2) 0 m3 -> outside m1 s o m3.
Proof.
  intros O1 Wi Lo Lc O2 a A. destruct (O1 a A) as [N1 [A1 A2]]. destruct (O2 a N1) as [N2 [B1 B2]].
  split; [exact N2|]. split; [congruence|]. intros i I. rewrite <- (A2 i I). apply B2. intros [Ea Hi]. cbn in *. subst a.
  destruct Wi as [[Wa [Wo Wc]]|[Wi|Wi]]; [|contradiction|lia]. apply I. split; [exact Wa|lia].
Qed.

Lemma ref_allocate {A B} m buf n (r : res A) (g : hslice * hslice -> go B) Q : wf m buf ->
  (forall s b m1 o, allocate (view m buf) n = (view m1 s, o) -> wf m1 s -> tl s b o -> hlen s = o + n ->
    (forall m', outside m1 s o m' -> outside m buf (hlen buf) m') -> refines r (g (s, b)) m1 Q) ->
  refines r (gbind (g_allocate buf n) g) m Q.
Proof.
  intros W H. pose proof W as [W1 W2]. unfold g_allocate, allocate in *. pose proof (sl_start m buf W) as S.
  rewrite (sl_len _ _ _ S), (sl_cap _ _ _ S), (sl_full _ _ _ S) in H.
  destruct (Nat.leb_spec (hlen buf + n) (hcap buf)).
  - unfold g_reslice, g_from. destruct (Nat.leb_spec (hlen buf + n) (hcap buf)); [|lia]. cbn [gbind arr off hlen hcap].
    destruct (Nat.leb_spec (hlen buf) (hlen buf + n)); [|lia]. cbn [gbind].
    apply (H _ _ m (hlen buf)); [reflexivity|split; cbn; auto|split; [cbn; lia|reflexivity]|reflexivity|auto].
  - apply ref_assoc. eapply ref_pure; [apply (ref_make m n (2 * n + 512)); lia|]. cbv beta. intros m1 t [[Wt Vt] [M1 [Lt At]]]. cbn [gbind].
    apply (H _ _ m1 0); [f_equal; symmetry; exact Vt|exact Wt|apply tl_refl|exact Lt|].
    intros m' O a Ha. subst m1. assert (Na : a <> arr t) by congruence. destruct (O a) as [O1 [O2 O3]].
    { unfold upd. destruct (Nat.eqb_spec a (arr t)); [discriminate|exact Ha]. }
    rewrite array_upd in O2, O3. destruct (Nat.eqb_spec a (arr t)); [contradiction|].
    split; [exact O1|]. split; [exact O2|]. intros i _. apply O3. intros [Ea _]. contradiction.
Qed.

(* ------------------------------------------------------------ the mechanisms *)

(* the bytes of the message, and what was written to produce it *)
Definition left_by (m : heap) (buf : hslice) (m' : heap) (bs : bytes) (x : hslice) : Prop :=
  shows m' x bs /\ outside m buf (hlen buf) m'.

Lemma finish m buf s o m1 m2 p (r : res slice) (c : go hslice) :
  (forall m', outside m1 s o m' -> outside m buf (hlen buf) m') ->
  sf m1 s o m2 p s -> o <= hlen s ->
  refines r c m2 (fun m' q x => sf m2 (rest s) 0 m' q x) ->
  refines (bind r (fun q => Ok (data q))) c m2 (left_by m buf).
Proof.
  intros Ho S L R. pose proof S as [[[W1 W2] _] [O Wi]]. unfold refines in *. eapply safe_weaken; [|exact R]. cbv beta.
  intros m' z. destruct r as [q|], z as [x|]; cbn [bind]; try contradiction; auto. intros [Sx [Ox _]].
  split; [split|].
  - apply sl_contents; exact Sx.
  - left. destruct Sx as [[Wa Wb] _]. lia.
  - apply Ho. eapply outside_rest; [exact O|exact Wi|exact L|exact W1|exact Ox].
Qed.

(* what is before the end of s does not change when what follows does *)
Lemma tail_of m0 s0 lo m p s b k : sf m0 s0 lo m p s -> tl s b k ->
  hlen b = length (skipn k (data p)) /\ forall m', outside m (rest s) 0 m' -> shows m' b (skipn k (data p)).
Proof.
  intros S T. pose proof (sf_len _ _ _ _ _ _ S) as Ln. unfold len in Ln. pose proof (tl_len s b k T) as Lb.
  split; [rewrite skipn_length; lia|]. intros m' O. pose proof S as [Sl _].
  destruct (part_contents m p s b k _ Sl (tl_part s b k T)) as [Ec Lc]. rewrite firstn_all2 in Ec by (rewrite skipn_length; lia). rewrite <- Ec.
  pose proof Sl as [[W1 W2] _]. destruct T as [T ->]. apply (outside_keeps _ _ _ _ _ O).
  - split; cbn; lia.
  - cbn [arr off hlen]. intros i I [_ Hi]. cbn in Hi. lia.
  - cbn [arr hcap]. destruct (Nat.eq_dec (hcap s) 0) as [Z|Z]; [left; lia|right]. apply wf_arr; [split; assumption|lia].
Qed.

(* A new buffer: nothing to allocate, the message alone. *)
Lemma message_only m buf (r : res slice) (c : go hslice) : wf m buf ->
  refines r c m (fun m' q x => sf m (rest buf) 0 m' q x) ->
  refines (bind r (fun q => Ok (data q))) c m (left_by m buf).
Proof.
  intros W R. eapply finish; [intros m' O; exact O|apply sf_start; exact W|lia|exact R].
Qed.

Lemma empty_name m name buf : wf m buf ->
  refines (do q <- authenticate_start (view m buf) name []; Ok (data q)) (g_authenticate_start buf name hnil) m (left_by m buf).
Proof. intros W. apply message_only; [exact W|]. apply ref_auth_start; auto. intros m' _. split; [reflexivity|right; reflexivity]. Qed.

Lemma slice_part (s b : hslice) o i n : tl s b o -> o + i + n <= hlen s -> hlen s <= hcap s ->
  exists x, g_slice b i (i + n) = Return x /\ part s x (o + i) n.
Proof.
  intros [T ->] L W. unfold g_slice; cbn [arr off hlen hcap]. destruct (Nat.leb_spec i (i + n)); [|lia].
  destruct (Nat.leb_spec (i + n) (hcap s - o)); [|lia]. cbn [andb]. eexists. split; [reflexivity|]. split; [lia|f_equal; lia].
Qed.

(* the parts MYSQL41 and SHA256_MEMORY share: the proof in place *)
Lemma ref_digests {A B} (h : bytes -> bytes) (size : nat) c m1 s o m p b i (f : slice -> res A) (g : hslice -> hslice -> go B) Q :
  (forall x, length (h x) = size) -> sf m1 s o m p s -> tl s b o -> o + i + 2 * size = hlen s ->
  (forall m' p' h1 h2, sf m1 s o m' p' s -> part s h1 (o + i) size -> part s h2 (o + i + size) size -> refines (f p') (g h1 h2) m' Q) ->
  refines
    (do p <- put p (o + i) (h (password c));
     do x <- get_bytes p (o + i) size;
     do p <- put p (o + i + size) (h x);
     f p)
    (let! h1 := g_slice b i (i + size) in
     let! h2 := g_from b (i + size) in
     let! _ := g_sum h1 (h (password c)) in
     let! x := g_read h1 in
     let! _ := g_sum h2 (h x) in
     g h1 h2) m Q.
Proof.
  intros Hd S T L K. pose proof S as [[[W1 W2] _] _].
  destruct (slice_part s b o i size T ltac:(lia) W1) as [h1 [E1 P1]]. rewrite E1. cbn [gbind].
  destruct (from_tl s b o (i + size) T ltac:(lia)) as [h2 [E2 T2]]. rewrite E2. cbn [gbind].
  rewrite Nat.add_assoc in T2. pose proof (tl_part _ _ _ T2) as P2. replace (hlen s - (o + i + size)) with size in P2 by lia.
  eapply ref_bind; [eapply ref_sum; [exact S|exact P1|apply Hd|lia]|]. cbv beta. intros m2 p2 _ S2.
  eapply sf_read_part; [exact S2|exact P1|]. intros x.
  eapply ref_bind; [eapply ref_sum; [exact S2|exact P2|apply Hd|lia]|]. cbv beta. intros m3 p3 _ S3.
  apply K; assumption.
Qed.

Lemma ref_mixed {A B} (h : bytes -> bytes) (size : nat) m1 s o m p b i h1 h2 y (f : slice -> res A) (g : unit -> go B) Q :
  (forall x, length (h x) = size) -> sf m1 s o m p s -> tl s b o -> o + i + 2 * size = hlen s ->
  part s h1 (o + i) size -> part s h2 (o + i + size) size ->
  (forall m' p', sf m1 s o m' p' s -> refines (f p') (g tt) m' Q) ->
  refines
    (do p <- put p (o + i + size) (h y);
     do p <- xor_loop size (o + i) (o + i + size) p;
     do p <- hex_loop (len p - (o + i + size)) (o + i) (o + i + size) p;
     f p)
    (let! _ := g_sum h2 (h y) in
     let! _ := g_xor_loop (hlen h1) 0 h1 h2 in
     let! d := g_from b i in
     let! u := g_hex_loop (hlen h2) 0 0 d h2 in
     g u) m Q.
Proof.
  intros Hd S3 T L P1 P2 K.
  eapply ref_bind; [eapply ref_sum; [exact S3|exact P2|apply Hd|lia]|]. cbv beta. intros m4 p4 _ S4.
  eapply ref_bind.
  { replace (hlen h1) with size by (destruct P1 as [_ ->]; reflexivity).
    pose proof (ref_xor m1 s o size 0 (o + i) (o + i + size) size h1 h2 m4 p4 s S4 P1 P2 ltac:(lia) ltac:(lia)) as R.
    rewrite !Nat.add_0_r in R. exact R. }
  cbv beta. intros m5 p5 _ S5.
  destruct (from_tl s b o i T ltac:(lia)) as [d [Ed Td]]. rewrite Ed. cbn [gbind].
  replace (hlen h2) with size by (destruct P2 as [_ ->]; reflexivity).
  rewrite (sf_len _ _ _ _ _ _ S5). replace (hlen s - (o + i + size)) with size by lia.
  eapply ref_bind.
  { pose proof (ref_hex m1 s o size 0 0 (o + i) (hlen s - (o + i)) (o + i + size) size d h2 m5 p5 s S5 (tl_part _ _ _ Td) P2 ltac:(lia) ltac:(lia) ltac:(lia)) as R.
    rewrite !Nat.add_0_r in R. exact R. }
  cbv beta. intros m6 p6 [] S6. apply K; exact S6.
Qed.

Lemma ref_mixed_last (h : bytes -> bytes) (size : nat) m1 s o m p b i h1 h2 y :
  (forall x, length (h x) = size) -> sf m1 s o m p s -> tl s b o -> o + i + 2 * size = hlen s ->
  part s h1 (o + i) size -> part s h2 (o + i + size) size ->
  refines
    (do p <- put p (o + i + size) (h y);
     do p <- xor_loop size (o + i) (o + i + size) p;
     hex_loop (len p - (o + i + size)) (o + i) (o + i + size) p)
    (let! _ := g_sum h2 (h y) in
     let! _ := g_xor_loop (hlen h1) 0 h1 h2 in
     let! d := g_from b i in
     g_hex_loop (hlen h2) 0 0 d h2) m (fun m' p' _ => sf m1 s o m' p' s).
Proof.
  intros Hd S3 T L P1 P2.
  eapply ref_bind; [eapply ref_sum; [exact S3|exact P2|apply Hd|lia]|]. cbv beta. intros m4 p4 _ S4.
  eapply ref_bind.
  { replace (hlen h1) with size by (destruct P1 as [_ ->]; reflexivity).
    pose proof (ref_xor m1 s o size 0 (o + i) (o + i + size) size h1 h2 m4 p4 s S4 P1 P2 ltac:(lia) ltac:(lia)) as R.
    rewrite !Nat.add_0_r in R. exact R. }
  cbv beta. intros m5 p5 _ S5.
  destruct (from_tl s b o i T ltac:(lia)) as [d [Ed Td]]. rewrite Ed. cbn [gbind].
  replace (hlen h2) with size by (destruct P2 as [_ ->]; reflexivity).
  rewrite (sf_len _ _ _ _ _ _ S5). replace (hlen s - (o + i + size)) with size by lia.
  pose proof (ref_hex m1 s o size 0 0 (o + i) (hlen s - (o + i)) (o + i + size) size d h2 m5 p5 s S5 (tl_part _ _ _ Td) P2 ltac:(lia) ltac:(lia) ltac:(lia)) as R.
  rewrite !Nat.add_0_r in R. exact R.
Qed.

Lemma put_names_far c m1 s o b : sf m1 s o m1 (view m1 s) s -> tl s b o -> o + n_names c <= hlen s ->
  refines (put_names c (view m1 s) o) (g_put_names c b) m1 (fun m' a i => sf m1 s o m' (fst a) s /\ snd a = i /\ i = n_names c).
Proof.
  intros S T L. pose proof (ref_put_names m1 s o c m1 _ s b o S T ltac:(lia)) as R.
  pose proof (put_names_end c (view m1 s) o) as Le. rewrite (sf_len _ _ _ _ _ _ S) in Le. unfold refines in *.
  eapply safe_weaken; [|exact R]. cbv beta. intros m' z. destruct (put_names c (view m1 s) o) as [[q i]|], z as [j|]; auto.
  cbn [fst snd]. intros [S' <-]. split; [exact S'|]. split; [reflexivity|]. unfold n_names in *. specialize (Le q i eq_refl). lia.
Qed.

Lemma ref_mysql41_continue (sha1 : bytes -> bytes) m buf c v a : wf m buf -> (forall x, length (sha1 x) = 20) ->
  (forall m', outside m buf (hlen buf) m' -> shows m' v a) ->
  refines (mysql41_continue sha1 (view m buf) c a) (g_mysql41_continue sha1 buf c v) m (left_by m buf).
Proof.
  intros W Hd C. unfold mysql41_continue, g_mysql41_continue. cbv zeta.
  apply ref_allocate; [exact W|]. intros s b m1 o -> Ws T Ln Ho.
  eapply ref_bind; [apply (put_names_far c m1 s o b (sf_start m1 s o Ws) T); unfold n_names; lia|].
  cbv beta. intros m2 [p2 i] i' (S2 & <- & Hi). cbn [fst snd] in *.
  eapply (ref_bind _ _ _ _ _ (fun m' p' _ => sf m1 s o m' p' s)).
  { destruct (0 <? length (password c)).
    - eapply ref_bind; [eapply sf_put_tl; [exact S2|exact T|reflexivity|lia]|]. cbv beta. intros m3 p3 _ S3.
      assert (Sz : o + Datatypes.S i + 2 * sha1_Size = hlen s) by (rewrite Ln; unfold n_names, sha1_Size in *; lia).
      eapply (ref_digests sha1 sha1_Size); [exact Hd|exact S3|exact T|exact Sz|]. intros m4 p4 h1 h2 S4 P1 P2.
      destruct (C m4 (Ho m4 (proj1 (proj2 S4)))) as [Ec Lc]. eapply ref_read; [exact Lc|exact Ec|].
      rewrite (sf_len _ _ _ _ _ _ S4). replace (hlen s - (o + Datatypes.S i + sha1_Size)) with sha1_Size by lia.
      eapply sf_read_part; [exact S4|exact P2|]. intros x.
      eapply (ref_mixed_last sha1 sha1_Size); [exact Hd|exact S4|exact T|exact Sz|exact P1|exact P2].
    - apply ref_ret. exact S2. }
  cbv beta. intros m3 p3 _ S3. destruct (tail_of _ _ _ _ _ _ _ _ S3 T) as [Lt Ct].
  eapply finish; [exact Ho|exact S3|lia|]. pose proof S3 as [[W3 <-] _]. apply ref_auth_continue; [exact W3|exact Lt|exact Ct].
Qed.

Lemma ref_sha256_continue (sha256 : bytes -> bytes) m buf c v a : wf m buf -> (forall x, length (sha256 x) = 32) ->
  (forall m', outside m buf (hlen buf) m' -> shows m' v a) ->
  refines (sha256_continue sha256 (view m buf) c a) (g_sha256_continue sha256 buf c v) m (left_by m buf).
Proof.
  intros W Hd C. unfold sha256_continue, g_sha256_continue. cbv zeta.
  apply ref_allocate; [exact W|]. intros s b m1 o -> Ws T Ln Ho.
  eapply ref_bind; [apply (put_names_far c m1 s o b (sf_start m1 s o Ws) T); unfold n_names; lia|].
  cbv beta. intros m2 [p2 i] i' (S2 & <- & Hi). cbn [fst snd] in *.
  assert (Sz : o + i + 2 * sha256_Size = hlen s) by (rewrite Ln; unfold n_names, sha256_Size in *; lia).
  eapply (ref_digests sha256 sha256_Size); [exact Hd|exact S2|exact T|exact Sz|]. intros m4 p4 h1 h2 S4 P1 P2.
  rewrite (sf_len _ _ _ _ _ _ S4). replace (hlen s - (o + i + sha256_Size)) with sha256_Size by lia.
  eapply sf_read_part; [exact S4|exact P2|]. intros x.
  destruct (C m4 (Ho m4 (proj1 (proj2 S4)))) as [Ec Lc]. eapply ref_read; [exact Lc|exact Ec|].
  eapply (ref_mixed sha256 sha256_Size); [exact Hd|exact S4|exact T|exact Sz|exact P1|exact P2|]. intros m3 p3 S3.
  destruct (tail_of _ _ _ _ _ _ _ _ S3 T) as [Lt Ct].
  eapply finish; [exact Ho|exact S3|lia|]. pose proof S3 as [[W3 <-] _]. apply ref_auth_continue; [exact W3|exact Lt|exact Ct].
Qed.

Lemma ref_plain_start m buf c : wf m buf ->
  refines (plain_start (view m buf) c) (g_plain_start buf c) m (left_by m buf).
Proof.
  intros W. unfold plain_start, g_plain_start. cbv zeta.
  apply ref_allocate; [exact W|]. intros s b m1 o -> Ws T Ln Ho.
  eapply ref_bind; [apply (ref_put_names m1 s o c m1 _ s b o (sf_start m1 s o Ws) T ltac:(lia))|].
  cbv beta. intros m2 [p2 i] i' (S2 & <-). cbn [fst snd] in *.
  eapply ref_bind; [eapply ref_copy_str; [exact S2|exact T|reflexivity|lia]|]. cbv beta. intros m3 [p3 n] n' (S3 & _). cbn [fst] in *.
  destruct (tail_of _ _ _ _ _ _ _ _ S3 T) as [Lt Ct].
  eapply finish; [exact Ho|exact S3|lia|]. pose proof S3 as [[W3 <-] _]. apply ref_auth_start; [exact W3|exact Lt|exact Ct].
Qed.

End Messages.

(* ------------------------------------------------------------ the exchange *)

Section Exchange.
Context `{E : Env}.

(* the mechanism that accesses memory and the one over values, for these credentials *)
Definition agrees (creds : credentials) (gm : g_mechanism) (vm : mechanism) : Prop :=
  (forall m buf, wf m buf -> view m buf = mk [] (repeat 0%N 128) -> refines (start vm creds) (g_start gm buf creds) m (left_by m buf)) /\
  match g_continue gm with
  | None => continue vm = None
  | Some k => exists kv, continue vm = Some kv /\
      forall m buf v d, wf m buf -> (forall m', outside m buf (hlen buf) m' -> shows m' v d) ->
        refines (kv creds d) (k buf creds v) m (left_by m buf)
  end.

Lemma ref_lift {A B C} (r : res A) (f : A -> res B) (g : A -> go C) m Q :
  (forall a, refines (f a) (g a) m Q) -> refines (bind r f) (gbind (g_lift r) g) m Q.
Proof. intros H. destruct r; [apply H|exact I]. Qed.

Lemma ref_new {A B} l n (r : res A) (g : hslice -> go B) m Q :
  (forall a, m a = None -> refines r (g (mkh a 0 n (length l))) (upd m a l) Q) -> refines r (gbind (g_new l n) g) m Q.
Proof. intros H. exact H. Qed.

Lemma ref_authenticate creds gm vm : agrees creds gm vm -> forall w32 deadline c m,
  refines (authenticate w32 deadline creds vm c) (g_authenticate w32 deadline creds gm c) m (fun _ a b => a = b).
Proof.
  intros [As Ac] w32 deadline c m. unfold authenticate, g_authenticate.
  apply ref_new. intros a Ha. rewrite repeat_length. unfold g_reslice at 1. cbn [hcap Nat.leb gbind arr off].
  set (buf := mkh a 0 0 128). set (m1 := upd m a (repeat 0%N 128)).
  assert (W : wf m1 buf).
  { split; cbn [hlen hcap off arr buf]; [lia|]. unfold m1. rewrite array_upd, Nat.eqb_refl, repeat_length. lia. }
  assert (V : view m1 buf = mk [] (repeat 0%N 128)).
  { unfold view, m1, buf. cbn [hlen hcap off arr]. rewrite array_upd, Nat.eqb_refl. reflexivity. }
  eapply ref_bind; [apply As; [exact W|exact V]|]. cbv beta. intros m2 bs b [[Eb Lb] O].
  eapply ref_read; [exact Lb|exact Eb|]. apply ref_lift. intros [[rs er] c']. cbn [snd].
  destruct er as [[]|]; try (apply ref_ret; reflexivity).
  match goal with |- context [CChallenge ?x] => rename x into d | |- context [g_new ?x _] => rename x into d end.
  destruct (g_continue gm) as [k|]; [|rewrite Ac; apply ref_ret; reflexivity]. destruct Ac as (kv & -> & Ak).
  apply ref_new. intros a2 Ha2. unfold g_reslice. cbn [hcap Nat.leb gbind arr off]. fold buf.
  assert (Na : m1 a <> None) by (unfold m1, upd; rewrite Nat.eqb_refl; discriminate).
  destruct (O a Na) as [N2 [L2 _]].
  assert (Ne : a <> a2) by congruence.
  set (m3 := upd m2 a2 d). set (ch := mkh a2 0 (length d) (length d)).
  assert (W3 : wf m3 buf).
  { destruct W as [Wa Wb]. split; [exact Wa|]. unfold m3. rewrite array_upd. cbn [arr buf off hcap] in *. destruct (Nat.eqb_spec a a2); [contradiction|]. rewrite L2. exact Wb. }
  assert (Cc : contents m3 ch = d). { unfold contents, ch, m3. cbn [arr off hlen]. rewrite array_upd, Nat.eqb_refl. unfold sub. cbn [skipn]. apply firstn_all. }
  eapply ref_bind.
  { apply (Ak m3 buf ch d W3). intros m' O'. rewrite <- Cc. apply (outside_keeps _ _ _ _ _ O').
    - split; cbn [hlen hcap off arr ch]; [lia|]. unfold m3. rewrite array_upd, Nat.eqb_refl. lia.
    - intros i _ [Ea _]. cbn [arr ch buf] in Ea. congruence.
    - right. unfold m3, upd, ch. cbn [arr]. rewrite Nat.eqb_refl. discriminate. }
  cbv beta. intros m4 bs2 b2 [[Eb2 Lb2] _].
  eapply ref_read; [exact Lb2|exact Eb2|]. apply ref_lift. intros [[rs2 er2] c2]. apply ref_ret. reflexivity.
Qed.

Lemma mysql41_agrees sha1 creds : digests sha1 20 -> creds_ok creds -> agrees creds (g_mysql41 sha1) (mysql41 sha1 (repeat 0%N 128)).
Proof.
  intros Hd Hc. split.
  - intros m buf W V. cbn [start mysql41]. rewrite <- V. apply empty_name; exact W.
  - cbn [g_continue g_mysql41]. eexists. split; [reflexivity|]. intros m buf v d W C.
    rewrite (mysql41_bytes sha1 _ creds d Hd Hc), <- (mysql41_bytes sha1 (view m buf) creds d Hd Hc).
    apply ref_mysql41_continue; [exact W|intros x; apply Hd|exact C].
Qed.

Lemma sha256_agrees sha256 creds : digests sha256 32 -> creds_ok creds -> agrees creds (g_sha256_memory sha256) (sha256_memory sha256 (repeat 0%N 128)).
Proof.
  intros Hd Hc. split.
  - intros m buf W V. cbn [start sha256_memory]. rewrite <- V. apply empty_name; exact W.
  - cbn [g_continue g_sha256_memory]. eexists. split; [reflexivity|]. intros m buf v d W C.
    rewrite (sha256_bytes sha256 _ creds d Hd Hc), <- (sha256_bytes sha256 (view m buf) creds d Hd Hc).
    apply ref_sha256_continue; [exact W|intros x; apply Hd|exact C].
Qed.

Lemma plain_agrees creds : agrees creds g_plain plain.
Proof.
  split.
  - intros m buf W V. cbn [start plain]. rewrite <- V. apply ref_plain_start; exact W.
  - reflexivity.
Qed.

Lemma ref_authenticate_or_close deadline gc vc c m : agrees (credentials_of vc) (g_authentication gc) (authentication vc) -> g_credentials_of gc = credentials_of vc ->
  refines (authenticate_or_close deadline vc c) (g_authenticate_or_close deadline gc c) m (fun _ a b => a = b).
Proof.
  intros A Ec. unfold authenticate_or_close, g_authenticate_or_close. rewrite Ec.
  eapply ref_bind; [apply ref_authenticate; exact A|]. cbv beta. intros m' [r c'] _ <-.
  destruct r as [e|]; [|apply ref_ret; reflexivity]. cbv zeta. destruct (andb _ (is_secure c')); [|apply ref_ret; reflexivity].
  eapply ref_bind; [apply ref_authenticate; apply plain_agrees|]. cbv beta. intros m2 [r2 c2] _ <-.
  destruct r2; apply ref_ret; reflexivity.
Qed.

Lemma ref_connector_new deadline gc vc dial hs m : agrees (credentials_of vc) (g_authentication gc) (authentication vc) -> g_credentials_of gc = credentials_of vc ->
  g_with_tls gc = with_tls vc ->
  refines (connector_new deadline vc dial hs) (g_connector_new deadline gc dial hs) m (fun _ a b => a = b).
Proof.
  intros A Ec Et. unfold connector_new, g_connector_new. rewrite Et. destruct dial as [c|]; [|apply ref_ret; reflexivity].
  assert (T : forall c m, refines (do (r, c) <- authenticate_or_close deadline vc c; Ok (r, Some c))
     (let! (r, c) := g_authenticate_or_close deadline gc c in Return (r, Some c)) m (fun _ a b => a = b)).
  { intros c' m'. eapply ref_bind; [apply ref_authenticate_or_close; assumption|]. cbv beta. intros m2 [r c2] _ <-. apply ref_ret. reflexivity. }
  destruct (andb _ (with_tls vc)); [|apply T].
  apply ref_lift. intros [r c']. destruct (snd r); [apply ref_ret; reflexivity|].
  destruct hs as [[[rd ds] ws]|]; [apply T|apply ref_ret; reflexivity].
Qed.

(* The whole of a goroutine that calls New. *)
Lemma new_safe sha1 sha256 x a m : digests sha1 20 -> digests sha256 32 -> creds_ok (uses_credentials x) ->
  safe (try (g_connector_new (at_deadline a) (g_config_of sha1 sha256 x) (at_dial a) (at_handshake a))) m
    (fun _ o => o = Some (new_alone sha1 sha256 x a)).
Proof.
  intros H1 H2 Hc. apply safe_try.
  assert (A : agrees (credentials_of (config_of sha1 sha256 x)) (g_authentication (g_config_of sha1 sha256 x)) (authentication (config_of sha1 sha256 x))).
  { unfold config_of, g_config_of. cbn [credentials_of g_authentication authentication].
    destruct (uses_method x); [apply mysql41_agrees|apply sha256_agrees|apply plain_agrees]; assumption. }
  pose proof (ref_connector_new (at_deadline a) (g_config_of sha1 sha256 x) (config_of sha1 sha256 x) (at_dial a) (at_handshake a) m A eq_refl eq_refl) as R.
  unfold refines in R. eapply safe_weaken; [|exact R]. cbv beta. unfold new_alone. intros m' o.
  destruct (connector_new _ _ _ _) as [r|], o as [b|]; try contradiction; intros; congruence.
Qed.

End Exchange.
