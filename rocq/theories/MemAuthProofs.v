(* The authentication mechanisms over memory (MemAuth.v) refine those over slice values (AuthModel.v). *)
From Coq Require Import String List NArith ZArith Arith Bool Lia.
From Coq Require Import List.
From Verif Require Import Base GoSlice Varint MsgModel Conn AuthModel SpecMem Mem MemProofs MemUse MemAuth.
Import ListNotations.
Local Open Scope nat_scope.
Local Notation length := List.length.

(* b is s[k:k+n]. *)
Definition part (s b : hslice) (k n : nat) : Prop :=
  k + n <= hlen s /\ b = mkh (arr s) (off s + k) n (hcap s - k).

Lemma tl_part s b k : tl s b k -> part s b k (hlen s - k).
Proof. intros [T ->]. split; [lia|reflexivity]. Qed.

Section Ops.
Context `{E : Env}.
Variables (m0 : mem) (s0 : hslice) (lo : nat).
Local Notation sl := (sl m0 s0 lo).
Local Notation refines := (refines m0 s0 lo).

Lemma skipn_sub l o n k : k <= n -> skipn k (sub l o n) = sub l (o + k) (n - k).
Proof. intros L. unfold sub. rewrite skipn_firstn_comm, skipn_sk. reflexivity. Qed.

Lemma part_contents m p s b k n : sl m p s -> part s b k n -> contents m b = firstn n (skipn k (data p)).
Proof.
  intros [[W1 W2] [<- _]] [L ->]. unfold contents, view; cbn [data arr off hlen].
  rewrite sub_firstn, skipn_sub, sub_firstn by lia. reflexivity.
Qed.

Lemma part_read m p s b k n : sl m p s -> part s b k n ->
  get_bytes p k n = Ok (contents m b).
Proof.
  intros S P. rewrite (part_contents m p s b k n S P). unfold get_bytes. rewrite (sl_len _ _ _ _ _ _ S).
  destruct (Nat.leb_spec (k + n) (hlen s)); [reflexivity|]. destruct P. lia.
Qed.

Lemma firstn_1_skipn (l : bytes) k x : nth_error l k = Some x -> firstn 1 (skipn k l) = [x].
Proof. revert l; induction k as [|k IH]; intros [|y l] N; try discriminate; cbn in *; [congruence|apply IH; exact N]. Qed.

Lemma nth_error_part (l : bytes) k n j : j < n -> nth_error (firstn n (skipn k l)) j = nth_error l (k + j).
Proof.
  intros L. revert n j L l; induction k as [|k IH]; intros n j L l; cbn [skipn Nat.add].
  - revert n L l; induction j as [|j IHj]; intros [|n] L [|y l]; try lia; cbn; auto. apply IHj; lia.
  - destruct l; [rewrite firstn_nil; destruct j; reflexivity|]. cbn [nth_error]. apply IH; exact L.
Qed.

Lemma part_index m p s b k n j : sl m p s -> part s b k n -> j < n ->
  exists x, h_index b j m = HOk x m /\ get_bytes p (k + j) 1 = Ok [x].
Proof.
  intros S P L. unfold h_index. rewrite (part_contents m p s b k n S P), nth_error_part by exact L.
  pose proof (sl_len _ _ _ _ _ _ S) as Ln. unfold len in Ln. destruct P as [P _].
  destruct (nth_error (data p) (k + j)) as [x|] eqn:N.
  - exists x. split; [reflexivity|]. unfold get_bytes, len. destruct (Nat.leb_spec (k + j + 1) (length (data p))); [|lia].
    rewrite (firstn_1_skipn _ _ _ N). reflexivity.
  - apply nth_error_None in N. lia.
Qed.

Lemma ref_put_part m p s b k n j i xs : sl m p s -> part s b k n -> j + length xs <= n -> i = k + j -> lo <= i ->
  refines (put p i xs) (h_put b j xs m) (fun m' p' _ => sl m' p' s).
Proof.
  intros S [P ->] L -> Lo. unfold put, h_put. cbn [hlen arr off]. rewrite (sl_len _ _ _ _ _ _ S).
  destruct (Nat.leb_spec (k + j + length xs) (hlen s)); [|lia]. destruct (Nat.leb_spec (j + length xs) n); [|lia].
  eexists _, _. split; [reflexivity|]. rewrite <- Nat.add_assoc. apply sl_put; [exact S|left; exact Lo|lia].
Qed.

Lemma ref_upd_part m p s b k n j i f : sl m p s -> part s b k n -> j < n -> i = k + j -> lo <= i ->
  refines (upd p i f) (h_upd b j f m) (fun m' p' _ => sl m' p' s).
Proof.
  intros S P L -> Lo. unfold upd, h_upd. rewrite (part_contents m p s b k n S P), nth_error_part by exact L.
  destruct (nth_error (data p) (k + j)).
  - eapply ref_put_part; eauto. cbn [length]. lia.
  - exists m. split; [reflexivity|eapply sl_outside; eauto].
Qed.

Lemma ref_sum m p s b k n d : sl m p s -> part s b k n -> length d = n -> lo <= k ->
  refines (put p k d) (h_sum b d m) (fun m' p' _ => sl m' p' s).
Proof.
  intros S [P ->] L Lo. unfold put, h_sum, hbind, h_reslice, h_append. cbn [hlen arr off hcap Nat.add Nat.leb hret].
  rewrite (sl_len _ _ _ _ _ _ S). pose proof S as [[W1 W2] _].
  destruct (Nat.leb_spec (k + length d) (hlen s)); [|lia]. destruct (Nat.leb_spec (length d) (hcap s - k)); [|lia].
  eexists _, _. split; [reflexivity|]. rewrite Nat.add_0_r. apply sl_put; [exact S|left; exact Lo|lia].
Qed.

Lemma ref_xor n : forall i a b N h1 h2 m p s, sl m p s -> part s h1 a N -> part s h2 b N -> i + n <= N -> lo <= b ->
  refines (xor_loop n (a + i) (b + i) p) (h_xor_loop n i h1 h2 m) (fun m' p' _ => sl m' p' s).
Proof.
  induction n as [|n IH]; intros i a b N h1 h2 m p s S P1 P2 L Lo; cbn [xor_loop h_xor_loop].
  - apply ref_ret; exact S.
  - destruct (part_index m p s h1 a N i S P1 ltac:(lia)) as [x [Hx ->]]. cbn [bind hd].
    unfold hbind at 1. rewrite Hx. eapply ref_bind; [eapply ref_upd_part; [exact S|exact P2|lia|reflexivity|lia]|].
    cbv beta. intros m' p' _ S'. rewrite <- !Nat.add_succ_r. apply (IH (Datatypes.S i) a b N); auto; lia.
Qed.

Lemma ref_hex n : forall i j d dn c cn dst src m p s, sl m p s -> part s dst d dn -> part s src c cn ->
  i + n <= cn -> j + 2 * n <= dn -> lo <= d ->
  refines (hex_loop n (d + j) (c + i) p) (h_hex_loop n i j dst src m) (fun m' p' _ => sl m' p' s).
Proof.
  induction n as [|n IH]; intros i j d dn c cn dst src m p s S P1 P2 L L2 Lo; cbn [hex_loop h_hex_loop].
  - apply ref_ret; exact S.
  - destruct (part_index m p s src c cn i S P2 ltac:(lia)) as [x [Hx ->]]. cbn [bind hd].
    unfold hbind at 1. rewrite Hx.
    eapply ref_bind; [eapply ref_put_part; [exact S|exact P1|cbn [length]; lia|reflexivity|lia]|]. cbv beta. intros m' p' _ S'.
    eapply ref_bind; [eapply ref_put_part; [exact S'|exact P1|cbn [length]; lia|lia|lia]|]. cbv beta. intros m2 p2 _ S2.
    rewrite <- !Nat.add_succ_r. apply (IH (Datatypes.S i) (Datatypes.S (Datatypes.S j)) d dn c cn); auto; lia.
Qed.

Lemma ref_copy_str m p s b o i j xs : sl m p s -> tl s b o -> j = o + i -> lo <= j ->
  refines (copy_str p j xs) (h_copy b i xs m) (fun m' a n => sl m' (fst a) s /\ snd a = n).
Proof.
  intros S T -> Lo. unfold copy_str. pose proof (ref_copy m0 s0 lo m p s b o (o + i) i xs S T eq_refl (or_introl Lo)) as R.
  pose proof (sl_len _ _ _ _ _ _ S) as Ln. rewrite Ln. pose proof (tl_len s b o T) as Tl.
  destruct (copy_at p (o + i) xs) as [q|]; cbn [bind].
  - destruct R as [n [m' [Eq [S' [-> _]]]]]. exists (Nat.min (hlen b - i) (length xs)), m'. split; [exact Eq|]. cbn [fst snd].
    split; [exact S'|]. rewrite Tl. lia.
  - exact R.
Qed.

Lemma ref_put_names c m p s b o : sl m p s -> tl s b o -> lo <= o ->
  refines (put_names c p o) (h_put_names c b m) (fun m' a i => sl m' (fst a) s /\ snd a = i).
Proof.
  intros S T Lo. unfold put_names, h_put_names.
  eapply ref_bind; [eapply ref_copy_str; [exact S|exact T|symmetry; apply Nat.add_0_r|lia]|]. cbv beta.
  intros m1 [p1 i] i' [S1 <-]. cbn [fst snd] in *.
  eapply ref_bind; [eapply ref_put; [exact S1|exact T|reflexivity|lia]|]. cbv beta. intros m2 p2 _ S2. cbv zeta.
  eapply ref_bind; [eapply ref_copy_str; [exact S2|exact T|reflexivity|lia]|]. cbv beta.
  intros m3 [p3 n] n' [S3 <-]. cbn [fst snd] in *.
  eapply ref_bind; [eapply ref_put; [exact S3|exact T|reflexivity|lia]|]. cbv beta. intros m4 p4 _ S4.
  apply ref_ret. cbn [fst snd]. auto.
Qed.

(* ------------------------------------------------------------ wire strings *)

Lemma ref_wire_string m p s tag v : sl m p s -> lo <= hlen s ->
  refines (append_wire_bytes p tag v) (h_append_wire_string s tag v m) (fun m' p' s' => sl m' p' s' /\ lo <= hlen s').
Proof.
  intros S Lo. unfold append_wire_bytes, h_append_wire_string. cbv zeta.
  match goal with |- refines _ (hbind (h_append s ?xs) _ m) _ =>
    eapply (ref_pure m0 s0 lo (append p xs)); [apply ref_append; [exact S|exact Lo]|]; generalize (append p xs) end.
  intros p1 m1 s1 [S1 L1]. cbn [length] in L1. cbv beta. rewrite (sl_len _ _ _ _ _ _ S1).
  eapply ref_bind; [apply ref_mask_truncate; [exact S1|lia]|]. cbv beta. intros m2 p2 s2 [S2 L2].
  eapply ref_weaken; [apply ref_append; [exact S2|lia]|]. cbv beta. intros m3 p3 s3 [S3 L3]. split; [exact S3|lia].
Qed.

Lemma ref_wire_bytes m p s tag t v : sl m p s -> lo <= hlen s -> hlen t = length v ->
  (forall m', outside m0 s0 lo m' -> contents m' t = v) ->
  refines (append_wire_bytes p tag v) (h_append_wire_bytes s tag t m) (fun m' p' s' => sl m' p' s' /\ lo <= hlen s').
Proof.
  intros S Lo Lt C. unfold append_wire_bytes, h_append_wire_bytes. cbv zeta. rewrite Lt. change (N.of_nat (length v)) with (nlen v).
  match goal with |- refines _ (hbind (h_append s ?xs) _ m) _ =>
    eapply (ref_pure m0 s0 lo (append p xs)); [apply ref_append; [exact S|exact Lo]|]; generalize (append p xs) end.
  intros p1 m1 s1 [S1 L1]. cbn [length] in L1. cbv beta. rewrite (sl_len _ _ _ _ _ _ S1).
  eapply ref_bind; [apply ref_mask_truncate; [exact S1|lia]|]. cbv beta. intros m2 p2 s2 [S2 L2].
  unfold h_append_slice. eapply ref_skip; [reflexivity|]. rewrite (C m2 (sl_outside _ _ _ _ _ _ S2)).
  eapply ref_weaken; [apply ref_append; [exact S2|lia]|]. cbv beta. intros m3 p3 s3 [S3 L3]. split; [exact S3|lia].
Qed.

End Ops.

(* ------------------------------------------------------------ the messages *)

(* s[len(s):] *)
Definition rest (s : hslice) : hslice := mkh (arr s) (off s + hlen s) 0 (hcap s - hlen s).

Section Messages.
Context `{E : Env}.

Lemma rest_from s m : h_from s (hlen s) m = HOk (rest s) m.
Proof. unfold h_from. rewrite Nat.leb_refl. unfold hret, rest. rewrite Nat.sub_diag. reflexivity. Qed.

Lemma rest_wf m s : wf m s -> wf m (rest s).
Proof. intros [W1 W2]. split; cbn; lia. Qed.

Lemma rest_view m s : wf m s -> view m (rest s) = mk [] (spare (view m s)).
Proof. intros [W1 W2]. unfold view, rest. cbn [arr off hlen hcap spare firstn skipn]. rewrite skipn_sub by lia. reflexivity. Qed.

Lemma ref_auth_continue m s t v : wf m s -> hlen t = length v ->
  (forall m', outside m (rest s) 0 m' -> contents m' t = v) ->
  refines m (rest s) 0 (authenticate_continue (view m s) v) (h_authenticate_continue s t m) (fun m' q x => sl m (rest s) 0 m' q x).
Proof.
  intros W Lt C. unfold authenticate_continue, h_authenticate_continue. cbv zeta.
  eapply ref_skip; [apply rest_from|]. rewrite <- (rest_view m s W).
  eapply ref_pure; [apply ref_append; [apply sl_start; apply rest_wf; exact W|lia]|].
  match goal with |- context [append ?p ?xs] => generalize (append p xs) end. cbv beta. intros p1 m1 s1 [S1 L1].
  eapply ref_bind; [apply ref_wire_bytes; [exact S1|lia|exact Lt|exact C]|]. cbv beta. intros m2 p2 s2 [S2 L2].
  rewrite (sl_len _ _ _ _ _ _ S2).
  eapply ref_last; [eapply ref_put; [exact S2|apply tl_refl|reflexivity|lia]|]. cbv beta. intros m3 p3 _ S3. exact S3.
Qed.

Lemma ref_auth_start m s name t v : wf m s -> hlen t = length v ->
  (forall m', outside m (rest s) 0 m' -> contents m' t = v) ->
  refines m (rest s) 0 (authenticate_start (view m s) name v) (h_authenticate_start s name t m) (fun m' q x => sl m (rest s) 0 m' q x).
Proof.
  intros W Lt C. unfold authenticate_start, h_authenticate_start. cbv zeta.
  eapply ref_skip; [apply rest_from|]. rewrite <- (rest_view m s W).
  eapply ref_pure; [apply ref_append; [apply sl_start; apply rest_wf; exact W|lia]|].
  match goal with |- context [append ?p ?xs] => generalize (append p xs) end. cbv beta. intros p1 m1 s1 [S1 L1].
  eapply ref_bind; [apply ref_wire_string; [exact S1|lia]|]. cbv beta. intros m2 p2 s2 [S2 L2].
  rewrite Lt.
  eapply (ref_bind _ _ _ _ _ _ _ _ (fun m' p' s' => sl m (rest s) 0 m' p' s' /\ 0 <= hlen s')).
  { destruct (0 <? length v); [apply ref_wire_bytes; [exact S2|lia|exact Lt|exact C]|apply ref_ret; auto]. }
  cbv beta. intros m3 p3 s3 [S3 L3].
  rewrite (sl_len _ _ _ _ _ _ S3).
  eapply ref_last; [eapply ref_put; [exact S3|apply tl_refl|reflexivity|lia]|]. cbv beta. intros m4 p4 _ S4. exact S4.
Qed.

(* ------------------------------------------------------------ changing what changes are counted from *)

Lemma outside_rest m1 s o m2 s2 m3 : outside m1 s o m2 -> within m1 s s2 -> o <= hlen s2 -> hlen s2 <= hcap s2 ->
  outside m2 (rest s2) 0 m3 -> outside m1 s o m3.
Proof.
  intros [L1 O1] Wi Lo Lc [L2 O2]. split; [lia|]. intros a A. destruct (O1 a A) as [A1 A2]. destruct (O2 a ltac:(lia)) as [B1 B2].
  split; [congruence|]. intros i I. rewrite <- (A2 i I). apply B2. intros [Ea Hi]. cbn in *. subst a.
  destruct Wi as [[Wa [Wo Wc]]|[Wi|Wi]]; [|lia|lia]. apply I. split; [exact Wa|lia].
Qed.

(* a new array may be written at will *)
Lemma outside_fresh m l s t lo : length m <= arr s -> forall m', outside (m ++ [l]) s 0 m' -> outside m t lo m'.
Proof.
  intros La m' [L O]. rewrite app_length in L. cbn [length] in L. split; [lia|]. intros a A.
  destruct (O a ltac:(rewrite app_length; lia)) as [O1 O2]. rewrite array_app_old in O1, O2 by exact A.
  split; [exact O1|]. intros i I. apply O2. intros [Ea _]. lia.
Qed.

Lemma allocate_ok m buf n : wf m buf ->
  exists s b m1 o, h_allocate buf n m = HOk (s, b) m1 /\ allocate (view m buf) n = (view m1 s, o) /\
    wf m1 s /\ tl s b o /\ hlen s = o + n /\
    (forall m', outside m1 s o m' -> outside m buf (hlen buf) m').
Proof.
  intros W. pose proof W as [W1 W2]. unfold h_allocate, allocate. pose proof (sl_start m buf 0 W) as S.
  rewrite (sl_len _ _ _ _ _ _ S), (sl_cap _ _ _ _ _ _ S), (sl_full _ _ _ _ _ _ S).
  destruct (Nat.leb_spec (hlen buf + n) (hcap buf)).
  - exists (mkh (arr buf) (off buf) (hlen buf + n) (hcap buf)), (mkh (arr buf) (off buf + hlen buf) n (hcap buf - hlen buf)), m, (hlen buf).
    unfold h_reslice, h_from, hbind. cbn [arr off hlen hcap]. destruct (Nat.leb_spec (hlen buf + n) (hcap buf)); [|lia].
    unfold hret at 1. cbn [arr off hlen hcap]. destruct (Nat.leb_spec (hlen buf) (hlen buf + n)); [|lia].
    split; [unfold hret; do 4 f_equal; lia|]. split; [reflexivity|]. split; [split; cbn; auto|].
    split; [split; [cbn; lia|cbn; f_equal; lia]|]. split; [reflexivity|].
    intros m' O. exact O.
  - unfold hbind, h_make, h_new. eexists _, _, _, 0. split; [reflexivity|].
    split; [|split; [|split; [apply tl_refl|split; [reflexivity|]]]].
    + rewrite view_make by lia. unfold view. cbn [arr off hlen hcap]. rewrite array_app_new. unfold sub. cbn [skipn]. rewrite firstn_all. reflexivity.
    + split; cbn [arr off hlen hcap]; [rewrite app_length, !repeat_length; lia|]. rewrite array_app_new. lia.
    + intros m' O. eapply outside_fresh; [|exact O]. cbn. lia.
Qed.

(* ------------------------------------------------------------ the mechanisms *)

(* the bytes of the message, and what was written to produce it *)
Definition left_by (m : mem) (buf : hslice) (m' : mem) (bs : bytes) (x : hslice) : Prop :=
  wf m' x /\ contents m' x = bs /\ outside m buf (hlen buf) m'.

Lemma ref_from_alloc {A B} m buf s o m1 (r : res A) (h : hres B) (R : mem -> A -> B -> Prop) :
  (forall m', outside m1 s o m' -> outside m buf (hlen buf) m') ->
  refines m1 s o r h R -> refines m buf (hlen buf) r h R.
Proof. intros Ho R1. destruct r; [exact R1|]. destruct R1 as [m' [Eh O]]. exists m'. auto. Qed.

Lemma finish m buf s o m1 m2 p (r : res slice) (h : hres hslice) :
  (forall m', outside m1 s o m' -> outside m buf (hlen buf) m') ->
  sl m1 s o m2 p s -> o <= hlen s ->
  refines m2 (rest s) 0 r h (fun m' q x => sl m2 (rest s) 0 m' q x) ->
  refines m1 s o (bind r (fun q => Ok (data q))) h (left_by m buf).
Proof.
  intros Ho S L R. pose proof S as [[W1 W2] [_ [O Wi]]]. destruct r as [q|]; cbn [bind refines] in *.
  - destruct R as [x [m3 [-> Sx]]]. exists x, m3. split; [reflexivity|]. split; [apply Sx|].
    split; [eapply sl_contents; exact Sx|]. apply Ho. eapply outside_rest; [exact O|exact Wi|exact L|exact W1|eapply sl_outside; exact Sx].
  - destruct R as [m3 [-> O3]]. exists m3. split; [reflexivity|]. eapply outside_rest; [exact O|exact Wi|exact L|exact W1|exact O3].
Qed.

(* what is before the end of s does not change when what follows does *)
Lemma before_rest m0 s0 lo m p s b k n : sl m0 s0 lo m p s -> part s b k n ->
  forall m', outside m (rest s) 0 m' -> contents m' b = firstn n (skipn k (data p)).
Proof.
  intros S P m' [L O]. rewrite <- (part_contents _ _ _ _ _ _ _ _ _ S P). destruct P as [P ->]. pose proof S as [[W1 W2] _].
  unfold contents; cbn [arr off hlen]. destruct (Nat.lt_ge_cases (arr s) (length m)) as [La|La].
  - destruct (O _ La) as [O1 O2]. apply list_ext; [rewrite !sub_length by lia; reflexivity|]. rewrite sub_length by lia.
    intros i I. rewrite !nth_sub by exact I. apply O2. intros [_ Hi]. cbn in Hi. lia.
  - rewrite (array_out m) in * by exact La. cbn [length] in W2. replace n with 0 by lia. reflexivity.
Qed.

Lemma tail_of m0 s0 lo m p s b k : sl m0 s0 lo m p s -> tl s b k ->
  hlen b = length (skipn k (data p)) /\ forall m', outside m (rest s) 0 m' -> contents m' b = skipn k (data p).
Proof.
  intros S T. pose proof (sl_len _ _ _ _ _ _ S) as Ln. unfold len in Ln. pose proof (tl_len s b k T) as Lb.
  split; [rewrite skipn_length; lia|]. intros m' O. rewrite (before_rest _ _ _ _ _ _ _ _ _ S (tl_part s b k T) m' O).
  apply firstn_all2. rewrite skipn_length. lia.
Qed.

(* A new buffer: nothing to allocate, the message alone. *)
Lemma message_only m buf (r : res slice) (h : hres hslice) : wf m buf ->
  refines m (rest buf) 0 r h (fun m' q x => sl m (rest buf) 0 m' q x) ->
  refines m buf (hlen buf) (bind r (fun q => Ok (data q))) h (left_by m buf).
Proof.
  intros W R. eapply finish; [intros m' O; exact O|apply sl_start; exact W|lia|exact R].
Qed.

Lemma slice_part (s b : hslice) o i n m : tl s b o -> o + i + n <= hlen s -> hlen s <= hcap s ->
  exists x, h_slice b i (i + n) m = HOk x m /\ part s x (o + i) n.
Proof.
  intros [T ->] L W. unfold h_slice; cbn [arr off hlen hcap]. destruct (Nat.leb_spec i (i + n)); [|lia].
  destruct (Nat.leb_spec (i + n) (hcap s - o)); [|lia]. cbn [andb]. eexists. split; [reflexivity|]. split; [lia|f_equal; lia].
Qed.

Lemma empty_name m name buf : wf m buf ->
  refines m buf (hlen buf) (do q <- authenticate_start (view m buf) name []; Ok (data q)) (h_authenticate_start buf name hnil m) (left_by m buf).
Proof. intros W. apply message_only; [exact W|]. apply ref_auth_start; auto. Qed.


(* the part MYSQL41 and SHA256_MEMORY share: the proof in place *)
Lemma ref_scramble (h : bytes -> bytes) (size : nat) (mix : bytes -> bytes -> bytes) c m1 s o m p b i a v :
  (forall x, length (h x) = size) -> sl m1 s o m p s -> tl s b o -> o + i + 2 * size = hlen s ->
  (forall m', outside m1 s o m' -> contents m' v = a) ->
  refines m1 s o
    (do p <- put p (o + i) (h (password c));
     do x <- get_bytes p (o + i) size;
     do p <- put p (o + i + size) (h x);
     do x <- get_bytes p (o + i + size) (len p - (o + i + size));
     do p <- put p (o + i + size) (h (mix a x));
     do p <- xor_loop size (o + i) (o + i + size) p;
     hex_loop (len p - (o + i + size)) (o + i) (o + i + size) p)
    (hbind (h_slice b i (i + size)) (fun h1 =>
     hbind (h_from b (i + size)) (fun h2 =>
     hbind (h_sum h1 (h (password c))) (fun _ =>
     hbind (h_read h1) (fun x =>
     hbind (h_sum h2 (h x)) (fun _ =>
     hbind (h_read v) (fun a =>
     hbind (h_read h2) (fun x =>
     hbind (h_sum h2 (h (mix a x))) (fun _ =>
     hbind (h_xor_loop (hlen h1) 0 h1 h2) (fun _ =>
     hbind (h_from b i) (fun d =>
     h_hex_loop (hlen h2) 0 0 d h2)))))))))) m)
    (fun m' p' _ => sl m1 s o m' p' s).
Proof.
  intros Hd S T L C. pose proof S as [[W1 W2] _].
  destruct (slice_part s b o i size m T ltac:(lia) W1) as [h1 [E1 P1]]. eapply ref_skip; [exact E1|].
  destruct (from_tl s b o (i + size) m T ltac:(lia)) as [h2 [E2 T2]]. eapply ref_skip; [exact E2|].
  rewrite Nat.add_assoc in T2. pose proof (tl_part _ _ _ T2) as P2. replace (hlen s - (o + i + size)) with size in P2 by lia.
  eapply ref_bind; [eapply ref_sum; [exact S|exact P1|apply Hd|lia]|]. cbv beta. intros m2 p2 _ S2.
  rewrite (part_read _ _ _ _ _ _ _ _ _ S2 P1). cbn [bind]. eapply ref_skip; [reflexivity|].
  eapply ref_bind; [eapply ref_sum; [exact S2|exact P2|apply Hd|lia]|]. cbv beta. intros m3 p3 _ S3.
  rewrite (sl_len _ _ _ _ _ _ S3). replace (hlen s - (o + i + size)) with size by lia.
  rewrite (part_read _ _ _ _ _ _ _ _ _ S3 P2). cbn [bind]. eapply ref_skip; [reflexivity|]. rewrite (C m3 (sl_outside _ _ _ _ _ _ S3)).
  eapply ref_skip; [reflexivity|].
  eapply ref_bind; [eapply ref_sum; [exact S3|exact P2|apply Hd|lia]|]. cbv beta. intros m4 p4 _ S4.
  eapply ref_bind.
  { replace (hlen h1) with size by (destruct P1 as [_ ->]; reflexivity).
    pose proof (ref_xor m1 s o size 0 (o + i) (o + i + size) size h1 h2 m4 p4 s S4 P1 P2 ltac:(lia) ltac:(lia)) as R.
    rewrite !Nat.add_0_r in R. exact R. }
  cbv beta. intros m5 p5 _ S5.
  destruct (from_tl s b o i m5 T ltac:(lia)) as [d [Ed Td]]. eapply ref_skip; [exact Ed|].
  replace (hlen h2) with size by (destruct P2 as [_ ->]; reflexivity).
  rewrite (sl_len _ _ _ _ _ _ S5). replace (hlen s - (o + i + size)) with size by lia.
  pose proof (ref_hex m1 s o size 0 0 (o + i) (hlen s - (o + i)) (o + i + size) size d h2 m5 p5 s S5 (tl_part _ _ _ Td) P2 ltac:(lia) ltac:(lia) ltac:(lia)) as R.
  rewrite !Nat.add_0_r in R. exact R.
Qed.

Lemma bind_assoc {A B C} (r : res A) (f : A -> res B) (g : B -> res C) : bind (bind r f) g = bind r (fun x => bind (f x) g).
Proof. destruct r; reflexivity. Qed.

(* how far the names reach *)
Lemma put_names_end c p o q i : put_names c p o = Ok (q, i) ->
  o + length (database c) + 1 + length (user_name c) + 1 <= len p ->
  i = length (database c) + 1 + length (user_name c) + 1.
Proof.
  unfold put_names, copy_str. intros H L.
  destruct (copy_at p o (database c)) as [p1|] eqn:C1; cbn [bind] in H; [|discriminate].
  rewrite (Nat.min_l (length (database c))) in H by lia.
  destruct (put p1 _ _) as [p2|] eqn:E2; cbn [bind] in H; [|discriminate].
  assert (L1 : len p1 = len p).
  { unfold copy_at in C1. destruct (Nat.leb_spec o (len p)); [|lia]. injection C1 as <-.
    unfold len in *; cbn [data]. rewrite ow_length; [reflexivity|]. rewrite firstn_length. lia. }
  assert (L2 : len p2 = len p1).
  { unfold put in E2. destruct (Nat.leb_spec (o + length (database c) + length [0%N]) (len p1)); [|discriminate]. injection E2 as <-.
    unfold len in *; cbn [data]. apply ow_length. lia. }
  destruct (copy_at p2 _ (user_name c)) as [p3|] eqn:C3; cbn [bind] in H; [|discriminate].
  destruct (put p3 _ _) as [p4|] eqn:E4; cbn [bind] in H; [|discriminate].
  injection H as _ <-. rewrite Nat.min_l by lia. lia.
Qed.

Definition n_names (c : credentials) : nat := length (database c) + 1 + length (user_name c) + 1.

Lemma ref_mysql41_continue (sha1 : bytes -> bytes) m buf c v : wf m buf -> (forall x, length (sha1 x) = 20) ->
  (forall m', outside m buf (hlen buf) m' -> contents m' v = contents m v) ->
  refines m buf (hlen buf) (mysql41_continue sha1 (view m buf) c (contents m v)) (h_mysql41_continue sha1 buf c v m) (left_by m buf).
Proof.
  intros W Hd C. unfold mysql41_continue, h_mysql41_continue. cbv zeta.
  match goal with |- context [allocate (view m buf) ?n] => destruct (allocate_ok m buf n W) as (s & b & m1 & o & Ea & -> & Ws & T & Ln & Ho) end.
  unfold hbind at 1. rewrite Ea. eapply ref_from_alloc; [exact Ho|].
  eapply ref_bind.
  { pose proof (ref_put_names m1 s o c m1 _ s b o (sl_start m1 s o Ws) T ltac:(lia)) as R.
    pose proof (put_names_end c (view m1 s) o) as Le. rewrite (sl_len _ _ _ _ _ _ (sl_start m1 s o Ws)) in Le.
    destruct (put_names c (view m1 s) o) as [[q i]|].
    - specialize (Le q i eq_refl ltac:(lia)). destruct R as [i' [m2 [Eq [S2 Ei]]]].
      exists i', m2. split; [exact Eq|]. instantiate (1 := fun m' a i => sl m1 s o m' (fst a) s /\ snd a = i /\ i = n_names c).
      cbn [fst snd] in *. split; [exact S2|]. split; [exact Ei|]. unfold n_names. lia.
    - exact R. }
  cbv beta. intros m2 [p2 i] i' (S2 & <- & Hi). cbn [fst snd] in *.
  eapply (ref_bind _ _ _ _ _ _ _ _ (fun m' p' _ => sl m1 s o m' p' s)).
  { destruct (0 <? length (password c)).
    - eapply ref_bind; [eapply ref_put; [exact S2|exact T|reflexivity|lia]|]. cbv beta. intros m3 p3 _ S3.
      apply (ref_scramble sha1 sha1_Size (fun a x => a ++ x) c m1 s o m3 p3 b (S i) (contents m v) v Hd S3 T).
      + rewrite Ln. unfold n_names, sha1_Size in *. lia.
      + intros m' O. apply C. apply Ho. exact O.
    - apply ref_ret. exact S2. }
  cbv beta. intros m3 p3 _ S3. destruct (tail_of _ _ _ _ _ _ _ _ S3 T) as [Lt Ct].
  eapply finish; [exact Ho|exact S3|lia|]. pose proof S3 as [W3 [<- _]]. apply ref_auth_continue; [exact W3|exact Lt|exact Ct].
Qed.

Lemma ref_sha256_continue (sha256 : bytes -> bytes) m buf c v : wf m buf -> (forall x, length (sha256 x) = 32) ->
  (forall m', outside m buf (hlen buf) m' -> contents m' v = contents m v) ->
  refines m buf (hlen buf) (sha256_continue sha256 (view m buf) c (contents m v)) (h_sha256_continue sha256 buf c v m) (left_by m buf).
Proof.
  intros W Hd C. unfold sha256_continue, h_sha256_continue. cbv zeta.
  match goal with |- context [allocate (view m buf) ?n] => destruct (allocate_ok m buf n W) as (s & b & m1 & o & Ea & -> & Ws & T & Ln & Ho) end.
  unfold hbind at 1. rewrite Ea. eapply ref_from_alloc; [exact Ho|].
  eapply ref_bind.
  { pose proof (ref_put_names m1 s o c m1 _ s b o (sl_start m1 s o Ws) T ltac:(lia)) as R.
    pose proof (put_names_end c (view m1 s) o) as Le. rewrite (sl_len _ _ _ _ _ _ (sl_start m1 s o Ws)) in Le.
    destruct (put_names c (view m1 s) o) as [[q i]|].
    - specialize (Le q i eq_refl ltac:(lia)). destruct R as [i' [m2 [Eq [S2 Ei]]]].
      exists i', m2. split; [exact Eq|]. instantiate (1 := fun m' a i => sl m1 s o m' (fst a) s /\ snd a = i /\ i = n_names c).
      cbn [fst snd] in *. split; [exact S2|]. split; [exact Ei|]. unfold n_names. lia.
    - exact R. }
  cbv beta. intros m2 [p2 i] i' (S2 & <- & Hi). cbn [fst snd] in *.
  pose proof (ref_scramble sha256 sha256_Size (fun a x => x ++ a) c m1 s o m2 p2 b i (contents m v) v Hd S2 T) as R.
  specialize (R ltac:(rewrite Ln; unfold n_names, sha256_Size in *; lia) (fun m' O => C m' (Ho m' O))).
  cbv beta in R.
  assert (G : forall (r : res slice) (h : hres unit), refines m1 s o r h (fun m' p' _ => sl m1 s o m' p' s) ->
    refines m1 s o (bind r (fun p => bind (authenticate_continue p (skipn o (data p))) (fun q => Ok (data q))))
      (match h with HOk _ m' => h_authenticate_continue s b m' | HPanic m' => HPanic m' end) (left_by m buf)).
  { intros r h Rr. destruct r as [p3|]; cbn [bind].
    - destruct Rr as [u [m3 [-> S3]]]. destruct (tail_of _ _ _ _ _ _ _ _ S3 T) as [Lt Ct].
      eapply finish; [exact Ho|exact S3|lia|]. pose proof S3 as [W3 [<- _]]. apply ref_auth_continue; [exact W3|exact Lt|exact Ct].
    - destruct Rr as [m3 [-> O3]]. exists m3. auto. }
  specialize (G _ _ R). rewrite !bind_assoc in G. 
  match goal with |- refines _ _ _ _ ?h _ => match type of G with refines _ _ _ _ ?h' _ => replace h with h'; [|clear] end end.
  - revert G. clear. intros G.
    destruct (put p2 (o + i) (sha256 (password c))) as [x1|]; cbn [bind] in *; [|exact G].
    destruct (get_bytes x1 (o + i) sha256_Size) as [x2|]; cbn [bind] in *; [|exact G].
    destruct (put x1 (o + i + sha256_Size) (sha256 x2)) as [x3|]; cbn [bind] in *; [|exact G].
    destruct (get_bytes x3 _ _) as [x4|]; cbn [bind] in *; [|exact G].
    destruct (put x3 _ _) as [x5|]; cbn [bind] in *; [|exact G].
    destruct (xor_loop _ _ _ _) as [x6|]; cbn [bind] in *; exact G.
  - unfold hbind, h_read. repeat (match goal with
      | |- context [h_slice ?a ?b ?c ?m] => destruct (h_slice a b c m)
      | |- context [h_from ?a ?b ?m] => is_var m; destruct (h_from a b m)
      | |- context [h_sum ?a ?b ?m] => is_var m; destruct (h_sum a b m)
      | |- context [h_xor_loop ?a ?b ?c ?d ?m] => is_var m; destruct (h_xor_loop a b c d m)
      | |- context [h_hex_loop ?a ?b ?c ?d ?e ?m] => is_var m; destruct (h_hex_loop a b c d e m)
      end; try reflexivity).
Qed.

Lemma ref_plain_start m buf c : wf m buf ->
  refines m buf (hlen buf) (plain_start (view m buf) c) (h_plain_start buf c m) (left_by m buf).
Proof.
  intros W. unfold plain_start, h_plain_start. cbv zeta.
  match goal with |- context [allocate (view m buf) ?n] => destruct (allocate_ok m buf n W) as (s & b & m1 & o & Ea & -> & Ws & T & Ln & Ho) end.
  unfold hbind at 1. rewrite Ea. eapply ref_from_alloc; [exact Ho|].
  eapply ref_bind; [apply (ref_put_names m1 s o c m1 _ s b o (sl_start m1 s o Ws) T ltac:(lia))|].
  cbv beta. intros m2 [p2 i] i' (S2 & <-). cbn [fst snd] in *.
  eapply ref_bind; [eapply ref_copy_str; [exact S2|exact T|reflexivity|lia]|]. cbv beta. intros m3 [p3 n] n' (S3 & _). cbn [fst] in *.
  destruct (tail_of _ _ _ _ _ _ _ _ S3 T) as [Lt Ct].
  eapply finish; [exact Ho|exact S3|lia|]. pose proof S3 as [W3 [<- _]]. apply ref_auth_start; [exact W3|exact Lt|exact Ct].
Qed.

End Messages.
