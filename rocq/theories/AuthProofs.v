(* Proofs about AuthModel. *)
From Coq Require Import String List NArith ZArith Arith Bool Lia ZifyN ZifyNat ZifyBool.
From Coq Require Import List.
From Verif Require Import Base GoSlice SliceProofs SpecWire SpecMsg Varint VarintProofs WireProofs Pure SpecValue MsgModel SpecProg SpecUnit Conn AuthModel SpecAuth SessionProofs.
Import ListNotations.
Open Scope N_scope.
Open Scope list_scope.
Ltac Zify.zify_post_hook ::= Z.div_mod_to_equations.
Local Notation length := List.length.

Lemma copy_str_ok : forall a g sp off s, off = length a -> (length s <= length g)%nat ->
  copy_str (mk (a ++ g) sp) off s = Ok (mk (a ++ s ++ skipn (length s) g) sp, length s).
Proof.
  intros a g sp off s -> Hs. unfold copy_str, copy_at, len. cbn [data spare]. rewrite app_length. destruct (Nat.leb_spec (length a) (length a + length g)); [|lia]. cbn [bind].
  rewrite firstn_all2 by lia. rewrite Nat.min_l by lia. do 3 f_equal. rewrite ow_skip by lia. rewrite Nat.sub_diag. reflexivity.
Qed.
Lemma put_ok : forall a g sp off s, off = length a -> (length s <= length g)%nat ->
  put (mk (a ++ g) sp) off s = Ok (mk (a ++ s ++ skipn (length s) g) sp).
Proof.
  intros a g sp off s Ho Hs. rewrite <- (firstn_skipn (length s) g) at 1. apply put_chunk; [exact Ho|]. rewrite firstn_length. lia.
Qed.
Lemma get_ok : forall a x b sp off n, off = length a -> n = length x -> get_bytes (mk (a ++ x ++ b) sp) off n = Ok x.
Proof.
  intros a x b sp off n -> ->. unfold get_bytes, len. cbn [data]. rewrite !app_length. destruct (Nat.leb_spec (length a + length x) (length a + (length x + length b))); [|lia].
  rewrite skipn_app, Nat.sub_diag, skipn_all. cbn [app skipn]. rewrite firstn_app, Nat.sub_diag, firstn_all, firstn_O, app_nil_r. reflexivity.
Qed.

Lemma put_names_ok : forall c k region sp, (length (database c) + 1 + length (user_name c) + 1 <= length region)%nat -> exists rest,
  put_names c (mk (k ++ region) sp) (length k) =
    Ok (mk ((k ++ (database c ++ [0]) ++ user_name c ++ [0]) ++ rest) sp, (length (database c) + 1 + length (user_name c) + 1)%nat) /\
  (length rest = length region - (length (database c) + 1 + length (user_name c) + 1))%nat.
Proof.
  intros c k region sp H. unfold put_names. set (d := database c) in *. set (u := user_name c) in *.
  rewrite copy_str_ok by lia. cbn [bind].
  replace (k ++ d ++ skipn (length d) region) with ((k ++ d) ++ skipn (length d) region) by (rewrite app_assoc; reflexivity).
  rewrite put_ok; [|rewrite app_length; lia|rewrite skipn_length; cbn [length]; lia]. cbn [bind length].
  set (r1 := skipn 1 (skipn (length d) region)). assert (L1 : (length r1 = length region - length d - 1)%nat) by (unfold r1; rewrite !skipn_length; lia).
  replace ((k ++ d) ++ [0] ++ r1) with ((k ++ d ++ [0]) ++ r1) by (rewrite !app_assoc; reflexivity).
  rewrite copy_str_ok; [|rewrite !app_length; cbn [length]; lia|lia]. cbn [bind].
  replace ((k ++ d ++ [0]) ++ u ++ skipn (length u) r1) with (((k ++ d ++ [0]) ++ u) ++ skipn (length u) r1) by (rewrite !app_assoc; reflexivity).
  rewrite put_ok; [|rewrite !app_length; cbn [length]; lia|rewrite skipn_length; cbn [length]; lia]. cbn [bind length].
  exists (skipn 1 (skipn (length u) r1)). split; [|rewrite !skipn_length; lia].
  f_equal. f_equal; [|lia]. f_equal. rewrite <- !app_assoc. reflexivity.
Qed.

Lemma xor_comm : forall a b, xor a b = xor b a.
Proof. induction a as [|x a IH]; intros [|y b]; cbn [xor]; try reflexivity. rewrite N.lxor_comm, IH. reflexivity. Qed.
Lemma xor_length : forall a b, length a = length b -> length (xor a b) = length a.
Proof. induction a as [|x a IH]; intros [|y b] H; cbn [xor length] in *; try lia. rewrite IH; lia. Qed.

Lemma xor_loop_ok : forall n pre h1 mid h2 post sp a b,
  a = length pre -> b = (length pre + length h1 + length mid)%nat -> length h1 = n -> length h2 = n ->
  xor_loop n a b (mk (pre ++ h1 ++ mid ++ h2 ++ post) sp) = Ok (mk (pre ++ h1 ++ mid ++ xor h1 h2 ++ post) sp).
Proof.
  induction n as [|n IH]; intros pre h1 mid h2 post sp a b Ha Hb H1 H2.
  - destruct h1; [|discriminate]. destruct h2; [|discriminate]. reflexivity.
  - destruct h1 as [|x h1]; [discriminate|]. destruct h2 as [|y h2]; [discriminate|]. cbn [xor_loop length] in *.
    change (pre ++ (x :: h1) ++ mid ++ (y :: h2) ++ post) with (pre ++ [x] ++ (h1 ++ mid ++ (y :: h2) ++ post)).
    rewrite get_ok by (assumption || reflexivity). cbn [bind hd].
    assert (U : upd (mk (pre ++ [x] ++ (h1 ++ mid ++ (y :: h2) ++ post)) sp) b (fun z => N.lxor z x)
      = Ok (mk ((pre ++ [x]) ++ h1 ++ (mid ++ [N.lxor x y]) ++ h2 ++ post) sp)).
    { unfold upd. cbn [data]. replace (pre ++ [x] ++ h1 ++ mid ++ (y :: h2) ++ post) with ((pre ++ [x] ++ h1 ++ mid) ++ [y] ++ (h2 ++ post)) by (rewrite <- !app_assoc; reflexivity).
      rewrite nth_error_app2 by (rewrite !app_length; cbn [length]; lia). replace (b - length (pre ++ [x] ++ h1 ++ mid))%nat with 0%nat by (rewrite !app_length; cbn [length]; lia). change (nth_error ([y] ++ h2 ++ post) 0) with (Some y).
      cbv iota. rewrite (put_chunk (pre ++ [x] ++ h1 ++ mid) [y]); [|rewrite !app_length; cbn [length]; lia|reflexivity]. do 2 f_equal. rewrite N.lxor_comm, <- !app_assoc. reflexivity. }
    rewrite U. cbn [bind]. rewrite (IH (pre ++ [x]) h1 (mid ++ [N.lxor x y]) h2 post sp (S a) (S b)); [|rewrite app_length; cbn [length]; lia|rewrite !app_length; cbn [length]; lia|lia|lia].
    cbn [xor]. do 2 f_equal. rewrite <- !app_assoc. reflexivity.
Qed.

Lemma hex_digit_hi : forall v, nth (N.to_nat (N.shiftr v 4)) hextable 0 = hex_digit (v / 16).
Proof. intros v. rewrite N.shiftr_div_pow2. reflexivity. Qed.
Lemma hex_digit_lo : forall v, nth (N.to_nat (N.land v 15)) hextable 0 = hex_digit (v mod 16).
Proof. intros v. change 15 with (N.ones 4). rewrite N.land_ones. reflexivity. Qed.

Lemma hex_loop_ok : forall n pre junk src post sp dst s,
  dst = length pre -> s = (length pre + length junk)%nat -> length junk = n -> length src = n ->
  hex_loop n dst s (mk (pre ++ junk ++ src ++ post) sp) = Ok (mk (pre ++ hex src ++ post) sp).
Proof.
  induction n as [|n IH]; intros pre junk src post sp dst s Hd Hs H1 H2.
  - destruct junk; [|discriminate]. destruct src; [|discriminate]. reflexivity.
  - destruct junk as [|j junk]; [discriminate|]. destruct src as [|v src]; [discriminate|]. cbn [hex_loop length] in *.
    replace (pre ++ (j :: junk) ++ (v :: src) ++ post) with ((pre ++ (j :: junk)) ++ [v] ++ (src ++ post)) by (rewrite <- !app_assoc; reflexivity).
    rewrite get_ok; [|rewrite app_length; cbn [length]; lia|reflexivity]. cbn [bind hd]. rewrite hex_digit_hi, hex_digit_lo.
    set (hi := hex_digit (v / 16)). set (lo := hex_digit (v mod 16)).
    replace ((pre ++ (j :: junk)) ++ [v] ++ (src ++ post)) with (pre ++ [j] ++ ((junk ++ [v]) ++ src ++ post)) by (rewrite <- !app_assoc; reflexivity).
    rewrite put_chunk by (assumption || reflexivity). cbn [bind].
    destruct (junk ++ [v]) as [|w rest] eqn:Er; [destruct junk; discriminate|].
    assert (Lr : length rest = n) by (apply (f_equal (@length N)) in Er; rewrite app_length in Er; cbn [length] in Er; lia).
    replace (pre ++ [hi] ++ (w :: rest) ++ src ++ post) with ((pre ++ [hi]) ++ [w] ++ (rest ++ src ++ post)) by (rewrite <- !app_assoc; reflexivity).
    rewrite put_chunk; [|rewrite app_length; cbn [length]; lia|reflexivity]. cbn [bind].
    replace ((pre ++ [hi]) ++ [lo] ++ rest ++ src ++ post) with ((pre ++ [hi; lo]) ++ rest ++ src ++ post) by (rewrite <- !app_assoc; reflexivity).
    rewrite IH; [|rewrite app_length; cbn [length]; lia|rewrite app_length; cbn [length]; lia|assumption|lia].
    cbn [hex]. fold hi lo. do 2 f_equal. rewrite <- !app_assoc. reflexivity.
Qed.

(* The proof computed in place: [h1] [h2] regions of n bytes at the end. *)
Section Scramble.
Variables (h : bytes -> bytes) (n : nat) (second : bytes -> bytes).
Definition scramble_in_place (pw : bytes) (h1 h2 : nat) (p : slice) : res slice :=
  do p <- put p h1 (h pw);
  do x <- get_bytes p h1 n;
  do p <- put p h2 (h x);
  do x <- get_bytes p h2 (len p - h2);
  do p <- put p h2 (h (second x));
  do p <- xor_loop n h1 h2 p;
  hex_loop (len p - h2) h1 h2 p.
Lemma scramble_ok : forall pw pre room sp h1 h2, digests h n -> h1 = length pre -> h2 = (length pre + n)%nat -> length room = (2 * n)%nat ->
  scramble_in_place pw h1 h2 (mk (pre ++ room) sp) = Ok (mk (pre ++ hex (xor (h pw) (h (second (h (h pw)))))) sp).
Proof.
  intros pw pre room sp h1 h2 Hd H1 H2 Hr. assert (L : forall x, length (h x) = n) by (intros x; exact (proj2 (Hd x))). unfold scramble_in_place.
  rewrite put_ok by (rewrite ?L; lia || assumption). cbn [bind]. rewrite L.
  rewrite get_ok by (rewrite ?L; auto). cbn [bind].
  replace (pre ++ h pw ++ skipn n room) with ((pre ++ h pw) ++ skipn n room ++ []) by (rewrite app_nil_r, <- !app_assoc; reflexivity).
  assert (Lk : length (skipn n room) = n) by (rewrite skipn_length; lia).
  assert (P2 : length (pre ++ h pw) = h2) by (rewrite app_length, L; lia).
  rewrite put_chunk by (rewrite ?L; auto). cbn [bind].
  assert (S2 : forall x, length x = n -> (len (mk ((pre ++ h pw) ++ x ++ []) sp) - h2 = n)%nat) by (intros x Hx; unfold len; cbn [data]; rewrite !app_length, L, Hx; cbn [length]; lia).
  rewrite S2 by apply L. rewrite get_ok by (rewrite ?L; auto). cbn [bind].
  rewrite put_chunk by (rewrite ?L; auto). cbn [bind].
  set (z := h (second (h (h pw)))). replace ((pre ++ h pw) ++ z ++ []) with (pre ++ h pw ++ [] ++ z ++ []) by (rewrite <- !app_assoc; reflexivity).
  rewrite xor_loop_ok; [|assumption|rewrite L; cbn [length]; lia|apply L|apply L]. cbn [bind app].
  assert (Lx : length (xor (h pw) z) = n) by (rewrite xor_length; rewrite ?L; [reflexivity|unfold z; rewrite L; reflexivity]).
  replace (len (mk (pre ++ h pw ++ xor (h pw) z ++ []) sp) - h2)%nat with n by (unfold len; cbn [data]; rewrite !app_length, L, Lx; cbn [length]; lia).
  rewrite hex_loop_ok; [|assumption|rewrite L; lia|apply L|exact Lx]. rewrite app_nil_r. reflexivity.
Qed.
End Scramble.

Lemma hex_bytes : forall bs, is_bytes bs -> is_bytes (hex bs) /\ length (hex bs) = (2 * length bs)%nat.
Proof.
  assert (D : forall d, hex_digit d < 256).
  { intros d. unfold hex_digit. destruct (Nat.lt_ge_cases (N.to_nat d) 16) as [H|H]; [|rewrite nth_overflow by exact H; lia].
    assert (F : Forall (fun x => x < 256) (s2b "0123456789abcdef")) by (repeat constructor). exact (proj1 (Forall_nth _ _) F _ 0 H). }
  induction 1 as [|b bs Hb H IH]; [split; [constructor|reflexivity]|]. cbn [hex length]. destruct IH as [I1 I2]. split; [|lia].
  constructor; [apply D|]. constructor; [apply D|exact I1].
Qed.
Lemma xor_bytes : forall a b, is_bytes a -> is_bytes b -> is_bytes (xor a b).
Proof.
  intros a b Ha. revert b. induction Ha as [|x a Hx Ha IH]; intros b Hb; [constructor|]. destruct Hb as [|y b Hy Hb]; [constructor|]. cbn [xor]. constructor; [|apply IH; exact Hb].
  unfold is_byte in *. destruct (N.eq_dec (N.lxor x y) 0) as [->|Hn]; [lia|]. apply N.log2_lt_pow2 with (b := 8); [lia|].
  eapply N.le_lt_trans; [apply N.log2_lxor|]. apply N.max_lub_lt.
  - destruct (N.eq_dec x 0) as [->|]; [reflexivity|]. apply N.log2_lt_pow2; lia.
  - destruct (N.eq_dec y 0) as [->|]; [reflexivity|]. apply N.log2_lt_pow2; lia.
Qed.

Lemma unhex_hex : forall bs, is_bytes bs -> unhex (hex bs) = Some bs.
Proof.
  assert (D : forall d, d < 16 -> hex_value (hex_digit d) = Some d).
  { intros d Hd. assert (F : Forall (fun k => hex_value (hex_digit k) = Some k) (map N.of_nat (seq 0 16))) by (repeat constructor).
    rewrite Forall_forall in F. apply F. apply in_map_iff. exists (N.to_nat d). split; [lia|]. apply in_seq. lia. }
  induction 1 as [|b bs Hb H IH]; [reflexivity|]. cbn [hex unhex]. unfold is_byte in Hb. rewrite !D, IH by lia. do 2 f_equal. lia.
Qed.
Lemma xor_cancel : forall a b, length a = length b -> xor (xor a b) b = a.
Proof.
  induction a as [|x a IH]; intros [|y b] H; cbn [xor length] in *; try reflexivity; try lia. rewrite IH by lia. f_equal. rewrite N.lxor_assoc, N.lxor_nilpotent. apply N.lxor_0_r.
Qed.

Lemma until_nul_app : forall s r, Forall (fun b => b <> 0) s -> until_nul (s ++ 0 :: r) = Some (s, r).
Proof. intros s r H. induction H as [|b s Hb H IH]; [reflexivity|]. cbn [app until_nul]. destruct (N.eqb_spec b 0); [contradiction|]. rewrite IH. reflexivity. Qed.
