(* The text of times and durations reads back as the value. *)
From Coq Require Import List NArith ZArith Arith Bool Lia ZifyN ZifyNat ZifyBool.
From Verif Require Import Base GoSlice SliceProofs Varint VarintProofs WireProofs Text SpecValue.
Import ListNotations.
Open Scope N_scope.

Ltac Zify.zify_post_hook ::= Z.div_mod_to_equations.

Lemma digits_dec_k : forall k n acc, n < 10 ^ N.of_nat k -> digits 0 (dec_k k n acc) = digits n acc.
Proof.
  induction k as [|k IH]; intros n acc Hn; cbn [dec_k].
  - change (10 ^ N.of_nat 0) with 1 in Hn. replace n with 0 by lia. reflexivity.
  - assert (Hstep : forall a, digits a ((48 + n mod 10) :: acc) = digits (10 * a + n mod 10) acc).
    { intros a. cbn [digits].
      destruct (N.leb_spec 48 (48 + n mod 10)); [|lia]. destruct (N.leb_spec (48 + n mod 10) 57); [|lia].
      cbn [andb]. f_equal. lia. }
    destruct (N.eqb_spec (n / 10) 0) as [Hz|Hz].
    + rewrite Hstep. f_equal. lia.
    + rewrite IH.
      * rewrite Hstep. f_equal. lia.
      * replace (N.of_nat (S k)) with (1 + N.of_nat k) in Hn by lia. rewrite N.pow_add_r in Hn.
        change (10 ^ 1) with 10 in Hn. lia.
Qed.

Lemma size_nat_pow : forall n, n < 10 ^ N.of_nat (S (N.size_nat n)).
Proof.
  intros n. pose proof (N.size_gt n) as H.
  assert (Hs : N.of_nat (N.size_nat n) = N.size n).
  { destruct n as [|q]; [reflexivity|]. cbn [N.size N.size_nat].
    induction q as [q IH|q IH|]; cbn [Pos.size_nat Pos.size]; [| |reflexivity];
      (assert (IH' : N.of_nat (Pos.size_nat q) = N.pos (Pos.size q)) by (apply IH; apply N.size_gt)); lia. }
  replace (N.of_nat (S (N.size_nat n))) with (1 + N.size n) by lia.
  apply N.lt_le_trans with (2 ^ N.size n); [assumption|].
  apply N.le_trans with (10 ^ N.size n); [apply N.pow_le_mono_l; lia|]. apply N.pow_le_mono_r; lia.
Qed.

Lemma dec_k_length : forall k n acc, (length acc < length (dec_k (S k) n acc))%nat.
Proof.
  induction k as [|k IH]; intros n acc.
  - cbn [dec_k]. destruct (n / 10 =? 0); cbn [length dec_k]; lia.
  - remember (S k) as k1. cbn [dec_k]. destruct (n / 10 =? 0); [cbn [length]; lia|].
    subst k1. specialize (IH (n / 10) ((48 + n mod 10) :: acc)). cbn [length] in IH. lia.
Qed.

Lemma decimal_dec : forall n, decimal (dec n) = Some n.
Proof.
  intros n. unfold decimal, dec. pose proof (dec_k_length (N.size_nat n) n []) as Hl.
  destruct (dec_k (S (N.size_nat n)) n []) as [|b l] eqn:Hd; [cbn in Hl; lia|].
  rewrite <- Hd. rewrite digits_dec_k by apply size_nat_pow. reflexivity.
Qed.

Lemma dec_nonempty : forall n, dec n <> [].
Proof. intros n H. pose proof (decimal_dec n) as Hd. rewrite H in Hd. discriminate. Qed.

Lemma dec_k_bytes : forall k n acc, is_bytes acc -> is_bytes (dec_k k n acc).
Proof.
  induction k as [|k IH]; intros n acc Ha; cbn [dec_k]; [assumption|].
  assert (is_bytes ((48 + n mod 10) :: acc)) by (constructor; [unfold is_byte; lia|assumption]).
  destruct (n / 10 =? 0); [assumption|apply IH; assumption].
Qed.
Lemma dec_bytes : forall n, is_bytes (dec n).
Proof. intros n. apply dec_k_bytes. constructor. Qed.

Lemma dec_k_upper : forall k n acc w, n < 10 ^ N.of_nat (S w) -> (length (dec_k k n acc) <= S w + length acc)%nat.
Proof.
  induction k as [|k IH]; intros n acc w Hn; cbn [dec_k]; [lia|].
  destruct (N.eqb_spec (n / 10) 0) as [Hz|Hz]; [cbn [length]; lia|].
  destruct w as [|w]; [change (10 ^ N.of_nat 1) with 10 in Hn; lia|].
  specialize (IH (n / 10) ((48 + n mod 10) :: acc) w). cbn [length] in IH.
  enough (n / 10 < 10 ^ N.of_nat (S w)) as H by (specialize (IH H); lia).
  replace (N.of_nat (S (S w))) with (1 + N.of_nat (S w)) in Hn by lia. rewrite N.pow_add_r in Hn.
  change (10 ^ 1) with 10 in Hn. lia.
Qed.
Lemma dec_upper : forall n w, n < 10 ^ N.of_nat (S w) -> (length (dec n) <= S w)%nat.
Proof. intros n w Hn. pose proof (dec_k_upper (S (N.size_nat n)) n [] w Hn) as H. cbn [length] in H. unfold dec. lia. Qed.

Lemma digits_zeros : forall k l, digits 0 (repeat 48 k ++ l) = digits 0 l.
Proof. induction k as [|k IH]; intros l; [reflexivity|]. cbn [repeat app digits]. exact (IH l). Qed.

Lemma decimal_zeros : forall k l, l <> [] -> decimal (repeat 48 k ++ l) = decimal l.
Proof.
  intros k l Hl. unfold decimal. pose proof (digits_zeros k l) as H.
  destruct l as [|b l]; [congruence|]. destruct k as [|k]; [reflexivity|].
  cbn [repeat app] in *. exact H.
Qed.

Lemma pad_nonneg : forall x w, (0 <= x)%Z -> Z.to_N x < 10 ^ N.of_nat (S w) ->
  decimal (dec_pad x (S w)) = Some (Z.to_N x) /\ length (dec_pad x (S w)) = S w /\ is_bytes (dec_pad x (S w)).
Proof.
  intros x w Hx Hl. unfold dec_pad. destruct (Z.ltb_spec x 0); [lia|]. cbn [app].
  replace (Z.abs_N x) with (Z.to_N x) by lia.
  pose proof (dec_upper (Z.to_N x) w Hl) as Hu.
  split; [|split].
  - rewrite decimal_zeros by apply dec_nonempty. apply decimal_dec.
  - rewrite app_length, repeat_length. lia.
  - apply is_bytes_app; [|apply dec_bytes]. apply Forall_forall. intros b Hb. apply repeat_spec in Hb. subst. unfold is_byte. lia.
Qed.

(* A string of digits does not start with a minus sign. *)
Lemma decimal_first : forall l n, decimal l = Some n -> signed_decimal l = Some (Z.of_N n).
Proof.
  intros l n H. unfold signed_decimal. destruct l as [|b l]; [discriminate|].
  destruct (N.eq_dec b 45) as [->|Hb].
  - cbn in H. discriminate.
  - assert (Hm : match b with 45 => option_map (fun n0 => (- Z.of_N n0)%Z) (decimal l) | _ => option_map Z.of_N (decimal (b :: l)) end
                 = option_map Z.of_N (decimal (b :: l))).
    { destruct b as [|p]; [reflexivity|]. do 6 (destruct p as [p|p|]; try reflexivity). congruence. }
    rewrite Hm, H. reflexivity.
Qed.

Lemma pad_year : forall y, (Z.abs y < 10 ^ 12)%Z ->
  signed_decimal (dec_pad y 4) = Some y /\ (4 <= length (dec_pad y 4) <= 13)%nat /\ is_bytes (dec_pad y 4).
Proof.
  intros y Hy. unfold dec_pad.
  assert (Hu : (length (dec (Z.abs_N y)) <= 12)%nat) by (apply dec_upper; change (10 ^ N.of_nat 12) with (10 ^ 12); lia).
  assert (Hd : decimal (repeat 48 (4 - length (dec (Z.abs_N y))) ++ dec (Z.abs_N y)) = Some (Z.abs_N y)).
  { rewrite decimal_zeros by apply dec_nonempty. apply decimal_dec. }
  assert (Hb : is_bytes (repeat 48 (4 - length (dec (Z.abs_N y))) ++ dec (Z.abs_N y))).
  { apply is_bytes_app; [|apply dec_bytes]. apply Forall_forall. intros b Hb. apply repeat_spec in Hb. subst. unfold is_byte. lia. }
  assert (Hl : length (repeat 48 (4 - length (dec (Z.abs_N y))) ++ dec (Z.abs_N y)) = (4 - length (dec (Z.abs_N y)) + length (dec (Z.abs_N y)))%nat)
    by (rewrite app_length, repeat_length; reflexivity).
  destruct (Z.ltb_spec y 0) as [Hn|Hn].
  - cbn [app]. split; [|split].
    + cbn [signed_decimal]. rewrite Hd. cbn [option_map]. f_equal. lia.
    + cbn [length]. rewrite Hl. lia.
    + apply is_bytes_cons; [lia|assumption].
  - cbn [app]. split; [|split].
    + rewrite (decimal_first _ _ Hd). f_equal. lia.
    + rewrite Hl. lia.
    + assumption.
Qed.

Lemma format_time_ok : forall t, go_time t ->
  text_of_time (format_time t) t /\ is_bytes (format_time t) /\ nlen (format_time t) < 90.
Proof.
  intros t (Hy & Hmo & Hd & Hh & Hmi & Hs & Hns).
  destruct (pad_year (t_year t) Hy) as (Y1 & Y2 & Y3).
  assert (P2 : forall n, n < 100 -> decimal (dec_pad (Z.of_N n) 2) = Some n /\ length (dec_pad (Z.of_N n) 2) = 2%nat /\ is_bytes (dec_pad (Z.of_N n) 2)).
  { intros n Hn. pose proof (pad_nonneg (Z.of_N n) 1 ltac:(lia)) as H. rewrite N2Z.id in H. apply H.
    change (10 ^ N.of_nat 2) with 100. assumption. }
  assert (P9 : decimal (dec_pad (Z.of_N (t_nsec t)) 9) = Some (t_nsec t) /\ length (dec_pad (Z.of_N (t_nsec t)) 9) = 9%nat /\ is_bytes (dec_pad (Z.of_N (t_nsec t)) 9)).
  { pose proof (pad_nonneg (Z.of_N (t_nsec t)) 8 ltac:(lia)) as H. rewrite N2Z.id in H. apply H.
    change (10 ^ N.of_nat 9) with (10 ^ 9). assumption. }
  destruct (P2 (t_month t) ltac:(lia)) as (M1 & M2 & M3).
  destruct (P2 (t_day t) ltac:(lia)) as (D1 & D2 & D3).
  destruct (P2 (t_hour t) ltac:(lia)) as (H1 & H2 & H3).
  destruct (P2 (t_min t) ltac:(lia)) as (I1 & I2 & I3).
  destruct (P2 (t_sec t) ltac:(lia)) as (S1 & S2 & S3).
  destruct P9 as (N1 & N2 & N3).
  split; [|split].
  - do 7 eexists. split; [reflexivity|]. repeat split; try eassumption. lia.
  - unfold format_time. repeat (first [assumption | apply is_bytes_cons; [reflexivity|apply is_bytes_nil] | apply is_bytes_app]).
  - unfold format_time, nlen. rewrite !app_length, M2, D2, H2, I2, S2, N2. cbn [length]. lia.
Qed.

(* The text determines the time. *)
Lemma text_of_time_inj : forall txt t u, text_of_time txt t -> text_of_time txt u -> t = u.
Proof.
  intros txt t u (y & mo & d & h & mi & s & ns & Ht & Y1 & _ & M1 & M2 & D1 & D2 & H1 & H2 & I1 & I2 & S1 & S2 & N1 & N2)
    (y' & mo' & d' & h' & mi' & s' & ns' & Hu & Y1' & _ & M1' & M2' & D1' & D2' & H1' & H2' & I1' & I2' & S1' & S2' & N1' & N2').
  rewrite Ht in Hu. clear Ht.
  assert (A : forall (a b a' b' : bytes), a ++ b = a' ++ b' -> length b = length b' -> a = a' /\ b = b').
  { intros a b a' b' He Hl. assert (length a = length a') by (apply (f_equal (@length N)) in He; rewrite !app_length in He; lia).
    revert a' He H. induction a as [|x a IH]; intros [|x' a'] He Hla; cbn [length] in Hla; try lia.
    - split; [reflexivity|exact He].
    - cbn [app] in He. injection He as Hx Ht. destruct (IH a' Ht ltac:(lia)) as [Ea Eb]. split; [congruence|exact Eb]. }
  apply A in Hu; [|rewrite !app_length; cbn [length]; lia]. destruct Hu as [<- Hu].
  apply A in Hu; [|rewrite !app_length; cbn [length]; lia]. destruct Hu as [_ Hu].
  apply A in Hu; [|rewrite !app_length; cbn [length]; lia]. destruct Hu as [<- Hu].
  apply A in Hu; [|rewrite !app_length; cbn [length]; lia]. destruct Hu as [_ Hu].
  apply A in Hu; [|rewrite !app_length; cbn [length]; lia]. destruct Hu as [<- Hu].
  apply A in Hu; [|rewrite !app_length; cbn [length]; lia]. destruct Hu as [_ Hu].
  apply A in Hu; [|rewrite !app_length; cbn [length]; lia]. destruct Hu as [<- Hu].
  apply A in Hu; [|rewrite !app_length; cbn [length]; lia]. destruct Hu as [_ Hu].
  apply A in Hu; [|rewrite !app_length; cbn [length]; lia]. destruct Hu as [<- Hu].
  apply A in Hu; [|rewrite !app_length; cbn [length]; lia]. destruct Hu as [_ Hu].
  apply A in Hu; [|rewrite !app_length; cbn [length]; lia]. destruct Hu as [<- Hu].
  apply A in Hu; [|lia]. destruct Hu as [_ <-].
  destruct t, u; cbn in *. congruence.
Qed.

(* ---- durations ---- *)

Definition two (m : N) : bytes := [48 + m / 10; 48 + m mod 10].

Lemma smalls_two : forall m, m < 60 -> smalls_at (2 * m) = Ok (48 + m / 10) /\ smalls_at (2 * m + 1) = Ok (48 + m mod 10).
Proof.
  intros m Hm.
  assert (H : forall m, m < N.of_nat 60 ->
     match smalls_at (2 * m), smalls_at (2 * m + 1) with
     | Ok a, Ok b => (a =? 48 + m / 10) && (b =? 48 + m mod 10) | _, _ => false end = true)
    by (apply sweep; vm_compute; reflexivity).
  specialize (H m Hm). destruct (smalls_at (2 * m)); [|discriminate]. destruct (smalls_at (2 * m + 1)); [|discriminate].
  apply andb_prop in H. destruct H as [Ha Hb]. apply N.eqb_eq in Ha. apply N.eqb_eq in Hb. subst. split; reflexivity.
Qed.

Lemma decimal_two : forall m, m < 60 -> decimal (two m) = Some m.
Proof.
  intros m Hm. unfold decimal, two. cbn [digits].
  destruct (N.leb_spec 48 (48 + m / 10)); [|lia]. destruct (N.leb_spec (48 + m / 10) 57); [|lia].
  destruct (N.leb_spec 48 (48 + m mod 10)); [|lia]. destruct (N.leb_spec (48 + m mod 10) 57); [|lia].
  cbn [andb]. f_equal. lia.
Qed.

(* What AppendDuration writes. *)
Definition duration_text (w32 : bool) (d : Z) : bytes :=
  let neg := (d <? 0)%Z in
  let a := if neg then wrap64 (- d) else d in
  let u (z : Z) := Z.to_N (z mod (if w32 then 2 ^ 32 else 2 ^ 64))%Z in
  (if neg then [45] else []) ++ dec (Z.to_N (Z.quot a ns_hour mod 2 ^ 64)%Z) ++
  [58] ++ two (u (Z.quot a ns_minute) mod 60) ++ [58] ++ two (u (Z.quot a ns_second) mod 60).

Section WithEnv.
Context `{E : Env}.

Lemma append_duration_text : forall d p, exists sp,
  append_duration p d = Ok (mk (data p ++ duration_text word32 d) sp).
Proof.
  intros d p. unfold append_duration, duration_text. cbv zeta.
  destruct (d <? 0)%Z.
  - destruct (append_spec p [45]) as [sp0 ->].
    set (a := wrap64 (- d)). fold (to_uint (Z.quot a ns_minute)). fold (to_uint (Z.quot a ns_second)).
    set (i := to_uint (Z.quot a ns_minute) mod 60). set (j := to_uint (Z.quot a ns_second) mod 60).
    destruct (smalls_two i ltac:(unfold i; lia)) as [-> ->]. destruct (smalls_two j ltac:(unfold j; lia)) as [-> ->].
    cbn [bind].
    destruct (append_spec (mk (data p ++ [45]) sp0) (dec (Z.to_N (a ÷ ns_hour mod 2 ^ 64)))) as [sp1 ->]. cbn [data].
    match goal with |- context [append ?q ?l] => destruct (append_spec q l) as [sp2 ->] end.
    exists sp2. cbn [data]. f_equal. f_equal. rewrite <- !app_assoc. reflexivity.
  - set (a := d). fold (to_uint (Z.quot a ns_minute)). fold (to_uint (Z.quot a ns_second)).
    set (i := to_uint (Z.quot a ns_minute) mod 60). set (j := to_uint (Z.quot a ns_second) mod 60).
    destruct (smalls_two i ltac:(unfold i; lia)) as [-> ->]. destruct (smalls_two j ltac:(unfold j; lia)) as [-> ->].
    cbn [bind].
    destruct (append_spec p (dec (Z.to_N (a ÷ ns_hour mod 2 ^ 64)))) as [sp1 ->]. cbn [data].
    match goal with |- context [append ?q ?l] => destruct (append_spec q l) as [sp2 ->] end.
    exists sp2. cbn [data]. f_equal. f_equal. rewrite <- !app_assoc. reflexivity.
Qed.

End WithEnv.

Lemma duration_text_bytes : forall w d, is_bytes (duration_text w d) /\ nlen (duration_text w d) < 90.
Proof.
  intros w d. unfold duration_text. cbv zeta.
  match goal with |- context [dec ?c ++ [58] ++ two ?a ++ [58] ++ two ?b] => set (h := c); set (i' := a); set (j' := b) end.
  assert (Hh : h < 10 ^ N.of_nat 20).
  { assert (Hz : forall z, Z.to_N (z mod 2 ^ 64) < 2 ^ 64) 
      by (intros z; pose proof (Z.mod_pos_bound z (2 ^ 64) eq_refl) as Hm; revert Hm; generalize (z mod 2 ^ 64)%Z; clear; intros y Hy; lia).
    eapply N.lt_le_trans; [apply Hz|]. vm_compute. discriminate. }
  assert (Hi : i' < 60) by (unfold i'; apply N.mod_upper_bound; lia).
  assert (Hj : j' < 60) by (unfold j'; apply N.mod_upper_bound; lia).
  clearbody h i' j'.
  assert (B2 : forall m, m < 60 -> is_bytes (two m)).
  { intros m Hm. unfold two. repeat constructor; unfold is_byte; lia. }
  split.
  - apply is_bytes_app; [destruct (d <? 0)%Z; [apply is_bytes_cons; [reflexivity|]|]; apply is_bytes_nil|].
    repeat (first [apply B2; assumption | apply dec_bytes | apply is_bytes_cons; [reflexivity|apply is_bytes_nil] | apply is_bytes_app]).
  - unfold nlen. rewrite !app_length. pose proof (dec_upper h 19 Hh). unfold two. cbn [length].
    destruct (d <? 0)%Z; cbn [length]; lia.
Qed.

Lemma duration_text_ok : forall w d, in_int 64 d -> d <> (- 2 ^ 63)%Z -> (w = true -> (Z.abs d < 2 ^ 32 * 1000000000)%Z) ->
  text_of_duration (duration_text w d) d.
Proof.
  intros w d Hd Hmin Hw. unfold in_int in Hd. cbn in Hd.
  unfold text_of_duration, text_of_seconds, duration_text. cbv zeta.
  assert (Ha : (if (d <? 0)%Z then wrap64 (- d) else d) = Z.abs d).
  { destruct (Z.ltb_spec d 0); [|lia]. unfold wrap64. rewrite Z.mod_small by lia. lia. }
  rewrite Ha. set (a := Z.abs d) in *.
  assert (Hr : (0 <= a < 2 ^ 63)%Z) by (unfold a; lia).
  unfold ns_hour, ns_minute, ns_second. rewrite !Z.quot_div_nonneg by lia.
  exists (dec (Z.to_N (a / 3600000000000 mod 2 ^ 64))).
  do 2 eexists. exists (Z.to_N (a / 3600000000000)).
  exists (Z.to_N (a / 60000000000) mod 60), (Z.to_N (a / 1000000000) mod 60).
  assert (Hm : (a / 60000000000 mod (if w then 2 ^ 32 else 2 ^ 64) = a / 60000000000)%Z).
  { apply Z.mod_small. destruct w; lia. }
  assert (Hs : (a / 1000000000 mod (if w then 2 ^ 32 else 2 ^ 64) = a / 1000000000)%Z).
  { apply Z.mod_small. destruct w; [specialize (Hw eq_refl); lia|lia]. }
  rewrite Hm, Hs. rewrite (Z.mod_small (a / 3600000000000)) by lia.
  split; [reflexivity|]. split; [apply decimal_dec|].
  assert (H60 : forall x, x mod 60 < 60) by (intros x; apply N.mod_upper_bound; discriminate).
  split; [apply decimal_two; apply H60|]. split; [reflexivity|]. split; [apply H60|].
  split; [apply decimal_two; apply H60|]. split; [reflexivity|]. split; [apply H60|].
  replace (Z.abs_N d) with (Z.to_N a) by (unfold a; clear; lia).
  change 3600000000000%Z with (1000000000 * 3600)%Z. change 60000000000%Z with (1000000000 * 60)%Z.
  rewrite <- !Z.div_div by (clear; lia).
  replace (Z.to_N a / 1000000000) with (Z.to_N (a / 1000000000)) by (rewrite Z2N.inj_div by (clear - Hr; lia); reflexivity).
  assert (Hq : (0 <= a / 1000000000)%Z) by (apply Z.div_pos; clear - Hr; lia).
  revert Hq. generalize (a / 1000000000)%Z. clear. intros q Hq. lia.
Qed.
