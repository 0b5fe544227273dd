(* The calendar and clocks: what a clock shows orders the instants of one offset. *)
From Coq Require Import List NArith ZArith Bool Lia ZifyN ZifyNat ZifyBool.
From Coq Require Import List.
From Verif Require Import Base Text SpecValue TextProofs SpecClock.
Import ListNotations.
Local Open Scope Z_scope.

Lemma month_length_bounds y m : (28 <= month_length y m <= 31)%N.
Proof. unfold month_length. destruct (leap y); repeat match goal with |- context [match ?x with _ => _ end] => destruct x end; lia. Qed.

Lemma december y : month_length y 12 = 31%N.
Proof. reflexivity. Qed.

Lemma next_ok x : is_day x -> is_day (next_day x).
Proof.
  destruct x as [[y m] d]. intros [M D]. unfold next_day. destruct (N.ltb_spec d (month_length y m)); [split; lia|]. destruct (N.ltb_spec m 12).
  - split; [lia|]. pose proof (month_length_bounds y (m + 1)). lia.
  - split; [lia|]. pose proof (month_length_bounds (y + 1) 1). lia.
Qed.

Lemma previous_ok x : is_day x -> is_day (previous_day x).
Proof.
  destruct x as [[y m] d]. intros [M D]. unfold previous_day. destruct (N.ltb_spec 1 d); [split; lia|]. destruct (N.ltb_spec 1 m).
  - split; [lia|]. pose proof (month_length_bounds y (m - 1)). lia.
  - split; [lia|]. rewrite december. lia.
Qed.

Lemma next_previous x : is_day x -> next_day (previous_day x) = x.
Proof.
  destruct x as [[y m] d]. intros [M D]. unfold previous_day. destruct (N.ltb_spec 1 d).
  - unfold next_day. destruct (N.ltb_spec (d - 1) (month_length y m)); [|lia]. repeat f_equal; lia.
  - destruct (N.ltb_spec 1 m).
    + unfold next_day. rewrite N.ltb_irrefl. destruct (N.ltb_spec (m - 1) 12); [|lia]. repeat f_equal; lia.
    + unfold next_day. rewrite december. cbn [N.ltb N.compare]. change (31 <? 31)%N with false. change (12 <? 12)%N with false. cbn iota. repeat f_equal; lia.
Qed.

Lemma date_ok n : is_day (date n).
Proof.
  assert (E0 : is_day (1970, 1%N, 1%N)) by (cbn; lia).
  unfold date. destruct n as [|p|p]; [exact E0| |]; (apply (Pos.iter_invariant p _ _ is_day); [|exact E0]); intros x H; [apply next_ok|apply previous_ok]; exact H.
Qed.

Lemma date_next n : date (n + 1) = next_day (date n).
Proof.
  destruct n as [|p|p].
  - reflexivity.
  - replace (Z.pos p + 1) with (Z.pos (Pos.succ p)) by lia. unfold date. rewrite Pos.iter_succ. reflexivity.
  - destruct (Pos.eq_dec p 1) as [->|N].
    + reflexivity.
    + replace (Z.neg p + 1) with (Z.neg (Pos.pred p)) by lia. rewrite <- (Pos.succ_pred p N) at 2. unfold date at 2. rewrite Pos.iter_succ.
      symmetry. apply (next_previous (date (Z.neg (Pos.pred p)))). apply date_ok.
Qed.

Definition day_before (x y : day) : Prop :=
  let '(y1, m1, d1) := x in let '(y2, m2, d2) := y in y1 < y2 \/ (y1 = y2 /\ ((m1 < m2)%N \/ (m1 = m2 /\ (d1 < d2)%N))).

Lemma next_later x : is_day x -> day_before x (next_day x).
Proof.
  destruct x as [[y m] d]. intros [M D]. unfold next_day. destruct (N.ltb_spec d (month_length y m)); [cbn; lia|]. destruct (N.ltb_spec m 12); cbn; lia.
Qed.

Lemma day_before_trans x y z : day_before x y -> day_before y z -> day_before x z.
Proof. destruct x as [[? ?] ?], y as [[? ?] ?], z as [[? ?] ?]. cbn. lia. Qed.

Lemma date_before n k : n < k -> day_before (date n) (date k).
Proof.
  intros L. replace k with (n + 1 + Z.of_nat (Z.to_nat (k - n - 1))) by lia. generalize (Z.to_nat (k - n - 1)). clear.
  induction n0 as [|j IH].
  - replace (n + 1 + Z.of_nat 0) with (n + 1) by lia. rewrite date_next. apply next_later, date_ok.
  - eapply day_before_trans; [exact IH|]. replace (n + 1 + Z.of_nat (S j)) with (n + 1 + Z.of_nat j + 1) by lia. rewrite (date_next (n + 1 + Z.of_nat j)). apply next_later, date_ok.
Qed.

(* A year has at least 365 days: a bound for the year. *)
Definition common_start (m : N) : Z :=
  match m with 1%N => 0 | 2%N => 31 | 3%N => 59 | 4%N => 90 | 5%N => 120 | 6%N => 151 | 7%N => 181 | 8%N => 212 | 9%N => 243 | 10%N => 273 | 11%N => 304 | _ => 334 end.
Definition place (x : day) : Z := let '(y, m, d) := x in 365 * y + common_start m + Z.min (Z.of_N d) (Z.of_N (month_length 1 m)).

Lemma month_cases m : (1 <= m <= 12)%N -> m = 1%N \/ m = 2%N \/ m = 3%N \/ m = 4%N \/ m = 5%N \/ m = 6%N \/ m = 7%N \/ m = 8%N \/ m = 9%N \/ m = 10%N \/ m = 11%N \/ m = 12%N.
Proof. lia. Qed.

Lemma place_next x : is_day x -> place x <= place (next_day x) <= place x + 1.
Proof.
  destruct x as [[y m] d]. intros [M D]. unfold next_day.
  destruct (month_cases m M) as [->|[->|[->|[->|[->|[->|[->|[->|[->|[->|[->| ->]]]]]]]]]]]; unfold month_length in *;
    (destruct (leap y); match goal with |- context [if ?c then _ else _] => destruct c eqn:Ec end; cbn [N.ltb N.compare Pos.compare Pos.compare_cont] in *;
     cbn [place common_start month_length N.add Pos.add Pos.succ]; change (leap 1) with false; cbn [leap] in *; lia).
Qed.

Lemma place_date n k : n <= k -> place (date n) <= place (date k) <= place (date n) + (k - n).
Proof.
  intros L. assert (G : forall j, place (date n) <= place (date (n + Z.of_nat j)) <= place (date n) + Z.of_nat j).
  { induction j as [|j IH].
    - replace (n + Z.of_nat 0) with n by lia. lia.
    - replace (n + Z.of_nat (S j)) with (n + Z.of_nat j + 1) by lia. rewrite date_next. pose proof (place_next _ (date_ok (n + Z.of_nat j))). lia. }
  specialize (G (Z.to_nat (k - n))). replace (n + Z.of_nat (Z.to_nat (k - n))) with k in G by lia. lia.
Qed.

Lemma year_bound n y m d : date n = (y, m, d) -> Z.abs (y - 1970) * 365 <= Z.abs n + 366.
Proof.
  intros Hd. pose proof (date_ok n) as MD; rewrite Hd in MD; destruct MD as [M D]. assert (B : 0 <= common_start m <= 334) by (unfold common_start; repeat match goal with |- context [match ?x with _ => _ end] => destruct x end; lia).
  pose proof (month_length_bounds 1 m) as ML. assert (P0 : place (date 0) = 365 * 1970 + 1) by reflexivity.
  destruct (Z.le_ge_cases 0 n) as [L|L]; pose proof (place_date _ _ L) as P; rewrite P0, Hd in P; unfold place in P; lia.
Qed.

(* ---- clocks ---- *)

Definition wall_before (g h : gtime) : Prop :=
  day_before (t_year g, t_month g, t_day g) (t_year h, t_month h, t_day h) \/
  ((t_year g, t_month g, t_day g) = (t_year h, t_month h, t_day h) /\
   ((t_hour g < t_hour h)%N \/ (t_hour g = t_hour h /\
   ((t_min g < t_min h)%N \/ (t_min g = t_min h /\
   ((t_sec g < t_sec h)%N \/ (t_sec g = t_sec h /\ (t_nsec g < t_nsec h)%N))))))).

Lemma wall_before_irrefl g : ~ wall_before g g.
Proof. unfold wall_before, day_before. lia. Qed.

Lemma wall_before_asym g h : wall_before g h -> ~ wall_before h g.
Proof.
  unfold wall_before, day_before. intros A B. destruct A as [A|[A A']], B as [B|[B B']]; try (injection A as ? ? ?); try (injection B as ? ? ?); lia.
Qed.

Lemma wall_day t : (t_year (wall t), t_month (wall t), t_day (wall t)) = date ((seconds t + offset t) / 86400).
Proof. unfold wall. destruct (date _) as [[y m] d]. reflexivity. Qed.

Lemma wall_clock t : let s := Z.to_N ((seconds t + offset t) mod 86400) in
  t_hour (wall t) = (s / 3600)%N /\ t_min (wall t) = (s / 60 mod 60)%N /\ t_sec (wall t) = (s mod 60)%N /\ t_nsec (wall t) = nanos t.
Proof. unfold wall. destruct (date _) as [[y m] d]. cbn. auto. Qed.

Lemma clock_before a b : 0 <= a < 86400 -> 0 <= b < 86400 -> a < b ->
  let s := Z.to_N a in let r := Z.to_N b in
  (s / 3600 < r / 3600)%N \/ ((s / 3600 = r / 3600)%N /\ ((s / 60 mod 60 < r / 60 mod 60)%N \/ ((s / 60 mod 60 = r / 60 mod 60)%N /\ (s mod 60 < r mod 60)%N))).
Proof. intros A B L s r. unfold s, r. clear s r. lia. Qed.

Lemma earlier_wall t u : offset t = offset u -> before t u -> wall_before (wall t) (wall u).
Proof.
  intros Eo B. unfold wall_before. rewrite !wall_day. destruct (wall_clock t) as [H1 [H2 [H3 H4]]], (wall_clock u) as [K1 [K2 [K3 K4]]].
  rewrite H1, H2, H3, H4, K1, K2, K3, K4. rewrite Eo. set (a := seconds t + offset u). set (b := seconds u + offset u).
  assert (L : a < b \/ (a = b /\ (nanos t < nanos u)%N)) by (unfold before in B; unfold a, b; lia). clearbody a b. clear - L.
  destruct (Z.lt_trichotomy (a / 86400) (b / 86400)) as [D|[D|D]].
  - left. apply date_before. exact D.
  - right. split; [rewrite D; reflexivity|]. destruct L as [L|[-> L]]; [|right; split; [reflexivity|]; right; split; [reflexivity|]; right; auto].
    assert (M : a mod 86400 < b mod 86400) by lia.
    pose proof (clock_before (a mod 86400) (b mod 86400) ltac:(lia) ltac:(lia) M) as C. cbv zeta in C. destruct C as [C|[C1 [C|[C2 C]]]]; tauto.
  - exfalso. lia.
Qed.

Lemma same_wall t u : offset t = offset u -> same_instant t u -> wall t = wall u.
Proof. intros Eo [E1 E2]. unfold wall. rewrite Eo, E1, E2. reflexivity. Qed.

Lemma order_total t u : before t u \/ same_instant t u \/ before u t.
Proof. unfold before, same_instant. lia. Qed.

Lemma wall_go t : go_moment t -> go_time (wall t).
Proof.
  intros [S [N O]]. unfold in_int in S. cbn in S. unfold go_time. pose proof (wall_day t) as D. destruct (wall_clock t) as [H1 [H2 [H3 H4]]].
  destruct (date ((seconds t + offset t) / 86400)) as [[y m] d] eqn:Ed. injection D as D1 D2 D3. pose proof (date_ok ((seconds t + offset t) / 86400)) as V. rewrite Ed in V. destruct V as [V1 V2].
  pose proof (month_length_bounds y m). apply year_bound in Ed. rewrite D1, D2, D3, H1, H2, H3, H4.
  assert (B : Z.abs ((seconds t + offset t) / 86400) <= 2 ^ 48) by lia.
  repeat split; try lia.
Qed.

(* ---- texts ---- *)

Lemma text_app a b : List.length a = List.length b -> forall x y, text_before (a ++ x) (b ++ y) <-> text_before a b \/ (a = b /\ text_before x y).
Proof.
  revert b. induction a as [|p a IH]; intros [|q b] L x y; try discriminate; cbn [app text_before].
  - split; [auto|]. intros [[]|[_ H]]; exact H.
  - injection L as L. rewrite (IH b L x y). split.
    + intros [H|[-> [H|[-> H]]]]; auto.
    + intros [[H|[-> H]]|[H1 H2]]; auto. injection H1 as -> ->. auto.
Qed.

Lemma digits_before a : forall b k l x y, List.length a = List.length b -> digits k a = Some x -> digits l b = Some y ->
  ((x < y)%N <-> (k < l)%N \/ (k = l /\ text_before a b)) /\ (x = y <-> k = l /\ a = b).
Proof.
  induction a as [|p a IH]; intros [|q b] k l x y L Hx Hy; try discriminate; cbn [digits text_before] in *.
  - injection Hx as ->. injection Hy as ->. split; split; try tauto; intros; try (left; lia); lia.
  - injection L as L. destruct ((48 <=? p) && (p <=? 57))%N eqn:Ep; [|discriminate]. destruct ((48 <=? q) && (q <=? 57))%N eqn:Eq; [|discriminate].
    destruct (IH b _ _ _ _ L Hx Hy) as [H1 H2]. split.
    + rewrite H1. split.
      * intros [H|[H T]]; [|assert (k = l /\ p = q) as [-> ->] by lia; auto].
        destruct (N.lt_trichotomy k l) as [K|[->|K]]; [left; exact K|right; split; [reflexivity|left; lia]|lia].
      * intros [H|[-> [H|[-> T]]]]; [left; lia|left; lia|right; auto].
    + rewrite H2. split.
      * intros [H ->]. assert (k = l /\ p = q) as [-> ->] by lia. auto.
      * intros [-> H]. injection H as -> ->. auto.
Qed.

Lemma decimal_before a b x y : List.length a = List.length b -> decimal a = Some x -> decimal b = Some y -> ((x < y)%N <-> text_before a b) /\ (x = y <-> a = b).
Proof.
  intros L Hx Hy. assert (Dx : digits 0 a = Some x) by (destruct a; [discriminate|exact Hx]). assert (Dy : digits 0 b = Some y) by (destruct b; [discriminate|exact Hy]).
  destruct (digits_before a b _ _ _ _ L Dx Dy) as [H1 H2]. rewrite H1, H2. split; split; try tauto; intros [H|H]; try lia; tauto.
Qed.

Lemma pad_before n w x y : n = S w -> (x < 10 ^ N.of_nat n)%N -> (y < 10 ^ N.of_nat n)%N ->
  List.length (dec_pad (Z.of_N x) n) = List.length (dec_pad (Z.of_N y) n) /\
  ((x < y)%N <-> text_before (dec_pad (Z.of_N x) n) (dec_pad (Z.of_N y) n)) /\ (x = y <-> dec_pad (Z.of_N x) n = dec_pad (Z.of_N y) n).
Proof.
  intros -> Hx Hy. destruct (pad_nonneg (Z.of_N x) w ltac:(lia)) as [P1 [P2 _]]; [rewrite N2Z.id; exact Hx|].
  destruct (pad_nonneg (Z.of_N y) w ltac:(lia)) as [Q1 [Q2 _]]; [rewrite N2Z.id; exact Hy|]. rewrite N2Z.id in P1, Q1.
  split; [congruence|]. apply decimal_before; [congruence|exact P1|exact Q1].
Qed.

Lemma sep_before c x y : text_before (c :: x) (c :: y) <-> text_before x y.
Proof. cbn [text_before]. split; [intros [H|[_ H]]; [lia|exact H]|auto]. Qed.

Lemma text_order g h : go_time g -> go_time h -> 0 <= t_year g <= 9999 -> 0 <= t_year h <= 9999 ->
  (text_before (format_time g) (format_time h) <-> wall_before g h).
Proof.
  intros (_ & G1 & G2 & G3 & G4 & G5 & G6) (_ & H1 & H2 & H3 & H4 & H5 & H6) Yg Yh. unfold format_time.
  assert (Y : List.length (dec_pad (t_year g) 4) = List.length (dec_pad (t_year h) 4) /\
    ((t_year g < t_year h) <-> text_before (dec_pad (t_year g) 4) (dec_pad (t_year h) 4)) /\ (t_year g = t_year h <-> dec_pad (t_year g) 4 = dec_pad (t_year h) 4)).
  { destruct (pad_before 4 3 (Z.to_N (t_year g)) (Z.to_N (t_year h)) eq_refl) as [P1 [P2 P3]]; [change (10 ^ N.of_nat 4)%N with 10000%N; lia..|].
    rewrite !Z2N.id in * by lia. split; [exact P1|]. split; [rewrite <- P2; lia|rewrite <- P3; lia]. }
  assert (P2 := fun x y (a : (x < 100)%N) (b : (y < 100)%N) => pad_before 2 1 x y eq_refl a b).
  destruct Y as [Y1 [Y2 Y3]]. destruct (P2 (t_month g) (t_month h) ltac:(lia) ltac:(lia)) as [M1 [M2 M3]]. destruct (P2 (t_day g) (t_day h) ltac:(lia) ltac:(lia)) as [D1 [D2 D3]].
  destruct (P2 (t_hour g) (t_hour h) ltac:(lia) ltac:(lia)) as [A1 [A2 A3]]. destruct (P2 (t_min g) (t_min h) ltac:(lia) ltac:(lia)) as [B1 [B2 B3]].
  destruct (P2 (t_sec g) (t_sec h) ltac:(lia) ltac:(lia)) as [C1 [C2 C3]]. destruct (pad_before 9 8 (t_nsec g) (t_nsec h) eq_refl G6 H6) as [_ [E2 _]].
  rewrite (text_app _ _ Y1), <- Y2, <- Y3. cbn [app]. rewrite sep_before, (text_app _ _ M1), <- M2, <- M3. cbn [app].
  rewrite sep_before, (text_app _ _ D1), <- D2, <- D3. cbn [app]. rewrite sep_before, (text_app _ _ A1), <- A2, <- A3. cbn [app].
  rewrite sep_before, (text_app _ _ B1), <- B2, <- B3. cbn [app]. rewrite sep_before, (text_app _ _ C1), <- C2, <- C3. cbn [app]. rewrite sep_before, <- E2.
  unfold wall_before, day_before.
  assert (Ed : (t_year g, t_month g, t_day g) = (t_year h, t_month h, t_day h) <-> t_year g = t_year h /\ t_month g = t_month h /\ t_day g = t_day h)
    by (split; [intros H; inversion H; auto|intros [-> [-> ->]]; reflexivity]).
  rewrite Ed. tauto.
Qed.
