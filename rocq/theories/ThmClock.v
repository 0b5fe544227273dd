(* C107: what a time.Time says about an instant survives only together with its offset. *)
From Coq Require Import String List NArith ZArith Arith Bool Lia ZifyN ZifyNat ZifyBool.
From Coq Require Import List.
From Verif Require Import Base GoSlice SpecWire SpecMsg Pure AnyModel ExprModel AnyProofs StringProofs Values Text TextProofs SpecValue SpecClock ClockProofs ThmValues ThmBuilder.
Import ListNotations.
Local Open Scope Z_scope.
Open Scope list_scope.

(* The server is given this text for that time, as an argument of a statement and as a literal of an expression, whatever the width of ints and the field. *)
Definition sent_as (t : moment) (txt : bytes) : Prop :=
  forall w tag, (1 <= tag <= 15)%N ->
    arrives dany (argument (VTime (wall t)) tag) w tag (SOctets txt None) /\
    arrives dexpr (expression (VTime (wall t)) tag) w tag (XLiteral (SOctets txt None)).

Lemma arrives_once {A} (decode : bytes -> option A) encode w tag x y : arrives decode encode w tag x -> arrives decode encode w tag y -> x = y.
Proof.
  intros (bs & pl & A1 & A2 & A3) (bs' & pl' & B1 & B2 & B3). set (E := {| fresh := fun _ _ => []; word32 := w |}).
  destruct (A3 E eq_refl (mk [] [])) as [sp Hs]. destruct (B3 E eq_refl (mk [] [])) as [sp' Hs']. rewrite Hs in Hs'. injection Hs' as Hb _. cbn in Hb. subst bs'.
  rewrite A1 in B1. injection B1 as <-. congruence.
Qed.

Lemma sent_is_format t txt : go_moment t -> sent_as t txt <-> txt = format_time (wall t).
Proof.
  intros G. pose proof (wall_go t G) as Gt. destruct (format_time_ok _ Gt) as (F1 & F2 & F3).
  assert (S : sent_as t (format_time (wall t))).
  { assert (Hok : scalar_ok (SOctets (format_time (wall t)) None)) by (cbn; repeat split; [exact F2|lia]).
    intros w tag Ht. destruct (pany_ok tag _ ltac:(lia) Hok) as (pl & A1 & A2). destruct (plit_ok tag _ ltac:(lia) Hok) as (pl2 & B1 & B2). split.
    - exists (pany tag (SOctets (format_time (wall t)) None)), pl. split; [apply A1|]. split; [exact A2|]. intros E HE p.
      destruct (emits_any_time tag (wall t) ltac:(lia) F3 p) as [sp H]. exists sp. unfold argument, append_any, type_switch, okm. rewrite H. reflexivity.
    - exists (plit tag (SOctets (format_time (wall t)) None)), pl2. split; [apply B1|]. split; [exact B2|]. intros E HE p.
      destruct (emits_expr_time tag (wall t) ltac:(lia) F3 p) as [sp H]. exists sp. unfold expression, append_expr, okm. rewrite H. reflexivity. }
  split; [|intros ->; exact S]. intros T. destruct (S false 1%N ltac:(lia)) as [S1 _]. destruct (T false 1%N ltac:(lia)) as [T1 _].
  pose proof (arrives_once _ _ _ _ _ _ T1 S1) as H. injection H as H. exact H.
Qed.

Lemma format_inj g h : go_time g -> go_time h -> format_time g = format_time h -> g = h.
Proof. intros G H E. destruct (format_time_ok _ G) as (F1 & _). destruct (format_time_ok _ H) as (F2 & _). rewrite <- E in F2. exact (text_of_time_inj _ _ _ F1 F2). Qed.

(* Only the sum of the instant and the offset is shown. *)
Lemma wall_local t u : wall t = wall u <-> seconds t + offset t = seconds u + offset u /\ nanos t = nanos u.
Proof.
  split.
  - intros E. set (t' := mkmoment (seconds t + offset t) (nanos t) 0). set (u' := mkmoment (seconds u + offset u) (nanos u) 0).
    assert (Et : wall t' = wall t) by (unfold wall, t'; cbn [seconds nanos offset]; rewrite Z.add_0_r; reflexivity).
    assert (Eu : wall u' = wall u) by (unfold wall, u'; cbn [seconds nanos offset]; rewrite Z.add_0_r; reflexivity).
    destruct (order_total t' u') as [H|[H|H]]; [| exact H|]; exfalso; apply earlier_wall in H; try reflexivity; rewrite Et, Eu, E in H; exact (wall_before_irrefl _ H).
  - intros [E1 E2]. unfold wall. rewrite E1, E2. reflexivity.
Qed.

(* ---- the calendar ---- *)

(* The days of the calendar follow each other, and every number of days has its date. *)
Theorem C107_calendar : date 0 = (1970, 1%N, 1%N) /\ forall n, is_day (date n) /\ date (n + 1) = next_day (date n).
Proof. split; [reflexivity|]. intros n. split; [apply date_ok|apply date_next]. Qed.

(* ---- what holds ---- *)

(* Every time is sent, as one text, which says what a clock at the time's offset shows. *)
Theorem C107_every_time_is_sent : forall t, go_moment t -> exists txt, sent_as t txt /\ (forall other, sent_as t other -> other = txt) /\ text_of_time txt (wall t).
Proof.
  intros t G. exists (format_time (wall t)). split; [apply sent_is_format; [exact G|reflexivity]|]. split; [intros x H; apply sent_is_format in H; assumption|].
  apply (format_time_ok _ (wall_go t G)).
Qed.

(* Two times are given the same text exactly if clocks at their offsets show the same. *)
Theorem C107_the_clock_is_what_is_sent : forall t u a b, go_moment t -> go_moment u -> sent_as t a -> sent_as u b ->
  (a = b <-> seconds t + offset t = seconds u + offset u /\ nanos t = nanos u).
Proof.
  intros t u a b Gt Gu Ha Hb. apply sent_is_format in Ha, Hb; try assumption. subst. rewrite <- wall_local. split; [|intros ->; reflexivity].
  apply format_inj; apply wall_go; assumption.
Qed.

(* Among times of one offset (all in UTC, say) the texts tell the instants apart, and in the years with four digits they are ordered like the instants. *)
Theorem C107_one_offset_partial : forall t u a b, go_moment t -> go_moment u -> offset t = offset u -> sent_as t a -> sent_as u b ->
  (a = b <-> same_instant t u) /\
  (0 <= t_year (wall t) <= 9999 -> 0 <= t_year (wall u) <= 9999 -> (text_before a b <-> before t u)).
Proof.
  intros t u a b Gt Gu Eo Ha Hb. split.
  - rewrite (C107_the_clock_is_what_is_sent t u a b Gt Gu Ha Hb). unfold same_instant. rewrite Eo. lia.
  - intros Yt Yu. apply sent_is_format in Ha, Hb; try assumption. subst. rewrite (text_order _ _ (wall_go t Gt) (wall_go u Gu) Yt Yu). split.
    + intros H. destruct (order_total t u) as [B|[B|B]]; [exact B| |]; exfalso.
      * rewrite (same_wall t u Eo B) in H. exact (wall_before_irrefl _ H).
      * exact (wall_before_asym _ _ H (earlier_wall u t (eq_sym Eo) B)).
    + apply earlier_wall. exact Eo.
Qed.

(* ---- what does not ---- *)

(* One instant is given another text at every other offset. *)
Theorem C107_one_instant_other_text_refuted : forall t u a b, go_moment t -> go_moment u -> same_instant t u -> offset t <> offset u -> sent_as t a -> sent_as u b -> a <> b.
Proof. intros t u a b Gt Gu [E1 E2] N Ha Hb E. apply (C107_the_clock_is_what_is_sent t u a b Gt Gu Ha Hb) in E. lia. Qed.

(* For every time and every other offset there is another instant that is given the same text, in every place. *)
Theorem C107_other_instant_same_text_refuted : forall t o, go_moment t -> Z.abs o < 10 ^ 6 -> o <> offset t -> in_int 64 (seconds t + offset t - o) ->
  exists u, go_moment u /\ offset u = o /\ ~ same_instant t u /\ forall txt, sent_as t txt <-> sent_as u txt.
Proof.
  intros t o G O N I. exists (mkmoment (seconds t + offset t - o) (nanos t) o). split; [destruct G as [_ [G _]]; split; [exact I|split; [exact G|exact O]]|].
  split; [reflexivity|]. split; [intros [H _]; cbn in H; lia|].
  assert (E : wall t = wall (mkmoment (seconds t + offset t - o) (nanos t) o)) by (apply wall_local; cbn; lia).
  intros txt. unfold sent_as. rewrite E. tauto.
Qed.

(* A location gives every instant its offset; time.Now() and t.In(location) are of this kind. *)
Definition location : Type := Z -> Z.
Definition in_location (zone : location) (s : Z) (n : N) : moment := mkmoment s n (zone s).

(* Nor does it help to keep to one location: when its clocks are set back, every instant of the last hour before is given the text of an instant of the hour after, and later instants are given earlier texts. *)
Theorem C107_clocks_set_back_refuted : forall (zone : location) change east west, west < east -> Z.abs east < 10 ^ 6 -> Z.abs west < 10 ^ 6 ->
  Z.abs change < 2 ^ 62 ->
  (forall s, change - (east - west) <= s < change -> zone s = east) -> (forall s, change <= s < change + (east - west) -> zone s = west) ->
  forall s n, change - (east - west) <= s < change -> (n < 10 ^ 9)%N ->
    (forall txt, sent_as (in_location zone s n) txt <-> sent_as (in_location zone (s + (east - west)) n) txt) /\
    (forall later m a b, change <= later < s + (east - west) -> (m < 10 ^ 9)%N ->
       0 <= t_year (wall (in_location zone s n)) <= 9999 -> 0 <= t_year (wall (in_location zone later m)) <= 9999 ->
       sent_as (in_location zone s n) a -> sent_as (in_location zone later m) b -> text_before b a).
Proof.
  intros zone c e w L E W C Z1 Z2 s n Hs Hn.
  assert (G : forall s m, c - (e - w) <= s < c + (e - w) -> (m < 10 ^ 9)%N -> go_moment (in_location zone s m)).
  { intros r m Hr Hm. split; [|split; [exact Hm|]].
    - unfold in_int, in_location. cbn. lia.
    - cbn. destruct (Z.lt_ge_cases r c); [rewrite Z1 by lia|rewrite Z2 by lia]; assumption. }
  split.
  - assert (Ew : wall (in_location zone s n) = wall (in_location zone (s + (e - w)) n)) by (apply wall_local; cbn; rewrite Z1, Z2 by lia; lia).
    intros txt. unfold sent_as. rewrite Ew. tauto.
  - intros r m a b Hr Hm Y1 Y2 Ha Hb. pose proof (G s n ltac:(lia) Hn) as G1. pose proof (G r m ltac:(lia) Hm) as G2.
    apply sent_is_format in Ha, Hb; try assumption. subst a b. apply text_order; try apply wall_go; try assumption.
    assert (E1 : wall (in_location zone s n) = wall (mkmoment (s + e) n 0)) by (apply wall_local; cbn; rewrite Z1 by lia; lia).
    assert (E2 : wall (in_location zone r m) = wall (mkmoment (r + w) m 0)) by (apply wall_local; cbn; rewrite Z2 by lia; lia).
    rewrite E1, E2. apply earlier_wall; [reflexivity|]. left. cbn. lia.
Qed.

(* ---- examples ---- *)

(* 2026-10-25 01:00:00 UTC: the clocks in Berlin are set back from UTC+2 to UTC+1. *)
Definition berlin : location := fun s => if s <? 1792890000 then 7200 else 3600.

Example C107_in_berlin :
  let t := in_location berlin 1792888200 5%N in let u := in_location berlin 1792891800 5%N in
  go_moment t /\ go_moment u /\ ~ same_instant t u /\
  sent_as t (s2b "2026-10-25 02:30:00.000000005") /\ sent_as u (s2b "2026-10-25 02:30:00.000000005") /\
  sent_as (mkmoment 1792888200 5 0) (s2b "2026-10-25 00:30:00.000000005").
Proof.
  cbv zeta.
  assert (G1 : go_moment (in_location berlin 1792888200 5)) by (repeat split; unfold in_int; vm_compute; congruence).
  assert (G2 : go_moment (in_location berlin 1792891800 5)) by (repeat split; unfold in_int; vm_compute; congruence).
  assert (G3 : go_moment (mkmoment 1792888200 5 0)) by (repeat split; unfold in_int; vm_compute; congruence).
  split; [exact G1|]. split; [exact G2|]. split; [intros [H _]; vm_compute in H; discriminate|].
  split; [apply sent_is_format; [exact G1|vm_compute; reflexivity]|]. split; [apply sent_is_format; [exact G2|vm_compute; reflexivity]|].
  apply sent_is_format; [exact G3|vm_compute; reflexivity].
Qed.

Example C107_clocks_set_back_applies :
  (forall s, 1792890000 - (7200 - 3600) <= s < 1792890000 -> berlin s = 7200) /\ (forall s, 1792890000 <= s < 1792890000 + (7200 - 3600) -> berlin s = 3600).
Proof. unfold berlin. split; intros s H; destruct (Z.ltb_spec s 1792890000); lia. Qed.

(* The dates of a leap day, of the last day of a century and of days before 1970. *)
Example C107_some_dates : date 11016 = (2000, 2%N, 29%N) /\ date 11017 = (2000, 3%N, 1%N) /\ date (-25509) = (1900, 2%N, 28%N) /\ date (-25508) = (1900, 3%N, 1%N) /\ date (-1) = (1969, 12%N, 31%N).
Proof. vm_compute. repeat split. Qed.

(* The zero time.Time is in UTC in the year 1, where the order of texts applies. *)
Example C107_zero_time : go_moment (mkmoment (-62135596800) 0 0) /\ sent_as (mkmoment (-62135596800) 0 0) (s2b "0001-01-01 00:00:00.000000000").
Proof.
  assert (G : go_moment (mkmoment (-62135596800) 0 0)) by (repeat split; unfold in_int; vm_compute; congruence).
  split; [exact G|]. apply sent_is_format; [exact G|vm_compute; reflexivity].
Qed.

Print Assumptions C107_calendar.
Print Assumptions C107_every_time_is_sent.
Print Assumptions C107_the_clock_is_what_is_sent.
Print Assumptions C107_one_offset_partial.
Print Assumptions C107_one_instant_other_text_refuted.
Print Assumptions C107_other_instant_same_text_refuted.
Print Assumptions C107_clocks_set_back_refuted.
