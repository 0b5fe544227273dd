(* Lemmas for C99: how long the calls of Timed take. *)
From Coq Require Import String List NArith ZArith Arith Bool Lia ZifyN ZifyNat ZifyBool.
From Coq Require Import List.
From Verif Require Import Base GoSlice SpecWire MsgModel Conn AuthModel Connector Timed SpecTime.
Import ListNotations.
Open Scope N_scope.
Open Scope list_scope.

Lemma took_app : forall f a b from, took f from (a + b) = took f from a + took f (from + a) b.
Proof.
  intros f a. induction a as [|a IH]; intros b from; cbn [took Nat.add]; [rewrite Nat.add_0_r; reflexivity|]. rewrite IH. replace (S from + a)%nat with (from + S a)%nat by lia. lia.
Qed.

Lemma ends_ok : forall t d n t', ends t d n = Some (true, t') -> exists x, t = Some x /\ t' = n + 1 + x.
Proof. intros [t|] [d|] n t' H; cbn in H; try discriminate; [destruct (_ <? _); [|discriminate]|]; injection H as <-; eauto. Qed.
Lemma ends_later : forall t d n b t', ends t d n = Some (b, t') -> n <= t'.
Proof. intros [t|] [d|] n b t' H; cbn in H; try discriminate; [destruct (_ <? _)| |]; injection H as <- <-; lia. Qed.

(* Time does not go back. *)
Definition later {A} (t : N) (x : outcome A) : Prop := match x with Back _ s | Panicked s => t <= now s | Waits | More => True end.
Lemma later_bind : forall A B t (x : outcome A) (f : A -> tconn -> outcome B), later t x -> (forall a s, t <= now s -> later t (f a s)) -> later t (tbind x f).
Proof. intros A B t [a s|s| |] f H K; cbn in *; auto. Qed.

Section Connection.
Variable w32 : bool.
Variable w : world.

(* What only reads: it takes as long as its Reads, if none failed. *)
Definition just_read (s s' : tconn) : Prop :=
  due s' = due s /\ nwrites s' = nwrites s /\ now s <= now s' /\ exists r, nreads s' = (nreads s + r)%nat /\
  (broke s' = None -> broke s = None /\ now s' = now s + took (fun i => fst (reads w i)) (nreads s) r).
Lemma just_refl : forall s, just_read s s.
Proof. intros s. repeat split; try lia. exists 0%nat. split; [lia|]. intros H. split; [exact H|cbn; lia]. Qed.
Lemma just_trans : forall a b c, just_read a b -> just_read b c -> just_read a c.
Proof.
  intros a b c (A1 & A2 & A3 & r1 & A4 & A5) (B1 & B2 & B3 & r2 & B4 & B5). repeat split; try congruence; try lia. exists (r1 + r2)%nat. split; [lia|].
  intros H. destruct (B5 H) as [H1 H2]. destruct (A5 H1) as [H3 H4]. split; [exact H3|]. rewrite took_app, <- A4. lia.
Qed.
Definition reading {A} (s : tconn) (x : outcome A) : Prop := match x with Back _ s' | Panicked s' => just_read s s' | Waits | More => True end.
Lemma reading_bind : forall A B s (x : outcome A) (f : A -> tconn -> outcome B), reading s x -> (forall a s', reading s' (f a s')) -> reading s (tbind x f).
Proof. intros A B s [a s1|s1| |] f H K; cbn in *; auto. specialize (K a s1). destruct (f a s1); cbn in *; auto; eapply just_trans; eassumption. Qed.
Lemma reading_after : forall A s s' (x : outcome A), just_read s s' -> reading s' x -> reading s x.
Proof. intros A s s' [a s1|s1| |] H K; cbn in *; auto; eapply just_trans; eassumption. Qed.
Lemma just_buffer : forall b k s, just_read s (with_buffer b k s).
Proof. intros b k s. unfold just_read. cbn [with_buffer due nwrites now nreads broke]. repeat split; try lia. exists 0%nat. split; [lia|]. intros H. split; [exact H|cbn; lia]. Qed.
Lemma just_discard : forall n s, just_read s (t_discard n s).
Proof. intros. apply just_buffer. Qed.

Lemma reading_net : forall room s, reading s (net_read w room s).
Proof.
  intros room s. unfold net_read. destruct (reads w (nreads s)) as [t x] eqn:E. destruct (ends t (due s) (now s)) as [[b t']|] eqn:En; [|exact I]. pose proof (ends_later _ _ _ _ _ En) as L.
  destruct x as [[y ys]|e]; destruct b; cbn [reading]; unfold just_read; cbn [due nwrites now nreads broke]; repeat split; try lia; exists 1%nat; (split; [lia|]); intros H; try discriminate.
  split; [exact H|]. cbn [took]. rewrite E. cbn [fst]. destruct (ends_ok _ _ _ _ En) as (u & -> & ->). lia.
Qed.
Lemma reading_fill : forall k n s, reading s (t_fill w k n s).
Proof.
  induction k as [|k IH]; intros n s; cbn [t_fill]; (destruct (kept s); [apply just_refl|]); (destruct (orb _ _); [apply just_refl|]); [exact I|].
  apply reading_bind; [apply reading_net|]. intros [c|e] s'; (eapply reading_after; [apply just_buffer|apply IH]).
Qed.
Lemma reading_peek : forall k n s, reading s (t_peek w k n s).
Proof.
  intros. unfold t_peek. apply reading_bind; [apply reading_fill|]. intros _ s'. destruct (_ <? _); [apply just_refl|]. destruct (_ <? _); [|apply just_refl]. destruct (kept s'); [apply just_buffer|apply just_refl].
Qed.
Lemma reading_some : forall need s, reading s (t_read_some w need s).
Proof.
  intros. unfold t_read_some. destruct (buffered s) as [|b bs]; [|apply just_buffer]. destruct (kept s); [apply just_buffer|]. destruct (_ <=? _); [apply reading_net|].
  apply reading_bind; [apply reading_net|]. intros [c|e] s'; [apply just_buffer|apply just_refl].
Qed.
Lemma reading_full : forall k need b s, reading s (t_read_full w k need b s).
Proof.
  induction k as [|k IH]; intros need b s; cbn [t_read_full]; (destruct (_ =? _); [apply just_refl|]); [exact I|]. apply reading_bind; [apply reading_some|]. intros [c|e] s'; [apply IH|apply just_refl].
Qed.
Lemma reading_message : forall k s, reading s (t_message w32 w k s).
Proof.
  intros. unfold t_message. apply reading_bind; [apply reading_peek|]. intros g s1. destruct g; try apply just_refl. destruct (_ <? _)%Z; [apply just_discard|]. destruct (_ <? _); [|apply just_discard].
  eapply reading_after; [apply (just_discard 5)|]. apply reading_bind; [apply reading_peek|]. intros g s2. destruct g; try apply just_refl. apply reading_bind; [apply reading_full|]. intros g s3. destruct g; apply just_refl.
Qed.
Lemma reading_read_k : forall k i ct s, reading s (t_read_k w32 w k i ct s).
Proof.
  induction k as [|k IH]; intros i ct s; cbn [t_read_k]; [exact I|]. apply reading_bind; [apply reading_message|]. intros [[[st b] n]|e] s'; [|apply just_refl].
  destruct (dispatch ct st b) as [[resp [e|]]|]; [destruct e; try apply just_discard; apply just_refl|apply just_discard|]. eapply reading_after; [apply just_discard|apply IH].
Qed.
Lemma reading_read : forall k ct s, reading s (t_read w32 w k ct s).
Proof. intros. apply reading_read_k. Qed.
Lemma reading_responses : forall l k rest rs s, reading s (t_read_responses w32 w l k rest rs s).
Proof.
  induction l as [|l IH]; intros k rest rs s; (destruct rest as [|x rest]; [apply just_refl|]); [apply just_refl|]. cbn [t_read_responses]. destruct (nth_error (x :: rest) 4); [|apply just_refl].
  apply reading_bind; [apply reading_read|]. intros a s'. destruct (snd a); [apply just_refl|apply IH].
Qed.

Lemma reading_later : forall A s t (x : outcome A), t <= now s -> reading s x -> later t x.
Proof. intros A s t [a s1|s1| |] L H; cbn in *; auto; destruct H as (_ & _ & H & _); lia. Qed.

Lemma write_takes : forall b s x s', t_write w b s = Back x s' -> nreads s' = nreads s /\ nwrites s' = S (nwrites s) /\ broke s' = broke s /\ due s' = due s /\ now s <= now s' /\
  (x = None -> now s' = now s + took (fun i => fst (writings w i)) (nwrites s) 1).
Proof.
  intros b s x s' H. unfold t_write in H. destruct (writings w (nwrites s)) as [t y] eqn:E. destruct (ends t (due s) (now s)) as [[i t']|] eqn:En; [|discriminate]. injection H as <- <-.
  cbn [nreads nwrites broke due now]. repeat split; try (apply (ends_later _ _ _ _ _ En)). intros H. destruct i; [|discriminate]. cbn [took]. rewrite E. cbn [fst]. destruct (ends_ok _ _ _ _ En) as (u & -> & ->). lia.
Qed.
Lemma later_write : forall t b s, t <= now s -> later t (t_write w b s).
Proof. intros t b s L. destruct (t_write w b s) as [x s'|s'| |] eqn:E; cbn; auto; [destruct (write_takes _ _ _ _ E) as (_ & _ & _ & _ & H & _); lia|]. unfold t_write in E. destruct (writings w _). destruct (ends _ _ _) as [[? ?]|]; discriminate. Qed.

Lemma send_takes : forall k ctx b s rs s', t_send w32 w k ctx b s = Back (rs, None) s' -> broke s' = None ->
  exists r, nreads s' = (nreads s + r)%nat /\ nwrites s' = S (nwrites s) /\ now s' = now s + took (fun i => fst (writings w i)) (nwrites s) 1 + took (fun i => fst (reads w i)) (nreads s) r.
Proof.
  intros k ctx b s rs s' H Hb. unfold t_send, t_set_deadline in H. destruct (settings w (nsets s)); [discriminate|].
  destruct (t_write w b _) as [x s1| | |] eqn:E; try discriminate. cbn [tbind] in H. destruct (write_takes _ _ _ _ E) as (A1 & A2 & A3 & _ & _ & A4). cbn [nreads nwrites broke now] in *.
  destruct x; [discriminate|]. specialize (A4 eq_refl). pose proof (reading_responses (length b) k b [] s1) as R. rewrite H in R. destruct R as (_ & R2 & _ & r & R3 & R4). destruct (R4 Hb) as [_ R5].
  exists r. rewrite <- A1. split; [exact R3|]. split; [congruence|]. rewrite R5, A4. reflexivity.
Qed.

Lemma later_send : forall t k ctx b s, t <= now s -> later t (t_send w32 w k ctx b s).
Proof.
  intros t k ctx b s L. unfold t_send, t_set_deadline. destruct (settings w (nsets s)); [exact L|]. apply later_bind; [apply later_write; exact L|]. intros [e|] s1 L1; [exact L1|].
  exact (reading_later _ _ _ _ L1 (reading_responses _ _ _ _ _)).
Qed.
Lemma later_write_one : forall t k ctx b s, t <= now s -> later t (t_write_one w32 w k ctx b s).
Proof.
  intros t k ctx b s L. unfold t_write_one, t_set_deadline. destruct (settings w (nsets s)); [exact L|]. apply later_bind; [apply later_write; exact L|]. intros [e|] s1 L1; [exact L1|].
  destruct (nth_error b 4); [|exact L1]. exact (reading_later _ _ _ _ L1 (reading_read _ _ _)).
Qed.
Lemma later_authenticate : forall t k ctx creds m s, t <= now s -> later t (t_authenticate w32 w k ctx creds m s).
Proof.
  intros t k ctx creds m s L. unfold t_authenticate. destruct (start m creds) as [b|]; [|exact L]. apply later_bind; [apply later_write_one; exact L|]. intros a s1 L1.
  destruct (snd a) as [[]|]; try exact L1. destruct (continue m) as [f|]; [|exact L1]. destruct (f creds _) as [b2|]; [|exact L1]. apply later_bind; [apply later_write_one; exact L1|]. intros a2 s2 L2. exact L2.
Qed.
End Connection.

Section Model.
Context `{E : Env}.
Variable w : world.
Lemma later_close : forall t s, t <= now s -> t <= now (t_close w s).
Proof. intros. cbn [t_close now]. lia. Qed.
Lemma later_authenticate_or_close : forall t k ctx cfg s, t <= now s -> later t (t_authenticate_or_close w k ctx cfg s).
Proof.
  intros t k ctx cfg s L. unfold t_authenticate_or_close. apply later_bind; [apply later_authenticate; exact L|]. intros [e|] s1 L1; [|exact L1].
  match goal with |- context [andb ?a ?b] => destruct (andb a b) end; [|apply later_close; exact L1].
  apply later_bind; [apply later_authenticate; exact L1|]. intros [e2|] s2 L2; [apply later_close; exact L2|exact L2].
Qed.
Lemma later_new : forall k ctx cfg t, later t (t_new w k ctx cfg t).
Proof.
  intros k ctx cfg t. unfold t_new. destruct (ends _ _ t) as [[b t1]|] eqn:En; [|exact I]. pose proof (ends_later _ _ _ _ _ En) as L. destruct (snd (dialling w)) as [kd|]; [destruct b|]; try exact L.
  destruct (andb _ (with_tls cfg)); [|apply later_authenticate_or_close; exact L]. apply later_bind; [apply later_send; exact L|]. intros r s L1. destruct (snd r); [exact L1|].
  destruct (ends _ _ (now s)) as [[b2 t2]|] eqn:En2; [|exact I]. pose proof (ends_later _ _ _ _ _ En2) as L2. destruct (andb _ _); [apply later_authenticate_or_close; cbn [t_reset now]; lia|apply later_close; cbn [now]; lia].
Qed.
Lemma later_use : forall t k ctx room b s, t <= now s -> later t (t_use w k ctx room b s).
Proof.
  intros t k ctx room b s L. unfold t_use. apply later_bind; [apply later_send; exact L|]. intros r s1 L1. destruct (snd r); [apply later_close; exact L1|]. destruct room; [exact L1|apply later_close; exact L1].
Qed.
Lemma later_pool_send : forall k ctx cfg f room b t, later t (t_pool_send w k ctx cfg f room b t).
Proof.
  intros k ctx cfg [s| | |] room b t; cbn [t_pool_send]; try (cbn; lia); [apply later_use; cbn [now]; lia|]. apply later_bind; [apply later_new|]. intros [e|] s L; [exact L|apply later_use; exact L].
Qed.
End Model.
