(* What a call of Timed returns, Conn and Connector return when they are given the bytes that arrived in time. *)
From Coq Require Import String List NArith ZArith Arith Bool Lia ZifyN ZifyNat ZifyBool.
From Coq Require Import List.
From Verif Require Import Base GoSlice SpecWire MsgModel Conn AuthModel Connector Timed SpecReply ConnProofs ReplyProofs.
Import ListNotations.
Open Scope N_scope.
Open Scope list_scope.

(* what may still come, and the error after it, when the connection is s *)
Definition to_come (s : tconn) (rest : bytes) (e : ioerr) : Prop := forall x, broke s = Some x -> rest = [] /\ e = x.
(* only reading was done *)
Definition only_read (s s' : tconn) : Prop := tkind s' = tkind s /\ tlog s' = tlog s.
Lemma only_read_trans : forall a b c, only_read a b -> only_read b c -> only_read a c.
Proof. intros a b c [A B] [C D]. split; congruence. Qed.

Section Connection.
Variable w32 : bool.
Variable w : world.

Lemma net_read_spec : forall room s x s', net_read w room s = Back x s' -> only_read s s' /\ buffered s' = buffered s /\ kept s' = kept s /\
  match x with
  | inl c => got_so_far s' = got_so_far s ++ c /\ broke s' = broke s
  | inr e => got_so_far s' = got_so_far s /\ broke s' = Some e
  end.
Proof.
  intros room s x s' H. unfold net_read in H. destruct (reads w (nreads s)) as [t y]. destruct (ends t (due s) (now s)) as [[it t']|]; [|discriminate].
  destruct y as [[b bs]|e]; destruct it; injection H as <- <-; repeat split.
Qed.

Lemma t_fill_spec : forall k n s s', t_fill w k n s = Back tt s' -> broke s = kept s -> exists new,
  only_read s s' /\ got_so_far s' = got_so_far s ++ new /\ buffered s' = buffered s ++ new /\ broke s' = kept s' /\
  (n <= nlen (buffered s') \/ buf_size <= nlen (buffered s') \/ kept s' <> None) /\ (kept s' <> None -> kept s = None -> nlen (buffered s') < n /\ nlen (buffered s') < buf_size).
Proof.
  induction k as [|k IH]; intros n s s' H Hb; cbn [t_fill] in H; (destruct (kept s) as [e|] eqn:Ek; [injection H as <-; exists []; rewrite !app_nil_r; repeat split; try congruence; right; right; congruence|]);
    (destruct (_ || _)%bool eqn:C; [injection H as <-; exists []; rewrite !app_nil_r; repeat split; try congruence; lia|]); [discriminate|].
  destruct (net_read w (buf_size - nlen (buffered s)) s) as [x s1|s1| |] eqn:En; try discriminate. cbn [tbind] in H. apply net_read_spec in En. destruct En as (A1 & A2 & A3 & A4). destruct x as [c|e].
  - destruct A4 as [A4 A5]. destruct (IH n _ _ H) as (new & B1 & B2 & B3 & B4 & B5 & B6); [cbn [with_buffer broke kept]; congruence|]. exists (c ++ new).
    cbn [with_buffer got_so_far buffered kept] in *. split; [eapply only_read_trans; [exact A1|]; exact B1|].
    split; [rewrite B2, A4, <- app_assoc; reflexivity|]. split; [rewrite B3, A2, <- app_assoc; reflexivity|]. split; [exact B4|]. split; [exact B5|]. intros P _. exact (B6 P eq_refl).
  - destruct A4 as [A4 A5]. assert (H' : s' = with_buffer (buffered s1) (Some e) s1) by (destruct k; cbn [t_fill with_buffer kept] in H; injection H as <-; reflexivity). subst s'. clear H.
    exists []. cbn [with_buffer only_read got_so_far buffered broke kept]. rewrite !app_nil_r. split; [exact A1|]. split; [exact A4|]. split; [exact A2|]. split; [exact A5|]. split; [right; right; discriminate|].
    intros _ _. rewrite A2. unfold buf_size in *. lia.
Qed.

(* Peek: like a look at the stream of bytes *)
Lemma t_peek_spec : forall k n s x s', t_peek w k n s = Back x s' -> broke s = None -> kept s = None -> exists new,
  only_read s s' /\ got_so_far s' = got_so_far s ++ new /\ buffered s' = buffered s ++ new /\
  match x with
  | Got b => n <= buf_size /\ n <= nlen (buffered s') /\ b = firstN n (buffered s') /\ broke s' = None /\ kept s' = None
  | Failed e => n <= buf_size /\ nlen (buffered s') < n /\ broke s' = Some e /\ kept s' = None
  | Full => buf_size < n /\ broke s' = kept s' /\ (kept s' <> None -> nlen (buffered s') < n)
  end.
Proof.
  intros k n s x s' H Hb Hk. unfold t_peek in H. destruct (t_fill w k n s) as [[] s1| | |] eqn:Ef; try discriminate. cbn [tbind] in H.
  destruct (t_fill_spec _ _ _ _ Ef ltac:(congruence)) as (new & A1 & A2 & A3 & A4 & A5 & A6). destruct (N.ltb_spec buf_size n) as [L|L].
  - injection H as <- <-. exists new. do 3 (split; [assumption|]). split; [exact L|]. split; [exact A4|]. intros P. apply (A6 P Hk).
  - destruct (N.ltb_spec (nlen (buffered s1)) n) as [L2|L2].
    + destruct (kept s1) as [e|] eqn:E1.
      * injection H as <- <-. exists new. cbn [with_buffer only_read got_so_far buffered broke kept]. do 3 (split; [assumption|]). split; [exact L|]. split; [exact L2|]. split; [exact A4|reflexivity].
      * exfalso. destruct A5 as [A5|[A5|A5]]; [lia|lia|congruence].
    + injection H as <- <-. exists new. do 3 (split; [assumption|]). split; [exact L|]. split; [exact L2|]. split; [reflexivity|].
      assert (E1 : kept s1 = None). { destruct (kept s1) eqn:Q; [|reflexivity]. destruct A6; [congruence|exact Hk|]. lia. }
      rewrite A4. auto.
Qed.

Lemma t_read_some_spec : forall need s x s', t_read_some w need s = Back x s' -> broke s = kept s -> 0 < need -> exists new,
  only_read s s' /\ got_so_far s' = got_so_far s ++ new /\
  match x with
  | inl c => c = firstN need (buffered s ++ new) /\ buffered s' = skipN need (buffered s ++ new) /\ broke s' = kept s' /\ (kept s <> None -> new = [] /\ kept s' = kept s) /\ (kept s = None -> kept s' = None)
             /\ c ++ buffered s' = buffered s ++ new /\ (nlen c < need -> buffered s' = [])
  | inr e => buffered s = [] /\ new = [] /\ broke s' = Some e /\ buffered s' = [] /\ kept s' = None
  end.
Proof.
  intros need s x s' H Hb Hn. unfold t_read_some in H.
  assert (F : forall l, firstN need l ++ skipN need l = l /\ (nlen (firstN need l) < need -> skipN need l = [])).
  { intros l. split; [apply firstN_skipN|]. intros L. apply skipN_all. rewrite nlen_firstN in L. lia. }
  destruct (buffered s) as [|b bs] eqn:Eb.
  - destruct (kept s) as [e|] eqn:Ek.
    + injection H as <- <-. exists []. cbn [with_buffer only_read got_so_far buffered broke kept]. rewrite app_nil_r. repeat split. exact Hb.
    + destruct (buf_size <=? need) eqn:L.
      * destruct x as [c|e].
        -- assert (Lc : nlen c <= need). { unfold net_read in H. destruct (reads w (nreads s)) as [t y]. destruct (ends t (due s) (now s)) as [[it t']|]; [|discriminate].
             destruct y as [[b bs]|e]; destruct it; try discriminate. injection H as <- _. rewrite nlen_firstN. lia. }
           apply net_read_spec in H. destruct H as (A1 & A2 & A3 & A4 & A5). exists c. cbn [app].
           assert (Fc : firstN need c = c). { unfold firstN. apply firstn_all2. unfold nlen in Lc. lia. }
           rewrite A2, Fc, (skipN_all need c Lc). rewrite ?Eb, ?app_nil_r. repeat split; try congruence; assumption || apply A1.
        -- apply net_read_spec in H. destruct H as (A1 & A2 & A3 & A4 & A5). exists []. rewrite app_nil_r. repeat split; try congruence; apply A1.
      * destruct (net_read w buf_size s) as [y s1| | |] eqn:En; try discriminate. cbn [tbind] in H. apply net_read_spec in En. destruct En as (A1 & A2 & A3 & A4). destruct y as [c|e]; injection H as <- <-.
        -- destruct A4 as [A4 A5]. exists c. cbn [with_buffer only_read got_so_far buffered broke kept app]. split; [exact A1|]. split; [exact A4|]. split; [reflexivity|]. split; [reflexivity|].
           split; [congruence|]. split; [congruence|]. split; [reflexivity|]. apply F.
        -- destruct A4 as [A4 A5]. exists []. rewrite app_nil_r. repeat split; try congruence; apply A1.
  - injection H as <- <-. exists []. cbn [with_buffer only_read got_so_far buffered broke kept]. rewrite !app_nil_r. repeat split; try congruence; apply F.
Qed.

Lemma t_read_full_spec : forall k need b s x s', t_read_full w k need b s = Back x s' -> broke s = kept s -> exists new,
  only_read s s' /\ got_so_far s' = got_so_far s ++ new /\
  match x with
  | Got c => need <= nlen (buffered s ++ new) /\ c = b ++ firstN need (buffered s ++ new) /\ buffered s' = skipN need (buffered s ++ new) /\ broke s' = kept s' /\ (kept s <> None -> new = []) /\ (kept s = None -> kept s' = None)
  | Failed e => nlen (buffered s ++ new) < need /\ buffered s' = [] /\ kept s' = None /\ exists x, broke s' = Some x /\ e = eof_in_frame x (b ++ buffered s ++ new)
  | Full => False
  end.
Proof.
  induction k as [|k IH]; intros need b s x s' H Hb; cbn [t_read_full] in H; (destruct (N.eqb_spec need 0) as [Z|Z];
    [injection H as <- <-; subst need; exists []; rewrite !app_nil_r; repeat split; try lia; auto; change (firstN 0 (buffered s)) with (@nil N); rewrite app_nil_r; reflexivity|]); [discriminate|].
  destruct (t_read_some w need s) as [y s1| | |] eqn:Er; try discriminate. cbn [tbind] in H. destruct (t_read_some_spec _ _ _ _ Er Hb ltac:(lia)) as (new & A1 & A2 & A3). destruct y as [c|e].
  - destruct A3 as (B1 & B2 & B3 & B4 & B5 & B6 & B7). destruct (IH _ _ _ _ _ H B3) as (new2 & C1 & C2 & C3). exists (new ++ new2). split; [eapply only_read_trans; eassumption|]. split; [rewrite C2, A2, app_assoc; reflexivity|].
    assert (Lc : nlen c <= need) by (rewrite B1, nlen_firstN; lia).
    assert (Q : buffered s ++ new ++ new2 = c ++ (buffered s1 ++ new2)) by (rewrite !app_assoc, B6; reflexivity). rewrite Q. rewrite nlen_app.
    rewrite (firstN_app2 need c) by exact Lc. rewrite (skipN_app2 need c) by exact Lc.
    destruct x as [d| |e].
    + destruct C3 as (D1 & D2 & D3 & D4 & D5 & D6). split; [lia|]. split; [rewrite D2, <- app_assoc; reflexivity|]. split; [exact D3|]. split; [exact D4|]. split.
      * intros P. destruct (B4 P) as [-> P2]. rewrite D5 by congruence. reflexivity.
      * intros P. auto.
    + contradiction.
    + destruct C3 as (D1 & D2 & D3 & x & D4 & D5). split; [lia|]. split; [exact D2|]. split; [exact D3|]. exists x. split; [exact D4|]. rewrite D5. f_equal. rewrite <- !app_assoc. reflexivity.
  - destruct A3 as (B1 & -> & B3 & B4 & B5). injection H as <- <-. exists []. split; [exact A1|]. split; [exact A2|]. rewrite B1. cbn [app]. split; [cbn; lia|]. split; [exact B4|]. split; [exact B5|].
    exists e. split; [exact B3|]. rewrite app_nil_r. unfold eof_in_frame. destruct e; try reflexivity. destruct b; reflexivity.
Qed.

(* one message *)
Lemma t_message_spec : forall k s x s', t_message w32 w k s = Back x s' -> broke s = None -> kept s = None -> exists new,
  only_read s s' /\ got_so_far s' = got_so_far s ++ new /\ kept s' = None /\
  (forall rest e, to_come s' rest e -> amessage w32 e (buffered s ++ new ++ rest) = (x, buffered s' ++ rest)) /\
  match x with inl (_, _, n) => broke s' = None /\ n <= nlen (buffered s') | inr (CRead _) => True | inr _ => broke s' = None end.
Proof.
  intros k s x s' H Hb Hk. unfold t_message in H. destruct (t_peek w k 5 s) as [h s1| | |] eqn:E1; try discriminate. cbn [tbind] in H.
  destruct (t_peek_spec _ _ _ _ _ E1 Hb Hk) as (new & A1 & A2 & A3 & A4). clear E1. destruct h as [b| |e].
  - destruct A4 as (_ & A5 & A6 & A7 & A8). set (s2 := t_discard 5 s1) in *.
    assert (S2 : only_read s s2 /\ got_so_far s2 = got_so_far s ++ new /\ buffered s2 = skipN 5 (buffered s ++ new) /\ broke s2 = None /\ kept s2 = None)
      by (unfold s2, t_discard; cbn [with_buffer got_so_far buffered broke kept]; rewrite A3; auto).
    clearbody s2. destruct S2 as (Q1 & Q2 & Q3 & Q4 & Q5). rewrite A3 in A5, A6. cbn zeta in H.
    assert (P : forall more, nlen (buffered s ++ new ++ more) <? 5 = false /\ firstn 4 (buffered s ++ new ++ more) = firstn 4 b /\ nth 4 (buffered s ++ new ++ more) 0 = nth 4 b 0 /\
      firstn 5 (buffered s ++ new ++ more) = b /\ skipN 5 (buffered s ++ new ++ more) = buffered s2 ++ more).
    { intros more. rewrite Q3, A6, !app_assoc. set (z := buffered s ++ new) in *. split; [apply N.ltb_ge; rewrite nlen_app; lia|].
      assert (F5 : firstN 5 (z ++ more) = firstN 5 z) by (apply firstN_app1; exact A5).
      destruct (firstn_5_4 (z ++ more)) as [U1 U2]. split; [rewrite <- U1, F5; reflexivity|]. split; [rewrite <- U2, F5; reflexivity|]. split; [exact F5|]. apply skipN_app1. exact A5. }
    clear A5 A6 A7 A8 A1 A2 A3. unfold amessage.
    destruct (int_of_u32 w32 (le (firstn 4 b)) <? 1)%Z eqn:En.
    { injection H as <- <-. exists new. split; [exact Q1|]. split; [exact Q2|]. split; [exact Q5|]. split; [|exact Q4]. intros rest e _. destruct (P rest) as (-> & -> & -> & -> & ->). rewrite En. reflexivity. }
    set (n := Z.to_N (int_of_u32 w32 (le (firstn 4 b)) - 1)) in *. destruct (N.ltb_spec 0 n) as [Ln|Ln].
    2: { injection H as <- <-. exists new. split; [exact Q1|]. split; [exact Q2|]. split; [exact Q5|]. split; [|split; [exact Q4|lia]]. intros rest e _. destruct (P rest) as (-> & -> & -> & -> & ->). rewrite En.
         fold n. destruct (N.ltb_spec 0 n); [lia|]. reflexivity. }
    destruct (t_peek w k n s2) as [p s3| | |] eqn:E2; try discriminate. cbn [tbind] in H. destruct (t_peek_spec _ _ _ _ _ E2 Q4 Q5) as (new2 & B1 & B2 & B3 & B4). clear E2.
    assert (O3 : only_read s s3) by (eapply only_read_trans; eassumption). destruct p as [c| |e].
    + destruct B4 as (C1 & C2 & C3 & C4 & C5). injection H as <- <-. exists (new ++ new2). split; [exact O3|]. split; [rewrite B2, Q2, app_assoc; reflexivity|]. split; [exact C5|]. split; [|split; [exact C4|exact C2]].
      intros rest e _. replace ((new ++ new2) ++ rest) with (new ++ (new2 ++ rest)) by apply app_assoc. destruct (P (new2 ++ rest)) as (-> & -> & -> & -> & ->). rewrite En. fold n. destruct (N.ltb_spec 0 n); [|lia].
      destruct (N.leb_spec n buf_size); [|lia]. rewrite app_assoc, <- B3, nlen_app. destruct (N.leb_spec n (nlen (buffered s3) + nlen rest)); [|lia]. rewrite firstN_app1 by exact C2. rewrite <- C3. reflexivity.
    + destruct B4 as (C1 & C2 & C3). destruct (t_read_full w k n [] s3) as [p s4| | |] eqn:E3; try discriminate. cbn [tbind] in H. destruct (t_read_full_spec _ _ _ _ _ _ E3 C2) as (new3 & D1 & D2 & D3). clear E3.
      assert (O4 : only_read s s4) by (eapply only_read_trans; eassumption).
      assert (G4 : got_so_far s4 = got_so_far s ++ (new ++ new2 ++ new3)) by (rewrite D2, B2, Q2, <- !app_assoc; reflexivity).
      assert (R : forall rest, buffered s ++ (new ++ new2 ++ new3) ++ rest = buffered s ++ new ++ (new2 ++ new3 ++ rest)) by (intros; rewrite <- !app_assoc; reflexivity).
      assert (R2 : forall rest, buffered s2 ++ new2 ++ new3 ++ rest = (buffered s3 ++ new3) ++ rest) by (intros; rewrite B3, <- !app_assoc; reflexivity).
      destruct p as [c| |e].
      * destruct D3 as (F1 & F2 & F3 & F4 & F5 & F6). injection H as <- <-. exists (new ++ new2 ++ new3). split; [exact O4|]. split; [exact G4|].
        assert (K3 : kept s3 = None). { destruct (kept s3) eqn:Q; [|reflexivity]. exfalso. rewrite F5, app_nil_r in F1 by congruence. specialize (C3 ltac:(congruence)). lia. }
        specialize (F6 K3). split; [exact F6|]. split; [|split; [congruence|apply N.le_0_l]].
        intros rest e _. rewrite R. destruct (P (new2 ++ new3 ++ rest)) as (-> & -> & -> & -> & ->). rewrite En. fold n. destruct (N.ltb_spec 0 n); [|lia].
        destruct (N.leb_spec n buf_size); [lia|]. rewrite R2, nlen_app. destruct (N.leb_spec n (nlen (buffered s3 ++ new3) + nlen rest)); [|lia].
        rewrite firstN_app1 by exact F1. rewrite skipN_app1 by exact F1. rewrite F2, F3. reflexivity.
      * contradiction.
      * destruct D3 as (F1 & F2 & F3 & x0 & F4 & F5). injection H as <- <-. exists (new ++ new2 ++ new3). split; [exact O4|]. split; [exact G4|]. split; [exact F3|]. split; [|exact I].
        intros rest e0 Hr. destruct (Hr x0 F4) as [-> ->]. rewrite R. destruct (P (new2 ++ new3 ++ [])) as (-> & -> & -> & -> & ->). rewrite En. fold n. destruct (N.ltb_spec 0 n); [|lia].
        destruct (N.leb_spec n buf_size); [lia|]. rewrite R2, app_nil_r. destruct (N.leb_spec n (nlen (buffered s3 ++ new3))); [lia|]. rewrite F2, F5. cbn [app]. reflexivity.
    + destruct B4 as (C1 & C2 & C3 & C4). injection H as <- <-. exists (new ++ new2). split; [exact O3|]. split; [rewrite B2, Q2, app_assoc; reflexivity|]. split; [exact C4|]. split; [|exact I].
      intros rest e0 Hr. destruct (Hr e C3) as [-> ->]. replace ((new ++ new2) ++ []) with (new ++ (new2 ++ [])) by apply app_assoc. destruct (P (new2 ++ [])) as (-> & -> & -> & -> & ->). rewrite En. fold n. destruct (N.ltb_spec 0 n); [|lia].
      destruct (N.leb_spec n buf_size); [|lia]. rewrite app_assoc, <- B3, app_nil_r. destruct (N.leb_spec n (nlen (buffered s3))); [lia|]. reflexivity.
  - exfalso. destruct A4 as (A4 & _). unfold buf_size in A4. lia.
  - destruct A4 as (_ & A5 & A6 & A7). injection H as <- <-. exists new. split; [exact A1|]. split; [exact A2|]. split; [exact A7|]. split; [|exact I].
    intros rest e0 Hr. destruct (Hr e A6) as [-> ->]. rewrite app_nil_r, <- A3. unfold amessage. destruct (N.ltb_spec (nlen (buffered s1)) 5); [rewrite app_nil_r; reflexivity|lia].
Qed.

(* Read *)
Definition read_error (o : option cerr) : Prop := match o with Some (CRead _) => True | _ => False end.
Lemma t_read_k_spec : forall k inner ct s a s', t_read_k w32 w k inner ct s = Back a s' -> broke s = None -> kept s = None -> exists new,
  only_read s s' /\ got_so_far s' = got_so_far s ++ new /\ kept s' = None /\ (~ read_error (snd a) -> broke s' = None) /\
  (forall rest e, to_come s' rest e -> aread w32 ct e (buffered s ++ new ++ rest) = (a, buffered s' ++ rest)).
Proof.
  induction k as [|k IH]; intros inner ct s a s' H Hb Hk; [discriminate|]. cbn [t_read_k] in H. destruct (t_message w32 w inner s) as [m s1| | |] eqn:Em; try discriminate. cbn [tbind] in H.
  destruct (t_message_spec _ _ _ _ Em Hb Hk) as (new & A1 & A2 & A3 & A4 & A5). clear Em. destruct m as [[[st b] n]|e].
  - destruct A5 as [A5 A6]. assert (T1 : forall rest e, to_come s1 rest e) by (intros rest e x Hx; congruence).
    assert (D : forall rest, skipN n (buffered s1 ++ rest) = buffered (t_discard n s1) ++ rest) by (intros rest; apply skipN_app1; exact A6).
    destruct (dispatch ct st b) as [[resp o]|] eqn:Ed.
    + assert (G : forall s2, (s2 = s1 \/ s2 = t_discard n s1) -> Back (resp, o) s2 = Back a s' ->
        (forall rest, snd (match o with Some CBadMeta => ((resp, o), buffered s1 ++ rest) | _ => ((resp, o), skipN n (buffered s1 ++ rest)) end) = buffered s2 ++ rest) -> exists new,
        only_read s s' /\ got_so_far s' = got_so_far s ++ new /\ kept s' = None /\ (~ read_error (snd a) -> broke s' = None) /\
        (forall rest e, to_come s' rest e -> aread w32 ct e (buffered s ++ new ++ rest) = (a, buffered s' ++ rest))).
      { intros s2 [->| ->] Hs Hr; injection Hs as <- <-; exists new; (split; [exact A1|]; split; [exact A2|]; split; [exact A3|]; split; [intros _; exact A5|]);
          intros rest e _; rewrite aread_eq, (A4 rest e (T1 _ _)), Ed; specialize (Hr rest); (destruct o as [o|]; [destruct o|]); cbn [snd] in Hr; rewrite ?Hr; reflexivity. }
      (destruct o as [o|]; [destruct o|]); try (apply (G _ (or_intror eq_refl) H); intros rest; cbn [snd]; apply D); apply (G _ (or_introl eq_refl) H); intros rest; reflexivity.
    + destruct (IH _ _ _ _ _ H) as (new2 & B1 & B2 & B3 & B4 & B5); [exact A5|exact A3|]. exists (new ++ new2). split; [eapply only_read_trans; [exact A1|exact B1]|].
      split; [rewrite B2; cbn [t_discard with_buffer got_so_far]; rewrite A2, app_assoc; reflexivity|]. split; [exact B3|]. split; [exact B4|]. intros rest e Hr.
      replace ((new ++ new2) ++ rest) with (new ++ (new2 ++ rest)) by apply app_assoc. rewrite aread_eq, (A4 _ e (T1 _ _)), Ed, D. apply B5. exact Hr.
  - injection H as <- <-. exists new. split; [exact A1|]. split; [exact A2|]. split; [exact A3|]. split.
    + intros P. cbn [snd] in P. destruct e; try exact A5. exfalso. apply P. exact I.
    + intros rest e0 Hr. rewrite aread_eq, (A4 rest e0 Hr). reflexivity.
Qed.

(* ---- calls ---- *)

(* Whatever the connection of Conn is: if it is given the bytes the call received, and the results its SetDeadlines and Writes had, the same happens. *)
Definition plays {A} (f : conn -> res (A * conn)) (s : tconn) (a : A) (s' : tconn) : Prop := exists new ds ws evs,
  got_so_far s' = got_so_far s ++ new /\ tlog s' = evs ++ tlog s /\ tkind s' = tkind s /\ kept s' = None /\
  forall c rest ds' ws', ckind c = tkind s -> unread c = buffered s ++ new ++ rest -> to_come s' rest (ended (rd c)) -> deadlines c = ds ++ ds' -> writes c = ws ++ ws' ->
  exists c', f c = Ok (a, c') /\ ckind c' = ckind c /\ unread c' = buffered s' ++ rest /\ ended (rd c') = ended (rd c) /\ deadlines c' = ds' /\ writes c' = ws' /\ log c' = evs ++ log c.

Lemma plays_ret : forall A (a : A) s, kept s = None -> plays (fun c => Ok (a, c)) s a s.
Proof.
  intros A a s K. exists [], [], [], []. rewrite app_nil_r. repeat (split; [trivial|]). intros c rest ds ws H1 H2 H3 H4 H5. exists c. cbn [app] in *. repeat split; assumption.
Qed.
Lemma plays_bind : forall A B (f : conn -> res (A * conn)) (g : A -> conn -> res (B * conn)) s a s1 b s2,
  plays f s a s1 -> (broke s1 = None \/ s2 = s1) -> plays (g a) s1 b s2 -> plays (fun c => do (a, c) <- f c; g a c) s b s2.
Proof.
  intros A B f g s a s1 b s2 (n1 & d1 & w1 & e1 & F1 & F2 & F3 & F4 & F5) Hb (n2 & d2 & w2 & e2 & G1 & G2 & G3 & G4 & G5).
  exists (n1 ++ n2), (d1 ++ d2), (w1 ++ w2), (e2 ++ e1). split; [rewrite G1, F1, app_assoc; reflexivity|]. split; [rewrite G2, F2, app_assoc; reflexivity|]. split; [congruence|]. split; [exact G4|].
  intros c rest ds ws H1 H2 H3 H4 H5. rewrite <- !app_assoc in *.
  destruct (F5 c (n2 ++ rest) (d2 ++ ds) (w2 ++ ws) H1 H2) as (c1 & K1 & K2 & K3 & K4 & K5 & K6 & K7); [|exact H4|exact H5|].
  { intros x Hx. destruct Hb as [Hb| ->]; [congruence|]. destruct (H3 x Hx) as [-> ->]. assert (E : n2 = []). { rewrite <- (app_nil_r (got_so_far s1)) in G1 at 1. apply app_inv_head in G1. auto. } subst n2. auto. }
  destruct (G5 c1 rest ds ws) as (c2 & L1 & L2 & L3 & L4 & L5 & L6 & L7); [congruence|exact K3|rewrite K4; exact H3|exact K5|exact K6|].
  exists c2. rewrite K1. cbn [bind]. split; [exact L1|]. split; [congruence|]. split; [exact L3|]. split; [congruence|]. split; [exact L5|]. split; [exact L6|]. rewrite L7, K7. reflexivity.
Qed.
Lemma plays_ext : forall A (f g : conn -> res (A * conn)) s a s', (forall c, f c = g c) -> plays f s a s' -> plays g s a s'.
Proof.
  intros A f g s a s' E (n & d & ws & e & F1 & F2 & F3 & F4 & F5). exists n, d, ws, e. do 4 (split; [assumption|]). intros c rest ds' ws' H1 H2 H3 H4 H5.
  destruct (F5 c rest ds' ws' H1 H2 H3 H4 H5) as (c' & K & L). exists c'. rewrite <- E. auto.
Qed.

Lemma plays_read : forall k ct s a s', t_read w32 w k ct s = Back a s' -> broke s = None -> kept s = None -> plays (fun c => Ok (c_read w32 ct c)) s a s' /\ (~ read_error (snd a) -> broke s' = None).
Proof.
  intros k ct s a s' H Hb Hk. destruct (t_read_k_spec _ _ _ _ _ _ H Hb Hk) as (new & [A1 A1'] & A2 & A3 & A4 & A5). split; [|exact A4].
  exists new, [], [], []. do 2 (split; [assumption|]). do 2 (split; [assumption|]). intros c rest ds ws H1 H2 H3 H4 H5.
  destruct (c_read_spec w32 ct c) as (c' & K1 & K2 & K3 & K4 & K5 & K6 & K7). rewrite H2, (A5 rest _ H3) in K1, K2. cbn [fst snd] in *. exists c'. rewrite K1. cbn [app] in *. repeat split; congruence.
Qed.
Lemma plays_set : forall d s x s', t_set_deadline w d s = (x, s') -> kept s = None -> plays (fun c => Ok (set_deadline d c)) s x s' /\ broke s' = broke s.
Proof.
  intros d s x s' H Hk. injection H as <- <-. split; [|reflexivity]. exists [], [settings w (nsets s)], [], [SetDeadline (tkind s) d (settings w (nsets s))].
  cbn [got_so_far tlog tkind kept buffered broke]. rewrite app_nil_r. repeat (split; [trivial|]). intros c rest ds ws H1 H2 H3 H4 H5. unfold set_deadline. rewrite H4. cbn [app next_result].
  eexists. split; [reflexivity|]. cbn [ckind rd deadlines writes log]. rewrite H1. repeat split; assumption.
Qed.
Lemma plays_write : forall b s x s', t_write w b s = Back x s' -> kept s = None -> plays (fun c => Ok (write b c)) s x s' /\ broke s' = broke s.
Proof.
  intros b s x s' H Hk. unfold t_write in H. destruct (writings w (nwrites s)) as [t y]. destruct (ends t (due s) (now s)) as [[it t']|]; [|discriminate]. injection H as <- <-. split; [|reflexivity].
  set (x := if it then y else Some io_timeout). exists [], [], [x], [Write (tkind s) b x].
  cbn [got_so_far tlog tkind kept buffered broke]. rewrite app_nil_r. repeat (split; [trivial|]). intros c rest ds ws H1 H2 H3 H4 H5. unfold write. rewrite H5. cbn [app next_result].
  eexists. split; [reflexivity|]. cbn [ckind rd deadlines writes log]. rewrite H1. repeat split; assumption.
Qed.

Lemma plays_write_one : forall k ctx b s a s', t_write_one w32 w k ctx b s = Back a s' -> broke s = None -> kept s = None ->
  plays (write_one w32 (ctx_deadline ctx) b) s a s' /\ (~ read_error (snd a) -> broke s' = None).
Proof.
  intros k ctx b s a s' H Hb Hk. unfold t_write_one in H. destruct (t_set_deadline w (ctx_deadline ctx) s) as [x s1] eqn:E1. destruct (plays_set _ _ _ _ E1 Hk) as [P1 B1].
  assert (K1 : kept s1 = None) by (destruct P1 as (?&?&?&?&?&?&?&?&?); assumption).
  set (g := fun (x : option ioerr) c => match x with Some e => Ok ((None, Some (CDeadline e)), c) | None =>
    do (x, c) <- Ok (write b c); match x with Some e => Ok ((None, Some (CWrite e)), c) | None => match nth_error b 4 with Some ct => Ok (c_read w32 ct c) | None => Panic end end end).
  assert (G : forall c, (do (x, c) <- Ok (set_deadline (ctx_deadline ctx) c); g x c) = write_one w32 (ctx_deadline ctx) b c).
  { intros c. unfold write_one. cbn [bind]. destruct (set_deadline _ c) as [[e|] c1]; cbn [g bind]; [reflexivity|]. destruct (write b c1) as [[e|] c2]; reflexivity. }
  assert (J : plays (g x) s1 a s' /\ (~ read_error (snd a) -> broke s' = None)).
  { unfold g. destruct x as [e|].
    - injection H as <- <-. split; [apply plays_ret; exact K1|]. congruence.
    - destruct (t_write w b s1) as [x s2| | |] eqn:E2; try discriminate. cbn [tbind] in H. destruct (plays_write _ _ _ _ E2 K1) as [P2 B2].
      assert (K2 : kept s2 = None) by (destruct P2 as (?&?&?&?&?&?&?&?&?); assumption). assert (B3 : broke s2 = None) by congruence.
      assert (J2 : plays (fun c => match x with Some e => Ok ((None, Some (CWrite e)), c) | None => match nth_error b 4 with Some ct => Ok (c_read w32 ct c) | None => Panic end end) s2 a s' /\
        (~ read_error (snd a) -> broke s' = None)).
      { destruct x as [e|]; [injection H as <- <-; split; [apply plays_ret; exact K2|auto]|]. destruct (nth_error b 4) as [ct|]; [|discriminate]. exact (plays_read _ _ _ _ _ H B3 K2). }
      destruct J2 as [J2 J3]. split; [|exact J3].
      exact (plays_bind _ _ (fun c => Ok (write b c)) (fun x c => match x with Some e => Ok ((None, Some (CWrite e)), c) | None => match nth_error b 4 with Some ct => Ok (c_read w32 ct c) | None => Panic end end)
        s1 x s2 a s' P2 (or_introl B3) J2). }
  destruct J as [J1 J2]. split; [|exact J2]. eapply plays_ext; [exact G|]. eapply (plays_bind _ _ (fun c => Ok (set_deadline (ctx_deadline ctx) c)) g); [exact P1|left; congruence|exact J1].
Qed.

Lemma plays_responses : forall l k rest rs s a s', t_read_responses w32 w l k rest rs s = Back a s' -> broke s = None -> kept s = None ->
  plays (read_responses w32 l rest rs) s a s' /\ (~ read_error (snd a) -> broke s' = None).
Proof.
  induction l as [|l IH]; intros k rest rs s a s' H Hb Hk; destruct rest as [|b rest]; cbn [t_read_responses] in H; try discriminate;
    try (injection H as <- <-; split; [|auto]; eapply plays_ext; [|apply plays_ret; exact Hk]; reflexivity).
  destruct (nth_error (b :: rest) 4) as [ct|] eqn:En; [|discriminate]. destruct (t_read w32 w k ct s) as [y s1| | |] eqn:E1; try discriminate. cbn [tbind] in H.
  destruct (plays_read _ _ _ _ _ E1 Hb Hk) as [P1 P2]. assert (K1 : kept s1 = None) by (destruct P1 as (?&?&?&?&?&?&?&?&?); assumption).
  set (g := fun (y : response * option cerr) c => match snd y with Some e => Ok ((rs ++ [fst y], Some e), c) | None => read_responses w32 l (skipN (4 + le (firstn 4 (b :: rest))) (b :: rest)) (rs ++ [fst y]) c end).
  assert (G : forall c, (do (y, c) <- Ok (c_read w32 ct c); g y c) = read_responses w32 (S l) (b :: rest) rs c).
  { intros c. cbn [read_responses]. rewrite En. cbn [bind]. destruct (c_read w32 ct c) as [y' c1]. reflexivity. }
  assert (J : plays (g y) s1 a s' /\ (~ read_error (snd a) -> broke s' = None) /\ (broke s1 = None \/ s' = s1)).
  { unfold g. destruct (snd y) as [e|] eqn:Ey.
    - injection H as <- <-. split; [apply plays_ret; exact K1|]. split; [exact P2|right; reflexivity].
    - assert (B1 : broke s1 = None) by (apply P2; cbn; tauto). destruct (IH _ _ _ _ _ _ H B1 K1) as [Q1 Q2]. split; [exact Q1|]. split; [exact Q2|left; exact B1]. }
  destruct J as (J1 & J2 & J3). split; [|exact J2]. eapply plays_ext; [exact G|]. eapply (plays_bind _ _ (fun c => Ok (c_read w32 ct c)) g); [exact P1|exact J3|exact J1].
Qed.

Lemma plays_send : forall k ctx b s a s', t_send w32 w k ctx b s = Back a s' -> broke s = None -> kept s = None ->
  plays (conn_send w32 (ctx_deadline ctx) b) s a s' /\ (~ read_error (snd a) -> broke s' = None).
Proof.
  intros k ctx b s a s' H Hb Hk. unfold t_send in H. destruct (t_set_deadline w (ctx_deadline ctx) s) as [x s1] eqn:E1. destruct (plays_set _ _ _ _ E1 Hk) as [P1 B1].
  assert (K1 : kept s1 = None) by (destruct P1 as (?&?&?&?&?&?&?&?&?); assumption).
  set (h := fun (x : option ioerr) c => match x with Some e => Ok (([], Some (CWrite e)), c) | None => read_responses w32 (length b) b [] c end).
  set (g := fun (x : option ioerr) c => match x with Some e => Ok (([], Some (CDeadline e)), c) | None => do (x, c) <- Ok (write b c); h x c end).
  assert (G : forall c, (do (x, c) <- Ok (set_deadline (ctx_deadline ctx) c); g x c) = conn_send w32 (ctx_deadline ctx) b c).
  { intros c. unfold conn_send. cbn [bind]. destruct (set_deadline _ c) as [[e|] c1]; cbn [g bind]; [reflexivity|]. destruct (write b c1) as [[e|] c2]; reflexivity. }
  assert (J : plays (g x) s1 a s' /\ (~ read_error (snd a) -> broke s' = None)).
  { unfold g. destruct x as [e|].
    - injection H as <- <-. split; [apply plays_ret; exact K1|]. congruence.
    - destruct (t_write w b s1) as [x s2| | |] eqn:E2; try discriminate. cbn [tbind] in H. destruct (plays_write _ _ _ _ E2 K1) as [P2 B2].
      assert (K2 : kept s2 = None) by (destruct P2 as (?&?&?&?&?&?&?&?&?); assumption). assert (B3 : broke s2 = None) by congruence.
      assert (J2 : plays (h x) s2 a s' /\ (~ read_error (snd a) -> broke s' = None)).
      { destruct x as [e|]; [injection H as <- <-; split; [apply plays_ret; exact K2|auto]|]. exact (plays_responses _ _ _ _ _ _ _ H B3 K2). }
      destruct J2 as [J2 J3]. split; [|exact J3]. exact (plays_bind _ _ (fun c => Ok (write b c)) h s1 x s2 a s' P2 (or_introl B3) J2). }
  destruct J as [J1 J2]. split; [|exact J2]. eapply plays_ext; [exact G|]. eapply (plays_bind _ _ (fun c => Ok (set_deadline (ctx_deadline ctx) c)) g); [exact P1|left; congruence|exact J1].
Qed.

Lemma plays_authenticate : forall k ctx creds m s a s', t_authenticate w32 w k ctx creds m s = Back a s' -> broke s = None -> kept s = None ->
  plays (authenticate w32 (ctx_deadline ctx) creds m) s a s' /\ (~ read_error a -> broke s' = None).
Proof.
  intros k ctx creds m s a s' H Hb Hk. unfold t_authenticate in H. destruct (start m creds) as [b|] eqn:Es; [|discriminate].
  destruct (t_write_one w32 w k ctx b s) as [y s1| | |] eqn:E1; try discriminate. cbn [tbind] in H. destruct (plays_write_one _ _ _ _ _ _ E1 Hb Hk) as [P1 P2].
  assert (K1 : kept s1 = None) by (destruct P1 as (?&?&?&?&?&?&?&?&?); assumption).
  set (g := fun (y : response * option cerr) c => match snd y with None => Ok (None, c) | Some (CChallenge d) => match continue m with None => Ok (Some CUnexpectedContinue, c) | Some f =>
    do b <- f creds d; do (y, c) <- write_one w32 (ctx_deadline ctx) b c; Ok (snd y, c) end | Some e => Ok (Some e, c) end).
  assert (G : forall c, (do (y, c) <- write_one w32 (ctx_deadline ctx) b c; g y c) = authenticate w32 (ctx_deadline ctx) creds m c).
  { intros c. unfold authenticate. rewrite Es. reflexivity. }
  assert (J : plays (g y) s1 a s' /\ (~ read_error a -> broke s' = None) /\ (broke s1 = None \/ s' = s1)).
  { assert (R : Back (snd y) s1 = Back a s' -> plays (fun c => Ok (snd y, c)) s1 a s' /\ (~ read_error a -> broke s' = None) /\ (broke s1 = None \/ s' = s1)).
    { intros X. injection X as <- <-. split; [apply plays_ret; exact K1|]. split; [exact P2|right; reflexivity]. }
    unfold g. destruct (snd y) as [e|] eqn:Ey; [|exact (R H)]. destruct e; try exact (R H). assert (B1 : broke s1 = None) by (apply P2; cbn; tauto).
    destruct (continue m) as [f|]; [|injection H as <- <-; split; [apply plays_ret; exact K1|]; auto]. destruct (f creds data) as [b2|] eqn:Ef; [|discriminate].
    destruct (t_write_one w32 w k ctx b2 s1) as [y2 s2| | |] eqn:E2; try discriminate. cbn [tbind] in H. injection H as <- <-. destruct (plays_write_one _ _ _ _ _ _ E2 B1 K1) as [Q1 Q2].
    split; [|split; [exact Q2|left; exact B1]]. cbn [bind]. eapply plays_bind; [exact Q1|right; reflexivity|]. apply plays_ret. destruct Q1 as (?&?&?&?&?&?&?&?&?); assumption. }
  destruct J as (J1 & J2 & J3). split; [|exact J2]. eapply plays_ext; [exact G|]. eapply (plays_bind _ _ _ g); [exact P1|exact J3|exact J1].
Qed.
End Connection.

Section Model.
Context `{E : Env}.
Variable w : world.

Lemma plays_close : forall A (a : A) s, kept s = None -> plays (fun c => Ok (a, close c)) s a (t_close w s).
Proof.
  intros A a s K. exists [], [], [], [Close (tkind s)]. cbn [t_close got_so_far tlog tkind kept]. rewrite app_nil_r. do 4 (split; [trivial|]). intros c rest ds ws H1 H2 H3 H4 H5.
  exists (close c). cbn [app close ckind rd deadlines writes log] in *. rewrite H1. repeat split; assumption.
Qed.
Lemma kept_plays : forall A (f : conn -> res (A * conn)) s a s', plays f s a s' -> kept s' = None.
Proof. intros A f s a s' (?&?&?&?&?&?&?&?&?). assumption. Qed.
Lemma kind_plays : forall A (f : conn -> res (A * conn)) s a s', plays f s a s' -> tkind s' = tkind s.
Proof. intros A f s a s' (?&?&?&?&?&?&?&?&?). assumption. Qed.

Lemma authenticate_or_close_eq : forall d cfg c, authenticate_or_close d cfg c =
  do (r, c1) <- authenticate word32 d (credentials_of cfg) (authentication cfg) c;
  match r with
  | None => Ok (None, c1)
  | Some e =>
      if andb (match e with CServer m => code m =? ErAccessDeniedError | _ => false end) (is_secure c1)
      then do (r2, c2) <- authenticate word32 d (credentials_of cfg) plain c1; match r2 with None => Ok (None, c2) | Some _ => Ok (Some (NConn e), close c2) end
      else Ok (Some (NConn e), close c1)
  end.
Proof. reflexivity. Qed.

Lemma plays_with_kind : forall A (f g : conn -> res (A * conn)) s a s', (forall c, ckind c = tkind s -> f c = g c) -> plays f s a s' -> plays g s a s'.
Proof.
  intros A f g s a s' Ef (n & d & ws & e & F1 & F2 & F3 & F4 & F5). exists n, d, ws, e. do 4 (split; [assumption|]). intros c rest ds' ws' H1 H2 H3 H4 H5.
  destruct (F5 c rest ds' ws' H1 H2 H3 H4 H5) as (c' & K & L). exists c'. rewrite <- (Ef c H1). auto.
Qed.

Lemma plays_authenticate_or_close : forall k ctx cfg s a s', t_authenticate_or_close w k ctx cfg s = Back a s' -> broke s = None -> kept s = None ->
  plays (authenticate_or_close (ctx_deadline ctx) cfg) s a s'.
Proof.
  intros k ctx cfg s a s' H Hb Hk. unfold t_authenticate_or_close in H. destruct (t_authenticate _ _ _ _ _ (authentication cfg) s) as [r s1| | |] eqn:E1; try discriminate. cbn [tbind] in H. cbn zeta in H.
  destruct (plays_authenticate _ _ _ _ _ _ _ _ _ E1 Hb Hk) as [P1 B1]. pose proof (kept_plays _ _ _ _ _ P1) as K1. pose proof (kind_plays _ _ _ _ _ P1) as T1.
  set (g := fun (r : option cerr) c1 => match r with None => Ok (None, c1) | Some e =>
      if andb (match e with CServer m => code m =? ErAccessDeniedError | _ => false end) (is_secure c1)
      then do (r2, c2) <- authenticate word32 (ctx_deadline ctx) (credentials_of cfg) plain c1; match r2 with None => Ok (None, c2) | Some _ => Ok (Some (NConn e), close c2) end
      else Ok (Some (NConn e), close c1) end).
  eapply plays_ext; [intros c; symmetry; apply authenticate_or_close_eq|]. fold g.
  destruct r as [e|].
  2: { injection H as <- <-. eapply (plays_bind _ _ _ g); [exact P1|right; reflexivity|]. apply plays_ret. exact K1. }
  set (den := match e with CServer m => code m =? ErAccessDeniedError | _ => false end) in *.
  assert (S1 : forall c, ckind c = tkind s1 -> is_secure c = match tkind s1 with Tls | Unix => true | _ => false end) by (intros c Hc; unfold is_secure; rewrite Hc; reflexivity).
  destruct (den && _)%bool eqn:Ed.
  - assert (NB : broke s1 = None) by (apply B1; destruct e; cbn in Ed |- *; try discriminate; tauto).
    destruct (t_authenticate _ _ _ _ _ plain s1) as [r2 s2| | |] eqn:E2; try discriminate. cbn [tbind] in H. destruct (plays_authenticate _ _ _ _ _ _ _ _ _ E2 NB K1) as [P2 B2]. pose proof (kept_plays _ _ _ _ _ P2) as K2.
    eapply (plays_bind _ _ _ g); [exact P1|left; exact NB|].
    apply (plays_with_kind _ (fun c1 => do (r2, c2) <- authenticate word32 (ctx_deadline ctx) (credentials_of cfg) plain c1; match r2 with None => Ok (None, c2) | Some _ => Ok (Some (NConn e), close c2) end)).
    { intros c Hc. unfold g. fold den. rewrite (S1 c Hc), Ed. reflexivity. }
    destruct r2 as [e2|]; injection H as <- <-.
    + (* the second attempt failed, too: the connection is closed whatever arrived *)
      destruct P2 as (n2 & d2 & w2 & ev2 & F1 & F2 & F3 & F4 & F5). exists n2, d2, w2, (Close (tkind s2) :: ev2). cbn [t_close got_so_far tlog tkind kept]. split; [exact F1|]. split; [rewrite F2; reflexivity|]. split; [exact F3|]. split; [exact F4|].
      intros c rest ds ws H1 H2 H3 H4 H5. destruct (F5 c rest ds ws H1 H2 H3 H4 H5) as (c' & L1 & L2 & L3 & L4 & L5 & L6 & L7). rewrite L1. cbn [bind]. exists (close c'). cbn [close ckind rd deadlines writes log]. split; [reflexivity|].
      split; [exact L2|]. split; [exact L3|]. split; [exact L4|]. split; [exact L5|]. split; [exact L6|]. rewrite L7, L2, H1, F3. reflexivity.
    + eapply (plays_bind _ _ _ (fun r2 c2 => match r2 with None => Ok (None, c2) | Some _ => Ok (Some (NConn e), close c2) end)); [exact P2|right; reflexivity|]. apply plays_ret. exact K2.
  - injection H as <- <-. destruct P1 as (n2 & d2 & w2 & ev2 & F1 & F2 & F3 & F4 & F5). exists n2, d2, w2, (Close (tkind s1) :: ev2). cbn [t_close got_so_far tlog tkind kept]. split; [exact F1|]. split; [rewrite F2; reflexivity|]. split; [exact F3|]. split; [exact F4|].
    intros c rest ds ws H1 H2 H3 H4 H5. destruct (F5 c rest ds ws H1 H2 H3 H4 H5) as (c' & L1 & L2 & L3 & L4 & L5 & L6 & L7). rewrite L1. cbn [bind]. unfold g. fold den. rewrite (S1 c') by congruence. rewrite Ed.
    exists (close c'). cbn [close ckind rd deadlines writes log]. split; [reflexivity|]. split; [exact L2|]. split; [exact L3|]. split; [exact L4|]. split; [exact L5|]. split; [exact L6|]. rewrite L7, L2, H1, F3. reflexivity.
Qed.

Definition last_error (s : tconn) : ioerr := match broke s with Some x => x | None => IoEOF end.
(* A connection of Conn on which the same will happen. *)
Lemma plays_exists : forall A (f : conn -> res (A * conn)) s a s', plays f s a s' -> buffered s = [] -> exists r ds ws, forall l, exists c', f (mkc (tkind s) r ds ws l) = Ok (a, c') /\
  ckind c' = tkind s' /\ unread c' = buffered s' /\ exists evs, log c' = evs ++ l /\ tlog s' = evs ++ tlog s.
Proof.
  intros A f s a s' (n & d & ws & e & F1 & F2 & F3 & F4 & F5) Hb. exists (mkr [] [n] (last_error s')), d, ws. intros l.
  destruct (F5 (mkc (tkind s) (mkr [] [n] (last_error s')) d ws l) [] [] []) as (c' & K1 & K2 & K3 & K4 & K5 & K6 & K7).
  - reflexivity.
  - unfold unread. cbn [rd held inbound concat]. rewrite Hb, !app_nil_r. reflexivity.
  - intros x Hx. cbn [rd ended]. unfold last_error. rewrite Hx. auto.
  - symmetry. apply app_nil_r.
  - symmetry. apply app_nil_r.
  - exists c'. rewrite app_nil_r in K3. split; [exact K1|]. split; [rewrite K2; cbn [ckind]; congruence|]. split; [exact K3|]. exists e. auto.
Qed.

Lemma t_new_same : forall k ctx cfg t r s', t_new w k ctx cfg t = Back r s' -> exists dial handshake o, connector_new (ctx_deadline ctx) cfg dial handshake = Ok (r, o) /\
  match o with
  | None => dial = None /\ r = Some NDial
  | Some c => ckind c = tkind s' /\ log c = tlog s' /\ (r <> Some NHandshake -> unread c = buffered s')
  end.
Proof.
  intros k ctx cfg t r s' H. unfold t_new in H. destruct (ends (fst (dialling w)) _ t) as [[it t1]|]; [|discriminate].
  assert (ND : Back (Some NDial) (new_tconn OtherConn t1) = Back r s' -> exists dial handshake o, connector_new (ctx_deadline ctx) cfg dial handshake = Ok (r, o) /\
    match o with None => dial = None /\ r = Some NDial | Some c => ckind c = tkind s' /\ log c = tlog s' /\ (r <> Some NHandshake -> unread c = buffered s') end).
  { intros X. injection X as <- <-. exists None, None, None. repeat split. }
  destruct (snd (dialling w)) as [kd|]; [|exact (ND H)]. destruct it; [|exact (ND H)]. cbn zeta in H. clear ND.
  destruct (match kd with Tcp => true | _ => false end && with_tls cfg)%bool eqn:Et.
  - destruct (t_send _ _ _ _ _ (new_tconn kd t1)) as [x s1| | |] eqn:E1; try discriminate. cbn [tbind] in H. destruct (plays_send _ _ _ _ _ _ _ _ E1 eq_refl eq_refl) as [P1 B1].
    destruct (plays_exists _ _ _ _ _ P1 eq_refl) as (rr & ds & ws & Q). specialize (Q []). destruct Q as (c1 & Q1 & Q2 & Q3 & evs & Q4 & Q5). cbn [new_tconn tkind tlog] in *. rewrite app_nil_r in *.
    destruct (snd x) as [e|] eqn:Ex.
    + injection H as <- <-. exists (Some (mkc kd rr ds ws [])), None, (Some c1). unfold connector_new. cbn [ckind]. rewrite Et, Q1. cbn [bind]. rewrite Ex. split; [reflexivity|]. repeat split; congruence.
    + destruct (ends (fst (shaking w)) (due s1) (now s1)) as [[it t2]|]; [|discriminate]. destruct (it && snd (shaking w))%bool.
      * set (s2 := t_reset _) in H. pose proof (plays_authenticate_or_close _ _ _ s2 _ _ H eq_refl eq_refl) as P2. destruct (plays_exists _ _ _ _ _ P2 eq_refl) as (r2 & ds2 & ws2 & U).
        specialize (U (log c1)). destruct U as (c2 & U1 & U2 & U3 & evs2 & U4 & U5). exists (Some (mkc kd rr ds ws [])), (Some (r2, ds2, ws2)), (Some c2). unfold connector_new. cbn [ckind]. rewrite Et, Q1. cbn [bind]. rewrite Ex.
        unfold conn_reset. change (tkind s2) with Tls in U1. rewrite U1. cbn [bind]. split; [reflexivity|]. split; [exact U2|]. split; [|auto]. rewrite U4, U5. change (tlog s2) with (tlog s1). congruence.
      * injection H as <- <-. exists (Some (mkc kd rr ds ws [])), None, (Some (close (mkc Tls (rd c1) (deadlines c1) (writes c1) (log c1)))). unfold connector_new. cbn [ckind]. rewrite Et, Q1. cbn [bind]. rewrite Ex.
        split; [reflexivity|]. cbn [close ckind log t_close tkind tlog]. split; [reflexivity|]. split; [congruence|]. intros X. exfalso. apply X. reflexivity.
  - pose proof (plays_authenticate_or_close _ _ _ _ _ _ H eq_refl eq_refl) as P2. destruct (plays_exists _ _ _ _ _ P2 eq_refl) as (r2 & ds2 & ws2 & U). specialize (U []). destruct U as (c2 & U1 & U2 & U3 & evs2 & U4 & U5).
    exists (Some (mkc kd r2 ds2 ws2 [])), None, (Some c2). unfold connector_new. cbn [ckind]. rewrite Et. cbn [new_tconn tkind] in U1. rewrite U1. cbn [bind]. split; [reflexivity|]. split; [exact U2|]. split; [|auto].
    rewrite U4, U5. reflexivity.
Qed.

Lemma auth_unbroken : forall k ctx cfg s s', t_authenticate_or_close w k ctx cfg s = Back None s' -> broke s = None -> kept s = None -> broke s' = None /\ kept s' = None.
Proof.
  intros k ctx cfg s s' H Hb Hk. split; [|exact (kept_plays _ _ _ _ _ (plays_authenticate_or_close _ _ _ _ _ _ H Hb Hk))].
  unfold t_authenticate_or_close in H. destruct (t_authenticate _ _ _ _ _ (authentication cfg) s) as [r s1| | |] eqn:E1; try discriminate. cbn [tbind] in H. cbn zeta in H.
  destruct (plays_authenticate _ _ _ _ _ _ _ _ _ E1 Hb Hk) as [P1 B1]. pose proof (kept_plays _ _ _ _ _ P1) as K1.
  destruct r as [e|]; [|injection H as <-; apply B1; cbn; tauto].
  destruct (match e with CServer m => code m =? ErAccessDeniedError | _ => false end && _)%bool eqn:Ed; [|discriminate].
  assert (NB : broke s1 = None) by (apply B1; destruct e; cbn in Ed |- *; try discriminate; tauto).
  destruct (t_authenticate _ _ _ _ _ plain s1) as [r2 s2| | |] eqn:E2; try discriminate. cbn [tbind] in H. destruct (plays_authenticate _ _ _ _ _ _ _ _ _ E2 NB K1) as [P2 B2].
  destruct r2; [discriminate|]. injection H as <-. apply B2. cbn. tauto.
Qed.

(* A connection New has made, and what is done with it afterwards. *)
Lemma t_new_then : forall k ctx cfg t s1, t_new w k ctx cfg t = Back None s1 -> broke s1 = None /\ kept s1 = None /\
  forall A (g : conn -> res (A * conn)) x s2, plays g s1 x s2 ->
  exists dial handshake c c', connector_new (ctx_deadline ctx) cfg dial handshake = Ok (None, Some c) /\ g c = Ok (x, c') /\ log c' = tlog s2 /\ unread c' = buffered s2.
Proof.
  intros k ctx cfg t s1 H. unfold t_new in H. destruct (ends (fst (dialling w)) _ t) as [[it t1]|]; [|discriminate].
  destruct (snd (dialling w)) as [kd|]; [|discriminate]. destruct it; [|discriminate]. cbn zeta in H.
  set (f A (g : conn -> res (A * conn)) c := do (r, c) <- authenticate_or_close (ctx_deadline ctx) cfg c; (do (x, c) <- g c; Ok ((r, x), c))).
  assert (F : forall A g c r (x : A) c', f A g c = Ok ((r, x), c') -> exists c1, authenticate_or_close (ctx_deadline ctx) cfg c = Ok (r, c1) /\ g c1 = Ok (x, c')).
  { intros A g c r x c' Hf. unfold f in Hf. destruct (authenticate_or_close _ _ _) as [[r1 c1]|]; [|discriminate]. cbn [bind] in Hf. destruct (g c1) as [[x1 c2]|] eqn:Eg; [|discriminate]. cbn [bind] in Hf.
    injection Hf as <- <- <-. exists c1. auto. }
  assert (P : forall s, t_authenticate_or_close w k ctx cfg s = Back None s1 -> broke s = None -> kept s = None -> forall A (g : conn -> res (A * conn)) x s2, plays g s1 x s2 -> plays (f A g) s (None, x) s2).
  { intros s Hs Hb Hk A g x s2 G. destruct (auth_unbroken _ _ _ _ _ Hs Hb Hk) as [B _]. unfold f.
    apply (plays_bind _ _ _ (fun r c => do (x, c) <- g c; Ok ((r, x), c)) s None s1); [exact (plays_authenticate_or_close _ _ _ _ _ _ Hs Hb Hk)|left; exact B|].
    apply (plays_bind _ _ g (fun x c => Ok ((None, x), c)) s1 x s2); [exact G|right; reflexivity|apply plays_ret; exact (kept_plays _ _ _ _ _ G)]. }
  destruct (match kd with Tcp => true | _ => false end && with_tls cfg)%bool eqn:Et.
  - destruct (t_send _ _ _ _ _ (new_tconn kd t1)) as [x0 s0| | |] eqn:E1; try discriminate. cbn [tbind] in H. destruct (plays_send _ _ _ _ _ _ _ _ E1 eq_refl eq_refl) as [P1 B1].
    destruct (plays_exists _ _ _ _ _ P1 eq_refl) as (rr & ds & ws & Q). specialize (Q []). destruct Q as (c1 & Q1 & Q2 & Q3 & evs & Q4 & Q5). cbn [new_tconn tkind tlog] in *. rewrite app_nil_r in *.
    destruct (snd x0) as [e|] eqn:Ex; [discriminate|]. destruct (ends (fst (shaking w)) (due s0) (now s0)) as [[it t2]|]; [|discriminate]. destruct (it && snd (shaking w))%bool; [|discriminate].
    set (s := t_reset _) in H. destruct (auth_unbroken _ _ _ _ _ H eq_refl eq_refl) as [X Y]. split; [exact X|]. split; [exact Y|]. intros A g x s2 G.
    destruct (plays_exists _ _ _ _ _ (P s H eq_refl eq_refl A g x s2 G) eq_refl) as (r2 & ds2 & ws2 & U). specialize (U (log c1)). destruct U as (c2 & U1 & U2 & U3 & evs2 & U4 & U5).
    destruct (F _ _ _ _ _ _ U1) as (c3 & V1 & V2). exists (Some (mkc kd rr ds ws [])), (Some (r2, ds2, ws2)), c3, c2. unfold connector_new. cbn [ckind]. rewrite Et, Q1. cbn [bind]. rewrite Ex.
    unfold conn_reset. change (tkind s) with Tls in V1. rewrite V1. cbn [bind]. split; [reflexivity|]. split; [exact V2|]. split; [|exact U3]. rewrite U4, U5. change (tlog s) with (tlog s0). congruence.
  - destruct (auth_unbroken _ _ _ _ _ H eq_refl eq_refl) as [X Y]. split; [exact X|]. split; [exact Y|]. intros A g x s2 G.
    destruct (plays_exists _ _ _ _ _ (P _ H eq_refl eq_refl A g x s2 G) eq_refl) as (r2 & ds2 & ws2 & U). specialize (U []). destruct U as (c2 & U1 & U2 & U3 & evs2 & U4 & U5). cbn [new_tconn tkind tlog] in *.
    destruct (F _ _ _ _ _ _ U1) as (c3 & V1 & V2). exists (Some (mkc kd r2 ds2 ws2 [])), None, c3, c2. unfold connector_new. cbn [ckind]. rewrite Et, V1. cbn [bind]. split; [reflexivity|]. split; [exact V2|]. split; [congruence|exact U3].
Qed.
End Model.
