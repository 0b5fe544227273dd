(* Proofs about System. *)
From Coq Require Import List NArith ZArith Arith Bool Lia ZifyN ZifyNat ZifyBool.
From Verif Require Import Base SpecWire SpecUnit Conn SpecReply ConnProofs ReplyProofs System SpecSystem.
From Verif Require Pool SpecPool PoolProofs ThmPool ThmConn.
Import ListNotations.
Open Scope N_scope.
Ltac Zify.zify_post_hook ::= Z.div_mod_to_equations.

(* ---- more bytes behind a reply do not change how it is read ---- *)

Lemma firstN_more : forall n (a b : bytes), n <= nlen a -> firstN n (a ++ b) = firstN n a.
Proof. intros. unfold firstN, nlen in *. rewrite firstn_app. replace (N.to_nat n - length a)%nat with 0%nat by lia. cbn [firstn]. apply app_nil_r. Qed.
Lemma skipN_more : forall n (a b : bytes), n <= nlen a -> skipN n (a ++ b) = skipN n a ++ b.
Proof. intros. unfold skipN, nlen in *. rewrite skipn_app. replace (N.to_nat n - length a)%nat with 0%nat by lia. reflexivity. Qed.

Lemma amessage_more : forall w32 fin fin' bs more st b n r, amessage w32 fin bs = (inl (st, b, n), r) ->
  amessage w32 fin' (bs ++ more) = (inl (st, b, n), r ++ more) /\ n <= nlen r.
Proof.
  intros w32 fin fin' bs more st b n r H. unfold amessage in *. destruct (N.ltb_spec (nlen bs) 5) as [|H5]; [discriminate|].
  assert (L : nlen (bs ++ more) = nlen bs + nlen more) by (unfold nlen; rewrite app_length; lia).
  destruct (N.ltb_spec (nlen (bs ++ more)) 5); [lia|].
  replace (firstn 4 (bs ++ more)) with (firstn 4 bs) by (symmetry; apply (firstN_more 4); lia).
  replace (firstn 5 (bs ++ more)) with (firstn 5 bs) by (symmetry; apply (firstN_more 5); lia).
  replace (nth 4 (bs ++ more) 0) with (nth 4 bs 0) by (symmetry; apply app_nth1; unfold nlen in *; lia).
  rewrite (skipN_more 5) by lia.
  destruct (_ <? 1)%Z; [discriminate|]. destruct (0 <? _).
  2:{ injection H as <- <- <- <-. split; [reflexivity|]. lia. }
  assert (L' : nlen (skipN 5 bs ++ more) = nlen (skipN 5 bs) + nlen more) by (unfold nlen; rewrite app_length; lia).
  set (m := Z.to_N _) in *. destruct (m <=? buf_size).
  - destruct (N.leb_spec m (nlen (skipN 5 bs))) as [Hm|]; [|discriminate]. injection H as <- <- <- <-.
    destruct (N.leb_spec m (nlen (skipN 5 bs ++ more))); [|lia]. rewrite firstN_more by lia. split; [reflexivity|lia].
  - destruct (N.leb_spec m (nlen (skipN 5 bs))) as [Hm|]; [|discriminate]. injection H as <- <- <- <-.
    destruct (N.leb_spec m (nlen (skipN 5 bs ++ more))); [|lia]. rewrite firstN_more, skipN_more by lia. split; [reflexivity|lia].
Qed.

Lemma aread_more : forall k bs, (length bs <= k)%nat -> forall w32 ct fin fin' more r e q, aread w32 ct fin bs = ((r, e), q) ->
  e = None \/ r <> None -> aread w32 ct fin' (bs ++ more) = ((r, e), q ++ more).
Proof.
  induction k as [|k IH]; intros bs Hk w32 ct fin fin' more r e q H He; rewrite aread_eq in H.
  - destruct bs; [|cbn in Hk; lia]. cbn in H. injection H as <- <- <-. destruct He; congruence.
  - destruct (amessage w32 fin bs) as [[[[st b] n]|x] u] eqn:E.
    + pose proof (amessage_consumes _ _ _ _ _ _ _ E) as C. destruct (amessage_more w32 fin fin' bs more _ _ _ _ E) as [M1 M2].
      rewrite aread_eq, M1. rewrite skipN_more by exact M2. destruct (dispatch ct st b) as [[resp o]|].
      * destruct o as [[]|]; injection H as <- <- <-; reflexivity.
      * apply (IH (skipN n u) ltac:(lia) w32 ct fin fin' more _ _ _ H He).
    + injection H as <- <- <-. destruct He; congruence.
Qed.

(* Reading replies of a server that may stop at any point. *)
Lemma areads_served : forall w32 fin xs p more, Forall (exchange_ok w32) xs -> p ++ more = replies_bytes xs ->
  let A := areads w32 (map (fun x => fst (asked x)) xs) fin p in
  (snd (fst A) = None -> fst (fst A) = map seen_as xs /\ snd A = [] /\ more = []) /\
  (snd (fst A) <> None -> responses_to_first xs (fst (fst A))).
Proof.
  intros w32 fin xs. induction xs as [|x xs IH]; intros p more Hx Hp; cbn [map areads fst snd].
  - apply app_eq_nil in Hp. destruct Hp as [-> ->]. split; [auto|congruence].
  - inversion Hx as [|? ? Hx1 Hx2]; subst. change (replies_bytes (x :: xs)) with (reply_bytes (replied x) ++ replies_bytes xs) in Hp.
    destruct (aread w32 (fst (asked x)) fin p) as [[r e] q] eqn:E.
    pose proof (aread_reply w32 (fst (asked x)) fin (replied x) (seen_as x) (replies_bytes xs) (proj2 Hx1)) as G. rewrite <- Hp in G.
    cbn [fst snd]. destruct e as [e|]; cbn [fst snd].
    + split; [discriminate|]. intros _. exists [], (x :: xs), [r]. split; [reflexivity|]. split; [reflexivity|]. right. destruct r as [r|]; [|left; reflexivity]. right.
      rewrite (aread_more (length p) p (le_n _) _ _ _ fin more _ _ _ E) in G by (right; discriminate). injection G as G _ _. exists x, xs. rewrite <- G. auto.
    + rewrite (aread_more (length p) p (le_n _) _ _ _ fin more _ _ _ E) in G by (left; reflexivity). injection G as -> _ G.
      specialize (IH q more Hx2 G). cbn zeta in IH. destruct (areads w32 _ fin q) as [[rs o] q']. cbn [fst snd] in *. destruct IH as [I1 I2]. split.
      * intros Ho. destruct (I1 Ho) as (-> & -> & ->). auto.
      * intros Ho. destruct (I2 Ho) as (ys & zs & t & -> & -> & K). exists (x :: ys), zs, t. split; [reflexivity|]. split; [reflexivity|exact K].
Qed.

Lemma unread_arrive : forall chunks c, unread (arrive chunks c) = unread c ++ concat chunks.
Proof. intros. unfold unread, arrive. cbn. rewrite concat_app, app_assoc. reflexivity. Qed.

Lemma requests_of : forall xs, request_bytes xs = concat (map frame (map asked xs)).
Proof. intros. unfold request_bytes. rewrite map_map. reflexivity. Qed.

(* One exchange on a connection in sync. *)
Lemma send_served : forall w32 d xs chunks more c, Forall (exchange_ok w32) xs -> concat chunks ++ more = replies_bytes xs -> unread c = [] ->
  exists rs e c', conn_send w32 d (request_bytes xs) (arrive chunks c) = Ok ((rs, e), c') /\
    (e = None -> rs = map seen_as xs /\ unread c' = []) /\ (e <> None -> responses_to_first xs rs).
Proof.
  intros w32 d xs chunks more c Hx Hc Hu. set (a := arrive chunks c).
  assert (F : Forall (fun f => 1 + nlen (snd f) < 2 ^ 32) (map asked xs)) by (apply Forall_map; eapply Forall_impl; [|exact Hx]; intros x [H _]; exact H).
  assert (D : can_write a \/ ~ can_write a).
  { unfold can_write. destruct (fst (next_result (deadlines a))); [right; intros [H _]; discriminate H|]. destruct (fst (next_result (writes a))); [right; intros [_ H]; discriminate H|auto]. }
  destruct D as [D|D].
  - rewrite requests_of. destruct (send_spec w32 d _ a F D) as (c' & A & B & _). cbn zeta in A, B. rewrite (map_map asked fst) in A, B.
    assert (U : unread a = concat chunks) by (unfold a; rewrite unread_arrive, Hu; reflexivity).
    rewrite U in A, B. pose proof (areads_served w32 (ended (rd a)) xs (concat chunks) more Hx Hc) as [S1 S2].
    destruct (areads w32 _ (ended (rd a)) (concat chunks)) as [[rs e] q]. cbn [fst snd] in *. exists rs, e, c'. split; [exact A|]. rewrite B. split; [|exact S2].
    intros He. destruct (S1 He) as (-> & -> & _). auto.
  - unfold conn_send, set_deadline, write. unfold can_write in D.
    destruct (next_result (deadlines a)) as [[x|] l].
    + exists [], (Some (CDeadline x)), (mkc (ckind a) (rd a) l (writes a) (SetDeadline (ckind a) d (Some x) :: log a)). split; [reflexivity|]. split; [discriminate|]. intros _. exists [], xs, []. auto.
    + cbn [writes ckind rd deadlines log]. destruct (next_result (writes a)) as [[x|] l'] eqn:Ew; [|destruct D; cbn; auto].
      eexists [], (Some (CWrite x)), _. split; [reflexivity|]. split; [discriminate|]. intros _. exists [], xs, []. auto.
Qed.

(* ---- the pool inside ---- *)

Lemma step_units : forall w32 a s s', step w32 a s = Some s' -> exists more, units s' = units s ++ more.
Proof.
  intros w32 a s s' H. unfold step in H. destruct a as [a|d b|i c|i chunks].
  - destruct a as [| |j|j|j|j|j ok|j ok|j|j|j]; try destruct ok; try discriminate H;
      (destruct (Pool.step _ (pool s)); [|discriminate H]); injection H as <-; eexists; reflexivity.
  - destruct (Pool.step _ _); [|discriminate]. injection H as <-. eexists. reflexivity.
  - destruct (Pool.step _ _); [|discriminate]. injection H as <-. exists []. symmetry. apply app_nil_r.
  - destruct (nth_error (Pool.calls (pool s)) i) as [[[| |k| | | | | | |] b]|]; try discriminate. destruct (nth_error (units s) i) as [[[d u]|]|]; try discriminate.
    destruct (nth_error (conns s) k) as [c|]; [|discriminate]. destruct (conn_send _ _ _ _) as [[r c']|].
    + destruct (Pool.step _ _); [|discriminate]. injection H as <-. exists []. symmetry. apply app_nil_r.
    + injection H as <-. exists []. symmetry. apply app_nil_r.
Qed.
Lemma run_units : forall w32 acts s s', run w32 acts s = Some s' -> exists more, units s' = units s ++ more.
Proof.
  intros w32 acts. induction acts as [|a acts IH]; intros s s' H; cbn in H; [injection H as <-; exists []; symmetry; apply app_nil_r|].
  destruct (step w32 a s) as [u|] eqn:E; [|discriminate]. destruct (step_units _ _ _ _ E) as (m & M). destruct (IH _ _ H) as (m' & M'). exists (m ++ m'). rewrite M', M, app_assoc. reflexivity.
Qed.
Lemma unit_grows : forall s s' more i x, units s' = units s ++ more -> nth_error (units s) i = Some x -> nth_error (units s') i = Some x.
Proof. intros s s' more i x -> H. rewrite nth_error_app1; [exact H|]. apply nth_error_Some. congruence. Qed.

Definition uses (h : list Pool.event) : list (nat * bool) := flat_map (fun e => match e with Pool.Used i _ ok => [(i, ok)] | _ => [] end) h.
Definition last_write (s : system) (k : nat) (l : list (bytes * option ioerr)) : Prop :=
  l = [] \/ exists i b o, l = [(b, o)] /\ unit_is s i b /\ In (Pool.Used i k false) (SpecPool.history (pool s)).

Record sinv (n : nat) (said : nat -> list exchange) (s : system) : Prop := {
  i_pool : SpecPool.reachable n (pool s);
  i_conns : length (conns s) = Pool.next (pool s);
  i_started : length (started s) = Pool.next (pool s);
  i_units : length (units s) = length (Pool.calls (pool s));
  i_sync : forall k c, nth_error (conns s) k = Some c ->
    In k (Pool.idle (pool s)) \/ (exists i b, nth_error (Pool.calls (pool s)) i = Some (Pool.SSend k, b) \/ nth_error (Pool.calls (pool s)) i = Some (Pool.SReturn k, b)) ->
    unread c = [];
  i_got : forall i rs e, got s i rs e -> (e = None -> rs = map seen_as (said i)) /\ (e <> None -> responses_to_first (said i) rs);
  i_uses : map (fun r => (fst r, is_none (snd (snd r)))) (results s) = uses (Pool.log (pool s));
  i_writes : forall k c c0, nth_error (conns s) k = Some c -> nth_error (started s) k = Some c0 ->
    exists us l, attempts c = attempts c0 ++ map (fun u => (u, None)) us ++ l /\ Forall2 (unit_is s) (users k (SpecPool.history (pool s))) us /\ last_write s k l }.

Lemma reachable_step : forall n a s s', SpecPool.reachable n s -> Pool.step a s = Some s' -> SpecPool.reachable n s'.
Proof. intros n a s s' [acts H] E. exists (acts ++ [a]). rewrite PoolProofs.run_app, H. cbn. rewrite E. reflexivity. Qed.

(* A step of the pool that does not concern connections. *)
Definition quiet (a : Pool.action) : Prop := match a with Pool.CallSend | Pool.CallClose | Pool.Dialled _ true | Pool.Sent _ _ => False | _ => True end.

(* In the pool or in good use. *)
Definition live (p : Pool.state) (k : nat) : Prop :=
  In k (Pool.idle p) \/ (exists i b, nth_error (Pool.calls p) i = Some (Pool.SSend k, b) \/ nth_error (Pool.calls p) i = Some (Pool.SReturn k, b)).

Definition same_history (p p' : Pool.state) : Prop :=
  uses (Pool.log p') = uses (Pool.log p) /\ (forall k, users k (SpecPool.history p') = users k (SpecPool.history p)) /\
  (forall e, In e (SpecPool.history p) -> In e (SpecPool.history p')).

Lemma same_history_es : forall p p' es, Pool.log p' = es ++ Pool.log p -> (forall i c ok, ~ In (Pool.Used i c ok) es) -> same_history p p'.
Proof.
  intros p p' es He Hn. unfold same_history, SpecPool.history. rewrite He.
  assert (U : uses es = []) by (clear He; induction es as [|e es IH]; [reflexivity|]; cbn [uses flat_map]; fold (uses es); rewrite IH by (intros i c ok H; apply (Hn i c ok); right; exact H); destruct e; try reflexivity; destruct (Hn i c ok); left; reflexivity).
  assert (V : forall k, users k (rev es) = []).
  { intros k. assert (Hr : forall i c ok, ~ In (Pool.Used i c ok) (rev es)) by (intros i c ok H; apply (Hn i c ok), in_rev; exact H). revert Hr. generalize (rev es). intros l Hr.
    induction l as [|e l IH]; [reflexivity|]. cbn [users flat_map]. fold (users k l). rewrite IH by (intros i c ok H; apply (Hr i c ok); right; exact H). destruct e; try reflexivity. destruct (Hr i c ok). left. reflexivity. }
  split; [unfold uses; rewrite flat_map_app; fold (uses es); rewrite U; reflexivity|]. split.
  - intros k. rewrite rev_app_distr. unfold users. rewrite flat_map_app. fold (users k (rev es)). rewrite V. apply app_nil_r.
  - intros e H. rewrite rev_app_distr. apply in_or_app. auto.
Qed.

Lemma live_go : forall p i x y b b' q es, nth_error (Pool.calls p) i = Some (x, b) ->
  (forall k, In k q -> In k (Pool.idle p) \/ x = Pool.SReturn k) ->
  (forall k, y = Pool.SSend k \/ y = Pool.SReturn k -> In k (Pool.idle p) \/ y = x) ->
  forall k, live (Pool.go p i y b' q es) k -> live p k.
Proof.
  intros p i x y b b' q es Hi Hq Hy k [H|(j & c & Hj)]; unfold Pool.go in *; cbn [Pool.idle Pool.calls] in *.
  - destruct (Hq k H) as [|E]; [left; assumption|]. right. exists i, b. right. congruence.
  - rewrite !PoolProofs.nth_set, Hi in Hj. destruct (Nat.eq_dec i j) as [<-|].
    + assert (Y : y = Pool.SSend k \/ y = Pool.SReturn k) by (destruct Hj as [[= <- _]|[= <- _]]; auto).
      destruct (Hy k Y) as [|E]; [left; assumption|]. right. exists i, b. subst x. destruct Y as [-> | ->]; auto.
    + right. exists j, c. exact Hj.
Qed.

Ltac go_case Ei := split; [reflexivity|]; split; [unfold Pool.go; cbn [Pool.calls]; rewrite PoolProofs.set_nth_length; lia|]; split;
  [eapply same_history_es; [reflexivity|]; intros; cbn; intuition discriminate
  |eapply live_go; [exact Ei| |]; intros k0].

Lemma quiet_step : forall a p p', Pool.step a p = Some p' -> quiet a \/ a = Pool.CallClose \/ a = Pool.CallSend ->
  Pool.next p' = Pool.next p /\ length (Pool.calls p') = (length (Pool.calls p) + (match a with Pool.CallClose | Pool.CallSend => 1 | _ => 0 end))%nat /\
  same_history p p' /\ (forall k, live p' k -> live p k).
Proof.
  intros a p p' H Hq. unfold Pool.step in H. destruct (Pool.crashed p); [discriminate|].
  destruct a as [| |j|j|j|j|j ok|j ok|j|j|j]; cbn [quiet] in Hq; try (exfalso; destruct Hq as [[]|[?|?]]; discriminate).
  - injection H as <-. split; [reflexivity|]. split; [cbn; rewrite app_length; reflexivity|]. split; [apply (same_history_es _ _ []); [reflexivity|intros ? ? ? []]|].
    intros k [Hk|(i & b & Hi)]; [left; exact Hk|]. right. exists i, b. cbn [Pool.calls] in Hi. destruct (Nat.lt_ge_cases i (length (Pool.calls p))) as [Hl|Hl].
    + rewrite nth_error_app1 in Hi by exact Hl. exact Hi.
    + rewrite nth_error_app2 in Hi by exact Hl. destruct (i - _)%nat as [|m]; cbn in Hi; [destruct Hi; discriminate|destruct m; destruct Hi; discriminate].
  - injection H as <-. split; [reflexivity|]. split; [cbn; rewrite app_length; reflexivity|]. split; [apply (same_history_es _ _ []); [reflexivity|intros ? ? ? []]|].
    intros k [Hk|(i & b & Hi)]; [left; exact Hk|]. right. exists i, b. cbn [Pool.calls] in Hi. destruct (Nat.lt_ge_cases i (length (Pool.calls p))) as [Hl|Hl].
    + rewrite nth_error_app1 in Hi by exact Hl. exact Hi.
    + rewrite nth_error_app2 in Hi by exact Hl. destruct (i - _)%nat as [|m]; cbn in Hi; [destruct Hi; discriminate|destruct m; destruct Hi; discriminate].
  - destruct (nth_error (Pool.calls p) j) as [[x b]|] eqn:Ei; [|discriminate]. injection H as <-. split; [reflexivity|]. split; [cbn; rewrite PoolProofs.set_nth_length; lia|].
    split; [apply (same_history_es _ _ []); [reflexivity|intros ? ? ? []]|]. eapply live_go; [exact Ei|auto|]. auto.
  - destruct (nth_error (Pool.calls p) j) as [[[| |c|c|c|c| |c|o|o] b]|] eqn:Ei; try discriminate; (destruct (Pool.idle p) as [|c0 q0] eqn:Eq; [destruct (Pool.ch_closed p); [|discriminate]|]); injection H as <-; go_case Ei; rewrite ?Eq.
    all: try (intros []; congruence); try (intros H; left; right; exact H); try (intros []; discriminate); try (intros [H|H]; [injection H as ->|discriminate]; left; left; reflexivity).
  - destruct (nth_error (Pool.calls p) j) as [[[| |c|c|c|c| |c|o|o] [|]]|] eqn:Ei; try discriminate; injection H as <-; go_case Ei.
    all: try (intros H; left; exact H); try (intros []; discriminate).
  - destruct (nth_error (Pool.calls p) j) as [[[| |c|c|c|c| |c|o|o] [|]]|] eqn:Ei; try discriminate; (destruct (Pool.idle p) as [|c0 q0] eqn:Eq; [|discriminate]); (destruct (Pool.ch_closed p); [discriminate|]); injection H as <-; go_case Ei; rewrite ?Eq.
    all: try (intros H; left; exact H); try (intros []; discriminate).
  - destruct ok; [destruct Hq as [[]|[?|?]]; discriminate|]. destruct (nth_error (Pool.calls p) j) as [[[| |c|c|c|c| |c|o|o] b]|] eqn:Ei; try discriminate; injection H as <-; go_case Ei.
    all: try (intros H; left; exact H); try (intros []; discriminate).
  - destruct (nth_error (Pool.calls p) j) as [[[| |c|c|c|c| |c|o|o] b]|] eqn:Ei; try discriminate; injection H as <-; go_case Ei.
    all: try (intros H; left; exact H); try (intros []; discriminate).
  - destruct (nth_error (Pool.calls p) j) as [[[| |c|c|c|c| |c|o|o] b]|] eqn:Ei; try discriminate. destruct (Pool.ch_closed p).
    + injection H as <-. split; [reflexivity|]. split; [cbn; lia|]. split; [apply (same_history_es _ _ []); [reflexivity|intros ? ? ? []]|]. intros k Hk. exact Hk.
    + destruct (_ <? _)%nat; injection H as <-; go_case Ei.
      * intros H. apply in_app_or in H. destruct H as [H|[->|[]]]; auto.
      * intros []; discriminate.
      * auto.
      * intros []; discriminate.
  - destruct (nth_error (Pool.calls p) j) as [[[| |c|c|c|c| |c|o|o] b]|] eqn:Ei; try discriminate. destruct (Pool.ch_closed p).
    + injection H as <-. split; [reflexivity|]. split; [cbn; lia|]. split; [apply (same_history_es _ _ []); [reflexivity|intros ? ? ? []]|]. intros k Hk. exact Hk.
    + injection H as <-. split; [reflexivity|]. split; [cbn; rewrite PoolProofs.set_nth_length; lia|]. split; [apply (same_history_es _ _ []); [reflexivity|intros ? ? ? []]|].
      intros k [Hk|(i & b' & Hi)]; [left; exact Hk|]. right. exists i, b'. cbn [Pool.calls] in Hi. rewrite !PoolProofs.nth_set, Ei in Hi. destruct (Nat.eq_dec j i); [destruct Hi; discriminate|exact Hi].
Qed.

Lemma used_exists : forall n p, SpecPool.reachable n p -> forall i c ok, In (Pool.Used i c ok) (Pool.log p) -> (c < Pool.next p)%nat.
Proof.
  intros n. apply (PoolProofs.reachable_ind n (fun p => forall i c ok, In (Pool.Used i c ok) (Pool.log p) -> (c < Pool.next p)%nat)); [intros i c ok []|].
  intros a s s' Hr IH Hs i c ok Hin. destruct (PoolProofs.step_spec _ _ _ Hs) as (es & El & Ee & _). rewrite El in Hin.
  assert (N : (Pool.next s <= Pool.next s')%nat).
  { unfold Pool.step in Hs. destruct (Pool.crashed s); [discriminate|]. destruct a; PoolProofs.split_step Hs; injection Hs as <-; cbn; lia. }
  apply in_app_or in Hin. destruct Hin as [Hin|Hin]; [|specialize (IH _ _ _ Hin); lia].
  destruct Ee as [->|(e & -> & Em)]; [destruct Hin|]. destruct Hin as [->|[]]. cbn in Em.
  destruct Em as (b & Hb). pose proof (PoolProofs.one_place _ (PoolProofs.inv_reachable _ _ Hr) c) as P.
  assert (In c (PoolProofs.held (Pool.calls s))) as Hh by (apply PoolProofs.held_holds; exists i, (Pool.SSend c), b; split; [exact Hb|left; reflexivity]).
  apply PoolProofs.cnt_in in Hh. unfold PoolProofs.here in P. destruct (c <? Pool.next s)%nat eqn:E; [apply Nat.ltb_lt in E; lia|lia].
Qed.

Lemma users_none : forall n p k, SpecPool.reachable n p -> (Pool.next p <= k)%nat -> users k (SpecPool.history p) = [].
Proof.
  intros n p k Hr Hk. assert (H : forall i ok, ~ In (Pool.Used i k ok) (SpecPool.history p)).
  { intros i ok Hin. apply in_rev in Hin. pose proof (used_exists n p Hr _ _ _ Hin). lia. }
  revert H. generalize (SpecPool.history p). intros h. induction h as [|e h IH]; intros H; [reflexivity|]. cbn [users flat_map]. fold (users k h).
  rewrite IH by (intros i ok Hi; apply (H i ok); right; exact Hi). destruct e; try reflexivity. destruct ok; [|reflexivity]. destruct (Nat.eqb_spec k c); [|reflexivity].
  subst. destruct (H i true). left. reflexivity.
Qed.

(* The connection a call is sending on has not failed before. *)
Lemma sending_not_failed : forall n p i j k b, SpecPool.reachable n p -> nth_error (Pool.calls p) i = Some (Pool.SSend k, b) -> ~ In (Pool.Used j k false) (SpecPool.history p).
Proof.
  intros n p i j k b Hr Hi Hin. apply in_rev in Hin. apply in_split in Hin. destruct Hin as (later & earlier & El).
  destruct (ThmPool.fail_log n p Hr _ _ _ _ El) as [[D|(b' & D)] _].
  - assert (SpecPool.holds p i k) as Hh by (exists (Pool.SSend k), b; split; [exact Hi|left; reflexivity]). destruct (ThmPool.C37_used_is_not_idle n p i k Hr Hh) as [_ Hc]. contradiction.
  - assert (i = j) by (apply (ThmPool.C37_one_user n p i j k Hr); [exists (Pool.SSend k), b|exists (Pool.SFail k), b']; (split; [assumption|left; reflexivity])). subst. congruence.
Qed.

Lemma unit_is_grows : forall s s' more i b, units s' = units s ++ more -> unit_is s i b -> unit_is s' i b.
Proof. intros s s' more i b E [d H]. exists d. eapply unit_grows; eassumption. Qed.
Lemma units_grow : forall s s' more is us, units s' = units s ++ more -> Forall2 (unit_is s) is us -> Forall2 (unit_is s') is us.
Proof. intros s s' more is us E H. induction H; constructor; [eapply unit_is_grows; eassumption|assumption]. Qed.

Lemma sinv_new : forall n said, sinv n said (new_system n).
Proof.
  intros n said. constructor; try reflexivity.
  - exists []. reflexivity.
  - intros [|k] c H; discriminate H.
  - intros i rs e [].
  - intros [|k] c c0 H; discriminate H.
Qed.

(* A step of the pool that does not concern the inside of connections. *)
Lemma sinv_quiet : forall n said s p us, sinv n said s -> SpecPool.reachable n p -> Pool.next p = Pool.next (pool s) ->
  length (Pool.calls p) = (length (Pool.calls (pool s)) + length us)%nat -> same_history (pool s) p -> (forall k, live p k -> live (pool s) k) ->
  sinv n said (mksys p (conns s) (started s) (units s ++ us) (results s)).
Proof.
  intros n said s p us I Hr Hn Hc (H1 & H2 & H3) Hl. destruct I. constructor; cbn [pool conns started units results]; try congruence.
  - rewrite app_length. congruence.
  - intros k c Hk L. apply (i_sync0 k c Hk). apply Hl, L.
  - exact i_got0.
  - intros k c c0 Hk Hk0. destruct (i_writes0 k c c0 Hk Hk0) as (vs & l & A & B & C). exists vs, l. split; [exact A|]. rewrite H2. split; [eapply units_grow; [reflexivity|exact B]|].
    destruct C as [->|(i & b & o & -> & C1 & C2)]; [left; reflexivity|]. right. exists i, b, o. split; [reflexivity|]. split; [eapply unit_is_grows; [reflexivity|exact C1]|apply H3, C2].
Qed.

Lemma sinv_step : forall n said w32 a s s', sinv n said s -> step w32 a s = Some s' -> sends said s' -> serves w32 said a -> sinv n said s'.
Proof.
  intros n said w32 a s s' I H Hs Hv. unfold step in H. destruct a as [a|d b|i c|i chunks].
  - assert (Q : forall p, Pool.step a (pool s) = Some p -> quiet a \/ a = Pool.CallClose ->
      sinv n said (mksys p (conns s) (started s) (units s ++ match a with Pool.CallClose => [None] | _ => [] end) (results s))).
    { intros p E Hq. destruct (quiet_step _ _ _ E ltac:(destruct Hq; auto)) as (Q1 & Q2 & Q3 & Q4). apply sinv_quiet; auto.
      - eapply reachable_step; [apply (i_pool _ _ _ I)|exact E].
      - rewrite Q2. destruct Hq as [Hq| ->]; [|reflexivity]. destruct a; try reflexivity; destruct Hq. }
    destruct a as [| |j|j|j|j|j ok|j ok|j|j|j]; try discriminate H; try destruct ok; try discriminate H;
      (destruct (Pool.step _ (pool s)) as [p|] eqn:E; [|discriminate H]); injection H as <-; apply Q; auto; left; exact Logic.I.
  - destruct (Pool.step _ _) as [p|] eqn:E; [|discriminate]. injection H as <-. destruct (quiet_step _ _ _ E ltac:(auto)) as (Q1 & Q2 & Q3 & Q4). apply sinv_quiet; auto.
    eapply reachable_step; [apply (i_pool _ _ _ I)|exact E].
  - destruct (Pool.step _ _) as [p|] eqn:E; [|discriminate]. injection H as <-. pose proof (reachable_step _ _ _ _ (i_pool _ _ _ I) E) as Hr. cbn in Hv.
    unfold Pool.step in E. destruct (Pool.crashed (pool s)); [discriminate|]. destruct (nth_error (Pool.calls (pool s)) i) as [[x b]|] eqn:Ei; [|discriminate]. destruct x; try discriminate. injection E as <-.
    set (p := Pool.mks _ _ _ _ _ _ _) in *. assert (SH : same_history (pool s) p) by (apply (same_history_es _ _ [Pool.Created i (Pool.next (pool s))]); [reflexivity|cbn; intuition discriminate]).
    destruct I. constructor; cbn [pool conns started units results].
    + exact Hr.
    + rewrite app_length, i_conns0. cbn. lia.
    + rewrite app_length, i_started0. cbn. lia.
    + unfold p. cbn [Pool.calls]. rewrite PoolProofs.set_nth_length. assumption.
    + intros k c' Hk L. destruct (Nat.lt_ge_cases k (length (conns s))) as [Hlt|Hge].
      * rewrite nth_error_app1 in Hk by exact Hlt. apply (i_sync0 k c' Hk). destruct L as [L|(j & b' & L)]; [left; exact L|]. right. exists j, b'.
        unfold p in L. cbn [Pool.calls] in L. rewrite !PoolProofs.nth_set, Ei in L. destruct (Nat.eq_dec i j); [|exact L]. exfalso. destruct L as [[= L _]|[=]]. lia.
      * rewrite nth_error_app2 in Hk by exact Hge. destruct (k - _)%nat as [|m]; cbn in Hk; [|destruct m; discriminate]. congruence.
    + exact i_got0.
    + rewrite i_uses0. symmetry. apply SH.
    + intros k c' c0 Hk Hk0. destruct (Nat.lt_ge_cases k (length (conns s))) as [Hlt|Hge].
      * rewrite nth_error_app1 in Hk by exact Hlt. rewrite nth_error_app1 in Hk0 by congruence. destruct (i_writes0 k c' c0 Hk Hk0) as (vs & l & A & B & C). exists vs, l. split; [exact A|].
        destruct SH as (_ & H2 & H3). rewrite H2. split; [exact B|]. destruct C as [->|(j & b' & o & -> & C1 & C2)]; [left; reflexivity|]. right. exists j, b', o. split; [reflexivity|]. split; [exact C1|apply H3, C2].
      * rewrite nth_error_app2 in Hk by exact Hge. rewrite nth_error_app2 in Hk0 by congruence. replace (length (started s)) with (length (conns s)) in Hk0 by congruence.
        assert (c' = c0) by congruence. subst c0. exists [], []. split; [rewrite !app_nil_r; reflexivity|]. split; [|left; reflexivity].
        destruct SH as (_ & H2 & _). rewrite H2, (users_none n (pool s) k i_pool0); [constructor|lia].
  - destruct (nth_error (Pool.calls (pool s)) i) as [[[| |k| | | | | | |] b]|] eqn:Ei; try discriminate. destruct (nth_error (units s) i) as [[[d u]|]|] eqn:Eu; try discriminate.
    destruct (nth_error (conns s) k) as [c|] eqn:Ek; [|discriminate]. destruct Hv as (Hx & more & Hm).
    assert (Hu : u = request_bytes (said i)).
    { apply (Hs i d). destruct (conn_send w32 d u (arrive chunks c)) as [[r c']|]; [destruct (Pool.step _ (pool s)); [|discriminate]|]; injection H as <-; exact Eu. }
    assert (Su : unread c = []) by (apply (i_sync _ _ _ I k c Ek); right; exists i, b; left; exact Ei).
    destruct (send_served w32 d (said i) chunks more c Hx Hm Su) as (rs & e & c' & S1 & S2 & S3). rewrite <- Hu in S1. rewrite S1 in H. cbn [snd] in H.
    destruct (Pool.step _ (pool s)) as [p|] eqn:E; [|discriminate]. injection H as <-. pose proof (reachable_step _ _ _ _ (i_pool _ _ _ I) E) as Hr.
    unfold Pool.step in E. destruct (Pool.crashed (pool s)) eqn:Ec; [discriminate|]. rewrite Ei in E. injection E as <-. set (p := Pool.go _ _ _ _ _ _) in *.
    assert (Hk : SpecPool.history p = SpecPool.history (pool s) ++ [Pool.Used i k (is_none e)]) by (unfold p, SpecPool.history, Pool.go; reflexivity).
    assert (Ho : SpecPool.holds (pool s) i k) by (exists (Pool.SSend k), b; split; [exact Ei|left; reflexivity]).
    pose proof (i_pool _ _ _ I) as Hr0.
    destruct I. constructor; cbn [pool conns started units results].
    + exact Hr.
    + rewrite PoolProofs.set_nth_length. exact i_conns0.
    + exact i_started0.
    + unfold p, Pool.go. cbn [Pool.calls]. rewrite PoolProofs.set_nth_length. assumption.
    + intros k' c1 Hc1 L. rewrite PoolProofs.nth_set, Ek in Hc1. destruct (Nat.eq_dec k k') as [<-|Hne].
      * injection Hc1 as <-. destruct e as [e|]; [|apply S2; reflexivity]. exfalso. destruct L as [L|(j & b' & L)].
        -- apply (proj1 (ThmPool.C37_used_is_not_idle n _ i k Hr0 Ho)). exact L.
        -- unfold p, Pool.go in L. cbn [Pool.calls is_none] in L. rewrite !PoolProofs.nth_set, Ei in L. destruct (Nat.eq_dec i j) as [<-|Hij]; [destruct L; discriminate|].
           apply Hij. apply (ThmPool.C37_one_user n _ i j k Hr0 Ho). destruct L as [L|L]; [exists (Pool.SSend k), b'|exists (Pool.SReturn k), b']; (split; [exact L|left; reflexivity]).
      * apply (i_sync0 k' c1 Hc1). destruct L as [L|(j & b' & L)]; [left; exact L|]. right. exists j, b'. unfold p, Pool.go in L. cbn [Pool.calls] in L. rewrite !PoolProofs.nth_set, Ei in L.
        destruct (Nat.eq_dec i j); [|exact L]. exfalso. destruct e; cbn in L; destruct L as [[= L]|[= L]]; congruence.
    + intros j rs' e' [[= <- <- <-]|Hin]; [|exact (i_got0 _ _ _ Hin)]. split; [intros He; apply S2; exact He|exact S3].
    + cbn [map fst snd]. rewrite i_uses0. reflexivity.
    + intros k' c1 c0 Hc1 Hc0. rewrite PoolProofs.nth_set, Ek in Hc1. rewrite Hk. unfold users. rewrite flat_map_app. fold (users k' (SpecPool.history (pool s))). destruct (Nat.eq_dec k k') as [<-|Hne].
      * injection Hc1 as <-. destruct (i_writes0 k c c0 Ek Hc0) as (vs & l & A & B & C).
        assert (l = []) as -> by (destruct C as [->|(j & b' & o & _ & _ & C)]; [reflexivity|destruct (sending_not_failed n _ i j k b Hr0 Ei C)]). rewrite app_nil_r in A.
        assert (W : (exists o, attempts c' = attempts c ++ [(u, o)] /\ (e = None -> o = None)) \/ attempts c' = attempts c /\ e <> None).
        { destruct (ThmConn.C48_one_write_after_deadline _ _ _ _ _ _ S1) as [(x & L1 & L2)|(o & L1 & L2)].
          - right. unfold attempts. rewrite L1. cbn [arrive log rev]. rewrite flat_map_app. cbn. rewrite app_nil_r. split; [reflexivity|]. injection L2 as _ ->. discriminate.
          - left. exists o. unfold attempts. rewrite L1. cbn [arrive log rev]. rewrite !flat_map_app. cbn. rewrite app_nil_r. split; [reflexivity|]. intros ->. destruct o as [x|]; [|reflexivity]. specialize (L2 x eq_refl). discriminate. }
        assert (Ui : unit_is (mksys p (Pool.set_nth k c' (conns s)) (started s) (units s) ((i, (rs, e)) :: results s)) i u) by (exists d; exact Eu).
        cbn [flat_map app]. rewrite Nat.eqb_refl. destruct e as [e|]; cbn [is_none].
        -- exists vs. destruct W as [(o & W & _)|[W _]].
           ++ exists [(u, o)]. rewrite W, A, app_assoc. split; [reflexivity|]. rewrite app_nil_r. split; [exact B|]. right. exists i, u, o. split; [reflexivity|]. split; [exact Ui|]. cbn [pool]. rewrite Hk. apply in_or_app. right. left. reflexivity.
           ++ exists []. rewrite W, A, app_nil_r. split; [reflexivity|]. rewrite app_nil_r. split; [exact B|left; reflexivity].
        -- destruct W as [(o & W & Wo)|[_ W]]; [|congruence]. rewrite (Wo eq_refl) in W. exists (vs ++ [u]), []. rewrite W, A, map_app, app_nil_r, app_assoc. split; [reflexivity|].
           split; [apply Forall2_app; [exact B|constructor; [exact Ui|constructor]]|left; reflexivity].
      * destruct (i_writes0 k' c1 c0 Hc1 Hc0) as (vs & l & A & B & C). exists vs, l. split; [exact A|]. split.
        -- cbn [flat_map]. destruct (is_none e); [|rewrite app_nil_r; exact B]. destruct (Nat.eqb_spec k' k); [congruence|]. rewrite app_nil_r. exact B.
        -- destruct C as [->|(j & b' & o & -> & C1 & C2)]; [left; reflexivity|]. right. exists j, b', o. split; [reflexivity|]. split; [exact C1|]. cbn [pool]. rewrite Hk. apply in_or_app. left. exact C2.
Qed.

Lemma sinv_run : forall n said w32 acts s s', sinv n said s -> run w32 acts s = Some s' -> sends said s' -> Forall (serves w32 said) acts -> sinv n said s'.
Proof.
  intros n said w32 acts. induction acts as [|a acts IH]; intros s s' I H Hs Hv; cbn in H; [injection H as <-; exact I|].
  destruct (step w32 a s) as [u|] eqn:E; [|discriminate]. inversion Hv as [|? ? V1 V2]; subst. apply (IH u s'); auto. apply (sinv_step n said w32 a s u I E); auto.
  intros i d b Hi. destruct (run_units _ _ _ _ H) as (m & M). apply (Hs i d). eapply unit_grows; eassumption.
Qed.
