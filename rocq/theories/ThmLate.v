(* C90: Sends on a connection whose earlier Send failed. *)
From Coq Require Import String List NArith ZArith Arith Bool Lia ZifyN ZifyNat ZifyBool.
From Coq Require Import List.
From Verif Require Import Base SpecWire WireProofs SpecUnit Conn SpecReply SpecBroken Text ConnProofs ReplyProofs ThmConn ThmBroken Late.
Import ListNotations.
Open Scope N_scope.
Open Scope list_scope.
Local Notation length := List.length.

(* SetDeadline and Write always succeed. *)
Definition works (c : conn) : Prop := Forall (eq None) (deadlines c) /\ Forall (eq None) (writes c).

Lemma works_next : forall (l : list (option ioerr)), Forall (eq None) l -> fst (next_result l) = None /\ Forall (eq None) (snd (next_result l)).
Proof. intros [|x l] H; cbn; [auto|]. inversion H; subst. auto. Qed.
Lemma works_can_write : forall c, works c -> can_write c.
Proof. intros c [H1 H2]. split; apply works_next; assumption. Qed.
Lemma unread_later : forall chunks e c, unread (later chunks e c) = unread c ++ concat chunks.
Proof. intros chunks e c. unfold unread, later. cbn [rd held inbound]. rewrite concat_app, app_assoc. reflexivity. Qed.
Lemma works_later : forall chunks e c, works c -> works (later chunks e c).
Proof. intros chunks e c H. exact H. Qed.

(* A Send on a connection that works. *)
Lemma send_works : forall w32 d requests c, Forall (fun f => 1 + nlen (snd f) < 2 ^ 32) requests -> works c -> exists c',
  let A := areads w32 (map fst requests) (ended (rd c)) (unread c) in
  conn_send w32 d (concat (map frame requests)) c = Ok (fst A, c') /\ unread c' = snd A /\ works c' /\ ended (rd c') = ended (rd c).
Proof.
  intros w32 d requests c Hf Hw. destruct (send_spec w32 d requests c Hf (works_can_write c Hw)) as (c' & A & B & C & _ & _ & D1 & D2). exists c'.
  split; [exact A|]. split; [exact B|]. split; [|exact C]. destruct Hw as [W1 W2]. split; [rewrite D1|rewrite D2]; apply works_next; assumption.
Qed.

Lemma request_frames : forall xs, request_bytes xs = concat (map frame (map asked xs)).
Proof. intros xs. unfold request_bytes. rewrite map_map. reflexivity. Qed.
Lemma asked_ok : forall w32 xs, Forall (exchange_ok w32) xs -> Forall (fun f => 1 + nlen (snd f) < 2 ^ 32) (map asked xs).
Proof. intros w32 xs H. apply Forall_map. eapply Forall_impl; [|exact H]. intros x Hx. exact (proj1 Hx). Qed.
Lemma aread_interims : forall w32 ct fin is rest, Forall interim is -> Forall (fits w32) is -> aread w32 ct fin (concat (map frame is) ++ rest) = aread w32 ct fin rest.
Proof.
  intros w32 ct fin is rest. induction is as [|i is IH]; intros H1 H2; [reflexivity|]. inversion H1; subst. inversion H2; subst. cbn [map concat]. rewrite <- app_assoc, aread_eq.
  destruct (amessage_frame w32 fin i (concat (map frame is) ++ rest) ltac:(assumption)) as (n & q & -> & E). rewrite (dispatch_interim ct i) by assumption. rewrite E. apply IH; assumption.
Qed.
Lemma aread_cut : forall w32 ct fin bs, nlen bs < 5 -> aread w32 ct fin bs = ((None, Some (CRead fin)), bs).
Proof. intros w32 ct fin bs H. rewrite aread_eq. unfold amessage. destruct (N.ltb_spec (nlen bs) 5); [reflexivity|lia]. Qed.

(* The same replies to other requests. *)
Definition instead (ys zs : list exchange) : list exchange := map (fun yz => mkx (asked (fst yz)) (replied (snd yz)) (seen_as (snd yz))) (combine ys zs).
Lemma instead_spec : forall w32 ys zs, Forall (exchange_ok w32) ys -> Forall (exchange_ok w32) zs -> length ys = length zs ->
  (forall y z, In y ys -> In z zs -> ~ stops (fst (asked y)) (seen_as z)) ->
  Forall (exchange_ok w32) (instead ys zs) /\ Forall goes_on (instead ys zs) /\ map (fun x => fst (asked x)) (instead ys zs) = map fst (map asked ys) /\
  replies_bytes (instead ys zs) = replies_bytes zs /\ map seen_as (instead ys zs) = map seen_as zs.
Proof.
  intros w32 ys. unfold instead, replies_bytes. induction ys as [|y ys IH]; intros [|z zs] Hy Hz Hl Hs; try discriminate; [repeat split; constructor|].
  inversion Hy as [|? ? Y1 Y2]; subst. inversion Hz as [|? ? Z1 Z2]; subst. injection Hl as Hl.
  destruct (IH zs Y2 Z2 Hl) as (A & B & C & D & F); [intros y' z' I1 I2; apply Hs; right; assumption|]. cbn [combine map concat fst snd asked replied seen_as].
  split; [constructor; [split; [apply Y1|apply Z1]|exact A]|]. split; [constructor; [exact (Hs y z (or_introl eq_refl) (or_introl eq_refl))|exact B]|]. split; [f_equal; exact C|]. split; [f_equal; exact D|f_equal; exact F].
Qed.

(* So much of the stream as ys asks for is taken for the replies to ys. *)
Lemma taken : forall w32 d ys zs rest c, Forall (exchange_ok w32) ys -> Forall (exchange_ok w32) zs -> length ys = length zs ->
  (forall y z, In y ys -> In z zs -> ~ stops (fst (asked y)) (seen_as z)) -> works c -> unread c = replies_bytes zs ++ rest ->
  exists c', conn_send w32 d (request_bytes ys) c = Ok ((map seen_as zs, None), c') /\ unread c' = rest /\ works c'.
Proof.
  intros w32 d ys zs rest c Hy Hz Hl Hs Hw Hu. destruct (instead_spec w32 ys zs Hy Hz Hl Hs) as (A & B & C & D & F).
  destruct (send_works w32 d (map asked ys) c (asked_ok w32 ys Hy) Hw) as (c' & S1 & S2 & S3 & _). cbn zeta in S1, S2. rewrite <- request_frames in S1. exists c'.
  pose proof (areads_go w32 (ended (rd c)) (instead ys zs) [] rest A B) as G. rewrite app_nil_r, C, D, F in G. cbn [areads fst snd] in G. rewrite app_nil_r in G.
  rewrite Hu, G in S1, S2. auto.
Qed.

(* A Send whose replies end, for now, after those to before, some messages of the next one, and at most a part of a header. *)
Lemma first_cut : forall w32 d before x after is1 head c, Forall (exchange_ok w32) (before ++ x :: after) -> Forall goes_on before ->
  Forall interim is1 -> Forall (fits w32) is1 -> nlen head < 5 -> works c -> unread c = replies_bytes before ++ concat (map frame is1) ++ head ->
  exists c', conn_send w32 d (request_bytes (before ++ x :: after)) c = Ok ((map seen_as before ++ [None], Some (CRead (ended (rd c)))), c') /\ unread c' = head /\ works c'.
Proof.
  intros w32 d before x after is1 head c Hx Hg H1 H2 Hh Hw Hu. destruct (send_works w32 d _ c (asked_ok w32 _ Hx) Hw) as (c' & S1 & S2 & S3 & _). cbn zeta in S1, S2. rewrite <- request_frames in S1. exists c'.
  apply Forall_app in Hx. destruct Hx as [Hb Hx].
  pose proof (areads_go w32 (ended (rd c)) before (map fst (map asked (x :: after))) (concat (map frame is1) ++ head) Hb Hg) as G.
  rewrite map_app, map_app, (map_map asked fst before) in S1, S2. rewrite Hu, G in S1, S2. cbn [map areads] in S1, S2. rewrite aread_interims, aread_cut in S1, S2 by assumption. cbn [fst snd] in S1, S2. auto.
Qed.

(* C90: replies that come after a Send has given up waiting for them are given to the next Send, as the responses to its messages. *)
Theorem C90_late_replies_refuted : forall w32 d1 d2 before x after ys is1 is2 head tail rest chunks e c,
  Forall (exchange_ok w32) (before ++ x :: after) -> Forall (exchange_ok w32) ys -> Forall goes_on before ->
  (forall y z, In y ys -> In z (x :: after ++ ys) -> ~ stops (fst (asked y)) (seen_as z)) -> works c ->
  interims (replied x) = is1 ++ is2 -> concat (map frame (is2 ++ [final (replied x)])) = head ++ tail -> nlen head < 5 ->
  unread c = replies_bytes before ++ concat (map frame is1) ++ head -> concat chunks = tail ++ replies_bytes (after ++ ys) ++ rest ->
  exists c1 c2, conn_send w32 d1 (request_bytes (before ++ x :: after)) c = Ok ((map seen_as before ++ [None], Some (CRead (ended (rd c)))), c1) /\
    conn_send w32 d2 (request_bytes ys) (later chunks e c1) = Ok ((firstn (length ys) (map seen_as (x :: after ++ ys)), None), c2).
Proof.
  intros w32 d1 d2 before x after ys is1 is2 head tail rest chunks e c Hx Hy Hg Hs Hw Hi Ht Hh Hu Hc.
  assert (Hxa := proj2 (proj1 (Forall_app _ _ _) Hx)). inversion Hxa as [|? ? X1 X2]; subst. destruct X1 as [Xa (Xi & Xr & Xf)]. rewrite Hi in Xi, Xf. apply Forall_app in Xi. destruct Xi as [I1 I2].
  rewrite <- app_assoc in Xf. apply Forall_app in Xf. destruct Xf as [F1 F2].
  destruct (first_cut w32 d1 before x after is1 head c Hx Hg I1 F1 Hh Hw Hu) as (c1 & S1 & U1 & W1).
  set (x' := mkx (asked x) (mkreply is2 (final (replied x))) (seen_as x)).
  assert (X' : exchange_ok w32 x') by (split; [exact Xa|]; split; [exact I2|]; split; [exact Xr|exact F2]).
  assert (Hall : Forall (exchange_ok w32) (x' :: after ++ ys)) by (constructor; [exact X'|]; apply Forall_app; auto).
  destruct (taken w32 d2 ys (firstn (length ys) (x' :: after ++ ys)) (replies_bytes (skipn (length ys) (x' :: after ++ ys)) ++ rest) (later chunks e c1) Hy) as (c2 & S2 & _).
  - apply Forall_forall. intros z Hz. rewrite Forall_forall in Hall. apply Hall. rewrite <- (firstn_skipn (length ys)). apply in_or_app. auto.
  - rewrite firstn_length. cbn [length]. rewrite app_length. lia.
  - intros y z I J. assert (J' : In z (x' :: after ++ ys)) by (rewrite <- (firstn_skipn (length ys)); apply in_or_app; auto).
    destruct J' as [<-|J']; [apply (Hs y x I); left; reflexivity|apply (Hs y z I); right; exact J'].
  - exact W1.
  - rewrite unread_later, U1, Hc. unfold replies_bytes. rewrite (app_assoc (concat _) (concat _) rest), <- concat_app, <- map_app, firstn_skipn. cbn [map concat replied x'].
    unfold reply_bytes at 2. cbn [interims final]. rewrite Ht, <- !app_assoc. reflexivity.
  - exists c1, c2. split; [exact S1|]. rewrite S2. do 3 f_equal. rewrite <- firstn_map. reflexivity.
Qed.

(* The header of f has arrived, and a part of its payload. What there is of the payload is kept if the payload is of at most 4096 bytes, else
   it is gone; the header is gone in any case. *)
Lemma aread_in_payload : forall w32 ct fin ty header p1 p2, fits w32 (ty, p1 ++ p2) -> p2 <> [] -> frame (ty, p1 ++ p2) = header ++ p1 ++ p2 ->
  exists e, aread w32 ct fin (header ++ p1) = ((None, Some (CRead e)), if nlen (p1 ++ p2) <=? 4096 then p1 else []).
Proof.
  intros w32 ct fin ty header p1 p2 Hf Hp Hh. assert (P : 0 < nlen p2) by (destruct p2; [congruence|unfold nlen; cbn; lia]).
  assert (L : 1 + nlen (p1 ++ p2) < 2 ^ 32) by (unfold fits in Hf; cbn [snd] in Hf; destruct w32; lia).
  destruct (frame_head (ty, p1 ++ p2) [] L) as (Hle & _ & _ & _ & Hlen & _). cbn [fst snd] in Hle, Hlen. rewrite app_nil_r, Hh in Hle, Hlen.
  assert (H5 : nlen header = 5) by (rewrite nlen_app in Hlen; change (nlen (@nil N)) with 0 in Hlen; lia).
  destruct (with_header header p1 H5) as (A & B & C). destruct (with_header header (p1 ++ p2) H5) as (A' & _ & _). rewrite A' in Hle.
  rewrite aread_eq. unfold amessage. rewrite A, B, C, Hle. destruct (N.ltb_spec (5 + nlen p1) 5); [lia|].
  assert (I : int_of_u32 w32 (1 + nlen (p1 ++ p2)) = Z.of_N (1 + nlen (p1 ++ p2))).
  { unfold int_of_u32. unfold fits in Hf. cbn [snd] in Hf. destruct w32; cbn [andb]; [|reflexivity]. destruct (N.leb_spec (2 ^ 31) (1 + nlen (p1 ++ p2))); [lia|reflexivity]. }
  rewrite I. rewrite nlen_app in *. destruct (Z.ltb_spec (Z.of_N (1 + (nlen p1 + nlen p2))) 1); [lia|]. replace (Z.to_N (Z.of_N (1 + (nlen p1 + nlen p2)) - 1)) with (nlen p1 + nlen p2) by lia.
  destruct (N.ltb_spec 0 (nlen p1 + nlen p2)); [|lia]. change buf_size with 4096. destruct (N.leb_spec (nlen p1 + nlen p2) (nlen p1)); [lia|].
  destruct (nlen p1 + nlen p2 <=? 4096); eexists; reflexivity.
Qed.

(* C90: if a Send gives up inside of a message, the contents of that message are what the next Send takes for the replies to its messages:
   a row, say, that somebody has written into the database to look like replies. *)
Theorem C90_contents_taken_for_replies_refuted : forall w32 d1 d2 before x after is1 ty header p1 p2 more ys zs rest chunks e c,
  Forall (exchange_ok w32) (before ++ x :: after) -> Forall (exchange_ok w32) ys -> Forall goes_on before ->
  Forall (exchange_ok w32) zs -> length ys = length zs -> (forall y z, In y ys -> In z zs -> ~ stops (fst (asked y)) (seen_as z)) -> works c ->
  interims (replied x) ++ [final (replied x)] = is1 ++ (ty, p1 ++ p2) :: more -> p2 <> [] -> frame (ty, p1 ++ p2) = header ++ p1 ++ p2 ->
  unread c = replies_bytes before ++ concat (map frame is1) ++ header ++ p1 ->
  (if nlen (p1 ++ p2) <=? 4096 then p1 else []) ++ concat chunks = replies_bytes zs ++ rest ->
  exists c1 c2 er, conn_send w32 d1 (request_bytes (before ++ x :: after)) c = Ok ((map seen_as before ++ [None], Some (CRead er)), c1) /\
    conn_send w32 d2 (request_bytes ys) (later chunks e c1) = Ok ((map seen_as zs, None), c2).
Proof.
  intros w32 d1 d2 before x after is1 ty header p1 p2 more ys zs rest chunks e c Hx Hy Hg Hz Hl Hs Hw Hi Hp Hh Hu Hc.
  destruct (send_works w32 d1 _ c (asked_ok w32 _ Hx) Hw) as (c1 & S1 & S2 & S3 & _). cbn zeta in S1, S2. rewrite <- request_frames in S1.
  apply Forall_app in Hx. destruct Hx as [Hb Hx]. inversion Hx as [|? ? X1 X2]; subst. destruct X1 as [_ (Xi & _ & Xf)]. rewrite Hi in Xf.
  assert (I1 : Forall interim is1).
  { destruct (exists_last (l := (ty, p1 ++ p2) :: more) ltac:(discriminate)) as (m & f & Em). rewrite Em, app_assoc in Hi. apply app_inj_tail in Hi. destruct Hi as [Hi _]. rewrite Hi in Xi. apply Forall_app in Xi. apply Xi. }
  apply Forall_app in Xf. destruct Xf as [F1 F2]. inversion F2 as [|? ? F3 _]; subst.
  pose proof (areads_go w32 (ended (rd c)) before (map fst (map asked (x :: after))) (concat (map frame is1) ++ header ++ p1) Hb Hg) as G.
  rewrite map_app, map_app, (map_map asked fst before) in S1, S2. rewrite Hu, G in S1, S2. cbn [map areads] in S1, S2. rewrite aread_interims in S1, S2 by assumption.
  destruct (aread_in_payload w32 (fst (asked x)) (ended (rd c)) ty header p1 p2 F3 Hp Hh) as (er & R). rewrite R in S1, S2. cbn [fst snd] in S1, S2.
  destruct (taken w32 d2 ys zs rest (later chunks e c1) Hy Hz Hl Hs S3) as (c2 & T & _); [rewrite unread_later, S2; exact Hc|]. exists c1, c2, er. auto.
Qed.

(* ---- what a write that failed has sent ---- *)

Lemma frame_same_header : forall ty header p q, nlen p = nlen q -> frame (ty, p) = header ++ p -> frame (ty, q) = header ++ q.
Proof.
  intros ty header p q Hl H. unfold frame in *. cbn [fst snd] in *.
  cbn zeta in *. rewrite <- Hl in *. rewrite !app_assoc in *. apply app_inv_tail in H. rewrite H. reflexivity.
Qed.

(* C90: when a Write has failed after a part of a message, the next Send goes on writing: the server reads the beginning of the next unit as the
   rest of that message, and the rest of the unit as whatever it looks like. *)
Theorem C90_units_run_together_refuted : forall w32 d1 d2 before ty header p1 p2 after first others chunks e er c,
  deadlines c = [] -> writes c = [Some er] -> frame (ty, p1 ++ p2) = header ++ p1 ++ p2 -> nlen first = nlen p2 ->
  Forall (fun f => 1 + nlen (snd f) < 2 ^ 32) (before ++ (ty, p1 ++ p2) :: after) ->
  let unit1 := concat (map frame (before ++ (ty, p1 ++ p2) :: after)) in
  let written := concat (map frame before) ++ header ++ p1 in
  let unit2 := first ++ others in
  (exists more, unit1 = written ++ more) /\
  (exists c1, conn_send w32 d1 unit1 c = Ok (([], Some (CWrite er)), c1) /\
    forall r c2, conn_send w32 d2 unit2 (later chunks e c1) = Ok (r, c2) ->
      log c2 = [Write (ckind c) unit2 None; SetDeadline (ckind c) d2 None; Write (ckind c) unit1 (Some er); SetDeadline (ckind c) d1 None] ++ log c) /\
  written ++ unit2 = concat (map frame (before ++ [(ty, p1 ++ first)])) ++ others.
Proof.
  intros w32 d1 d2 before ty header p1 p2 after first others chunks e er c Hd Hw Hh Hl Hf unit1 written unit2. split; [|split].
  - exists (p2 ++ concat (map frame after)). unfold unit1, written. rewrite map_app, concat_app. cbn [map concat]. rewrite Hh, <- !app_assoc. reflexivity.
  - unfold conn_send at 1, set_deadline, write. rewrite Hd. cbn [next_result writes]. rewrite Hw. cbn [next_result ckind rd deadlines writes log]. eexists. split; [reflexivity|].
    intros r c2 H. unfold conn_send, set_deadline, write, later in H. cbn [ckind rd deadlines writes log next_result] in H.
    assert (G : forall k rest rs c0 r0 c', read_responses w32 k rest rs c0 = Ok (r0, c') -> log c' = log c0).
    { clear. induction k as [|k IH]; intros rest rs c0 r0 c' H; cbn [read_responses] in H; (destruct rest as [|x rest]; [injection H as <- <-; reflexivity|]); [discriminate|].
      destruct (nth_error (x :: rest) 4) as [ct|]; [|discriminate]. destruct (c_read_spec w32 ct c0) as (c1 & R & _ & _ & _ & _ & _ & R7). rewrite R in H.
      destruct (snd (fst (aread w32 ct (ended (rd c0)) (unread c0)))) as [er|]; [injection H as <- <-; exact R7|]. apply IH in H. congruence. }
    apply G in H. rewrite H. reflexivity.
  - unfold written, unit2. rewrite map_app, concat_app. cbn [map concat]. rewrite app_nil_r. pose proof (frame_same_header ty header (p1 ++ p2) (p1 ++ first)) as G. unfold bytes in *. rewrite G; [rewrite <- !app_assoc; reflexivity| |exact Hh].
    unfold nlen in *. rewrite !app_length. lia.
Qed.

(* ---- what holds ---- *)

(* Reading a reply to the end, of a stream of which more will come. *)
Lemma aread_more : forall w32 ct fin bs more r q x rest, is_bytes bs -> exchange_ok w32 x -> bs ++ more = reply_bytes (replied x) ++ rest ->
  aread w32 ct fin bs = ((r, None), q) -> r = seen_as x /\ q ++ more = rest.
Proof.
  intros w32 ct fin bs more r q x rest Hb [_ Hx] E H. destruct (aread_back _ bs (le_n _) _ _ _ _ _ Hb H) as (p & E1 & P1 & _).
  pose proof (aread_reply w32 ct fin _ _ rest Hx) as A. rewrite <- E, E1, <- app_assoc, (aread_reply w32 ct fin _ _ (q ++ more) P1) in A. injection A as <- _ <-. auto.
Qed.
Lemma areads_more : forall w32 fin xs bs more rs q rest, is_bytes bs -> Forall (exchange_ok w32) xs -> bs ++ more = replies_bytes xs ++ rest ->
  areads w32 (map fst (map asked xs)) fin bs = ((rs, None), q) -> rs = map seen_as xs /\ q ++ more = rest /\ is_bytes q.
Proof.
  intros w32 fin xs. unfold replies_bytes. induction xs as [|x xs IH]; intros bs more rs q rest Hb Hx E H; cbn [map concat areads] in *; [injection H as <- <-; auto|].
  inversion Hx as [|? ? X1 X2]; subst. destruct (aread w32 (fst (asked x)) fin bs) as [[r o] q1] eqn:R. cbn [fst snd] in H. destruct o as [o|]; [discriminate|].
  rewrite <- app_assoc in E. destruct (aread_more _ _ _ _ _ _ _ _ _ Hb X1 E R) as [-> E1]. assert (Hq : is_bytes q1).
  { destruct (aread_back _ bs (le_n _) _ _ _ _ _ Hb R) as (p & E2 & _). rewrite E2 in Hb. apply Forall_app in Hb. apply Hb. }
  destruct (areads w32 (map fst (map asked xs)) fin q1) as [[rs' o'] q2] eqn:R2. cbn [fst snd] in H. injection H as <- -> <-.
  destruct (IH q1 more rs' q2 _ Hq X2 E1 R2) as (-> & F & G). auto.
Qed.

Definition all_arrivals (l : list attempt) : bytes := concat (map (fun a => concat (arrives a)) l).

(* C90: until the first Send that fails, each one's responses are those to its own unit, however the replies arrive; more than the replies, or less, may have arrived. *)
Theorem C90_in_sync_while_no_send_fails : forall w32 l xss c good others c' missing extra,
  Forall2 (fun a xs => sent a = request_bytes xs) l xss -> Forall (Forall (exchange_ok w32)) xss -> works c -> is_bytes (unread c ++ all_arrivals l) ->
  (unread c ++ all_arrivals l) ++ missing = concat (map replies_bytes xss) ++ extra ->
  sends w32 l c = Ok (good ++ others, c') -> Forall (fun r => snd r = None) good ->
  good = map (fun xs => (map seen_as xs, None)) (firstn (length good) xss).
Proof.
  intros w32 l. induction l as [|a l IH]; intros xss c good others c' missing extra Hl Hx Hw Hb Hs H Hg; inversion Hl as [|? xs ? xss' Ha Hl']; subst; cbn [sends] in H.
  - injection H as H _. symmetry in H. apply app_eq_nil in H. destruct H as [-> ->]. reflexivity.
  - destruct good as [|g good]; [reflexivity|]. inversion Hx as [|? ? X1 X2]; subst. inversion Hg as [|? ? G1 G2]; subst.
    destruct (send_works w32 (deadline a) (map asked xs) (later (arrives a) (fails a) c) (asked_ok w32 xs X1) (works_later _ _ c Hw)) as (c1 & S1 & S2 & S3 & _). cbn zeta in S1, S2.
    rewrite <- request_frames, <- Ha in S1. rewrite S1 in H. cbn [bind] in H. destruct (sends w32 l c1) as [[rs c2]|] eqn:R; [|discriminate]. cbn [bind] in H. injection H as E1 E2 _.
    rewrite unread_later in S2, E1. destruct (areads w32 (map fst (map asked xs)) _ (unread c ++ concat (arrives a))) as [[rs1 o] q] eqn:A. cbn [fst snd] in *. subst g. cbn [snd] in G1. subst o.
    unfold all_arrivals in Hs, Hb. cbn [map concat] in Hs, Hb. fold (all_arrivals l) in Hs, Hb. rewrite app_assoc in Hb. apply Forall_app in Hb. destruct Hb as [Hb1 Hb2].
    destruct (fun E => areads_more w32 (fails a) xs _ (all_arrivals l ++ missing) _ _ (concat (map replies_bytes xss') ++ extra) Hb1 X1 E A) as (-> & B & C); [rewrite <- !app_assoc in *; exact Hs|].
    cbn [length firstn map]. f_equal. subst rs. apply (IH xss' c1 good others c2 missing extra Hl' X2 S3); [| |exact R|exact G2].
    + rewrite S2. apply Forall_app. auto.
    + rewrite S2, <- app_assoc. exact B.
Qed.

(* C90: when nothing more arrives, and it has ended between two messages or inside of a header, all Sends fail. *)
Theorem C90_silent_connections_stay_silent : forall w32 l c, nlen (unread c) < 5 -> works c ->
  Forall (fun a => concat (arrives a) = [] /\ exists f fs, sent a = concat (map frame (f :: fs)) /\ Forall (fun f => 1 + nlen (snd f) < 2 ^ 32) (f :: fs)) l ->
  exists c', sends w32 l c = Ok (map (fun a => ([None], Some (CRead (fails a)))) l, c') /\ nlen (unread c') < 5.
Proof.
  intros w32 l. induction l as [|a l IH]; intros c Hu Hw H; cbn [sends map]; [eauto|]. inversion H as [|? ? (H1 & f & fs & H2 & H3) H4]; subst.
  destruct (send_works w32 (deadline a) (f :: fs) (later (arrives a) (fails a) c) H3 (works_later _ _ c Hw)) as (c1 & S1 & S2 & S3 & _). cbn zeta in S1, S2.
  rewrite unread_later, H1, app_nil_r in S1, S2. cbn [map areads] in S1, S2. rewrite aread_cut in S1, S2 by exact Hu. cbn [fst snd] in S1, S2. rewrite H2. cbn [map] in *. rewrite S1. cbn [bind].
  destruct (IH c1) as (c2 & -> & R); [rewrite S2; exact Hu|exact S3|exact H4|]. cbn [bind]. eauto.
Qed.

(* ---- cases ---- *)

(* The server has refused the second statement with this error. *)
Definition refused : server_error := mkse 0 1062 (s2b "23000") (s2b "Duplicate entry").
Definition first_x : exchange := mkx (12, [18; 1; 97]) (mkreply [(11, [8; 4])] (17, [])) None.
Definition second_x : exchange := mkx (12, [18; 1; 98]) (mkreply [] (1, error_bytes refused)) (Some refused).
Definition timeout : ioerr := IoOther 1.
Definition open_conn (bs : bytes) : conn := mkc Tcp (mkr [] [bs] timeout) [] [] [].

Example exchanges_ok w32 : exchange_ok w32 first_x /\ exchange_ok w32 second_x /\ goes_on first_x /\ goes_on second_x.
Proof.
  split; [|split; [|split]].
  - split; [vm_compute; reflexivity|]. split; [constructor; [|constructor]; split; [cbn; intuition lia|cbn; lia]|]. split; [cbn; auto|]. destruct w32; repeat constructor; vm_compute; reflexivity.
  - split; [vm_compute; reflexivity|]. split; [constructor|]. split; [|destruct w32; repeat constructor; vm_compute; reflexivity]. split; [reflexivity|]. apply error_unmarshal. vm_compute. reflexivity.
  - exact (fun H => H).
  - cbn. intros [H|[H|[H|[H|H]]]]; (discriminate || exact H).
Qed.

(* The reply to the first statement comes too late, and in pieces: the second statement, which failed, is reported to have succeeded. *)
Example late_meets : forall w32, exists head tail chunks,
  Forall (exchange_ok w32) ([] ++ first_x :: []) /\ Forall (exchange_ok w32) [second_x] /\ works (open_conn [3; 0]) /\
  interims (replied first_x) = [] ++ [(11, [8; 4])] /\ concat (map frame ([(11, [8; 4])] ++ [final (replied first_x)])) = head ++ tail /\ nlen head < 5 /\
  unread (open_conn [3; 0]) = replies_bytes [] ++ concat (map frame []) ++ head /\ concat chunks = tail ++ replies_bytes ([] ++ [second_x]) ++ [] /\
  (forall y z, In y [second_x] -> In z (first_x :: [] ++ [second_x]) -> ~ stops (fst (asked y)) (seen_as z)) /\
  match sends w32 [mka None (request_bytes [first_x]) [] timeout; mka None (request_bytes [second_x]) chunks timeout] (open_conn [3; 0]) with
  | Ok (rs, _) => rs = [([None], Some (CRead timeout)); ([None], None)]
  | Panic => False
  end.
Proof.
  intros w32. destruct (exchanges_ok w32) as (X1 & X2 & G1 & G2). exists [3; 0], [0; 0; 11; 8; 4; 1; 0; 0; 0; 17], [[0; 0; 11; 8; 4; 1]; [0; 0; 0; 17] ++ replies_bytes [second_x]].
  split; [constructor; [exact X1|constructor]|]. split; [constructor; [exact X2|constructor]|]. split; [split; constructor|]. split; [reflexivity|]. split; [vm_compute; reflexivity|].
  split; [reflexivity|]. split; [reflexivity|]. split; [vm_compute; reflexivity|]. split; [|destruct w32; vm_compute; reflexivity].
  intros y z [<-|[]] [<-|[<-|[]]]; [exact G1|exact G2].
Qed.

(* A row whose text is an OK message and three more bytes, of which the last two do not come. The next statement succeeds, without any reply. *)
Definition row_x : exchange := mkx (12, [18; 1; 97]) (mkreply [(13, [1; 0; 0; 0; 17] ++ [1; 2; 3])] (17, [])) None.
Definition done_x : exchange := mkx (12, [18; 1; 98]) (mkreply [] (17, [])) None.
Example contents_meet : forall w32,
  exchange_ok w32 row_x /\ exchange_ok w32 second_x /\ exchange_ok w32 done_x /\ works (open_conn [9; 0; 0; 0; 13; 1; 0; 0; 0; 17; 1]) /\
  interims (replied row_x) ++ [final (replied row_x)] = [] ++ (13, [1; 0; 0; 0; 17; 1] ++ [2; 3]) :: [(17, [])] /\ frame (13, [1; 0; 0; 0; 17; 1] ++ [2; 3]) = [9; 0; 0; 0; 13] ++ [1; 0; 0; 0; 17; 1] ++ [2; 3] /\
  unread (open_conn [9; 0; 0; 0; 13; 1; 0; 0; 0; 17; 1]) = replies_bytes [] ++ concat (map frame []) ++ [9; 0; 0; 0; 13] ++ [1; 0; 0; 0; 17; 1] /\
  (if nlen ([1; 0; 0; 0; 17; 1] ++ [2; 3]) <=? 4096 then [1; 0; 0; 0; 17; 1] else []) ++ concat [] = replies_bytes [done_x] ++ [1] /\
  match sends w32 [mka None (request_bytes [row_x]) [] timeout; mka None (request_bytes [second_x]) [] timeout] (open_conn [9; 0; 0; 0; 13; 1; 0; 0; 0; 17; 1]) with
  | Ok (rs, _) => rs = [([None], Some (CRead timeout)); ([None], None)]
  | Panic => False
  end.
Proof.
  intros w32. split; [|split; [apply exchanges_ok|split]].
  - split; [vm_compute; reflexivity|]. split; [constructor; [|constructor]; split; [cbn; intuition lia|cbn; lia]|]. split; [cbn; auto|]. destruct w32; repeat constructor; vm_compute; reflexivity.
  - split; [vm_compute; reflexivity|]. split; [constructor|]. split; [cbn; auto|]. destruct w32; repeat constructor; vm_compute; reflexivity.
  - split; [split; constructor|]. split; [reflexivity|]. split; [reflexivity|]. split; [reflexivity|]. split; [reflexivity|]. destruct w32; vm_compute; reflexivity.
Qed.

(* A statement of which the last two bytes have not been written, and the next one. *)
Example run_together_meets :
  frame (12, [18] ++ [1; 97]) = [4; 0; 0; 0; 12] ++ [18] ++ [1; 97] /\ frame (12, [18; 1; 98]) = [4; 0] ++ [0; 0; 12; 18; 1; 98] /\ nlen [4; 0] = nlen [1; 97] /\
  dframes (([4; 0; 0; 0; 12] ++ [18]) ++ frame (12, [18; 1; 98])) = None.
Proof. repeat split; vm_compute; reflexivity. Qed.

Example in_sync_meets : forall w32,
  let l := [mka None (request_bytes [first_x; second_x]) [replies_bytes [first_x; second_x] ++ [3; 0]] timeout;
            mka None (request_bytes [first_x]) [[0; 0; 11]; skipn 5 (firstn 9 (replies_bytes [first_x]))] timeout] in
  Forall2 (fun a xs => sent a = request_bytes xs) l [[first_x; second_x]; [first_x]] /\ works (open_conn []) /\ is_bytes (unread (open_conn []) ++ all_arrivals l) /\
  (unread (open_conn []) ++ all_arrivals l) ++ skipn 9 (replies_bytes [first_x]) = concat (map replies_bytes [[first_x; second_x]; [first_x]]) ++ [] /\
  match sends w32 l (open_conn []) with
  | Ok (rs, _) => rs = [([None; Some refused], None)] ++ [([None], Some (CRead timeout))]
  | Panic => False
  end.
Proof.
  intros w32. cbn zeta. split; [repeat constructor|]. split; [split; constructor|]. split.
  { match goal with |- is_bytes ?l => let v := eval vm_compute in l in change (is_bytes v) end. unfold is_bytes. repeat (apply Forall_cons; [reflexivity|]). constructor. }
  split; [vm_compute; reflexivity|]. destruct w32; vm_compute; reflexivity.
Qed.

Example silent_meets : forall w32,
  match sends w32 [mka None (request_bytes [first_x; second_x]) [firstn 14 (replies_bytes [first_x; second_x])] timeout; mka None (request_bytes [first_x]) [] (IoOther 2); mka None (request_bytes [second_x]) [[]] (IoOther 3)]
    (open_conn []) with
  | Ok (rs, c) => rs = [([None; None], Some (CRead timeout)); ([None], Some (CRead (IoOther 2))); ([None], Some (CRead (IoOther 3)))] /\ nlen (unread c) = 2
  | Panic => False
  end.
Proof. intros [|]; vm_compute; split; reflexivity. Qed.

Print Assumptions C90_late_replies_refuted.
Print Assumptions C90_contents_taken_for_replies_refuted.
Print Assumptions C90_units_run_together_refuted.
Print Assumptions C90_in_sync_while_no_send_fails.
Print Assumptions C90_silent_connections_stay_silent.
