(* C95 The memory of an argument may be used again as soon as the call, Row or Set it was passed to has returned. *)
From Coq Require Import String List NArith ZArith Arith Bool Lia.
From Coq Require Import List.
From Verif Require Import Base GoSlice Varint Text Values AnyModel ExprModel MsgModel Builder SpecMem Mem MemModel MemProofs MemRef MemBuild MemUse MemArg SpecArg MemArgProofs MemBusy SpecBusy MemBusyProofs.
From Verif Require ThmBuilder.
Import ListNotations.
Local Open Scope nat_scope.

(* t[:n] *)
Definition prefix (t : hslice) (n : nat) : hslice := mkh (arr t) (off t) n (hcap t).

(* A program without writes *)
Fixpoint no_writes (pr : rprog) : wprog :=
  match pr with
  | RRet e out => WRet e out
  | RPCall lvl c next => WCall lvl c (no_writes next)
  | RPInsertRow lvl name columns row next => WInsertRow lvl name columns row (fun o => no_writes (next o))
  | RPBlock lvl k body next => WBlock lvl k (no_writes body) (fun out => no_writes (next out))
  end.

(* The callback of an InsertF that has one buffer t for all rows: each is copied to t and passed as t[:n]. *)
Definition rows_through (t : hslice) (rows : list bytes) : list wiop :=
  flat_map (fun xs => [WICopy t 0 xs; WRow [RRef OBytes (prefix t (length xs))]]) rows.
(* A loop that does the same for the argument of a statement. *)
Fixpoint stmts_through (t : hslice) (stmt : bytes) (args : list bytes) : wprog :=
  match args with
  | [] => WRet None []
  | xs :: args => WCopy t 0 xs (WCall 0 (RStmtExecute stmt [RRef OBytes (prefix t (length xs))]) (stmts_through t stmt args))
  end.
(* With an argument of its own for each. *)
Fixpoint stmts_with (stmt : bytes) (args : list bytes) : prog :=
  match args with
  | [] => Ret None []
  | xs :: args => PCall 0 (CStmtExecute stmt [VBytes (Some xs)]) (stmts_with stmt args)
  end.

Section Theorems.
Context `{E : Env}.

(* A program that fills its slices, passes them to calls, Row and Set, reads them, and fills them again as soon as these
   have returned, has the outcome it has when the memory of the pipe is separate and every call gets copies of what is in
   its arguments at that time. At the end its own slices have the contents it gave them. *)
Theorem C95_memory_is_free_again : forall pr b m,
  valid m (hbuf b) -> hdisabled b = false ->
  uses (fun t => valid m t /\ apart (hbuf b) t) pr ->
  match run_at pr [mkb (value_of m (hbuf b)) (hberr b) false] m with
  | Panic => exists m', w_run pr [b] m = HPanic m'
  | Ok (st, out, own) => exists b' m', w_run pr [b] m = HOk ([b'], out) m' /\
      st = [mkb (value_of m' (hbuf b')) (hberr b') false] /\
      forall t, valid m t -> apart (hbuf b) t -> contents m' t = contents own t
  end.
Proof.
  intros pr b m W D U.
  pose proof (run_done m (hbuf b) pr U m m [bview m b] [b] (shape_refl m)) as R. unfold bview in R. change (view m (hbuf b)) with (value_of m (hbuf b)) in R.
  specialize (R ltac:(exists (bview m b), [], b, []; split; [reflexivity|]; split; [reflexivity|]; split; [apply rb_start; [exact W|exact D|lia]|auto])).
  unfold done in R. destruct (run_at pr _ m) as [[[st out] own]|]; [|exact R].
  destruct R as [[hst out'] [m' [Er [[b' [o [hb [ho [Es [Eh [Rb [F [Fh L]]]]]]]]] [Eo [Sh Ln]]]]]]. cbn [fst snd length] in *. subst.
  injection Ln as Ln. destruct o; [|discriminate]. destruct ho; [|discriminate].
  destruct Rb as [Eb [Db [Dh [[Ws [Ev [O Wi]]] _]]]].
  exists hb, m'. split; [exact Er|]. split.
  - destruct b' as [p e d]. cbn [berr disabled buf] in *. subst. reflexivity.
  - intros t Wt A. eapply outside_contents; [exact O|eapply shape_wf; eassumption|exact A].
Qed.

(* Without writes that is the run of the program with the contents its arguments have at the beginning, as in C94. *)
Theorem C95_without_writes : forall pr st m,
  run_at (no_writes pr) st m = do (st', out) <- run (prog_now m pr) st; Ok (st', out, m).
Proof.
  induction pr as [e out|lvl c next IH|lvl name columns row next IH|lvl k body IHb next IH]; intros st m; cbn [no_writes run_at prog_now run].
  - reflexivity.
  - destruct (nth_error st lvl) as [b|]; [|reflexivity]. destruct (exec_call _ _ b) as [b'|]; [|reflexivity]. cbn [bind]. apply IH.
  - destruct (nth_error st lvl) as [b|]; [|reflexivity]. destruct (b_insert_row _ _ _ b) as [[b' f]|]; [|reflexivity]. cbn [bind]. apply IH.
  - destruct (nth_error st lvl) as [b|]; [|reflexivity]. destruct (block_begin k b) as [[b1 [|]]|]; [|cbn [bind]; apply IH|reflexivity].
    cbn [bind]. rewrite IHb. destruct (run (prog_now m body) _) as [[st2 out]|]; [|reflexivity]. cbn [bind].
    destruct st2 as [|child st2]; [reflexivity|]. destruct (block_end k _) as [b2|]; [|reflexivity]. cbn [bind]. apply IH.
Qed.

Lemma contents_stored m t xs : wf m t -> length xs <= hcap t -> contents (stored m t 0 xs) (prefix t (length xs)) = xs.
Proof.
  intros [W1 W2] L. unfold contents, stored, prefix. cbn [arr off hlen]. rewrite array_write by lia. rewrite Nat.eqb_refl, Nat.add_0_r.
  unfold ow, sub. assert (Lf : length (firstn (off t) (array m (arr t))) = off t) by (rewrite firstn_length; lia).
  rewrite skipn_app, Lf, (skipn_all2 (firstn _ _)), Nat.sub_diag by lia. cbn [app skipn]. rewrite firstn_app, firstn_all, Nat.sub_diag. apply app_nil_r.
Qed.

Lemma prefix_ok m s t n : valid m t /\ apart s t -> n <= hlen t -> valid m (prefix t n) /\ apart s (prefix t n).
Proof. intros [[W1 W2] A] L. split; [split; cbn; lia|exact A]. Qed.

(* One buffer for the rows of an InsertF, each copied to it before it is passed to Row: what is sent is what is sent for rows
   that each have their own. *)
Theorem C95_one_buffer_for_all_rows : forall name columns rows t b m,
  valid m (hbuf b) -> hdisabled b = false -> valid m t -> apart (hbuf b) t ->
  Forall (fun xs => length xs <= hlen t) rows ->
  match run (PCall 0 (CInsertF name columns (map (fun xs => IRow [VBytes (Some xs)]) rows) None) (Ret None []))
    [mkb (value_of m (hbuf b)) (hberr b) false] with
  | Panic => exists m', w_run (WInsertF 0 name columns (rows_through t rows) (WRet None [])) [b] m = HPanic m'
  | Ok (st, out) => exists b' m', w_run (WInsertF 0 name columns (rows_through t rows) (WRet None [])) [b] m = HOk ([b'], out) m' /\
      st = [mkb (value_of m' (hbuf b')) (hberr b') false]
  end.
Proof.
  intros name columns rows t b m W D Wt A L.
  assert (U : uses (fun t => valid m t /\ apart (hbuf b) t) (WInsertF 0 name columns (rows_through t rows) (WRet None []))).
  { split; [|exact I]. clear - Wt A L. induction L as [|xs rows L _ IH]; [constructor|]. cbn. constructor; [|constructor; [|exact IH]].
    - cbn. auto.
    - cbn. constructor; [|constructor]. cbn. apply prefix_ok; auto. }
  pose proof (C95_memory_is_free_again _ b m W D U) as R. cbn [run_at run] in R |- *. cbn [nth_error] in *.
  assert (Ei : forall um, shape m um -> iops_at um (rows_through t rows) = map (fun xs => IRow [VBytes (Some xs)]) rows).
  { clear - Wt L. induction L as [|xs rows L _ IH]; intros um Sh; [reflexivity|]. cbn [rows_through flat_map app iops_at map].
    assert (Wu : wf um t) by (eapply shape_wf; eassumption). destruct Wt as [W1 W2].
    rewrite IH by (apply shape_stored; [exact Sh|exact Wu|lia]). cbn [value_now octets_now]. rewrite contents_stored by (auto; lia). reflexivity. }
  rewrite (Ei m (shape_refl m)) in R. destruct (exec_call _ _ _) as [b'|]; cbn [bind run] in *; [|exact R].
  destruct R as [b2 [m' [Er [Es _]]]]. eauto.
Qed.

(* One buffer for the arguments of any number of statements. *)
Theorem C95_one_buffer_for_all_statements : forall stmt args t b m,
  valid m (hbuf b) -> hdisabled b = false -> valid m t -> apart (hbuf b) t ->
  Forall (fun xs => length xs <= hlen t) args ->
  match run (stmts_with stmt args) [mkb (value_of m (hbuf b)) (hberr b) false] with
  | Panic => exists m', w_run (stmts_through t stmt args) [b] m = HPanic m'
  | Ok (st, out) => exists b' m', w_run (stmts_through t stmt args) [b] m = HOk ([b'], out) m' /\
      st = [mkb (value_of m' (hbuf b')) (hberr b') false]
  end.
Proof.
  intros stmt args t b m W D Wt A L.
  assert (U : uses (fun t => valid m t /\ apart (hbuf b) t) (stmts_through t stmt args)).
  { clear - Wt A L. induction L as [|xs args L _ IH]; cbn; [exact I|]. split; [auto|]. split; [lia|]. split; [|exact IH].
    constructor; [|constructor]. cbn. apply prefix_ok; auto. }
  pose proof (C95_memory_is_free_again _ b m W D U) as R.
  assert (Ei : forall st um, shape m um -> exists own, run_at (stmts_through t stmt args) st um = do (st', out) <- run (stmts_with stmt args) st; Ok (st', out, own)).
  { clear - Wt L. induction L as [|xs args L _ IH]; intros st um Sh; [exists um; reflexivity|]. cbn [stmts_through stmts_with run_at run].
    assert (Wu : wf um t) by (eapply shape_wf; eassumption). destruct Wt as [W1 W2].
    destruct (nth_error st 0) as [c|]; [|exists um; reflexivity].
    cbn [call_now map value_now octets_now]. rewrite contents_stored by (auto; lia).
    destruct (exec_call _ _ c) as [b'|]; [|exists um; reflexivity]. cbn [bind].
    apply IH. apply shape_stored; [exact Sh|exact Wu|lia]. }
  destruct (Ei [mkb (value_of m (hbuf b)) (hberr b) false] m (shape_refl m)) as [own Eo]. rewrite Eo in R.
  destruct (run (stmts_with stmt args) _) as [[st out]|]; cbn [bind] in R; [|exact R]. destruct R as [b2 [m' [Er [Es _]]]]. eauto.
Qed.

End Theorems.

(* ---- the hypotheses can be met ---- *)

#[local] Existing Instance ThmBuilder.plain.

(* Memory with 8 bytes of the caller's, and a pipe of n bytes that has a statement. *)
Definition piped (n : nat) : hres hbuilder :=
  (let* b := h_new_pipe n in
   let* (st, _) := h_run (PCall 0 (CStmtExecute (s2b "SELECT 1") []) (Ret None [])) [b] in
   match st with [b] => hret b | _ => hpanic end) [s2b "caller's"].
Definition whole : hslice := mkh 0 0 8 8.
Definition tail : hslice := mkh 0 6 2 2.     (* the last two bytes of it *)

(* In the callback of a transaction: an update whose callback writes between two Sets, an InsertRow, code that reads what
   it has written, another write, and an insert whose callback does the same; in a pipe that has to grow. *)
Definition busy : wprog :=
  WBlock 0 (KTx 0)
    (WUpdateF 0 (s2b "t") (Some (ROperator (s2b "==") [RFunc (RFun (EColumn (s2b "a"))); RRef OBytes whole]))
       [WSet (s2b "b") (RRef OBytes tail); WUCopy whole 2 (s2b "ABCDEF"); WSet (s2b "c") (RRef OBytes tail)]
    (WInsertRow 0 (s2b "t") [s2b "a"] [RRef OXml whole] (fun o =>
     WCopy tail 1 (s2b "!")
    (WRead tail (fun xs => WCall 0 (RStmtExecute xs [RPtr true (RRef OBytes whole)]) (WRet None [o]))))))
    (fun out => WInsertF 0 (s2b "t") [s2b "a"; s2b "b"]
       [WRow [RRef OBytes whole; RRef OJson tail]; WICopy whole 0 (s2b "other"); WRow [RRef OBytes whole; RRef OBytes (prefix whole 3)]]
    (WRet None out)).

Ltac busy_uses := repeat lazymatch goal with
  | |- _ /\ _ => split | |- forall _, _ => intro | |- Forall _ _ => constructor; cbn | |- True => exact I
  | |- valid _ _ => split; vm_compute; lia | |- apart _ _ => right; right; left; vm_compute; discriminate | |- _ <= _ => vm_compute; lia end.

Example busy_meets : exists b m, piped 20 = HOk b m /\ valid m (hbuf b) /\ hdisabled b = false /\
  uses (fun t => valid m t /\ apart (hbuf b) t) busy /\
  exists b' f m', w_run busy [b] m = HOk ([b'], [Some f]) m' /\ hberr b' = None /\ arr (hbuf b') <> arr (hbuf b) /\
    hlen (hbuf b) + 300 <= hlen (hbuf b') /\ contents m' whole = s2b "otherDE!".
Proof.
  do 2 eexists. split; [vm_compute; reflexivity|]. split; [split; vm_compute; lia|]. split; [reflexivity|]. split; [unfold busy; cbn; busy_uses|].
  do 3 eexists. split; [vm_compute; reflexivity|]. split; [reflexivity|]. split; [vm_compute; discriminate|]. split; [vm_compute; lia|vm_compute; reflexivity].
Qed.

(* With no error and with one: an InsertF on a pipe that has an error does not call its callback, and the callback's write
   does not happen. *)
Example errors_meet : exists b m, piped 100 = HOk b m /\
  let pr := WCall 0 (RStmtExecute (s2b "SELECT ?") [RVal (VUser None None)])
    (WInsertF 0 (s2b "t") [s2b "a"] [WICopy whole 0 (s2b "other"); WRow [RRef OBytes whole]] (WRet None [])) in
  uses (fun t => valid m t /\ apart (hbuf b) t) pr /\
  exists b' e m', w_run pr [b] m = HOk ([b'], []) m' /\ hberr b' = Some e /\ contents m' whole = s2b "caller's".
Proof.
  do 2 eexists. split; [vm_compute; reflexivity|]. cbv zeta. split; [cbn; busy_uses|].
  do 3 eexists. split; [vm_compute; reflexivity|]. split; [vm_compute; reflexivity|]. vm_compute. reflexivity.
Qed.

(* Three rows through one buffer: the bytes of each are in the message. *)
Example rows_meet : exists b m b' m', piped 100 = HOk b m /\ valid m (hbuf b) /\ hdisabled b = false /\ valid m whole /\ apart (hbuf b) whole /\
  Forall (fun xs => length xs <= hlen whole) [s2b "one"; s2b "two"; s2b "longer"] /\
  w_run (WInsertF 0 (s2b "t") [s2b "a"] (rows_through whole [s2b "one"; s2b "two"; s2b "longer"]) (WRet None [])) [b] m = HOk ([b'], []) m' /\
  skipn (hlen (hbuf b)) (contents m' (hbuf b')) = [67; 0; 0; 0; 18; 10; 3; 10; 1; 116; 16; 2; 26; 3; 10; 1; 97]%N ++
    [34; 15; 10; 13; 8; 2; 34; 9; 8; 4; 42; 5; 10; 3]%N ++ s2b "one" ++ [34; 15; 10; 13; 8; 2; 34; 9; 8; 4; 42; 5; 10; 3]%N ++ s2b "two" ++
    [34; 18; 10; 16; 8; 2; 34; 12; 8; 4; 42; 8; 10; 6]%N ++ s2b "longer".
Proof.
  do 4 eexists. split; [vm_compute; reflexivity|]. split; [split; vm_compute; lia|]. split; [reflexivity|]. split; [split; vm_compute; lia|].
  split; [right; right; left; vm_compute; discriminate|]. split; [repeat constructor; vm_compute; lia|]. split; [vm_compute; reflexivity|].
  vm_compute. reflexivity.
Qed.

Example stmts_meet : exists b m b' m', piped 100 = HOk b m /\ valid m (hbuf b) /\ hdisabled b = false /\ valid m whole /\ apart (hbuf b) whole /\
  Forall (fun xs => length xs <= hlen whole) [s2b "one"; s2b "two"] /\
  w_run (stmts_through whole (s2b "SELECT ?") [s2b "one"; s2b "two"]) [b] m = HOk ([b'], []) m' /\
  skipn (hlen (hbuf b)) (contents m' (hbuf b')) =
    [26; 0; 0; 0; 12; 10; 8]%N ++ s2b "SELECT ?" ++ [18; 13; 8; 1; 18; 9; 8; 4; 42; 5; 10; 3]%N ++ s2b "one" ++
    [26; 0; 0; 0; 12; 10; 8]%N ++ s2b "SELECT ?" ++ [18; 13; 8; 1; 18; 9; 8; 4; 42; 5; 10; 3]%N ++ s2b "two".
Proof.
  do 4 eexists. split; [vm_compute; reflexivity|]. split; [split; vm_compute; lia|]. split; [reflexivity|]. split; [split; vm_compute; lia|].
  split; [right; right; left; vm_compute; discriminate|]. split; [repeat constructor; vm_compute; lia|]. split; [vm_compute; reflexivity|].
  vm_compute. reflexivity.
Qed.

Print Assumptions C95_memory_is_free_again.
Print Assumptions C95_without_writes.
Print Assumptions C95_one_buffer_for_all_rows.
Print Assumptions C95_one_buffer_for_all_statements.
