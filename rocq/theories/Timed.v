(* Time: Send, WriteOne, Authenticate (netx/connection), New (netx/connector) and Send of the pool, on a network whose
   operations take time, which may be for ever, and on which the server may send without an end. Conn, by contrast, is
   given the bytes that arrive in time, which are finitely many.
   Time is counted in ticks of any length. What an operation of the net.Conn does not wait for takes no time here; in
   particular the client's own computations.
   The library code this relies on: an operation of a net.Conn with a deadline (net.Conn's documentation) returns by
   then, with an error if it has not succeeded; a deadline that has passed makes it fail at once, even if there are bytes
   to read (internal/poll: prepareRead); the deadline of a tls.Conn is that of the net.Conn below; bufio.Reader and
   io.ReadFull are as in their source. *)
From Coq Require Import String List NArith ZArith Bool.
From Coq Require Import List.
From Verif Require Import Base GoSlice SpecWire MsgModel Conn AuthModel Connector.
Import ListNotations.
Open Scope N_scope.
Open Scope list_scope.

(* context.Context: when its deadline is (Deadline(), None is no deadline) and when its Done() is closed by a cancel function,
   if ever. *)
Record context := mkctx { ctx_deadline : option N; ctx_cancelled : option N }.

(* The n-th Read, Write, SetDeadline and Close of the connection, and dialling and the TLS handshake: how long it takes in
   addition to one tick (None: for ever) unless a deadline ends it, and its result. What is read is never nothing
   (net.Conn returns n > 0 or an error). *)
Record world := mkworld {
  reads : nat -> option N * (N * bytes + ioerr);
  writings : nat -> option N * option ioerr;
  settings : nat -> option ioerr;
  closings : N;                          (* how long Close takes: of a tls.Conn it sends an alert, crypto/tls: closeNotify *)
  dialling : option N * option kind;
  shaking : option N * bool }.

(* The error of an operation whose deadline has passed (i/o timeout). *)
Definition io_timeout : ioerr := IoOther 0.

(* A connection: netx/connection/connection.go:24-27. [buffered] and [kept] are the bufio.Reader's bytes and err. *)
Record tconn := mkt {
  tkind : kind;
  now : N;                               (* the time *)
  due : option N;                        (* the deadline of the net.Conn *)
  buffered : bytes;
  kept : option ioerr;
  nreads : nat; nwrites : nat; nsets : nat;  (* how many of them there have been *)
  got_so_far : bytes;                    (* ghost: what the Reads gave *)
  broke : option ioerr;                  (* ghost: the error the last Read of the net.Conn gave *)
  tlog : list event }.                   (* ghost: as in Conn *)

(* What becomes of a call: it returns, it panics, it never returns because it waits for an operation that never ends; or it has
   taken more steps than the model was told to look at. *)
Inductive outcome (A : Type) := Back (a : A) (s : tconn) | Panicked (s : tconn) | Waits | More.
Arguments Back {A}. Arguments Panicked {A}. Arguments Waits {A}. Arguments More {A}.
Definition tbind {A B} (x : outcome A) (f : A -> tconn -> outcome B) : outcome B :=
  match x with Back a s => f a s | Panicked s => Panicked s | Waits => Waits | More => More end.
Notation "'dot' ( a , s ) <- x ; f" := (tbind x (fun a s => f)) (at level 200, a name, s name, x at level 100, f at level 200).

(* An operation that takes time t and is ended by the deadline d: when it is over, and whether it was in time. None: never. *)
Definition ends (t d : option N) (now : N) : option (bool * N) :=
  match d, t with
  | None, None => None
  | None, Some t => Some (true, now + 1 + t)
  | Some d, None => Some (false, N.max now d)
  | Some d, Some t => if now + 1 + t <? d then Some (true, now + 1 + t) else Some (false, N.max now d)
  end.

(* The earlier of two times. *)
Definition earlier (a b : option N) : option N :=
  match a, b with Some x, Some y => Some (N.min x y) | Some x, None => Some x | None, y => y end.

Section Connection.
Variable w32 : bool.
Variable w : world.

(* net.Conn.Read into room bytes *)
Definition net_read (room : N) (s : tconn) : outcome (bytes + ioerr) :=
  let (t, x) := reads w (nreads s) in
  match ends t (due s) (now s) with
  | None => Waits
  | Some (in_time, t) =>
      match x, in_time with
      | inl (b, bs), true =>
          let c := firstN room (b :: bs) in
          Back (inl c) (mkt (tkind s) t (due s) (buffered s) (kept s) (S (nreads s)) (nwrites s) (nsets s) (got_so_far s ++ c) (broke s) (tlog s))
      | _, _ =>
          let e := match x with inr e => if in_time then e else io_timeout | inl _ => io_timeout end in
          Back (inr e) (mkt (tkind s) t (due s) (buffered s) (kept s) (S (nreads s)) (nwrites s) (nsets s) (got_so_far s) (Some e) (tlog s))
      end
  end.

Definition with_buffer (b : bytes) (k : option ioerr) (s : tconn) : tconn :=
  mkt (tkind s) (now s) (due s) b k (nreads s) (nwrites s) (nsets s) (got_so_far s) (broke s) (tlog s).

(* bufio.Reader.Peek, the loop around fill: until n bytes are there, the buffer is full or there is an error. *)
Fixpoint t_fill (k : nat) (n : N) (s : tconn) : outcome unit :=
  match kept s with
  | Some _ => Back tt s
  | None =>
      if orb (n <=? nlen (buffered s)) (buf_size <=? nlen (buffered s)) then Back tt s
      else match k with
           | O => More
           | S k =>
               dot (x, s) <- net_read (buf_size - nlen (buffered s)) s;
               match x with
               | inl c => t_fill k n (with_buffer (buffered s ++ c) None s)
               | inr e => t_fill k n (with_buffer (buffered s) (Some e) s)
               end
           end
  end.

(* bufio.Reader.Peek: readErr returns the error and forgets it; without one the answer to too little is ErrBufferFull. *)
Definition t_peek (k : nat) (n : N) (s : tconn) : outcome got :=
  dot (u, s) <- t_fill k n s;
  if buf_size <? n then Back Full s
  else if nlen (buffered s) <? n
       then match kept s with
            | Some e => Back (Failed e) (with_buffer (buffered s) None s)
            | None => Back Full s
            end
       else Back (Got (firstN n (buffered s))) s.

(* bufio.Reader.Discard of bytes that have been peeked. *)
Definition t_discard (n : N) (s : tconn) : tconn := with_buffer (skipN n (buffered s)) (kept s) s.

(* bufio.Reader.Read into need > 0 bytes: what it returns. A large Read into an empty buffer is one of the net.Conn. *)
Definition t_read_some (need : N) (s : tconn) : outcome (bytes + ioerr) :=
  match buffered s, kept s with
  | _ :: _, k => Back (inl (firstN need (buffered s))) (with_buffer (skipN need (buffered s)) k s)
  | [], Some e => Back (inr e) (with_buffer [] None s)
  | [], None =>
      if buf_size <=? need then net_read need s
      else
        dot (x, s) <- net_read buf_size s;
        match x with
        | inr e => Back (inr e) s
        | inl c => Back (inl (firstN need c)) (with_buffer (skipN need c) None s)
        end
  end.

(* io.ReadFull (io.ReadAtLeast) of need bytes, after b: EOF after at least one byte becomes ErrUnexpectedEOF. *)
Fixpoint t_read_full (k : nat) (need : N) (b : bytes) (s : tconn) : outcome got :=
  if need =? 0 then Back (Got b) s
  else match k with
       | O => More
       | S k =>
           dot (x, s) <- t_read_some need s;
           match x with
           | inl c => t_read_full k (need - nlen c) (b ++ c) s
           | inr e => Back (Failed (match e, b with IoEOF, _ :: _ => IoUnexpectedEOF | e, _ => e end)) s
           end
       end.

(* netx/connection/connection.go:113-143: the header and the payload of one message, as Conn.read_message. *)
Definition t_message (k : nat) (s : tconn) : outcome (N * bytes * N + cerr) :=
  dot (h, s) <- t_peek k 5 s;
  match h with
  | Failed e => Back (inr (CRead e)) s
  | Full => Back (inr CNever) s
  | Got b =>
      let u := le (firstn 4 b) in
      let st := nth 4 b 0 in
      let s := t_discard 5 s in
      let n := int_of_u32 w32 u in
      if (n <? 1)%Z then Back (inr (CShort n)) s
      else
        let n := Z.to_N (n - 1) in
        if 0 <? n then
          dot (p, s) <- t_peek k n s;
          match p with
          | Got b => Back (inl (st, b, n)) s
          | Failed e => Back (inr (CRead e)) s
          | Full =>
              dot (p, s) <- t_read_full k n [] s;
              match p with
              | Got b => Back (inl (st, b, 0)) s
              | Failed e => Back (inr (CRead e)) s
              | Full => Back (inr CNever) s
              end
          end
        else Back (inl (st, b, 0)) s
  end.

(* netx/connection/connection.go:108-202 Read. The loop ends when the server has answered or something went wrong; k bounds
   how many messages, and how many Reads for each, the model looks at. *)
Fixpoint t_read_k (k inner : nat) (ct : N) (s : tconn) : outcome (response * option cerr) :=
  match k with
  | O => More
  | S k =>
      dot (m, s) <- t_message inner s;
      match m with
      | inr e => Back (None, Some e) s
      | inl (st, b, n) =>
          match dispatch ct st b with
          | Some (resp, Some CBadMeta) => Back (resp, Some CBadMeta) s
          | Some a => Back a (t_discard n s)
          | None => t_read_k k inner ct (t_discard n s)
          end
      end
  end.
Definition t_read (k : nat) (ct : N) (s : tconn) : outcome (response * option cerr) := t_read_k k k ct s.

(* net.Conn.SetDeadline: when it fails the deadline stays as it is. *)
Definition t_set_deadline (d : option N) (s : tconn) : option ioerr * tconn :=
  let x := settings w (nsets s) in
  (x, mkt (tkind s) (now s) (match x with None => d | Some _ => due s end) (buffered s) (kept s) (nreads s) (nwrites s) (S (nsets s)) (got_so_far s) (broke s)
          (SetDeadline (tkind s) d x :: tlog s)).

(* net.Conn.Write *)
Definition t_write (b : bytes) (s : tconn) : outcome (option ioerr) :=
  let (t, x) := writings w (nwrites s) in
  match ends t (due s) (now s) with
  | None => Waits
  | Some (in_time, t) =>
      let x := if in_time then x else Some io_timeout in
      Back x (mkt (tkind s) t (due s) (buffered s) (kept s) (nreads s) (S (nwrites s)) (nsets s) (got_so_far s) (broke s) (Write (tkind s) b x :: tlog s))
  end.

(* netx/connection/connection.go:49-51 Close *)
Definition t_close (s : tconn) : tconn :=
  mkt (tkind s) (now s + closings w) (due s) (buffered s) (kept s) (nreads s) (nwrites s) (nsets s) (got_so_far s) (broke s) (Close (tkind s) :: tlog s).

(* netx/connection/connection.go:53-63 WriteOne *)
Definition t_write_one (k : nat) (ctx : context) (b : bytes) (s : tconn) : outcome (response * option cerr) :=
  match t_set_deadline (ctx_deadline ctx) s with
  | (Some e, s) => Back (None, Some (CDeadline e)) s
  | (None, s) =>
      dot (x, s) <- t_write b s;
      match x with
      | Some e => Back (None, Some (CWrite e)) s
      | None =>
          match nth_error b 4 with
          | Some ct => t_read k ct s
          | None => Panicked s
          end
      end
  end.

(* netx/connection/connection.go:97-106 ReadResponsesToSlice, as Conn.read_responses: l bounds the messages of b, whose length is
   enough. *)
Fixpoint t_read_responses (l k : nat) (rest : bytes) (rs : list response) (s : tconn) : outcome (list response * option cerr) :=
  match rest, l with
  | [], _ => Back (rs, None) s
  | _, O => Panicked s
  | _, S l =>
      match nth_error rest 4 with
      | None => Panicked s
      | Some ct =>
          dot (a, s) <- t_read k ct s;
          let rs := rs ++ [fst a] in
          match snd a with
          | Some e => Back (rs, Some e) s
          | None => t_read_responses l k (skipN (4 + le (firstn 4 rest)) rest) rs s
          end
      end
  end.

(* netx/connection/connection.go:65-74 Send *)
Definition t_send (k : nat) (ctx : context) (b : bytes) (s : tconn) : outcome (list response * option cerr) :=
  match t_set_deadline (ctx_deadline ctx) s with
  | (Some e, s) => Back ([], Some (CDeadline e)) s
  | (None, s) =>
      dot (x, s) <- t_write b s;
      match x with
      | Some e => Back ([], Some (CWrite e)) s
      | None => t_read_responses (length b) k b [] s
      end
  end.

(* netx/connection/connection.go:204-225 Authenticate *)
Definition t_authenticate (k : nat) (ctx : context) (creds : credentials) (m : mechanism) (s : tconn) : outcome (option cerr) :=
  match start m creds with
  | Panic => Panicked s
  | Ok b =>
      dot (a, s) <- t_write_one k ctx b s;
      match snd a with
      | None => Back None s
      | Some (CChallenge d) =>
          match continue m with
          | None => Back (Some CUnexpectedContinue) s
          | Some f =>
              match f creds d with
              | Panic => Panicked s
              | Ok b => dot (a, s) <- t_write_one k ctx b s; Back (snd a) s
              end
          end
      | Some e => Back (Some e) s
      end
  end.
End Connection.

Section Model.
Context `{E : Env}.
Variable w : world.

(* netx/connector/connector.go:84-97, as Connector.authenticate_or_close *)
Definition t_authenticate_or_close (k : nat) (ctx : context) (cfg : config) (s : tconn) : outcome (option nerr) :=
  dot (r, s) <- t_authenticate word32 w k ctx (credentials_of cfg) (authentication cfg) s;
  match r with
  | None => Back None s
  | Some e =>
      let denied := match e with CServer m => code m =? ErAccessDeniedError | _ => false end in
      if andb denied (match tkind s with Tls | Unix => true | _ => false end)
      then dot (r2, s) <- t_authenticate word32 w k ctx (credentials_of cfg) plain s;
           match r2 with
           | None => Back None s
           | Some _ => Back (Some (NConn e)) (t_close w s)
           end
      else Back (Some (NConn e)) (t_close w s)
  end.

(* A new connection: netx/connection/connection.go:42-47 New. A net.Conn has no deadline at first. *)
Definition new_tconn (k : kind) (t : N) : tconn := mkt k t None [] None 0 0 0 [] None [].

(* netx/connection/connection.go:37-40 Reset: bufio.Reader.Reset drops what was buffered. *)
Definition t_reset (s : tconn) : tconn := mkt Tls (now s) (due s) [] None (nreads s) (nwrites s) (nsets s) [] None (tlog s).

(* netx/connector/connector.go:59-98 New at time t. DialContext returns when the context is done; Handshake has no context, only
   the deadline of the net.Conn. When dialling fails there is no connection: the result's connection then only tells the time. *)
Definition t_new (k : nat) (ctx : context) (cfg : config) (t : N) : outcome (option nerr) :=
  match ends (fst (dialling w)) (earlier (ctx_deadline ctx) (ctx_cancelled ctx)) t with
  | None => Waits
  | Some (in_time, t) =>
      match snd (dialling w), in_time with
      | Some kd, true =>
          let s := new_tconn kd t in
          if andb (match kd with Tcp => true | _ => false end) (with_tls cfg)
          then
            dot (r, s) <- t_send word32 w k ctx (capability_set (s2b "tls") true) s;
            match snd r with
            | Some e => Back (Some (NConn e)) s
            | None =>
                match ends (fst (shaking w)) (due s) (now s) with
                | None => Waits
                | Some (in_time, t) =>
                    let s := mkt (tkind s) t (due s) (buffered s) (kept s) (nreads s) (nwrites s) (nsets s) (got_so_far s) (broke s) (tlog s) in
                    if andb in_time (snd (shaking w)) then t_authenticate_or_close k ctx cfg (t_reset s)
                    else Back (Some NHandshake) (t_close w (mkt Tls (now s) (due s) (buffered s) (kept s) (nreads s) (nwrites s) (nsets s) (got_so_far s) (broke s) (tlog s)))
                end
            end
          else t_authenticate_or_close k ctx cfg s
      | _, _ => Back (Some NDial) (new_tconn OtherConn t)
      end
  end.

(* netx/pool/fifoch/fifoch.go:53-88 Send of the pool. [found]: what the select finds, an idle connection, a closed channel, a context
   that is done, or nothing, and whether there is room for the connection at the end. The other calls of the pool do not make it
   wait (Pool; ThmPool.C57). *)
Inductive found := Idle (s : tconn) | NoPool | CtxDone | NothingIdle.
Inductive perr := PClosed | PContext | PNew (e : nerr) | PConn (e : cerr).
Definition t_use (k : nat) (ctx : context) (room : bool) (b : bytes) (s : tconn) : outcome (list response * option perr) :=
  dot (r, s) <- t_send word32 w k ctx b s;
  match snd r with
  | Some e => Back (fst r, Some (PConn e)) (t_close w s)
  | None => Back (fst r, None) (if room then s else t_close w s)
  end.
Definition t_pool_send (k : nat) (ctx : context) (cfg : config) (f : found) (room : bool) (b : bytes) (t : N) : outcome (list response * option perr) :=
  match f with
  | Idle s => t_use k ctx room b (mkt (tkind s) t (due s) (buffered s) (kept s) (nreads s) (nwrites s) (nsets s) (got_so_far s) (broke s) (tlog s))
  | NoPool => Back ([], Some PClosed) (new_tconn OtherConn t)
  | CtxDone => Back ([], Some PContext) (new_tconn OtherConn t)
  | NothingIdle =>
      dot (r, s) <- t_new k ctx cfg t;
      match r with
      | Some e => Back ([], Some (PNew e)) s
      | None => t_use k ctx room b s
      end
  end.
End Model.
