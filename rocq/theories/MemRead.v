(* Model of how replies are read, over memory: the read buffer of netx/connection, and the buffer Read makes for large
   messages, are arrays that are written again and again, and what the code looks at are slices of them.
   bufio.Reader and io.ReadFull are modelled after their source in Go 1.14 (the version go.mod names), not by what they are
   for. lastByte and lastRuneSize of bufio.Reader are left out: only UnreadByte and UnreadRune look at them. *)
From Coq Require Import List NArith ZArith Bool.
From Verif Require Import Base SpecWire Conn.
Import ListNotations.
Open Scope N_scope.

(* Arrays: b[i:i+n], and copy(b[i:], d) for a d that fits. *)
Definition sub (i n : N) (b : bytes) : bytes := firstN n (skipN i b).
Definition put (i : N) (d b : bytes) : bytes := firstN i b ++ d ++ skipN (i + nlen d) b.

(* ---- the net.Conn ---- *)

(* What the coming calls of Read of a net.Conn return: a chunk each (maybe an empty one, as io.Reader allows), or as much of it
   as the caller has room for; then [final_chunk] and with its last byte the error (as a tls.Conn does on close_notify); from
   then on the error alone. *)
Record source := mksrc { chunks : list bytes; final_chunk : bytes; fails_with : ioerr }.

(* io.Reader.Read into a slice of length room *)
Definition src_read (room : N) (s : source) : (bytes * option ioerr) * source :=
  match chunks s with
  | c :: cs =>
      if nlen c <=? room then ((c, None), mksrc cs (final_chunk s) (fails_with s))
      else ((firstN room c, None), mksrc (skipN room c :: cs) (final_chunk s) (fails_with s))
  | [] =>
      let c := final_chunk s in
      if nlen c <=? room then ((c, Some (fails_with s)), mksrc [] [] (fails_with s))
      else ((firstN room c, None), mksrc [] (skipN room c) (fails_with s))
  end.

(* ---- bufio.Reader ---- *)

(* bufio.Reader: the array buf, the read and write positions, the error kept, the net.Conn.
   netx/connection/connection.go:24-27 the field r of conn *)
Record bufrd := mkb { buf : bytes; pos_r : N; pos_w : N; kept : option ioerr; src : source }.

(* io.ErrNoProgress. *)
Definition no_progress : ioerr := IoOther 0.
(* bufio: maxConsecutiveEmptyReads *)
Definition max_empty : nat := 100.

(* bufio.NewReaderSize(netConn, minBufSize): make([]byte, 4096). netx/connection/connection.go:42-47 New *)
Definition new_bufrd (s : source) : bufrd := mkb (repeat 0 (N.to_nat buf_size)) 0 0 None s.
(* bufio.Reader.Reset: the array stays. netx/connection/connection.go:37-40 Reset *)
Definition reset_bufrd (s : source) (b : bufrd) : bufrd := mkb (buf b) 0 0 None s.

Definition buffered (b : bufrd) : N := pos_w b - pos_r b.

(* bufio.Reader.fill, the loop *)
Fixpoint fill_loop (i : nat) (b : bufrd) : bufrd :=
  match i with
  | O => mkb (buf b) (pos_r b) (pos_w b) (Some no_progress) (src b)
  | S i =>
      let '((d, e), s) := src_read (nlen (buf b) - pos_w b) (src b) in
      let b := mkb (put (pos_w b) d (buf b)) (pos_r b) (pos_w b + nlen d) (kept b) s in
      match e with
      | Some _ => mkb (buf b) (pos_r b) (pos_w b) e s
      | None => if 0 <? nlen d then b else fill_loop i b
      end
  end.
(* bufio.Reader.fill: slide existing data to the beginning, then read new data *)
Definition slide (b : bufrd) : bufrd :=
  if 0 <? pos_r b
  then mkb (put 0 (sub (pos_r b) (buffered b) (buf b)) (buf b)) 0 (buffered b) (kept b) (src b)
  else b.
Definition m_fill (b : bufrd) : res bufrd :=
  let b := slide b in
  if nlen (buf b) <=? pos_w b then Panic (* bufio: tried to fill full buffer *)
  else Ok (fill_loop max_empty b).

(* bufio.Reader.readErr *)
Definition read_err (b : bufrd) : option ioerr * bufrd := (kept b, mkb (buf b) (pos_r b) (pos_w b) None (src b)).

(* A slice: of the read buffer, or the first bytes of Read's own one. It is not what is in it. *)
Inductive slice := Buffered (i n : N) | Large (n : N).

(* What Peek returns: a slice, ErrBufferFull, or an error of the net.Conn. *)
Inductive peeked := PGot (s : slice) | PFull | PFailed (e : ioerr).

(* bufio.Reader.Peek, the loop *)
Fixpoint peek_loop (k : nat) (n : N) (b : bufrd) : res bufrd :=
  if andb (buffered b <? n) (andb (buffered b <? nlen (buf b)) (match kept b with None => true | Some _ => false end))
  then match k with O => Panic | S k => do b <- m_fill b; peek_loop k n b end
  else Ok b.
(* No more rounds than there are bytes to come, and one. *)
Definition src_bytes (s : source) : bytes := concat (chunks s) ++ final_chunk s.
(* bufio.Reader.Peek; n is not negative where it is called *)
Definition m_peek (n : N) (b : bufrd) : res (peeked * bufrd) :=
  do b <- peek_loop (S (length (src_bytes (src b)))) n b;
  if nlen (buf b) <? n then Ok (PFull, b)
  else if buffered b <? n then
    let (e, b) := read_err b in
    Ok (match e with Some e => PFailed e | None => PFull end, b)
  else Ok (PGot (Buffered (pos_r b) n), b).

(* bufio.Reader.Discard, the loop. Its error is not looked at by the callers. *)
Fixpoint discard_loop (k : nat) (remain : N) (b : bufrd) : res bufrd :=
  match k with
  | O => Panic
  | S k =>
      do b <- (if buffered b =? 0 then m_fill b else Ok b);
      let skip := N.min (buffered b) remain in
      let b := mkb (buf b) (pos_r b + skip) (pos_w b) (kept b) (src b) in
      let remain := remain - skip in
      if remain =? 0 then Ok b
      else match kept b with
           | Some _ => Ok (snd (read_err b))
           | None => discard_loop k remain b
           end
  end.
Definition m_discard (n : N) (b : bufrd) : res bufrd :=
  if n =? 0 then Ok b else discard_loop (S (N.to_nat n)) n b.

(* bufio.Reader.Read(p) where p = l[at:] and is not empty: the number of bytes read, the error, the array l *)
Definition m_read_into (at_ : N) (l : bytes) (b : bufrd) : (N * option ioerr * bytes) * bufrd :=
  let room := nlen l - at_ in
  let copy b :=
    let n := N.min (buffered b) room in
    ((n, None, put at_ (sub (pos_r b) n (buf b)) l), mkb (buf b) (pos_r b + n) (pos_w b) (kept b) (src b)) in
  if pos_r b =? pos_w b then
    match kept b with
    | Some e => ((0, Some e, l), snd (read_err b))
    | None =>
        if nlen (buf b) <=? room then
          (* Large read, empty buffer. Read directly into p to avoid copy. *)
          let '((d, e), s) := src_read room (src b) in
          ((nlen d, e, put at_ d l), mkb (buf b) (pos_r b) (pos_w b) None s)
        else
          (* One read. Do not use b.fill, which will loop. *)
          let '((d, e), s) := src_read (nlen (buf b)) (src b) in
          if nlen d =? 0 then ((0, e, l), mkb (buf b) 0 0 None s)
          else copy (mkb (put 0 d (buf b)) 0 (nlen d) e s)
    end
  else copy b.

(* ---- io.ReadFull ---- *)

(* io.ReadAtLeast(r, l[:want], want), n bytes of it already read; l[:want] is the slice here *)
Fixpoint read_full_loop (k : nat) (n : N) (l : bytes) (b : bufrd) : res ((option ioerr * bytes) * bufrd) :=
  if n <? nlen l then
    match k with
    | O => Panic
    | S k =>
        let '((nn, e, l), b) := m_read_into n l b in
        let n := n + nn in
        match e with
        | None => read_full_loop k n l b
        | Some e =>
            if nlen l <=? n then Ok ((None, l), b)
            else Ok ((Some (if 0 <? n then match e with IoEOF => IoUnexpectedEOF | e => e end else e), l), b)
        end
    end
  else Ok ((None, l), b).
(* No more rounds than there are bytes, chunks and the error to come. *)
Definition m_read_full (l : bytes) (b : bufrd) : res ((option ioerr * bytes) * bufrd) :=
  read_full_loop (S (length (chunks (src b)) + length (src_bytes (src b)) + N.to_nat (buffered b))) 0 l b.

(* ---- connection.go ---- *)

(* What is in a slice now; [large] is the array of buf in Read *)
Definition contents (large : bytes) (b : bufrd) (s : slice) : bytes :=
  match s with
  | Buffered i n => sub i n (buf b)
  | Large n => firstN n large
  end.

(* netx/connection/connection.go:113-143: as Conn.read_message, but what is returned is the slice b. *)
Definition m_message (w32 : bool) (large : bytes) (b : bufrd) : res ((N * slice * N + cerr) * bytes * bufrd) :=
  do (p, b) <- m_peek 5 b;
  match p with
  | PFailed e => Ok (inr (CRead e), large, b)
  | PFull => Ok (inr CNever, large, b)
  | PGot h =>
      let u := le (firstn 4 (contents large b h)) in
      let st := nth 4 (contents large b h) 0 in
      do b <- m_discard 5 b;
      let n := int_of_u32 w32 u in
      if (n <? 1)%Z then Ok (inr (CShort n), large, b)
      else
        let n := Z.to_N (n - 1) in
        if 0 <? n then
          do (p, b) <- m_peek n b;
          match p with
          | PGot s => Ok (inl (st, s, n), large, b)
          | PFailed e => Ok (inr (CRead e), large, b)
          | PFull =>
              (* if n > cap(buf) { buf = make([]byte, n) }; b = buf[:n] *)
              let large := if nlen large <? n then repeat 0 (N.to_nat n) else large in
              do ((e, l), b) <- m_read_full (firstN n large) b;
              let large := put 0 l large in
              match e with
              | Some e => Ok (inr (CRead e), large, b)
              | None => Ok (inl (st, Large n, 0), large, b)
              end
          end
        else Ok (inl (st, h, 0), large, b)
  end.

(* netx/connection/connection.go:108-202 Read: as Conn.read_k. The messages are looked at where they are, and what is made of
   them is copied: proto.Unmarshal does not alias its argument. *)
Fixpoint m_read_k (k : nat) (w32 : bool) (ct : N) (large : bytes) (b : bufrd) : res ((response * option cerr) * bufrd) :=
  match k with
  | O => Panic
  | S k =>
      do (x, large, b) <- m_message w32 large b;
      match x with
      | inr e => Ok ((None, Some e), b)
      | inl (st, s, n) =>
          match dispatch ct st (contents large b s) with
          | Some (resp, Some CBadMeta) => Ok ((resp, Some CBadMeta), b)
          | Some a => do b <- m_discard n b; Ok (a, b)
          | None => do b <- m_discard n b; m_read_k k w32 ct large b
          end
      end
  end.
(* var buf []byte: no array yet. *)
Definition m_read (w32 : bool) (ct : N) (b : bufrd) : res ((response * option cerr) * bufrd) :=
  m_read_k (S (N.to_nat (buffered b) + length (src_bytes (src b)))) w32 ct [] b.

(* netx/connection/connection.go:24-27 conn, as Conn.conn *)
Record mconn := mkmc { m_kind : kind; m_rd : bufrd; m_deadlines : list (option ioerr); m_writes : list (option ioerr); m_log : list event }.

Definition m_set_deadline (d : option N) (c : mconn) : option ioerr * mconn :=
  let (x, l) := next_result (m_deadlines c) in
  (x, mkmc (m_kind c) (m_rd c) l (m_writes c) (SetDeadline (m_kind c) d x :: m_log c)).
Definition m_write (b : bytes) (c : mconn) : option ioerr * mconn :=
  let (x, l) := next_result (m_writes c) in
  (x, mkmc (m_kind c) (m_rd c) (m_deadlines c) l (Write (m_kind c) b x :: m_log c)).

Section Connection.
Variable w32 : bool.

Definition m_c_read (ct : N) (c : mconn) : res ((response * option cerr) * mconn) :=
  do (a, b) <- m_read w32 ct (m_rd c); Ok (a, mkmc (m_kind c) b (m_deadlines c) (m_writes c) (m_log c)).

(* netx/connection/connection.go:53-63 WriteOne *)
Definition m_write_one (deadline : option N) (b : bytes) (c : mconn) : res ((response * option cerr) * mconn) :=
  match m_set_deadline deadline c with
  | (Some e, c) => Ok ((None, Some (CDeadline e)), c)
  | (None, c) =>
      match m_write b c with
      | (Some e, c) => Ok ((None, Some (CWrite e)), c)
      | (None, c) =>
          match nth_error b 4 with
          | Some ct => m_c_read ct c
          | None => Panic
          end
      end
  end.

(* netx/connection/connection.go:97-106 ReadResponsesToSlice *)
Fixpoint m_responses (k : nat) (rest : bytes) (rs : list response) (c : mconn) : res ((list response * option cerr) * mconn) :=
  match rest, k with
  | [], _ => Ok ((rs, None), c)
  | _, O => Panic
  | _, S k =>
      match nth_error rest 4 with
      | None => Panic
      | Some ct =>
          do (a, c) <- m_c_read ct c;
          let rs := rs ++ [fst a] in
          match snd a with
          | Some e => Ok ((rs, Some e), c)
          | None => m_responses k (skipN (4 + le (firstn 4 rest)) rest) rs c
          end
      end
  end.

(* netx/connection/connection.go:65-74 Send *)
Definition m_send (deadline : option N) (b : bytes) (c : mconn) : res ((list response * option cerr) * mconn) :=
  match m_set_deadline deadline c with
  | (Some e, c) => Ok (([], Some (CDeadline e)), c)
  | (None, c) =>
      match m_write b c with
      | (Some e, c) => Ok (([], Some (CWrite e)), c)
      | (None, c) => m_responses (length b) b [] c
      end
  end.

(* netx/connection/connection.go:204-225 Authenticate *)
Definition m_authenticate (deadline : option N) (creds : credentials) (m : mechanism) (c : mconn) : res (option cerr * mconn) :=
  do b <- start m creds;
  do (a, c) <- m_write_one deadline b c;
  match snd a with
  | None => Ok (None, c)
  | Some (CChallenge d) =>
      match continue m with
      | None => Ok (Some CUnexpectedContinue, c)
      | Some k =>
          do b <- k creds d;
          do (a, c) <- m_write_one deadline b c;
          Ok (snd a, c)
      end
  | Some e => Ok (Some e, c)
  end.
End Connection.
