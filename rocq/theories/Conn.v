(* Model of /repo/netx/connection: reading replies, Send, WriteOne, Authenticate.
   Library code it calls is modelled too: bufio.Reader and io.ReadFull (Go standard library) in
   the way connection.go uses them, and proto.Unmarshal (github.com/golang/protobuf v1.4.0). *)
From Coq Require Import List NArith ZArith Bool.
From Verif Require Import Base SpecWire Unmarshal.
Import ListNotations.
Open Scope N_scope.

(* ---- the network and the buffered reader ---- *)

(* Errors of Read, Write and SetDeadline of a net.Conn. *)
Inductive ioerr := IoEOF | IoUnexpectedEOF | IoOther (n : N).

(* A bufio.Reader of size 4096 on a net.Conn. [held] are the buffered bytes; [inbound] is what the
   coming Reads of the net.Conn return, one chunk each unless the caller has less room (then the
   rest comes with the next Read); after that every Read returns the error [ended].
   An empty chunk is no Read at all (net.Conn returns n > 0 or an error).
   Simplification: bufio keeps a read error to return it later; the net.Conn would return the same
   error again, so it need not be stored. *)
Record reader := mkr { held : bytes; inbound : list bytes; ended : ioerr }.

(* netx/connection/connection.go:22 minBufSize *)
Definition buf_size : N := 4096.

Definition firstN (n : N) (l : bytes) : bytes := firstn (N.to_nat n) l.
Definition skipN (n : N) (l : bytes) : bytes := skipn (N.to_nat n) l.

(* bufio.Reader.Peek, the loop around fill: read into the free part of the buffer until n bytes are
   there, the buffer is full or the net.Conn fails. *)
Fixpoint fill (n : N) (h : bytes) (inb : list bytes) : bytes * list bytes :=
  if orb (n <=? nlen h) (buf_size <=? nlen h) then (h, inb)
  else match inb with
       | [] => (h, [])
       | c :: cs =>
           let room := buf_size - nlen h in
           if nlen c <=? room then fill n (h ++ c) cs
           else (h ++ firstN room c, skipN room c :: cs) (* the buffer is full now: the loop ends *)
       end.

(* What Peek and ReadFull give. *)
Inductive got := Got (b : bytes) | Full | Failed (e : ioerr).

(* bufio.Reader.Peek *)
Definition peek (n : N) (r : reader) : got * reader :=
  let (h, inb) := fill n (held r) (inbound r) in
  let r := mkr h inb (ended r) in
  if buf_size <? n then (Full, r)
  else if nlen h <? n then (Failed (ended r), r)
  else (Got (firstN n h), r).

(* bufio.Reader.Discard. Simplification: only for n bytes that have been peeked. *)
Definition discard (n : N) (r : reader) : reader := mkr (skipN n (held r)) (inbound r) (ended r).

(* io.ReadFull on an empty bufio.Reader, need > 0 bytes: a large request is read directly, a small
   one through the buffer. Result: the bytes, what is left in the buffer, the chunks to come; or
   None when the net.Conn failed first. *)
Fixpoint read_more (need : N) (inb : list bytes) : option (bytes * bytes * list bytes) :=
  match inb with
  | [] => None
  | c :: cs =>
      if buf_size <=? need then
        if nlen c <? need then
          match read_more (need - nlen c) cs with
          | Some (b, h, inb) => Some (c ++ b, h, inb)
          | None => None
          end
        else Some (firstN need c, [], skipN need c :: cs)
      else
        if nlen c <? need then
          match read_more (need - nlen c) cs with
          | Some (b, h, inb) => Some (c ++ b, h, inb)
          | None => None
          end
        else Some (firstN need c, skipN need (firstN buf_size c), skipN buf_size c :: cs)
  end.

(* io.ReadFull. EOF after at least one byte becomes ErrUnexpectedEOF. *)
Definition read_full (n : N) (r : reader) : got * reader :=
  if n <=? nlen (held r) then (Got (firstN n (held r)), mkr (skipN n (held r)) (inbound r) (ended r))
  else
    match read_more (n - nlen (held r)) (inbound r) with
    | Some (b, h, inb) => (Got (held r ++ b), mkr h inb (ended r))
    | None =>
        let some := negb (nlen (held r ++ concat (inbound r)) =? 0) in
        (Failed (match ended r with IoEOF => if some then IoUnexpectedEOF else IoEOF | e => e end), mkr [] [] (ended r))
    end.

(* ---- proto.Unmarshal ---- *)

(* The last value of field n that has wire type varint, or length delimited: the last one wins, and
   a field with another wire type is treated as unknown and skipped (Unmarshal). *)
Fixpoint last_varint (n : N) (fs : fields) : option N :=
  match fs with
  | [] => None
  | (m, w) :: r => match last_varint n r with
                   | Some x => Some x
                   | None => if m =? n then as_varint w else None
                   end
  end.
Fixpoint last_len (n : N) (fs : fields) : option bytes :=
  match fs with
  | [] => None
  | (m, w) :: r => match last_len n r with
                   | Some x => Some x
                   | None => if m =? n then as_len w else None
                   end
  end.

(* The texts of the other errors (netx/connection/errors.go:24-38) are not modelled. *)
(* netx/connection/errors.go:9-14 MySqlXError; severity as the unsigned 32 bit pattern of the int32 *)
Record server_error := mkse { severity : N; code : N; sql_state : bytes; text : bytes }.

(* proto.Unmarshal(b, &mysqlx.Error{}) and the four getters, netx/connection/connection.go:161-172;
   protobuf/mysqlx.proto: severity = 1 (optional, default ERROR = 0), code = 2, msg = 3, sql_state = 4 *)
Definition unmarshal_error (b : bytes) : option server_error :=
  let? fs := ufields b in
  let? c := last_varint 2 fs in
  let? m := last_len 3 fs in
  let? s := last_len 4 fs in
  let sev := match last_varint 1 fs with Some x => x mod 2 ^ 32 | None => 0 end in
  Some (mkse sev (c mod 2 ^ 32) s m).

(* proto.Unmarshal(b, &mysqlx_resultset.ColumnMetaData{}) succeeds: required type = 1 *)
Definition unmarshal_meta_ok (b : bytes) : bool :=
  match (let? fs := ufields b in last_varint 1 fs) with Some _ => true | None => false end.

(* proto.Unmarshal(b, &mysqlx_session.AuthenticateContinue{}): required auth_data = 1 *)
Definition unmarshal_continue (b : bytes) : option bytes :=
  let? fs := ufields b in last_len 1 fs.

(* ---- connection.go ---- *)

(* The errors Read, WriteOne, Send and Authenticate return. *)
Inductive cerr :=
| CRead (e : ioerr)                 (* error of Peek or ReadFull *)
| CShort (n : Z)                    (* length too short *)
| CBadMeta | CBadError | CBadContinue (* failed to unmarshal *)
| CUnexpectedContinue               (* ErrUnexpectedAuthenticateContinue *)
| CServer (e : server_error)        (* *MySqlXError *)
| CChallenge (data : bytes)         (* *ErrRequireAuthenticateContinue *)
| CDeadline (e : ioerr)             (* SetDeadline failed *)
| CWrite (e : ioerr)                (* Write failed *)
| CNever.                           (* the fuel of the model ran out; shown not to happen *)

(* netx/netx.go:7 Response: nil or the server's error *)
Definition response := option server_error.

(* protobuf/mysqlx.proto ServerMessages.Type and ClientMessages.Type *)
Definition srvOK : N := 0.
Definition srvERROR : N := 1.
Definition srvAUTH_CONTINUE : N := 3.
Definition srvAUTH_OK : N := 4.
Definition srvCOLUMN_META : N := 12.
Definition srvSTMT_EXECUTE_OK : N := 17.
Definition cliAUTH_START : N := 4.
Definition cliAUTH_CONTINUE : N := 5.
Definition cliRESET : N := 6.

(* netx/connection/errors.go:20-22 IsFatal *)
Definition is_fatal (e : server_error) : bool := severity e =? 1.

(* int(u) for a uint32: on a 32 bit platform the upper half is negative. *)
Definition int_of_u32 (w32 : bool) (u : N) : Z :=
  if andb w32 (2 ^ 31 <=? u) then (Z.of_N u - 2 ^ 32)%Z else Z.of_N u.

(* netx/connection/connection.go:173-182: a server error is the response; it is also the error of
   Send when it is fatal or answers a session message. *)
Definition answer_error (ct : N) (e : server_error) : response * option cerr :=
  if is_fatal e then (Some e, Some (CServer e))
  else if orb (ct =? cliRESET) (orb (ct =? cliAUTH_START) (ct =? cliAUTH_CONTINUE)) then (Some e, Some (CServer e))
  else (Some e, None).

(* netx/connection/connection.go:145-199: what one message means. None: read the next one, as for
   notices and all types not named. *)
Definition dispatch (ct st : N) (b : bytes) : option (response * option cerr) :=
  if orb (st =? srvOK) (orb (st =? srvAUTH_OK) (st =? srvSTMT_EXECUTE_OK)) then Some (None, None)
  else if st =? srvCOLUMN_META then (if unmarshal_meta_ok b then None else Some (None, Some CBadMeta))
  else if st =? srvERROR then
    match unmarshal_error b with
    | None => Some (None, Some CBadError)
    | Some e => Some (answer_error ct e)
    end
  else if st =? srvAUTH_CONTINUE then
    if negb (ct =? cliAUTH_START) then Some (None, Some CUnexpectedContinue)
    else match unmarshal_continue b with
         | None => Some (None, Some CBadContinue)
         | Some d => Some (None, Some (CChallenge d))
         end
  else None.

(* netx/connection/connection.go:113-143: the header and the payload of one message. The result is
   the type, the slice b the code goes on to use (of an empty payload b still is the header), and n,
   the number of bytes it will Discard. *)
Definition read_message (w32 : bool) (r : reader) : (N * bytes * N + cerr) * reader :=
  match peek 5 r with
  | (Failed e, r) => (inr (CRead e), r)
  | (Full, r) => (inr CNever, r)
  | (Got b, r) =>
      let u := le (firstn 4 b) in
      let st := nth 4 b 0 in
      let r := discard 5 r in
      let n := int_of_u32 w32 u in
      if (n <? 1)%Z then (inr (CShort n), r)
      else
        let n := Z.to_N (n - 1) in
        if 0 <? n then
          match peek n r with
          | (Got b, r) => (inl (st, b, n), r)
          | (Failed e, r) => (inr (CRead e), r)
          | (Full, r) =>
              match read_full n r with
              | (Got b, r) => (inl (st, b, 0), r)
              | (Failed e, r) => (inr (CRead e), r)
              | (Full, r) => (inr CNever, r)
              end
          end
        else (inl (st, b, 0), r)
  end.

(* netx/connection/connection.go:108-202 Read. The column meta data error path returns without
   discarding the payload, as the code does. *)
Fixpoint read_k (k : nat) (w32 : bool) (ct : N) (r : reader) : (response * option cerr) * reader :=
  match k with
  | O => ((None, Some CNever), r)
  | S k =>
      match read_message w32 r with
      | (inr e, r) => ((None, Some e), r)
      | (inl (st, b, n), r) =>
          match dispatch ct st b with
          | Some (resp, Some CBadMeta) => ((resp, Some CBadMeta), r)
          | Some a => (a, discard n r)
          | None => read_k k w32 ct (discard n r)
          end
      end
  end.
Definition conn_read (w32 : bool) (ct : N) (r : reader) : (response * option cerr) * reader :=
  read_k (S (length (held r ++ concat (inbound r)))) w32 ct r.

(* A connection: kind of the net.Conn, its reader, the results of the coming SetDeadline and Write
   calls (None is success; when the list is used up they succeed), and what was done to it so far,
   latest first. netx/connection/connection.go:24-27 conn, 42-47 New. *)
Inductive kind := Tcp | Unix | Tls | OtherConn.
Inductive event :=
| SetDeadline (k : kind) (deadline : option N) (result : option ioerr)
| Write (k : kind) (b : bytes) (result : option ioerr)
| Close (k : kind).
Record conn := mkc { ckind : kind; rd : reader; deadlines : list (option ioerr); writes : list (option ioerr); log : list event }.

(* netx/connection/connection.go:29-35 IsSecure *)
Definition is_secure (c : conn) : bool := match ckind c with Tls | Unix => true | _ => false end.

Definition next_result (l : list (option ioerr)) : option ioerr * list (option ioerr) :=
  match l with [] => (None, []) | x :: r => (x, r) end.

Definition set_deadline (d : option N) (c : conn) : option ioerr * conn :=
  let (x, l) := next_result (deadlines c) in
  (x, mkc (ckind c) (rd c) l (writes c) (SetDeadline (ckind c) d x :: log c)).
(* net.Conn.Write returns an error unless everything was written. *)
Definition write (b : bytes) (c : conn) : option ioerr * conn :=
  let (x, l) := next_result (writes c) in
  (x, mkc (ckind c) (rd c) (deadlines c) l (Write (ckind c) b x :: log c)).
(* netx/connection/connection.go:49-51 Close *)
Definition close (c : conn) : conn := mkc (ckind c) (rd c) (deadlines c) (writes c) (Close (ckind c) :: log c).

Section Connection.
Variable w32 : bool.

(* Read of the connection *)
Definition c_read (ct : N) (c : conn) : (response * option cerr) * conn :=
  let (a, r) := conn_read w32 ct (rd c) in (a, mkc (ckind c) r (deadlines c) (writes c) (log c)).

(* netx/connection/connection.go:53-63 WriteOne. [deadline] is ctx.Deadline(), None the zero time. *)
Definition write_one (deadline : option N) (b : bytes) (c : conn) : res ((response * option cerr) * conn) :=
  match set_deadline deadline c with
  | (Some e, c) => Ok ((None, Some (CDeadline e)), c)
  | (None, c) =>
      match write b c with
      | (Some e, c) => Ok ((None, Some (CWrite e)), c)
      | (None, c) =>
          match nth_error b 4 with
          | Some ct => Ok (c_read ct c)
          | None => Panic
          end
      end
  end.

(* netx/connection/connection.go:97-106 ReadResponsesToSlice. [i] is the position in b, rest = b[i:].
   Simplification: int is wide enough for the position; RawSend has 32 bit ints too, and ThmRaw proves that there is no difference
   for whole messages.
   The fuel is the number of bytes left; every round consumes at least four. *)
Fixpoint read_responses (k : nat) (rest : bytes) (rs : list response) (c : conn) : res ((list response * option cerr) * conn) :=
  match rest, k with
  | [], _ => Ok ((rs, None), c)
  | _, O => Panic
  | _, S k =>
      match nth_error rest 4 with
      | None => Panic
      | Some ct =>
          let (a, c) := c_read ct c in
          let rs := rs ++ [fst a] in
          match snd a with
          | Some e => Ok ((rs, Some e), c)
          | None => read_responses k (skipN (4 + le (firstn 4 rest)) rest) rs c
          end
      end
  end.

(* netx/connection/connection.go:65-74 Send *)
Definition conn_send (deadline : option N) (b : bytes) (c : conn) : res ((list response * option cerr) * conn) :=
  match set_deadline deadline c with
  | (Some e, c) => Ok (([], Some (CDeadline e)), c)
  | (None, c) =>
      match write b c with
      | (Some e, c) => Ok (([], Some (CWrite e)), c)
      | (None, c) => read_responses (length b) b [] c
      end
  end.

(* netx/connector/authentication/authentication.go:3-16: a mechanism builds a start message and, if
   it is a StartContinuer, a continue message from the challenge. *)
Record credentials := { user_name : bytes; password : bytes; database : bytes }.
Record mechanism := { start : credentials -> res bytes; continue : option (credentials -> bytes -> res bytes) }.

(* netx/connection/connection.go:204-225 Authenticate *)
Definition authenticate (deadline : option N) (creds : credentials) (m : mechanism) (c : conn) : res (option cerr * conn) :=
  do b <- start m creds;
  do (a, c) <- write_one deadline b c;
  match snd a with
  | None => Ok (None, c)
  | Some (CChallenge d) =>
      match continue m with
      | None => Ok (Some CUnexpectedContinue, c)
      | Some k =>
          do b <- k creds d;
          do (a, c) <- write_one deadline b c;
          Ok (snd a, c)
      end
  | Some e => Ok (Some e, c)
  end.
End Connection.
