(* Several Sends on one connection, with what arrives in between: Conn's reader gets nothing after the error [ended]; here a
   read that timed out can be followed by others, in a later Send, that get more. *)
From Coq Require Import List NArith.
From Verif Require Import Base Conn.
Import ListNotations.

(* The connection when chunks have arrived since; after those a Read returns e.
   bufio.Reader keeps an error of the net.Conn until it has returned it (readErr). In connection.go:113-143 it always has when
   Read returns: Peek(5) and Peek(n) with n <= 4096 return it, and Peek(n) with a larger n, which returns ErrBufferFull instead,
   is followed by ReadFull for more than what is buffered. So a later Send reads the net.Conn again. *)
Definition later (chunks : list bytes) (e : ioerr) (c : conn) : conn :=
  mkc (ckind c) (mkr (held (rd c)) (inbound (rd c) ++ chunks) e) (deadlines c) (writes c) (log c).

(* A Send: its deadline, the unit, and what arrives until it returns or its deadline has passed. *)
Record attempt := mka { deadline : option N; sent : bytes; arrives : list bytes; fails : ioerr }.

(* One after the other on the same connection (netx/connection/connection.go:65-74), whatever each of them returns. *)
Fixpoint sends (w32 : bool) (l : list attempt) (c : conn) : res (list (list response * option cerr) * conn) :=
  match l with
  | [] => Ok ([], c)
  | a :: l =>
      do (r, c) <- conn_send w32 (deadline a) (sent a) (later (arrives a) (fails a) c);
      do (rs, c) <- sends w32 l c;
      Ok (r :: rs, c)
  end.
