(* Send of a connection given any bytes at all: /repo/netx/connection/connection.go. Conn.conn_send says
   only that it panics; here the connection is given as the panic leaves it, and the position in the
   bytes is an int of the platform's size. *)
From Coq Require Import List NArith ZArith Arith Bool.
From Verif Require Import Base SpecWire Conn.
Import ListNotations.

Inductive ends :=
| Returns (r : list response * option cerr) (c : conn)
| Panics (c : conn).

(* A sum of ints: on 32 bit platforms modulo 2^32. On others there is room: the bytes are in memory. *)
Definition wrap_int (w32 : bool) (z : Z) : Z := if w32 then ((z + 2 ^ 31) mod 2 ^ 32 - 2 ^ 31)%Z else z.

(* netx/connection/connection.go:97-106 ReadResponsesToSlice, from position i on. The index i+4 is checked before
   the reply is read (98), the bounds of b[i:] after that (97). The fuel is for the number of replies; it does not run out
   (ThmRaw.raw_fuel). *)
Fixpoint raw_responses (k : nat) (w32 : bool) (b : bytes) (i : Z) (rs : list response) (c : conn) : ends :=
  match k with
  | O => Panics c
  | S k =>
      if (i <? Z.of_nat (length b))%Z then
        if ((i + 4 <? 0) || (Z.of_nat (length b) <=? i + 4))%Z then Panics c
        else
          let (a, c) := c_read w32 (nth (Z.to_nat (i + 4)) b 0%N) c in
          let rs := rs ++ [fst a] in
          match snd a with
          | Some e => Returns (rs, Some e) c
          | None =>
              if (i <? 0)%Z then Panics c
              else raw_responses k w32 b (wrap_int w32 (i + 4 + int_of_u32 w32 (le (firstn 4 (skipn (Z.to_nat i) b))))) rs c
          end
      else Returns (rs, None) c
  end.

(* netx/connection/connection.go:65-74 Send *)
Definition raw_send (w32 : bool) (deadline : option N) (b : bytes) (c : conn) : ends :=
  match set_deadline deadline c with
  | (Some e, c) => Returns ([], Some (CDeadline e)) c
  | (None, c) =>
      match write b c with
      | (Some e, c) => Returns ([], Some (CWrite e)) c
      | (None, c) => raw_responses (S (length (held (rd c) ++ concat (inbound (rd c))))) w32 b 0 [] c
      end
  end.
