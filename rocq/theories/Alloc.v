(* Model of the memory Read allocates for messages that do not fit the read buffer (C78):
   netx/connection/connection.go:108-143, the variable buf.
   The functions follow conn_read and conn_send (Conn) and give the sizes of the make([]byte, n) calls. *)
From Coq Require Import List NArith ZArith Bool.
From Verif Require Import Base SpecWire Conn.
Import ListNotations.
Open Scope N_scope.

(* netx/connection/connection.go:113-143: what is allocated for the next message, when buf has this capacity. *)
Definition message_makes (w32 : bool) (cap : N) (r : reader) : list N :=
  match peek 5 r with
  | (Got b, r) =>
      let n := int_of_u32 w32 (le (firstn 4 b)) in
      if (n <? 1)%Z then []
      else
        let n := Z.to_N (n - 1) in
        if 0 <? n then
          match peek n (discard 5 r) with
          | (Full, _) => if cap <? n then [n] else []
          | _ => []
          end
        else []
  | _ => []
  end.

(* netx/connection/connection.go:108-202 Read: buf lives as long as the call. *)
Fixpoint read_makes (k : nat) (w32 : bool) (ct : N) (cap : N) (r : reader) : list N :=
  match k with
  | O => []
  | S k =>
      let made := message_makes w32 cap r in
      made ++
      match read_message w32 r with
      | (inr _, _) => []
      | (inl (st, b, n), r) =>
          match dispatch ct st b with
          | Some _ => []
          | None => read_makes k w32 ct (last made cap) (discard n r)
          end
      end
  end.
Definition conn_makes (w32 : bool) (ct : N) (r : reader) : list N :=
  read_makes (S (length (held r ++ concat (inbound r)))) w32 ct 0 r.

(* netx/connection/connection.go:97-106 ReadResponsesToSlice: one list per call of Read. *)
Fixpoint responses_makes (w32 : bool) (k : nat) (rest : bytes) (c : conn) : list (list N) :=
  match rest, k with
  | [], _ => []
  | _, O => []
  | _, S k =>
      match nth_error rest 4 with
      | None => []
      | Some ct =>
          let (a, c') := c_read w32 ct c in
          conn_makes w32 ct (rd c) ::
          match snd a with
          | Some _ => []
          | None => responses_makes w32 k (skipN (4 + le (firstn 4 rest)) rest) c'
          end
      end
  end.

(* netx/connection/connection.go:65-74 Send *)
Definition send_makes (w32 : bool) (deadline : option N) (b : bytes) (c : conn) : list (list N) :=
  match set_deadline deadline c with
  | (Some _, _) => []
  | (None, c) =>
      match write b c with
      | (Some _, _) => []
      | (None, c) => responses_makes w32 (length b) b c
      end
  end.
