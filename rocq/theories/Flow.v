(* Send over a network that holds a bounded number of bytes: netx/connection/connection.go:65-74 Send writes its whole unit before it reads
   the first reply (70, then 73), while the server answers each message when it has read it.
   Time, errors of the network and deadlines are left out: Timed has them. *)
From Coq Require Import String List NArith ZArith Arith Bool.
From Coq Require Import List.
From Verif Require Import Base SpecWire Conn.
Import ListNotations.
Open Scope list_scope.
Open Scope nat_scope.

(* The server: what it answers when it has read these messages, each with its header, the last of them being the one to answer. *)
Definition server := list bytes -> bytes.

Record state := mkf {
  towrite : bytes;       (* connection.go:70: what the Write of Send has not handed over yet *)
  outward : bytes;       (* on the way to the server *)
  part : bytes;          (* of the message the server is reading *)
  requests : list bytes; (* the messages the server has read *)
  reply : bytes;         (* what the server has still to write *)
  inward : bytes;        (* on the way to the client *)
  got : bytes }.         (* what the Reads of Send got *)

Definition start (b : bytes) : state := mkf b [] [] [] [] [] [].

(* The error that stands for "nothing more has arrived so far". *)
Definition nothing_yet : ioerr := IoOther 1.

(* connection.go:65-74: what Send of b returns if its Reads got these bytes. None: it has not returned, since it waits for more. *)
Definition returned (w32 : bool) (b got : bytes) : option (list response * option cerr) :=
  match conn_send w32 None b (mkc Tcp (mkr [] [got] nothing_yet) [] [] []) with
  | Ok ((rs, Some (CRead (IoOther 1))), _) => None
  | Ok (r, _) => Some r
  | Panic => None
  end.

(* How many bytes the server reads next at most: the rest of the length, or of the message. *)
Definition wanted (p : bytes) : nat :=
  if length p <? 4 then 4 - length p else 4 + N.to_nat (le (firstn 4 p)) - length p.
Definition whole (p : bytes) : bool := (4 <=? length p) && (4 + N.to_nat (le (firstn 4 p)) =? length p).

Inductive action :=
| Put (n : nat)      (* the client's Write hands over n more bytes *)
| Take (n : nat)     (* the server reads n bytes *)
| Reply (n : nat)    (* the server's write hands over n bytes *)
| Get (n : nat).     (* a Read of the client gets n bytes *)

Section Network.
Variable w32 : bool.
Variables out_room in_room : nat.  (* how many bytes there may be on the way in either direction, in the buffers of both ends too *)
Variable answer : server.
Variable b : bytes.                (* the unit *)

(* None: not possible now. *)
Definition step (a : action) (s : state) : option state :=
  match a with
  | Put n =>
      if (0 <? n) && (n <=? length (towrite s)) && (length (outward s) + n <=? out_room)
      then Some (mkf (skipn n (towrite s)) (outward s ++ firstn n (towrite s)) (part s) (requests s) (reply s) (inward s) (got s))
      else None
  | Take n =>
      (* the server goes on reading when it has answered *)
      match reply s with
      | _ :: _ => None
      | [] =>
          if (0 <? n) && (n <=? length (outward s)) && (n <=? wanted (part s))
          then
            let p := part s ++ firstn n (outward s) in
            if whole p
            then Some (mkf (towrite s) (skipn n (outward s)) [] (requests s ++ [p]) (answer (requests s ++ [p])) (inward s) (got s))
            else Some (mkf (towrite s) (skipn n (outward s)) p (requests s) [] (inward s) (got s))
          else None
      end
  | Reply n =>
      if (0 <? n) && (n <=? length (reply s)) && (length (inward s) + n <=? in_room)
      then Some (mkf (towrite s) (outward s) (part s) (requests s) (skipn n (reply s)) (inward s ++ firstn n (reply s)) (got s))
      else None
  | Get n =>
      (* connection.go:70-73: nothing is read before everything is written *)
      match towrite s, returned w32 b (got s) with
      | [], None =>
          if (0 <? n) && (n <=? length (inward s))
          then Some (mkf (towrite s) (outward s) (part s) (requests s) (reply s) (skipn n (inward s)) (got s ++ firstn n (inward s)))
          else None
      | _, _ => None
      end
  end.
End Network.
