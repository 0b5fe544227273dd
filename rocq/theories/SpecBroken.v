(* Specification: what can be wrong with the replies that arrive, and the error that says so (C77). *)
From Coq Require Import List NArith ZArith Bool.
From Verif Require Import Base SpecWire SpecUnit Conn SpecReply.
Import ListNotations.
Open Scope N_scope.

(* bs, all the bytes there are, does not begin with a message that can be understood as (part of) the reply to a request of
   type ct. After bs the connection reports fin: the end of the stream, a timeout, a reset.
   A message begins with its length (type and payload), 4 bytes, least significant first, and its type. *)
Inductive defect (w32 : bool) (ct : N) (fin : ioerr) : bytes -> cerr -> Prop :=
| Cut_header bs : nlen bs < 5 -> defect w32 ct fin bs (CRead fin)
| Cut_payload header payload n : nlen header = 5 -> le (firstn 4 header) = 1 + n -> 1 + n < (if w32 then 2 ^ 31 else 2 ^ 32) -> nlen payload < n ->
    (* a message longer than the read buffer that ends after some of its bytes, but not before *)
    defect w32 ct fin (header ++ payload) (CRead (if (4096 <? n) && (0 <? nlen payload) then match fin with IoEOF => IoUnexpectedEOF | e => e end else fin))
| No_type header rest : nlen header = 5 -> le (firstn 4 header) = 0 -> defect w32 ct fin (header ++ rest) (CShort 0)
| Too_long header rest : w32 = true -> nlen header = 5 -> 2 ^ 31 <= le (firstn 4 header) < 2 ^ 32 -> defect w32 ct fin (header ++ rest) (CShort (Z.of_N (le (firstn 4 header)) - 2 ^ 32))
| Bad_error p rest : fits w32 (1, p) -> (forall e, ~ error_message p e) -> defect w32 ct fin (frame (1, p) ++ rest) CBadError
| Bad_meta p rest : fits w32 (12, p) -> ~ column_meta p -> defect w32 ct fin (frame (12, p) ++ rest) CBadMeta
| Unasked p rest : fits w32 (3, p) -> ct <> 4 -> defect w32 ct fin (frame (3, p) ++ rest) CUnexpectedContinue
| Bad_challenge p rest : fits w32 (3, p) -> ct = 4 -> (forall d, ~ challenge (3, p) d) -> defect w32 ct fin (frame (3, p) ++ rest) CBadContinue
| Asked p d rest : fits w32 (3, p) -> ct = 4 -> challenge (3, p) d -> defect w32 ct fin (frame (3, p) ++ rest) (CChallenge d).

(* Some interim messages arrive, and then no such message. *)
Definition breaks (w32 : bool) (ct : N) (fin : ioerr) (bs : bytes) (e : cerr) : Prop :=
  exists before after, bs = concat (map frame before) ++ after /\ Forall interim before /\ Forall (fits w32) before /\ defect w32 ct fin after e.

(* The result of sending these requests to a server that answers bs, and then fin: a response for each request up to the first
   one without a complete reply, and that one's error; there its response is nil. *)
Inductive result (w32 : bool) (fin : ioerr) : list (N * bytes) -> bytes -> list response -> option cerr -> bytes -> Prop :=
| All_answered bs : result w32 fin [] bs [] None bs
| Answered f fs p r bs rs e rest : answers w32 p r -> ~ stops (fst f) r -> result w32 fin fs bs rs e rest ->
    result w32 fin (f :: fs) (reply_bytes p ++ bs) (r :: rs) e rest
| Stops f fs p s rest : answers w32 p (Some s) -> stops (fst f) (Some s) -> result w32 fin (f :: fs) (reply_bytes p ++ rest) [Some s] (Some (CServer s)) rest
| Breaks f fs bs e rest : breaks w32 (fst f) fin bs e -> (exists used, bs = used ++ rest) -> result w32 fin (f :: fs) bs [None] (Some e) rest.
