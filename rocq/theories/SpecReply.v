(* Specification: what a server sends back, as frames (SpecUnit.frame), and what it means.
   protobuf/mysqlx.proto ServerMessages.Type:
   0 OK, 1 ERROR, 3 SESS_AUTHENTICATE_CONTINUE, 4 SESS_AUTHENTICATE_OK, 11 NOTICE,
   12 RESULTSET_COLUMN_META_DATA, 13 RESULTSET_ROW, 14 RESULTSET_FETCH_DONE, 17 SQL_STMT_EXECUTE_OK. *)
From Coq Require Import List NArith ZArith Bool.
From Verif Require Import Base SpecWire SpecGroups Varint SpecUnit Conn.
Import ListNotations.
Open Scope N_scope.

(* The bytes of a connection that were received, or will be, and are not read yet, however they
   are split between the read buffer and the segments still to come. *)
Definition unread (c : conn) : bytes := held (rd c) ++ concat (inbound (rd c)).

(* A length that fits an int: 32 bit platforms have 31 bit lengths. *)
Definition fits (w32 : bool) (f : N * bytes) : Prop := 1 + nlen (snd f) < (if w32 then 2 ^ 31 else 2 ^ 32).

(* Types that end the reply to a request. *)
Definition final_types : list N := [0; 1; 3; 4; 17].

(* The value of field n, if it is a number, or a string: of repeated fields the last one counts, and one
   with another wire type does not (protobuf encoding guide). *)
Definition number_field (n : N) (fs : fields) (v : N) : Prop := exists before after, fs = before ++ (n, WVarint v) :: after /\ forall w, ~ In (n, WVarint w) after.
Definition bytes_field (n : N) (fs : fields) (v : bytes) : Prop := exists before after, fs = before ++ (n, WLen v) :: after /\ forall w, ~ In (n, WLen w) after.

(* ColumnMetaData has a required field type = 1. *)
Definition column_meta (p : bytes) : Prop := exists fs t, wire p fs /\ number_field 1 fs t.

(* Any message that does not end a reply: notices, rows, fetch-done, column meta data, ... *)
Definition interim (f : N * bytes) : Prop := ~ In (fst f) final_types /\ (fst f = 12 -> column_meta (snd f)).

(* p is a Mysqlx.Error with these contents, its fields in any order; severity is optional, by default ERROR (0).
   Both numbers are of 32 bits. *)
Definition error_message (p : bytes) (e : server_error) : Prop := exists fs c,
  wire p fs /\
  ((forall w, ~ In (1, WVarint w) fs) /\ severity e = 0 \/ exists s, number_field 1 fs s /\ severity e = s mod 2 ^ 32) /\
  number_field 2 fs c /\ code e = c mod 2 ^ 32 /\
  bytes_field 3 fs (text e) /\ bytes_field 4 fs (sql_state e).

(* A final message that reports success, or the server error e. *)
Definition success (f : N * bytes) : Prop := In (fst f) [0; 4; 17].
Definition failure (f : N * bytes) (e : server_error) : Prop := fst f = 1 /\ error_message (snd f) e.
Definition reports (f : N * bytes) (r : response) : Prop :=
  match r with None => success f | Some e => failure f e end.

(* Requests whose failure ends the session: SESS_AUTHENTICATE_START, SESS_AUTHENTICATE_CONTINUE, SESS_RESET *)
Definition session_request (ct : N) : Prop := In ct [4; 5; 6].
(* A response after which nothing more may be read. *)
Definition stops (ct : N) (r : response) : Prop :=
  match r with None => False | Some e => severity e = 1 \/ session_request ct end.

(* A complete reply: any number of interim messages, and a final one. *)
Record reply := mkreply { interims : list (N * bytes); final : N * bytes }.
Definition reply_bytes (r : reply) : bytes := concat (map frame (interims r ++ [final r])).
(* A conforming reply that reports the response r. *)
Definition answers (w32 : bool) (p : reply) (r : response) : Prop :=
  Forall interim (interims p) /\ reports (final p) r /\ Forall (fits w32) (interims p ++ [final p]).

(* The next SetDeadline and the next Write succeed. *)
Definition can_write (c : conn) : Prop := fst (next_result (deadlines c)) = None /\ fst (next_result (writes c)) = None.

(* A segmentation of a stream: the connection could have delivered the same bytes in other pieces. *)
Definition same_stream (a b : conn) : Prop :=
  unread a = unread b /\ ended (rd a) = ended (rd b) /\ ckind a = ckind b /\
  deadlines a = deadlines b /\ writes a = writes b /\ log a = log b.

(* f asks the client to continue authenticating with data d (Mysqlx.Session.AuthenticateContinue). *)
Definition challenge (f : N * bytes) (d : bytes) : Prop :=
  fst f = 3 /\ exists fs, wire (snd f) fs /\ bytes_field 1 fs d.
Definition challenges (w32 : bool) (p : reply) (d : bytes) : Prop :=
  Forall interim (interims p) /\ challenge (final p) d /\ Forall (fits w32) (interims p ++ [final p]).

(* One request, its reply, and the response the caller is to see. *)
Record exchange := mkx { asked : N * bytes; replied : reply; seen_as : response }.
(* The request is a frame of less than 4 GiB and the reply is a conforming one. *)
Definition exchange_ok (w32 : bool) (x : exchange) : Prop :=
  1 + nlen (snd (asked x)) < 2 ^ 32 /\ answers w32 (replied x) (seen_as x).
(* ... and the caller can go on. *)
Definition goes_on (x : exchange) : Prop := ~ stops (fst (asked x)) (seen_as x).
Definition request_bytes (xs : list exchange) : bytes := concat (map (fun x => frame (asked x)) xs).
Definition replies_bytes (xs : list exchange) : bytes := concat (map (fun x => reply_bytes (replied x)) xs).

(* The same outcome, leaving connections that differ in segmentation at most. *)
Definition same_result {A} (x y : res (A * conn)) : Prop :=
  match x, y with
  | Ok (r, a), Ok (s, b) => r = s /\ same_stream a b
  | Panic, Panic => True
  | _, _ => False
  end.

(* The Mysqlx.Error message as a protobuf encoder writes it, fields in the order of their numbers. *)
Definition error_bytes (e : server_error) : bytes :=
  8 :: uvarint (severity e) ++ 16 :: uvarint (code e) ++
  26 :: uvarint (nlen (text e)) ++ text e ++ 34 :: uvarint (nlen (sql_state e)) ++ sql_state e.
