(* Specification: the protobuf wire format with groups, as a grammar.
   https://developers.google.com/protocol-buffers/docs/encoding: a message is a sequence of fields, each of a key (a varint,
   8 * number + wire type) and a value; a group (deprecated) is a message between two keys of its number with the wire types 3 and 4.
   [wire bs fs]: bs is such a sequence and fs are its fields, without the groups. *)
From Coq Require Import List NArith Bool.
From Verif Require Import Base SpecWire.
Import ListNotations.
Open Scope N_scope.

(* bs is a varint that denotes x *)
Definition varint_of (bs : bytes) (x : N) : Prop := dvarint bs = Some (x, []).
(* Field numbers are positive 32 bit ints for this receiver (the language has fewer of them). *)
Definition field_number (n : N) : Prop := 1 <= n < 2 ^ 31.

(* The values of the wire types 0, 1, 2 and 5. *)
Inductive plain_value : N -> bytes -> wval -> Prop :=
| plain_varint bs x : varint_of bs x -> plain_value 0 bs (WVarint x)
| plain_i64 bs : nlen bs = 8 -> plain_value 1 bs (WI64 (le bs))
| plain_len l bs : varint_of l (nlen bs) -> plain_value 2 (l ++ bs) (WLen bs)
| plain_i32 bs : nlen bs = 4 -> plain_value 5 bs (WI32 (le bs)).

Inductive wire : bytes -> fields -> Prop :=
| wire_end : wire [] []
| wire_field n typ key a w rest fs :
    field_number n -> varint_of key (8 * n + typ) -> plain_value typ a w -> wire rest fs -> wire (key ++ a ++ rest) ((n, w) :: fs)
| wire_group n key body inside close rest fs :
    field_number n -> varint_of key (8 * n + 3) -> wire body inside -> varint_of close (8 * n + 4) -> wire rest fs ->
    wire (key ++ body ++ close ++ rest) fs.
