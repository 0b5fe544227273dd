(* Model of the part of proto.Unmarshal (github.com/golang/protobuf v1.4.0, that is google.golang.org/protobuf v1.21.0) that
   splits a message into its fields: unmarshalPointer of internal/impl/decode.go with ConsumeTag and ConsumeFieldValue of
   encoding/protowire/wire.go (called wire.go in that version). The three messages netx/connection/connection.go:152-193 reads
   have fields of simple types only: a field of known number and type is read by ConsumeVarint or ConsumeBytes, and one that is
   not, also one of known number and another wire type, is skipped by ConsumeFieldValue; so all that matters is which
   fields there are. Groups are skipped, at any depth. ConsumeVarint is SpecWire.dvarint.
   Simplification: versions of the library differ in whether they refuse the numbers from 2^29 to 2^31 - 1, which no .proto file can declare, at the
   top level of a message as they do not in groups; here they are accepted everywhere. *)
From Coq Require Import List NArith Bool.
From Verif Require Import Base SpecWire.
Import ListNotations.
Open Scope N_scope.

(* ConsumeTag and DecodeTag: field numbers go from 1 to 2^31 - 1 *)
Definition consume_tag (bs : bytes) : option (N * N * bytes) :=
  match dvarint bs with
  | None => None
  | Some (key, r) => if (key / 8 =? 0) || (2147483647 <? key / 8) then None else Some (key / 8, key mod 8, r)
  end.

(* ConsumeFieldValue, the wire types 0, 1, 2 and 5: the value and the rest *)
Definition consume_plain (typ : N) (bs : bytes) : option (wval * bytes) :=
  match typ with
  | 0 => match dvarint bs with Some (x, r) => Some (WVarint x, r) | None => None end
  | 1 => match take 8 bs with Some (x, r) => Some (WI64 (le x), r) | None => None end
  | 2 => match dvarint bs with
         | Some (n, r) => match take n r with Some (x, r') => Some (WLen x, r') | None => None end
         | None => None
         end
  | 5 => match take 4 bs with Some (x, r) => Some (WI32 (le x), r) | None => None end
  | _ => None
  end.

(* ConsumeFieldValue. StartGroupType is 3, EndGroupType 4; a group has no value here. The fuel bounds the number of calls. *)
Fixpoint consume_value (k : nat) (num typ : N) (bs : bytes) : option (option wval * bytes) :=
  match k with
  | O => None
  | S k =>
      if typ =? 3 then match consume_group k num bs with Some r => Some (None, r) | None => None end
      else match consume_plain typ bs with Some (w, r) => Some (Some w, r) | None => None end
  end
(* its loop over the fields of a group *)
with consume_group (k : nat) (num : N) (bs : bytes) : option bytes :=
  match k with
  | O => None
  | S k =>
      match consume_tag bs with
      | None => None
      | Some (num2, typ2, r) =>
          if typ2 =? 4 then (if num2 =? num then Some r else None)
          else match consume_value k num2 typ2 r with Some (_, r) => consume_group k num r | None => None end
      end
  end.

(* unmarshalPointer, the loop *)
Fixpoint ufields_k (k : nat) (bs : bytes) : option fields :=
  match bs with
  | [] => Some []
  | _ =>
      match k with
      | O => None
      | S k =>
          match consume_tag bs with
          | None => None
          | Some (num, typ, r) =>
              match consume_value (S (2 * length r)) num typ r with
              | None => None
              | Some (v, r) =>
                  match ufields_k k r with
                  | Some fs => Some (match v with Some w => (num, w) :: fs | None => fs end)
                  | None => None
                  end
              end
          end
      end
  end.
Definition ufields (bs : bytes) : option fields := ufields_k (length bs) bs.
