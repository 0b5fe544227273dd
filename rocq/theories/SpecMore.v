(* Specification: replies of a server that says more than the .proto files declare (C97), the way protobuf lets a protocol grow: newer
   fields in the messages, and messages that do not matter to whether a request succeeded. *)
From Coq Require Import String List NArith Bool.
From Coq Require Import List.
From Verif Require Import Base SpecWire SpecGroups SpecUnit SpecSchema Conn SpecReply.
Import ListNotations.
Open Scope N_scope.
Open Scope list_scope.

(* The numbers of the fields the .proto files declare for the server's messages of this type. *)
Definition declared (type : N) : list N :=
  flat_map (fun m => if fst m =? type then flat_map (fun d => if String.eqb (fst d) (snd m) then map fnumber (snd d) else []) messages else []) server_messages.
Definition undeclared (type : N) (f : N * wval) : Prop := ~ In (fst f) (declared type).

(* q is p with further fields, of undeclared numbers, anywhere between its own; groups have no declared number, since the .proto files
   have none, and may contain any fields, also further groups ([wire] leaves them out). *)
Inductive extended (type : N) (p : bytes) : bytes -> Prop :=
| ext_none : extended type p p
| ext_more a b x fa fx : extended type p (a ++ b) -> wire a fa -> wire x fx -> Forall (undeclared type) fx -> extended type p (a ++ x ++ b).

(* The same message with further fields. In messages that are not looked into there may be anything. *)
Definition message_more (f g : N * bytes) : Prop := fst g = fst f /\ (In (fst f) [1; 3; 12] -> extended (fst f) (snd f) (snd g)).

(* The same messages with further fields, and further messages that do not end a reply (SpecReply.interim), also of types
   the .proto files do not have. *)
Inductive more : list (N * bytes) -> list (N * bytes) -> Prop :=
| more_nil : more [] []
| more_fields f g fs gs : message_more f g -> more fs gs -> more (f :: fs) (g :: gs)
| more_messages g fs gs : interim g -> more fs gs -> more fs (g :: gs).

(* d is a connection to a server that says more than the one at the other end of c; the rest, which need not be messages, is the same. *)
Definition says_more (w32 : bool) (c d : conn) : Prop :=
  (exists fs gs rest, unread c = concat (map frame fs) ++ rest /\ unread d = concat (map frame gs) ++ rest /\ more fs gs /\
     Forall (fits w32) fs /\ Forall (fits w32) gs) /\
  ended (rd d) = ended (rd c) /\ ckind d = ckind c /\ deadlines d = deadlines c /\ writes d = writes c /\ log d = log c.

(* The same outcome; and the connections that are left are such ones again, unless column meta data could not be decoded. *)
Definition same_result_more {A} (w32 : bool) (error : A -> option cerr) (x y : res (A * conn)) : Prop :=
  match x, y with
  | Ok (r, c), Ok (s, d) => s = r /\ (error r <> Some CBadMeta -> says_more w32 c d)
  | Panic, Panic => True
  | _, _ => False
  end.
