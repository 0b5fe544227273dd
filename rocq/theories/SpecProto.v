(* Specification: how a receiver that knows the .proto files (SpecSchema) reads protobuf messages: fields by name, in any
   order on the wire; unknown fields are ignored, and so are fields of the wrong wire type; of a singular field the last
   value counts, parts of a singular message are merged (which is reading them one after the other); a message without a
   required field is rejected.
   https://developers.google.com/protocol-buffers/docs/encoding, proto2. The lexer (fields) is SpecWire's.
   Simplification: no packed fields; groups are skipped by a tolerant reader and refused by a strict one (the .proto files have neither). *)
From Coq Require Import String List NArith ZArith Bool.
From Coq Require Import List.
From Verif Require Import Base SpecWire Unmarshal SpecSchema.
Import ListNotations.
Open Scope list_scope.
Open Scope N_scope.

(* What is read: numbers, the bits of floating point numbers, bytes and texts, names of enumeration values, and messages
   with the names and values of the fields they have, in the order of the .proto file. *)
Inductive pval :=
| PInt (z : Z)
| PBool (b : bool)
| PBits (bits : N)
| PBytes (b : bytes)
| PEnum (name : string)
| PUnknownEnum (n : N)
| PMessage (fs : list (string * pval)).

Fixpoint lookup {A} (m : string) (l : list (string * A)) : option A :=
  match l with [] => None | (k, a) :: r => if String.eqb k m then Some a else lookup m r end.

Fixpoint enum_name (n : N) (l : list (string * N)) : option string :=
  match l with [] => None | (k, x) :: r => if x =? n then Some k else enum_name n r end.

Fixpoint message_name (n : N) (l : list (N * string)) : option string :=
  match l with [] => None | (x, k) :: r => if x =? n then Some k else message_name n r end.

(* A single value of a type that is not a message. None: it is treated as an unknown field.
   open: unknown values of enumerations are kept (Go does that) instead (C++). *)
Definition scalar_value (open : bool) (t : ptype) (w : wval) : option pval :=
  match t, w with
  | Uint32, WVarint n => Some (PInt (Z.of_N (n mod 2 ^ 32)))
  | Uint64, WVarint n => Some (PInt (Z.of_N n))
  | Sint64, WVarint n => Some (PInt (unzigzag n))
  | Boolean, WVarint n => Some (PBool (negb (n =? 0)))
  | Double, WI64 n => Some (PBits n)
  | Float, WI32 n => Some (PBits n)
  | Text, WLen b | Blob, WLen b => Some (PBytes b)
  | Enum e, WVarint n =>
      match obind (lookup e enums) (enum_name (n mod 2 ^ 32)) with
      | Some name => Some (PEnum name)
      | None => if open then Some (PUnknownEnum (n mod 2 ^ 32)) else None
      end
  | _, _ => None
  end.

(* The results there are. *)
Fixpoint collect {A B} (f : A -> option B) (l : list A) : list B :=
  match l with
  | [] => []
  | a :: r => match f a with Some b => b :: collect f r | None => collect f r end
  end.

(* The last one, if any. *)
Fixpoint last_one {A} (l : list A) : list A :=
  match l with [] => [] | [a] => [a] | _ :: r => last_one r end.

(* The values of one declared field. *)
Definition values (open : bool) (sub : string -> bytes -> option pval) (d : field) (fs : fields) : option (list pval) :=
  let? vs :=
    match ftype d with
    | Message m =>
        let parts := collect as_len (all_of (fnumber d) fs) in
        match flabel d, parts with
        | Repeated, _ => omap (sub m) parts
        | _, [] => Some []
        | _, _ => let? v := sub m (concat parts) in Some [v]
        end
    | t =>
        let vs := collect (scalar_value open t) (all_of (fnumber d) fs) in
        Some (match flabel d with Repeated => vs | _ => last_one vs end)
    end in
  match flabel d, vs with
  | Required, [] => None
  | _, _ => Some vs
  end.

(* The fuel bounds the nesting depth; the number of bytes always suffices. *)
Fixpoint decode_k (open : bool) (k : nat) (m : string) (bs : bytes) : option pval :=
  match k with
  | O => None
  | S k =>
      let? ds := lookup m messages in
      let? fs := (if open then ufields bs else dfields bs) in
      let? vs := omap (fun d => let? l := values open (decode_k open k) d fs in Some (map (pair (fname d)) l)) ds in
      Some (PMessage (concat vs))
  end.
Definition decode (open : bool) (m : string) (bs : bytes) : option pval := decode_k open (S (length bs)) m bs.

(* What a server reads from the bytes a client sent: the names of the messages and their contents. *)
Definition server_reads (bs : bytes) : option (list (string * pval)) :=
  let? fs := dframes bs in
  omap (fun f => let? m := message_name (fst f) client_messages in let? v := decode false m (snd f) in Some (m, v)) fs.
