(* Specification: how a conforming receiver reads the protobuf wire format and X Protocol
   frames. Independent of the encoder model; nothing here is taken from /repo's Go code.
   https://developers.google.com/protocol-buffers/docs/encoding *)
From Coq Require Import List NArith ZArith Bool.
From Verif Require Import Base.
Import ListNotations.
Open Scope N_scope.

(* Base 128 varint, at most [k] bytes, value and rest of input. *)
Fixpoint dvarint_k (k : nat) (bs : bytes) : option (N * bytes) :=
  match k, bs with
  | S k, b :: r =>
      if b <? 128 then Some (b, r)
      else if b <? 256 then
        match dvarint_k k r with
        | Some (x, r') => Some (b - 128 + 128 * x, r')
        | None => None
        end
      else None
  | _, _ => None
  end.

(* A varint has at most ten bytes and denotes an unsigned 64 bit number. *)
Definition dvarint (bs : bytes) : option (N * bytes) :=
  match dvarint_k 10 bs with
  | Some (x, r) => if x <? 2 ^ 64 then Some (x, r) else None
  | None => None
  end.

(* The first n bytes and the rest. *)
Definition take (n : N) (bs : bytes) : option (bytes * bytes) :=
  if n <=? nlen bs then Some (firstn (N.to_nat n) bs, skipn (N.to_nat n) bs) else None.

(* Little endian number. *)
Fixpoint le (bs : bytes) : N :=
  match bs with [] => 0 | b :: r => b + 256 * le r end.

(* A field value as it appears on the wire: varint, 64 bit, length delimited, 32 bit. *)
Inductive wval := WVarint (n : N) | WI64 (n : N) | WLen (b : bytes) | WI32 (n : N).

(* One field: number and value, and the rest of the input. Field numbers go from 1 to 2^29 - 1. *)
Definition dfield (bs : bytes) : option (N * wval * bytes) :=
  match dvarint bs with
  | None => None
  | Some (key, r) =>
      let num := key / 8 in
      if (num =? 0) || (536870911 <? num) then None else
      match key mod 8 with
      | 0 => match dvarint r with Some (x, r') => Some (num, WVarint x, r') | None => None end
      | 1 => match take 8 r with Some (x, r') => Some (num, WI64 (le x), r') | None => None end
      | 2 => match dvarint r with
             | Some (n, r') => match take n r' with
                               | Some (x, r'') => Some (num, WLen x, r'')
                               | None => None end
             | None => None end
      | 5 => match take 4 r with Some (x, r') => Some (num, WI32 (le x), r') | None => None end
      | _ => None
      end
  end.

(* A message: the list of its fields. The fuel bounds the number of fields by the number of bytes. *)
Fixpoint dfields_k (k : nat) (bs : bytes) : option (list (N * wval)) :=
  match bs with
  | [] => Some []
  | _ => match k with
         | O => None
         | S k =>
             match dfield bs with
             | Some (n, v, r) => match dfields_k k r with
                                 | Some fs => Some ((n, v) :: fs)
                                 | None => None end
             | None => None
             end
         end
  end.
Definition dfields (bs : bytes) : option (list (N * wval)) := dfields_k (length bs) bs.

Definition fields := list (N * wval).

(* All values of field n, in order. *)
Definition all_of (n : N) (fs : fields) : list wval :=
  map snd (filter (fun f => fst f =? n) fs).

(* Strictness: only known field numbers. *)
Definition only (ns : list N) (fs : fields) : bool :=
  forallb (fun f => existsb (N.eqb (fst f)) ns) fs.

(* A singular field occurs at most once (protobuf itself would let the last one win). *)
Definition opt_field (n : N) (fs : fields) : option (option wval) :=
  match all_of n fs with
  | [] => Some None
  | [w] => Some (Some w)
  | _ => None
  end.
Definition req_field (n : N) (fs : fields) : option wval :=
  match all_of n fs with [w] => Some w | _ => None end.

Definition as_varint (w : wval) : option N := match w with WVarint n => Some n | _ => None end.
Definition as_len (w : wval) : option bytes := match w with WLen b => Some b | _ => None end.
Definition as_i64 (w : wval) : option N := match w with WI64 b => Some b | _ => None end.
Definition as_i32 (w : wval) : option N := match w with WI32 b => Some b | _ => None end.

Definition obind {A B} (m : option A) (f : A -> option B) : option B :=
  match m with Some a => f a | None => None end.
Notation "'let?' x := e 'in' f" := (obind e (fun x => f)) (at level 200, x pattern, e at level 100, f at level 200).
Notation "'assert' b 'in' f" := (if b then f else None) (at level 200, b at level 100, f at level 200).

Fixpoint omap {A B} (f : A -> option B) (l : list A) : option (list B) :=
  match l with
  | [] => Some []
  | a :: r => let? b := f a in let? bs := omap f r in Some (b :: bs)
  end.

(* sint64 (zigzag). *)
Definition unzigzag (n : N) : Z :=
  if N.even n then Z.of_N (n / 2) else (- Z.of_N (n / 2) - 1)%Z.

(* X Protocol framing: 4 byte little endian length of what follows, 1 byte message type,
   payload of length-1 bytes. *)
Definition dframe (bs : bytes) : option (N * bytes * bytes) :=
  let? (h, r) := take 4 bs in
  let n := le h in
  assert (1 <=? n) in
  let? (f, r') := take n r in
  match f with
  | ty :: payload => Some (ty, payload, r')
  | [] => None
  end.

(* A byte stream is a sequence of whole frames. *)
Fixpoint dframes_k (k : nat) (bs : bytes) : option (list (N * bytes)) :=
  match bs with
  | [] => Some []
  | _ => match k with
         | O => None
         | S k => let? (ty, payload, r) := dframe bs in
                  let? fs := dframes_k k r in
                  Some ((ty, payload) :: fs)
         end
  end.
Definition dframes (bs : bytes) : option (list (N * bytes)) :=
  assert (forallb (fun b => b <? 256) bs) in dframes_k (length bs) bs.
