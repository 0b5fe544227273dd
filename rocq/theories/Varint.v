(* Model of /repo/xproto/protobuf.go. *)
From Coq Require Import List NArith Arith.
From Verif Require Import Base GoSlice.
Import ListNotations.
Open Scope N_scope.

(* xproto/protobuf.go:9-16 wire types *)
Definition wireVarint : N := 0.
Definition wireFixed64 : N := 1.
Definition wireBytes : N := 2.
Definition wireFixed32 : N := 5.

(* tag<<3 | wiretype, tag of type uint8 (shift drops high bits) *)
Definition hdr (tag wt : N) : N := N.lor (byte (N.shiftl tag 3)) wt.

(* byte(x) | 0x80 *)
Definition b80 (x : N) : N := N.lor (byte x) 128.

(* xproto/protobuf.go:35-40 encodeBool *)
Definition encode_bool (b : bool) : N := if b then 1 else 0.

(* xproto/protobuf.go:42-46, 52-62 sizeVarint, sizeVarint16, sizeVarint32, sizeVarint64:
   (9*bits.Len(x)+64)/64. They differ only in the argument type. bits.Len is N.size. *)
Definition size_varint (x : N) : nat := N.to_nat ((9 * N.size x + 64) / 64).

(* xproto/protobuf.go:48-50 sizeVarint8 *)
Definition size_varint8 (x : N) : nat := N.to_nat (byte (N.shiftr x 7 + 1)).

(* sizeVarint(uint(n)) for an int n. *)
Definition sizev (n : nat) : nat := size_varint (N.of_nat n).

(* The bytes encoding/binary.PutUvarint writes: for x >= 0x80 { byte(x)|0x80; x >>= 7 }; byte(x).
   A uint64 needs at most ten bytes, k bounds the loop. *)
Fixpoint uvarint_k (k : nat) (x : N) : bytes :=
  match k with
  | O => [byte x]
  | S k => if x <? 128 then [byte x] else b80 x :: uvarint_k k (N.shiftr x 7)
  end.
Definition uvarint (x : N) : bytes := uvarint_k 10 x.

(* xproto/protobuf.go:64-70 putUvarint(p[off:], x): returns the slice and the byte count. *)
Definition put_uvarint (p : slice) (off : nat) (x : N) : res (slice * nat) :=
  if (off <=? len p)%nat then
    if x <? 128
    then do p <- put p off [byte x]; Ok (p, 1%nat)
    else do p <- put p off (uvarint x); Ok (p, length (uvarint x))
  else Panic.

(* p[n-1] &= 0x7F; p = p[:n] *)
Definition mask_truncate (p : slice) (n : nat) : res slice :=
  do p <- upd p (n - 1) (fun b => N.land b 127);
  reslice p n.

(* xproto/protobuf.go:72-80 appendWireString; 82-90 appendWireBytes is the same code on a []byte *)
Definition append_wire_bytes `{Env} (p : slice) (tag : N) (value : bytes) : res slice :=
  let x := nlen value in
  let n := size_varint x in
  let p := append p [hdr tag wireBytes; b80 x; b80 (N.shiftr x 7); b80 (N.shiftr x 14);
                     b80 (N.shiftr x 21); b80 (N.shiftr x 28); b80 (N.shiftr x 35);
                     b80 (N.shiftr x 42); b80 (N.shiftr x 49); b80 (N.shiftr x 56); 1] in
  let n := (n + (len p - 10))%nat in
  do p <- mask_truncate p n;
  Ok (append p value).
