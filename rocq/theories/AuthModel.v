(* Model of /repo/netx/connector/authentication/{mysql41,plain,sha256}. *)
From Coq Require Import String List NArith Arith.
From Coq Require Import List.
From Verif Require Import Base GoSlice Varint MsgModel Conn.
Import ListNotations.
Open Scope N_scope.

(* ad is always the part of buf from some offset to its end (slice.Allocate), so ad[i] is buf[o+i]
   and both have the same end. *)

(* copy(ad[i:], s) and the number of bytes copied *)
Definition copy_str (p : slice) (off : nat) (s : bytes) : res (slice * nat) :=
  do q <- copy_at p off s;
  Ok (q, Nat.min (length s) (len p - off)).

(* p[off:off+n] read as a value; panics when out of range *)
Definition get_bytes (p : slice) (off n : nat) : res bytes :=
  if (off + n <=? len p)%nat then Ok (firstn n (skipn off (data p))) else Panic.

(* for k, x := range p[a:a+n] { p[b+k] ^= x }, from index k on *)
Fixpoint xor_loop (n a b : nat) (p : slice) : res slice :=
  match n with
  | O => Ok p
  | S n => do x <- get_bytes p a 1; do p <- upd p b (fun y => N.lxor y (hd 0 x)); xor_loop n (S a) (S b) p
  end.

(* encoding/hex.Encode(p[dst:], p[src:src+n]) (library code): the source byte is read when its turn
   comes, after the earlier digits were written. *)
Definition hextable : bytes := s2b "0123456789abcdef".
Fixpoint hex_loop (n dst src : nat) (p : slice) : res slice :=
  match n with
  | O => Ok p
  | S n =>
    do x <- get_bytes p src 1;
    do p <- put p dst [nth (N.to_nat (N.shiftr (hd 0 x) 4)) hextable 0];
    do p <- put p (S dst) [nth (N.to_nat (N.land (hd 0 x) 15)) hextable 0];
    hex_loop n (S (S dst)) (S src) p
  end.

Section Model.
Context `{E : Env}.
(* crypto/sha1 and crypto/sha256 are not modelled: any functions will do. h.Write(x); h.Write(y);
   h.Sum(z[:0]) puts the digest of x ++ y where z starts; z has room for it, because ad was sized for it. *)
Variables sha1 sha256 : bytes -> bytes.
Definition sha1_Size : nat := 20.
Definition sha256_Size : nat := 32.

(* the part the three mechanisms share: database 0 user 0 at offset i; returns the next offset *)
Definition put_names (c : credentials) (p : slice) (o : nat) : res (slice * nat) :=
  do (p, i) <- copy_str p o (database c);
  do p <- put p (o + i) [0];
  let i := S i in
  do (p, n) <- copy_str p (o + i) (user_name c);
  let i := (i + n)%nat in
  do p <- put p (o + i) [0];
  Ok (p, S i).

(* authentication/mysql41/mysql41.go:18-20 Start. The mechanisms have no state: New (mysql41.go:14-16, sha256.go:14-16,
   plain.go:11-13) returns an empty struct. *)
Definition mysql41_start (buf : slice) (c : credentials) : res bytes :=
  do q <- authenticate_start buf (s2b "MYSQL41") [];
  Ok (data q).

(* authentication/mysql41/mysql41.go:22-64 Continue *)
Definition mysql41_continue (buf : slice) (c : credentials) (authData : bytes) : res bytes :=
  let has := (0 <? length (password c))%nat in
  let n := (length (database c) + 1 + length (user_name c) + 1 + (if has then 1 + 2 * sha1_Size else 0))%nat in
  let '(p, o) := allocate buf n in
  do (p, i) <- put_names c p o;
  do p <- (if has then
             do p <- put p (o + i) [42];
             let h1 := (o + S i)%nat in
             let h2 := (o + S i + sha1_Size)%nat in
             do p <- put p h1 (sha1 (password c));
             do x <- get_bytes p h1 sha1_Size;
             do p <- put p h2 (sha1 x);
             do x <- get_bytes p h2 (len p - h2);
             do p <- put p h2 (sha1 (authData ++ x));
             do p <- xor_loop sha1_Size h1 h2 p;
             hex_loop (len p - h2) h1 h2 p
           else Ok p);
  do q <- authenticate_continue p (skipn o (data p));
  Ok (data q).

(* authentication/sha256/sha256.go:18-20 Start *)
Definition sha256_start (buf : slice) (c : credentials) : res bytes :=
  do q <- authenticate_start buf (s2b "SHA256_MEMORY") [];
  Ok (data q).

(* authentication/sha256/sha256.go:22-58 Continue *)
Definition sha256_continue (buf : slice) (c : credentials) (authData : bytes) : res bytes :=
  let n := (length (database c) + 1 + length (user_name c) + 1 + 2 * sha256_Size)%nat in
  let '(p, o) := allocate buf n in
  do (p, i) <- put_names c p o;
  let h1 := (o + i)%nat in
  let h2 := (o + i + sha256_Size)%nat in
  do p <- put p h1 (sha256 (password c));
  do x <- get_bytes p h1 sha256_Size;
  do p <- put p h2 (sha256 x);
  do x <- get_bytes p h2 (len p - h2);
  do p <- put p h2 (sha256 (x ++ authData));
  do p <- xor_loop sha256_Size h1 h2 p;
  do p <- hex_loop (len p - h2) h1 h2 p;
  do q <- authenticate_continue p (skipn o (data p));
  Ok (data q).

(* authentication/plain/plain.go:15-30 Start *)
Definition plain_start (buf : slice) (c : credentials) : res bytes :=
  let n := (length (database c) + 1 + length (user_name c) + 1 + length (password c))%nat in
  let '(p, o) := allocate buf n in
  do (p, i) <- put_names c p o;
  do (p, _) <- copy_str p (o + i) (password c);
  do q <- authenticate_start p (s2b "PLAIN") (skipn o (data p));
  Ok (data q).

(* The mechanisms as connection.go:204-225 uses them, with buf[:0] of a 128 byte array. The array's
   content at the second call is whatever the first one left in it; [left] stands for it. *)
Definition mysql41 (left : bytes) : mechanism :=
  {| start := mysql41_start (mk [] (repeat 0 128)); continue := Some (mysql41_continue (mk [] left)) |}.
Definition sha256_memory (left : bytes) : mechanism :=
  {| start := sha256_start (mk [] (repeat 0 128)); continue := Some (sha256_continue (mk [] left)) |}.
Definition plain : mechanism :=
  {| start := plain_start (mk [] (repeat 0 128)); continue := None |}.

End Model.
