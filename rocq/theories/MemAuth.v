(* /repo/xproto/authentication.go:48-70 and /repo/netx/connector/authentication/{mysql41,plain,sha256} once more, over memory:
   the mechanisms work in place, in the buffer they are given. *)
From Coq Require Import String List NArith Arith Bool.
From Coq Require Import List.
From Verif Require Import Base GoSlice Varint MsgModel Conn AuthModel Mem.
Import ListNotations.
Open Scope N_scope.

Section Model.
Context `{E : Env}.

(* s[i:j] *)
Definition h_slice (s : hslice) (i j : nat) : H hslice :=
  if (i <=? j)%nat && (j <=? hcap s)%nat then hret (mkh (arr s) (off s + i) (j - i) (hcap s - i)) else hpanic.

(* s[i] *)
Definition h_index (s : hslice) (i : nat) : H N :=
  fun m => match nth_error (contents m s) i with Some x => HOk x m | None => HPanic m end.

(* xproto/authentication.go:48-60 AuthenticateStart *)
Definition h_authenticate_start (p : hslice) (mechName : bytes) (authData : hslice) : H hslice :=
  let* p := h_from p (hlen p) in
  let* p := h_append p [0; 0; 0; 0; SESS_AUTHENTICATE_START] in
  let* p := h_append_wire_string p tagAuthenticateStartMechName mechName in
  let* p := (if (0 <? hlen authData)%nat then h_append_wire_bytes p tagAuthenticateStartAuthData authData else hret p) in
  let* _ := h_put p 0 (le32 (N.of_nat (hlen p - 4))) in
  hret p.

(* xproto/authentication.go:62-70 AuthenticateContinue *)
Definition h_authenticate_continue (p authData : hslice) : H hslice :=
  let* p := h_from p (hlen p) in
  let* p := h_append p [0; 0; 0; 0; SESS_AUTHENTICATE_CONTINUE] in
  let* p := h_append_wire_bytes p tagAuthenticateContinueAuthData authData in
  let* _ := h_put p 0 (le32 (N.of_nat (hlen p - 4))) in
  hret p.

(* mysql41.go:30-35, sha256.go:27-32, plain.go:20-25: database 0 user 0; the next offset *)
Definition h_put_names (c : credentials) (ad : hslice) : H nat :=
  let* i := h_copy ad 0 (database c) in
  let* _ := h_put ad i [0] in
  let i := S i in
  let* n := h_copy ad i (user_name c) in
  let i := (i + n)%nat in
  let* _ := h_put ad i [0] in
  hret (S i).

(* hash.Hash.Sum(z[:0]) (library code): appends the digest *)
Definition h_sum (z : hslice) (digest : bytes) : H unit :=
  let* z := h_reslice z 0 in
  let* _ := h_append z digest in
  hret tt.

(* for i, x := range h1 { h2[i] ^= x }, the last n indices from i on *)
Fixpoint h_xor_loop (n i : nat) (h1 h2 : hslice) : H unit :=
  match n with
  | O => hret tt
  | S n =>
      let* x := h_index h1 i in
      let* _ := h_upd h2 i (fun y => N.lxor y x) in
      h_xor_loop n (S i) h1 h2
  end.

(* encoding/hex.Encode(dst, src) (library code): for _, v := range src { dst[j] = .. ; dst[j+1] = .. ; j += 2 } *)
Fixpoint h_hex_loop (n i j : nat) (dst src : hslice) : H unit :=
  match n with
  | O => hret tt
  | S n =>
      let* x := h_index src i in
      let* _ := h_put dst j [nth (N.to_nat (N.shiftr x 4)) hextable 0] in
      let* _ := h_put dst (S j) [nth (N.to_nat (N.land x 15)) hextable 0] in
      h_hex_loop n (S i) (S (S j)) dst src
  end.

(* crypto/sha1 and crypto/sha256 are any functions, as in AuthModel.v. *)
Variables sha1 sha256 : bytes -> bytes.

(* mysql41.go:18-20 Start *)
Definition h_mysql41_start (buf : hslice) (c : credentials) : H hslice :=
  h_authenticate_start buf (s2b "MYSQL41") hnil.

(* mysql41.go:22-64 Continue *)
Definition h_mysql41_continue (buf : hslice) (c : credentials) (authData : hslice) : H hslice :=
  let has := (0 <? length (password c))%nat in
  let n := (length (database c) + 1 + length (user_name c) + 1 + (if has then 1 + 2 * sha1_Size else 0))%nat in
  let* (buf, ad) := h_allocate buf n in
  let* i := h_put_names c ad in
  let* _ := (if has then
      let* _ := h_put ad i [42] in
      let i := S i in
      let* h1 := h_slice ad i (i + sha1_Size) in
      let* h2 := h_from ad (i + sha1_Size) in
      let* _ := h_sum h1 (sha1 (password c)) in
      let* x := h_read h1 in
      let* _ := h_sum h2 (sha1 x) in
      let* a := h_read authData in
      let* x := h_read h2 in
      let* _ := h_sum h2 (sha1 (a ++ x)) in
      let* _ := h_xor_loop (hlen h1) 0 h1 h2 in
      let* d := h_from ad i in
      h_hex_loop (hlen h2) 0 0 d h2
    else hret tt) in
  h_authenticate_continue buf ad.

(* sha256.go:18-20 Start *)
Definition h_sha256_start (buf : hslice) (c : credentials) : H hslice :=
  h_authenticate_start buf (s2b "SHA256_MEMORY") hnil.

(* sha256.go:22-56 Continue *)
Definition h_sha256_continue (buf : hslice) (c : credentials) (authData : hslice) : H hslice :=
  let n := (length (database c) + 1 + length (user_name c) + 1 + 2 * sha256_Size)%nat in
  let* (buf, ad) := h_allocate buf n in
  let* i := h_put_names c ad in
  let* h1 := h_slice ad i (i + sha256_Size) in
  let* h2 := h_from ad (i + sha256_Size) in
  let* _ := h_sum h1 (sha256 (password c)) in
  let* x := h_read h1 in
  let* _ := h_sum h2 (sha256 x) in
  let* x := h_read h2 in
  let* a := h_read authData in
  let* _ := h_sum h2 (sha256 (x ++ a)) in
  let* _ := h_xor_loop (hlen h1) 0 h1 h2 in
  let* d := h_from ad i in
  let* _ := h_hex_loop (hlen h2) 0 0 d h2 in
  h_authenticate_continue buf ad.

(* plain.go:15-30 Start *)
Definition h_plain_start (buf : hslice) (c : credentials) : H hslice :=
  let n := (length (database c) + 1 + length (user_name c) + 1 + length (password c))%nat in
  let* (buf, ad) := h_allocate buf n in
  let* i := h_put_names c ad in
  let* _ := h_copy ad i (password c) in
  h_authenticate_start buf (s2b "PLAIN") ad.

(* netx/connector/authentication/authentication.go:3-16 *)
Record h_mechanism := { h_start : hslice -> credentials -> H hslice; h_continue : option (hslice -> credentials -> hslice -> H hslice) }.
Definition h_mysql41 : h_mechanism := {| h_start := h_mysql41_start; h_continue := Some h_mysql41_continue |}.
Definition h_sha256_memory : h_mechanism := {| h_start := h_sha256_start; h_continue := Some h_sha256_continue |}.
Definition h_plain : h_mechanism := {| h_start := h_plain_start; h_continue := None |}.

(* what does not touch memory *)
Definition h_lift {A} (r : res A) : H A := fun m => match r with Ok a => HOk a m | Panic => HPanic m end.

(* netx/connection/connection.go:204-225 Authenticate: one array of 128 bytes for both messages. The challenge is in memory
   of its own, where proto.Unmarshal puts it (connection.go:188-195). *)
Definition h_authenticate (w32 : bool) (deadline : option N) (creds : credentials) (mech : h_mechanism) (c : conn) : H (option cerr * conn) :=
  let* buf := h_new (repeat 0 128) 128 in
  let* z := h_reslice buf 0 in
  let* b := h_start mech z creds in
  let* bs := h_read b in
  let* (a, c) := h_lift (write_one w32 deadline bs c) in
  match snd a with
  | None => hret (None, c)
  | Some (CChallenge d) =>
      match h_continue mech with
      | None => hret (Some CUnexpectedContinue, c)
      | Some k =>
          let* ch := h_new d (length d) in
          let* z := h_reslice buf 0 in
          let* b := k z creds ch in
          let* bs := h_read b in
          let* (a, c) := h_lift (write_one w32 deadline bs c) in
          hret (snd a, c)
      end
  | Some e => hret (Some e, c)
  end.

End Model.
