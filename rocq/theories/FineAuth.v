(* /repo/xproto/authentication.go:48-70, /repo/netx/connector/authentication/{mysql41,plain,sha256}, Connection.Authenticate and Connector.New as the
   sequence of their accesses to memory; and goroutines that open connections at the same time with one Connector. *)
From Coq Require Import String List NArith Arith Bool.
From Coq Require Import List.
From Verif Require Import Base GoSlice Varint MsgModel Conn AuthModel Connector Mem Fine FineRun.
Import ListNotations.
Open Scope N_scope.

Section Model.
Context `{E : Env}.

(* s[i:j] *)
Definition g_slice (s : hslice) (i j : nat) : go hslice :=
  if (i <=? j)%nat && (j <=? hcap s)%nat then Return (mkh (arr s) (off s + i) (j - i) (hcap s - i)) else Stop.

(* s[i] *)
Definition g_index (s : hslice) (i : nat) : go N :=
  if (i <? hlen s)%nat then Load (arr s) (off s + i) Return else Stop.

(* xproto/authentication.go:48-60 AuthenticateStart *)
Definition g_authenticate_start (p : hslice) (mechName : bytes) (authData : hslice) : go hslice :=
  let! p := g_from p (hlen p) in
  let! p := g_append p [0; 0; 0; 0; SESS_AUTHENTICATE_START] in
  let! p := g_append_wire_string p tagAuthenticateStartMechName mechName in
  let! p := (if (0 <? hlen authData)%nat then g_append_wire_bytes p tagAuthenticateStartAuthData authData else Return p) in
  let! _ := g_put p 0 (le32 (N.of_nat (hlen p - 4))) in
  Return p.

(* xproto/authentication.go:62-70 AuthenticateContinue *)
Definition g_authenticate_continue (p authData : hslice) : go hslice :=
  let! p := g_from p (hlen p) in
  let! p := g_append p [0; 0; 0; 0; SESS_AUTHENTICATE_CONTINUE] in
  let! p := g_append_wire_bytes p tagAuthenticateContinueAuthData authData in
  let! _ := g_put p 0 (le32 (N.of_nat (hlen p - 4))) in
  Return p.

(* mysql41.go:30-35, sha256.go:27-32, plain.go:20-25: database 0 user 0; the next offset *)
Definition g_put_names (c : credentials) (ad : hslice) : go nat :=
  let! i := g_copy ad 0 (database c) in
  let! _ := g_put ad i [0] in
  let i := S i in
  let! n := g_copy ad i (user_name c) in
  let i := (i + n)%nat in
  let! _ := g_put ad i [0] in
  Return (S i).

(* hash.Hash.Sum(z[:0]) (library code): appends the digest *)
Definition g_sum (z : hslice) (digest : bytes) : go unit :=
  let! z := g_reslice z 0 in
  let! _ := g_append z digest in
  Return tt.

(* for i, x := range h1 { h2[i] ^= x }, the last n indices from i on *)
Fixpoint g_xor_loop (n i : nat) (h1 h2 : hslice) : go unit :=
  match n with
  | O => Return tt
  | S n =>
      let! x := g_index h1 i in
      let! _ := g_upd h2 i (fun y => N.lxor y x) in
      g_xor_loop n (S i) h1 h2
  end.

(* encoding/hex.Encode(dst, src) (library code): for _, v := range src { dst[j] = .. ; dst[j+1] = .. ; j += 2 } *)
Fixpoint g_hex_loop (n i j : nat) (dst src : hslice) : go unit :=
  match n with
  | O => Return tt
  | S n =>
      let! x := g_index src i in
      let! _ := g_put dst j [nth (N.to_nat (N.shiftr x 4)) hextable 0] in
      let! _ := g_put dst (S j) [nth (N.to_nat (N.land x 15)) hextable 0] in
      g_hex_loop n (S i) (S (S j)) dst src
  end.

(* crypto/sha1 and crypto/sha256 are any functions, as in AuthModel.v. *)
Variables sha1 sha256 : bytes -> bytes.

(* mysql41.go:18-20 Start *)
Definition g_mysql41_start (buf : hslice) (c : credentials) : go hslice :=
  g_authenticate_start buf (s2b "MYSQL41") hnil.

(* mysql41.go:22-64 Continue *)
Definition g_mysql41_continue (buf : hslice) (c : credentials) (authData : hslice) : go hslice :=
  let has := (0 <? length (password c))%nat in
  let n := (length (database c) + 1 + length (user_name c) + 1 + (if has then 1 + 2 * sha1_Size else 0))%nat in
  let! (buf, ad) := g_allocate buf n in
  let! i := g_put_names c ad in
  let! _ := (if has then
      let! _ := g_put ad i [42] in
      let i := S i in
      let! h1 := g_slice ad i (i + sha1_Size) in
      let! h2 := g_from ad (i + sha1_Size) in
      let! _ := g_sum h1 (sha1 (password c)) in
      let! x := g_read h1 in
      let! _ := g_sum h2 (sha1 x) in
      let! a := g_read authData in
      let! x := g_read h2 in
      let! _ := g_sum h2 (sha1 (a ++ x)) in
      let! _ := g_xor_loop (hlen h1) 0 h1 h2 in
      let! d := g_from ad i in
      g_hex_loop (hlen h2) 0 0 d h2
    else Return tt) in
  g_authenticate_continue buf ad.

(* sha256.go:18-20 Start *)
Definition g_sha256_start (buf : hslice) (c : credentials) : go hslice :=
  g_authenticate_start buf (s2b "SHA256_MEMORY") hnil.

(* sha256.go:22-56 Continue *)
Definition g_sha256_continue (buf : hslice) (c : credentials) (authData : hslice) : go hslice :=
  let n := (length (database c) + 1 + length (user_name c) + 1 + 2 * sha256_Size)%nat in
  let! (buf, ad) := g_allocate buf n in
  let! i := g_put_names c ad in
  let! h1 := g_slice ad i (i + sha256_Size) in
  let! h2 := g_from ad (i + sha256_Size) in
  let! _ := g_sum h1 (sha256 (password c)) in
  let! x := g_read h1 in
  let! _ := g_sum h2 (sha256 x) in
  let! x := g_read h2 in
  let! a := g_read authData in
  let! _ := g_sum h2 (sha256 (x ++ a)) in
  let! _ := g_xor_loop (hlen h1) 0 h1 h2 in
  let! d := g_from ad i in
  let! _ := g_hex_loop (hlen h2) 0 0 d h2 in
  g_authenticate_continue buf ad.

(* plain.go:15-30 Start *)
Definition g_plain_start (buf : hslice) (c : credentials) : go hslice :=
  let n := (length (database c) + 1 + length (user_name c) + 1 + length (password c))%nat in
  let! (buf, ad) := g_allocate buf n in
  let! i := g_put_names c ad in
  let! _ := g_copy ad i (password c) in
  g_authenticate_start buf (s2b "PLAIN") ad.

(* netx/connector/authentication/authentication.go:3-16 *)
Record g_mechanism := { g_start : hslice -> credentials -> go hslice; g_continue : option (hslice -> credentials -> hslice -> go hslice) }.
Definition g_mysql41 : g_mechanism := {| g_start := g_mysql41_start; g_continue := Some g_mysql41_continue |}.
Definition g_sha256_memory : g_mechanism := {| g_start := g_sha256_start; g_continue := Some g_sha256_continue |}.
Definition g_plain : g_mechanism := {| g_start := g_plain_start; g_continue := None |}.

(* What does not touch the memory modelled: the messages and answers on the goroutine's own connection. *)
Definition g_lift {A} (r : res A) : go A := match r with Ok a => Return a | Panic => Stop end.

(* netx/connection/connection.go:204-225 Authenticate: one array of 128 bytes for both messages. The challenge is in memory
   of its own, where proto.Unmarshal puts it (connection.go:188-195). *)
Definition g_authenticate (w32 : bool) (deadline : option N) (creds : credentials) (mech : g_mechanism) (c : conn) : go (option cerr * conn) :=
  let! buf := g_new (repeat 0 128) 128 in
  let! z := g_reslice buf 0 in
  let! b := g_start mech z creds in
  let! bs := g_read b in
  let! (a, c) := g_lift (write_one w32 deadline bs c) in
  match snd a with
  | None => Return (None, c)
  | Some (CChallenge d) =>
      match g_continue mech with
      | None => Return (Some CUnexpectedContinue, c)
      | Some k =>
          let! ch := g_new d (length d) in
          let! z := g_reslice buf 0 in
          let! b := k z creds ch in
          let! bs := g_read b in
          let! (a, c) := g_lift (write_one w32 deadline bs c) in
          Return (snd a, c)
      end
  | Some e => Return (Some e, c)
  end.

(* netx/connector/connector.go:23-33 Connector, as Connector.config. It is only read, and what it holds are strings, which do not change. *)
Record g_config := { g_with_tls : bool; g_authentication : g_mechanism; g_credentials_of : credentials }.

(* netx/connector/connector.go:84-97 *)
Definition g_authenticate_or_close (deadline : option N) (cfg : g_config) (c : conn) : go (option nerr * conn) :=
  let! (r, c) := g_authenticate word32 deadline (g_credentials_of cfg) (g_authentication cfg) c in
  match r with
  | None => Return (None, c)
  | Some e =>
      let denied := match e with CServer m => code m =? ErAccessDeniedError | _ => false end in
      if andb denied (is_secure c)
      then let! (r2, c) := g_authenticate word32 deadline (g_credentials_of cfg) g_plain c in
           match r2 with
           | None => Return (None, c)
           | Some _ => Return (Some (NConn e), close c)
           end
      else Return (Some (NConn e), close c)
  end.

(* netx/connector/connector.go:59-98 New. CapabilitySet (connector.go:68) makes its message in a new slice (xproto/authentication.go:22-46), which only this
   call has; it is not modelled access by access. *)
Definition g_connector_new (deadline : option N) (cfg : g_config) (dial : option conn) (handshake : tls_session) : go (option nerr * option conn) :=
  match dial with
  | None => Return (Some NDial, None)
  | Some c =>
      if andb (match ckind c with Tcp => true | _ => false end) (g_with_tls cfg)
      then
        let! (r, c) := g_lift (conn_send word32 deadline (capability_set (s2b "tls") true) c) in
        match snd r with
        | Some e => Return (Some (NConn e), Some c)
        | None =>
            match handshake with
            | None => Return (Some NHandshake, Some (close (mkc Tls (rd c) (deadlines c) (writes c) (log c))))
            | Some (rd, ds, ws) =>
                let! (r, c) := g_authenticate_or_close deadline cfg (conn_reset c rd ds ws) in
                Return (r, Some c)
            end
        end
      else
        let! (r, c) := g_authenticate_or_close deadline cfg c in
        Return (r, Some c)
  end.

(* The Connectors there are (authentication/{mysql41,sha256,plain}.New and connector.WithTLSConfig, WithUserPassword, WithDatabase): with TLS or not, a
   mechanism, credentials. *)
Inductive method := MYSQL41 | SHA256_MEMORY | PLAIN.
Record connector := { uses_tls : bool; uses_method : method; uses_credentials : credentials }.
Definition g_config_of (x : connector) : g_config :=
  {| g_with_tls := uses_tls x;
     g_authentication := match uses_method x with MYSQL41 => g_mysql41 | SHA256_MEMORY => g_sha256_memory | PLAIN => g_plain end;
     g_credentials_of := uses_credentials x |}.

(* What the network holds for one call of New: the deadline of its context, the dialled connection and the TLS session. *)
Record attempt := { at_deadline : option N; at_dial : option conn; at_handshake : tls_session }.

(* Goroutine i calls New with the Connector that all share, and recovers from a panic. *)
Definition opens (m : mem) (x : connector) (at_ : nat -> attempt) : state (option (option nerr * option conn)) :=
  mks m (fun i => try (g_connector_new (at_deadline (at_ i)) (g_config_of x) (at_dial (at_ i)) (at_handshake (at_ i)))).

End Model.
