(* What the X Protocol authentication mechanisms prescribe (MySQL internals, "X Protocol: Authentication"). *)
From Coq Require Import String List NArith Arith Bool.
From Coq Require Import List.
From Verif Require Import Base SpecWire.
Import ListNotations.
Open Scope N_scope.
Open Scope list_scope.

(* A hash function with digests of n bytes. *)
Definition digests (h : bytes -> bytes) (n : nat) : Prop := forall x, is_bytes (h x) /\ List.length (h x) = n.

Definition hex_digit (d : N) : N := nth (N.to_nat d) (s2b "0123456789abcdef") 0.
Fixpoint hex (bs : bytes) : bytes :=
  match bs with [] => [] | b :: bs => hex_digit (b / 16) :: hex_digit (b mod 16) :: hex bs end.
Fixpoint xor (a b : bytes) : bytes :=
  match a, b with x :: a, y :: b => N.lxor x y :: xor a b | _, _ => [] end.

Section Proofs.
Variable h : bytes -> bytes.
(* MYSQL41: '*' and hex(SHA1(password) XOR SHA1(challenge, SHA1(SHA1(password)))), nothing without a password *)
Definition mysql41_proof (password challenge : bytes) : bytes :=
  match password with
  | [] => []
  | _ => s2b "*" ++ hex (xor (h password) (h (challenge ++ h (h password))))
  end.
(* SHA256_MEMORY: hex(SHA256(password) XOR SHA256(SHA256(SHA256(password)), challenge)) *)
Definition sha256_proof (password challenge : bytes) : bytes :=
  hex (xor (h password) (h (h (h password) ++ challenge))).

(* The server does not know the password, it stores h (h password). It accepts a response [bs] if xoring it
   with the hash of the challenge and the stored value gives something that hashes to the stored value. *)
Definition hex_value (c : N) : option N :=
  if (48 <=? c) && (c <=? 57) then Some (c - 48)
  else if (97 <=? c) && (c <=? 102) then Some (c - 87) else None.
Fixpoint unhex (bs : bytes) : option bytes :=
  match bs with
  | [] => Some []
  | a :: b :: bs =>
      match hex_value a, hex_value b, unhex bs with
      | Some x, Some y, Some r => Some (16 * x + y :: r)
      | _, _, _ => None
      end
  | _ => None
  end.
Definition accepted_mysql41 (stored challenge bs : bytes) : Prop :=
  exists r, bs = s2b "*" ++ r /\ exists d, unhex r = Some d /\ h (xor d (h (challenge ++ stored))) = stored.
Definition accepted_sha256 (stored challenge bs : bytes) : Prop :=
  exists d, unhex bs = Some d /\ h (xor d (h (stored ++ challenge))) = stored.
End Proofs.

(* The server splits the data at the first two NUL bytes. *)
Fixpoint until_nul (bs : bytes) : option (bytes * bytes) :=
  match bs with
  | [] => None
  | b :: bs => if b =? 0 then Some ([], bs) else option_map (fun r => (b :: fst r, snd r)) (until_nul bs)
  end.
Definition split_names (bs : bytes) : option (bytes * bytes * bytes) :=
  match until_nul bs with
  | Some (db, r) => match until_nul r with Some (user, r) => Some (db, user, r) | None => None end
  | None => None
  end.
