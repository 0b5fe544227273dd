(* Model of /repo/collation/collation.go. *)
From Coq Require Import String NArith List.
From Verif Require Import Base Text CollationTable.
Import ListNotations.
Open Scope N_scope.
Open Scope list_scope.

(* collationName[a:b] *)
Definition part (a b : nat) : bytes := firstn (b - a) (skipn a collation_name).

(* The lookup collationMap[c]. *)
Fixpoint lookup (c : N) (m : list (N * (nat * nat))) : option bytes :=
  match m with
  | [] => None
  | (k, (a, b)) :: m => if c =? k then Some (part a b) else lookup c m
  end.

(* collation.go:8-13 String. strconv.FormatUint is Text.dec. *)
Definition name_of (c : N) : bytes :=
  match lookup c collation_map with
  | Some str => str
  | None => s2b "Collation(" ++ dec c ++ s2b ")"
  end.

(* collation.go:15-18 IsBinary. Binary is 63 (collation.go:358). *)
Definition is_binary (c : N) : bool := c =? 63.
