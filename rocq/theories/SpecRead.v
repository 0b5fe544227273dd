(* Specification for MemRead: which bytes a connection is still to see, which connections can be met at all, and when one over
   memory stands for one of Conn. *)
From Coq Require Import List NArith ZArith Bool.
From Verif Require Import Base Conn SpecReply MemRead.
Import ListNotations.
Open Scope N_scope.

(* The bytes received or still to come that are not read yet. *)
Definition pending (b : bufrd) : bytes := firstN (pos_w b - pos_r b) (skipN (pos_r b) (buf b)) ++ concat (chunks (src b)) ++ final_chunk (src b).

(* The net.Conn has nothing but its error left. *)
Definition exhausted (s : source) : Prop := concat (chunks s) = [] /\ final_chunk s = [].

(* The buffer has its 4096 bytes, the positions are in it and in order, and an error kept was given by the net.Conn, or by
   bufio, which gives up after 100 Reads without a byte. *)
Definition well_formed (b : bufrd) : Prop :=
  nlen (buf b) = 4096 /\ pos_r b <= pos_w b <= 4096 /\
  forall e, kept b = Some e -> (e = fails_with (src b) /\ exhausted (src b)) \/ e = no_progress.

(* The net.Conn never returns no byte and no error 100 times in a row. (net.Conn never does it at all.) *)
Definition never_stalls (s : source) : Prop := forall before after, chunks s <> before ++ repeat [] 100 ++ after.
(* ... and has not done so far. *)
Definition calm (b : bufrd) : Prop :=
  never_stalls (src b) /\ (kept b = None \/ kept b = Some (fails_with (src b)) /\ exhausted (src b)).

(* The connection of Conn with the same unread bytes, and the same otherwise. *)
Definition stands_for (m : mconn) (c : conn) : Prop :=
  well_formed (m_rd m) /\ calm (m_rd m) /\
  pending (m_rd m) = unread c /\ fails_with (src (m_rd m)) = ended (rd c) /\
  m_kind m = ckind c /\ m_deadlines m = deadlines c /\ m_writes m = writes c /\ m_log m = log c.

(* The same outcome, with connections that still correspond. *)
Definition same_outcome {A} (x : res (A * mconn)) (y : res (A * conn)) : Prop :=
  match x, y with
  | Ok (a, m), Ok (b, c) => a = b /\ stands_for m c
  | Panic, Panic => True
  | _, _ => False
  end.
