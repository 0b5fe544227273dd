(* Any number of Sends one after the other or at the same time, and servers that act on what is on the way to them, in their own time: netx/connection/connection.go:65-74.
   Each Send is on a connection of its own that is in sync (which is what a pool gives it: C39, C61), over the network of Flow. Its caller gives up when SetDeadline, Write or a
   Read of the connection fails; what has been handed over until then is still on the way, and the server may go on reading it and answering. *)
From Coq Require Import String List NArith Arith Bool.
From Coq Require Import List.
From Verif Require Import Base Conn Flow.
Import ListNotations.
Open Scope list_scope.
Open Scope nat_scope.

Inductive phase := Waiting | Running | Over.

Record call := mkcall { unit : bytes; answer : server; at_phase : phase; flow : Flow.state }.

(* What happens, in the order of time. *)
Inductive event :=
| Began (i : nat)                                              (* call i is made *)
| Handled (i : nat) (m : bytes)                                (* the server has read this message of call i's unit and does what it says *)
| Ended (i : nat) (rs : list response) (e : option cerr).      (* call i returns *)

Inductive action :=
| Begin (i : nat)
| Refuse (i : nat) (x : ioerr)  (* connection.go:67: SetDeadline fails *)
| Net (i : nat) (a : Flow.action)
| Finish (i : nat)
| Fail (i : nat) (x : ioerr).   (* connection.go:70 the Write, or 73 a Read fails *)

Record world := mkworld { calls : list call; timeline : list event }.

(* What Send returns on this connection. *)
Definition sends (w32 : bool) (b : bytes) (c : conn) : option (list response * option cerr) :=
  match conn_send w32 None b c with Ok (r, _) => Some r | Panic => None end.

(* connection.go:66-69 *)
Definition refused (w32 : bool) (b : bytes) (x : ioerr) := sends w32 b (mkc Tcp (mkr [] [] x) [Some x] [] []).
(* connection.go:70-73: the Write fails if not everything is handed over, else the Read after those that got what arrived. *)
Definition gave_up (w32 : bool) (b : bytes) (s : Flow.state) (x : ioerr) :=
  match towrite s with
  | [] => sends w32 b (mkc Tcp (mkr [] [got s] x) [] [] [])
  | _ :: _ => sends w32 b (mkc Tcp (mkr [] [] x) [] [Some x] [])
  end.

Definition set_call (i : nat) (c : call) (l : list call) : list call := firstn i l ++ c :: skipn (S i) l.

(* The messages the server has read in this step. *)
Definition read_now (i : nat) (s s' : Flow.state) : list event := map (Handled i) (skipn (length (requests s)) (requests s')).

Section Network.
Variable w32 : bool.
Variables out_room in_room : nat.

(* None: not possible now. *)
Definition step (a : action) (w : world) : option world :=
  let with_call i f := match nth_error (calls w) i with
    | None => None
    | Some c => match f c with None => None | Some (c', new) => Some (mkworld (set_call i c' (calls w)) (timeline w ++ new)) end
    end in
  match a with
  | Begin i => with_call i (fun c => match at_phase c with Waiting => Some (mkcall (unit c) (answer c) Running (flow c), [Began i]) | _ => None end)
  | Refuse i x => with_call i (fun c => match at_phase c, refused w32 (unit c) x with
      | Waiting, Some (rs, e) => Some (mkcall (unit c) (answer c) Over (flow c), [Began i; Ended i rs e])
      | _, _ => None end)
  | Net i n => with_call i (fun c =>
      match at_phase c, n with
      | Waiting, _ | Over, Put _ | Over, Get _ => None
      | _, _ =>
          match Flow.step w32 out_room in_room (answer c) (unit c) n (flow c) with
          | None => None
          | Some s => Some (mkcall (unit c) (answer c) (at_phase c) s, read_now i (flow c) s)
          end
      end)
  | Finish i => with_call i (fun c =>
      match at_phase c, towrite (flow c), returned w32 (unit c) (got (flow c)) with
      | Running, [], Some (rs, e) => Some (mkcall (unit c) (answer c) Over (flow c), [Ended i rs e])
      | _, _, _ => None
      end)
  | Fail i x => with_call i (fun c =>
      match at_phase c, gave_up w32 (unit c) (flow c) x with
      | Running, Some (rs, e) => Some (mkcall (unit c) (answer c) Over (flow c), [Ended i rs e])
      | _, _ => None
      end)
  end.

Fixpoint run (l : list action) (w : world) : option world :=
  match l with [] => Some w | a :: l => match step a w with Some w' => run l w' | None => None end end.
End Network.

(* The calls to be made, with their servers. *)
Definition new_world (us : list (bytes * server)) : world := mkworld (map (fun u => mkcall (fst u) (snd u) Waiting (start (fst u))) us) [].
