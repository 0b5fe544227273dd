(* Model of /repo/netx/pool/fifoch/fifoch.go: any number of goroutines calling Send and Close of one
   pool, one atomic step of one of them at a time.
   Simplifications: connections are numbers, New of the connector gives one that did not exist before,
   what Send of a connection does is not modelled (only whether it returns an error), p.mu and getCh
   are left out (p.ch is set once, fifoch.go:20-25, and never changed); PoolMu has them, and ThmRace proves that this makes no difference. *)
From Coq Require Import List NArith Arith Bool.
Import ListNotations.

(* What the calls return. *)
Inductive outcome :=
| Responses        (* Send: r, nil *)
| SendError        (* Send: r, err of conn.Send *)
| PoolClosed       (* Send: ErrPoolClosed *)
| CtxError         (* ctx.Err() *)
| DialError        (* Send: err of connector.New *)
| CloseNil.        (* Close: nil *)

(* Where a call is. *)
Inductive pc :=
(* Send, fifoch.go:53-89 *)
| SSelect              (* 61: at the first select *)
| SDial                (* 71: in connector.New *)
| SSend (c : nat)      (* 76: in conn.Send *)
| SFail (c : nat)      (* 78: at conn.Close *)
| SReturn (c : nat)    (* 83: at the second select *)
| SDrop (c : nat)      (* 86: at conn.Close *)
(* Close, fifoch.go:27-45 *)
| KSelect              (* 33: at the select of the loop *)
| KDrop (c : nat)      (* 38: at conn.Close *)
| KFinish (o : outcome)  (* 31: returning, at the deferred close(ch) *)
| Returned (o : outcome).

(* Ghost history. *)
Inductive event :=
| Taken (i c : nat)                (* call i received the idle connection c *)
| NoneIdle (i : nat)               (* call i took the default branch of the first select *)
| Created (i c : nat)              (* connector.New gave call i the connection c *)
| Used (i c : nat) (ok : bool)     (* conn.Send of c returned *)
| PutBack (i c : nat)              (* call i put c into the channel *)
| Closed (i c : nat).              (* call i called c.Close *)

Record state := mks {
  size : nat;                      (* fifoch.go:23: cap(ch) *)
  idle : list nat;                 (* the channel's buffer, first in first *)
  ch_closed : bool;                (* close(ch) was called *)
  next : nat;                      (* connections 0 .. next-1 exist *)
  calls : list (pc * bool);        (* the calls made so far; the flag says whether their ctx is done *)
  crashed : bool;                  (* a call panicked *)
  log : list event }.              (* latest first *)

(* fifoch.go:20-25 New. Simplification: size is not negative (make would panic). *)
Definition new_pool (n : nat) : state := mks n [] false 0 [] false [].

Fixpoint set_nth {A} (i : nat) (x : A) (l : list A) : list A :=
  match l, i with
  | [], _ => []
  | _ :: l, O => x :: l
  | y :: l, S i => y :: set_nth i x l
  end.

(* Call i goes on at p, with these idle connections and this history. *)
Definition go (s : state) (i : nat) (p : pc) (b : bool) (q : list nat) (es : list event) : state :=
  mks (size s) q (ch_closed s) (next s) (set_nth i (p, b) (calls s)) (crashed s) (es ++ log s).
Definition crash (s : state) : state := mks (size s) (idle s) (ch_closed s) (next s) (calls s) true (log s).

(* One step: a new call, a ctx that is done, or one of the things call i may do next. *)
Inductive action :=
| CallSend | CallClose | Cancel (i : nat)
| Receive (i : nat)      (* the case <-ch *)
| Done (i : nat)         (* the case <-ctx.Done() *)
| Default (i : nat)      (* the default case *)
| Dialled (i : nat) (ok : bool)
| Sent (i : nat) (ok : bool)
| CloseConn (i : nat)
| Return (i : nat)       (* the second select *)
| CloseCh (i : nat).

Definition actor (a : action) : option nat :=
  match a with
  | CallSend | CallClose | Cancel _ => None
  | Receive i | Done i | Default i | Dialled i _ | Sent i _ | CloseConn i | Return i | CloseCh i => Some i
  end.

(* None: not possible in this state. *)
Definition step (a : action) (s : state) : option state :=
  if crashed s then None else
  match a with
  | CallSend => Some (mks (size s) (idle s) (ch_closed s) (next s) (calls s ++ [(SSelect, false)]) false (log s))
  | CallClose => Some (mks (size s) (idle s) (ch_closed s) (next s) (calls s ++ [(KSelect, false)]) false (log s))
  | Cancel i =>
      match nth_error (calls s) i with
      | Some (p, _) => Some (go s i p true (idle s) [])
      | None => None
      end
  | Receive i =>
      match nth_error (calls s) i, idle s with
      (* fifoch.go:62 *)
      | Some (SSelect, b), c :: q => Some (go s i (SSend c) b q [Taken i c])
      (* fifoch.go:62-65: an empty closed channel *)
      | Some (SSelect, b), [] => if ch_closed s then Some (go s i (Returned PoolClosed) b [] []) else None
      (* fifoch.go:34 *)
      | Some (KSelect, b), c :: q => Some (go s i (KDrop c) b q [Taken i c])
      (* fifoch.go:34-37 *)
      | Some (KSelect, b), [] => if ch_closed s then Some (go s i (KFinish CloseNil) b [] []) else None
      | _, _ => None
      end
  | Done i =>
      match nth_error (calls s) i with
      (* fifoch.go:67-68 *)
      | Some (SSelect, true) => Some (go s i (Returned CtxError) true (idle s) [])
      (* fifoch.go:39-40 *)
      | Some (KSelect, true) => Some (go s i (KFinish CtxError) true (idle s) [])
      | _ => None
      end
  | Default i =>
      (* only when no other case is ready *)
      match nth_error (calls s) i, idle s, ch_closed s with
      (* fifoch.go:70-71 *)
      | Some (SSelect, false), [], false => Some (go s i SDial false [] [NoneIdle i])
      (* fifoch.go:41-42 *)
      | Some (KSelect, false), [], false => Some (go s i (KFinish CloseNil) false [] [])
      | _, _, _ => None
      end
  | Dialled i ok =>
      match nth_error (calls s) i with
      (* fifoch.go:71-73 *)
      | Some (SDial, b) =>
          if ok
          then Some (mks (size s) (idle s) (ch_closed s) (S (next s)) (set_nth i (SSend (next s), b) (calls s)) false (Created i (next s) :: log s))
          else Some (go s i (Returned DialError) b (idle s) [])
      | _ => None
      end
  | Sent i ok =>
      match nth_error (calls s) i with
      (* fifoch.go:76-80 *)
      | Some (SSend c, b) => Some (go s i (if ok then SReturn c else SFail c) b (idle s) [Used i c ok])
      | _ => None
      end
  | CloseConn i =>
      match nth_error (calls s) i with
      (* fifoch.go:78-79 *)
      | Some (SFail c, b) => Some (go s i (Returned SendError) b (idle s) [Closed i c])
      (* fifoch.go:86, 88 *)
      | Some (SDrop c, b) => Some (go s i (Returned Responses) b (idle s) [Closed i c])
      (* fifoch.go:38 *)
      | Some (KDrop c, b) => Some (go s i KSelect b (idle s) [Closed i c])
      | _ => None
      end
  | Return i =>
      match nth_error (calls s) i with
      (* fifoch.go:83-88: a send on a closed channel panics, one on a full channel takes the default
         case. (A channel of size 0 always is full: no receiver ever waits, as all selects have a default.) *)
      | Some (SReturn c, b) =>
          if ch_closed s then Some (crash s)
          else if length (idle s) <? size s then Some (go s i (Returned Responses) b (idle s ++ [c]) [PutBack i c])
          else Some (go s i (SDrop c) b (idle s) [])
      | _ => None
      end
  | CloseCh i =>
      match nth_error (calls s) i with
      (* fifoch.go:31: closing a closed channel panics *)
      | Some (KFinish o, b) =>
          if ch_closed s then Some (crash s)
          else Some (mks (size s) (idle s) true (next s) (set_nth i (Returned o, b) (calls s)) false (log s))
      | _ => None
      end
  end.

(* A run: any interleaving of any calls. *)
Fixpoint run (acts : list action) (s : state) : option state :=
  match acts with
  | [] => Some s
  | a :: acts => match step a s with Some s => run acts s | None => None end
  end.
