(* Model of /repo/netx/pool/fifoch/fifoch.go once more, with what Pool leaves out: p.mu and getCh, and which memory and which
   synchronisation every step uses. What the calls do otherwise is Pool's step.
   Simplifications: a connection's memory (the conn, its buffers, its net.Conn) is one location, and every use of it counts as a
   write; connector.New's use of the new connection's memory is one access when it returns; that of a connection it closes itself is left out: nobody else ever has it. *)
From Coq Require Import List Arith Bool.
From Verif Require Import Pool.
Import ListNotations.

(* Where in getCh a call is, fifoch.go:47-51, called at the beginning of Close and Send and before Send's second select (29, 60, 82). *)
Inductive stage :=
| AtLock     (* 48 *)
| AtRead     (* 50: at p.ch *)
| AtUnlock   (* 49: returning, at the deferred p.mu.Unlock() *)
| Ready.     (* not in getCh *)

(* What is done to memory shared between goroutines. *)
Inductive op :=
| Init            (* New, 20-25: p.ch and p.connector are written *)
| Lock | Unlock   (* p.mu *)
| ReadCh          (* p.ch is read *)
| ReadConnector   (* 71: p.connector is read *)
| ChanSend (c : nat) | ChanRecv (c : nat) (* a connection goes into, or comes out of, the channel *)
| ChanRecvClosed  (* a receive from the closed channel *)
| ChanClose
| Use (c : nat).  (* the memory of connection c is read or written *)

(* None: the goroutine that called New. Every call of Send or Close counts as a goroutine. *)
Definition ev := (option nat * op)%type.

Record mstate := mkm {
  pool : state;
  mu : option nat;        (* the call that has locked p.mu *)
  stages : list stage;    (* of each call *)
  trace : list ev }.      (* first event first *)

(* fifoch.go:20-25 New *)
Definition mnew (n : nat) : mstate := mkm (new_pool n) None [] [(None, Init)].

Inductive maction :=
| Do (a : action)        (* a step of Pool *)
| Touch (i : nat)        (* conn.Send or conn.Close, while it runs, uses its connection's memory *)
| MuLock (i : nat) | MuRead (i : nat) | MuUnlock (i : nat).

Definition mactor (a : maction) : option nat :=
  match a with Do a => actor a | Touch i | MuLock i | MuRead i | MuUnlock i => Some i end.

(* The connection whose Send or Close a call is in. *)
Definition in_use (p : pc) : option nat :=
  match p with SSend c | SFail c | SDrop c | KDrop c => Some c | _ => None end.

Definition opt_use (c : option nat) : list op := match c with Some c => [Use c] | None => [] end.

(* What the step a of call i, which is at p, does to shared memory. *)
Definition ops (a : action) (p : pc) (s : state) : list op :=
  match a with
  (* fifoch.go:34, 62 *)
  | Receive _ => match idle s with c :: _ => [ChanRecv c] | [] => [ChanRecvClosed] end
  (* fifoch.go:71 *)
  | Dialled _ ok => ReadConnector :: (if ok then [Use (next s)] else [])
  (* fifoch.go:76; 38, 78, 86 *)
  | Sent _ _ | CloseConn _ => opt_use (in_use p)
  (* fifoch.go:84 *)
  | Return _ => match p with
                | SReturn c => if negb (ch_closed s) && (length (idle s) <? size s) then [ChanSend c] else []
                | _ => []
                end
  (* fifoch.go:31 *)
  | CloseCh _ => if ch_closed s then [] else [ChanClose]
  | _ => []
  end.

Definition set_stage (i : nat) (g : stage) (m : mstate) : list stage := set_nth i g (stages m).

Definition mstep (a : maction) (m : mstate) : option mstate :=
  if crashed (pool m) then None else
  match a with
  | Do a =>
      match step a (pool m) with
      | None => None
      | Some s' =>
          match a with
          (* fifoch.go:29, 60: a new call begins with getCh *)
          | CallSend | CallClose => Some (mkm s' (mu m) (stages m ++ [AtLock]) (trace m))
          | Cancel _ => Some (mkm s' (mu m) (stages m) (trace m))
          | Receive i | Done i | Default i | Dialled i _ | Sent i _ | CloseConn i | Return i | CloseCh i =>
              match nth_error (stages m) i, nth_error (calls (pool m)) i with
              | Some Ready, Some (p, _) =>
                  (* fifoch.go:82: getCh after a conn.Send without error *)
                  let st := match a with Sent _ true => set_stage i AtLock m | _ => stages m end in
                  Some (mkm s' (mu m) st (trace m ++ map (fun o => (Some i, o)) (ops a p (pool m))))
              | _, _ => None
              end
          end
      end
  | Touch i =>
      match nth_error (stages m) i, nth_error (calls (pool m)) i with
      | Some Ready, Some (p, _) =>
          match in_use p with
          | Some c => Some (mkm (pool m) (mu m) (stages m) (trace m ++ [(Some i, Use c)]))
          | None => None
          end
      | _, _ => None
      end
  | MuLock i =>
      match nth_error (stages m) i, mu m with
      | Some AtLock, None => Some (mkm (pool m) (Some i) (set_stage i AtRead m) (trace m ++ [(Some i, Lock)]))
      | _, _ => None
      end
  | MuRead i =>
      match nth_error (stages m) i with
      | Some AtRead => Some (mkm (pool m) (mu m) (set_stage i AtUnlock m) (trace m ++ [(Some i, ReadCh)]))
      | _ => None
      end
  | MuUnlock i =>
      match nth_error (stages m) i with
      | Some AtUnlock => Some (mkm (pool m) None (set_stage i Ready m) (trace m ++ [(Some i, Unlock)]))
      | _ => None
      end
  end.

Fixpoint mrun (acts : list maction) (m : mstate) : option mstate :=
  match acts with
  | [] => Some m
  | a :: acts => match mstep a m with Some m => mrun acts m | None => None end
  end.
