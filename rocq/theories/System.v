(* A pool (Pool) of connections that exchange bytes (Conn): what fifoch.go leaves to netx.Conn is
   what connection.go does. Any number of goroutines call Send and Close of one pool.
   Simplification: conn.Send is one step of the calling goroutine. No other goroutine can see the
   connection meanwhile: ThmPool.C37_one_user. *)
From Coq Require Import List NArith Bool.
From Verif Require Import Base Conn.
From Verif Require Pool.
Import ListNotations.

Record system := mksys {
  pool : Pool.state;
  conns : list conn;                                 (* connection c of the pool is the c-th *)
  started : list conn;                               (* ghost: the same as connector.New returned them *)
  units : list (option (option N * bytes));          (* call i of the pool: ctx's deadline and wt of Send; None for Close *)
  results : list (nat * (list response * option cerr)) }.  (* ghost: what conn.Send returned to which call, latest first *)

(* netx/pool/fifoch/fifoch.go:20-25 New *)
Definition new_system (n : nat) : system := mksys (Pool.new_pool n) [] [] [] [].

(* More bytes of the server have arrived at the net.Conn, in these segments. *)
Definition arrive (chunks : list bytes) (c : conn) : conn :=
  mkc (ckind c) (mkr (held (rd c)) (inbound (rd c) ++ chunks) (ended (rd c))) (deadlines c) (writes c) (log c).

Inductive action :=
| Step (a : Pool.action)                           (* a step of Pool that does not concern a connection's inside *)
| CallSend (deadline : option N) (b : bytes)       (* fifoch.go:53 *)
| Connected (i : nat) (c : conn)                   (* fifoch.go:71: connector.New returned c to call i *)
| Exchange (i : nat) (chunks : list bytes).        (* fifoch.go:76: conn.Send of call i; the server sends chunks meanwhile *)

Definition is_none {A} (o : option A) : bool := match o with None => true | Some _ => false end.

(* None: not possible in this state. *)
Definition step (w32 : bool) (a : action) (s : system) : option system :=
  match a with
  | Step Pool.CallSend | Step (Pool.Dialled _ true) | Step (Pool.Sent _ _) => None
  | Step a =>
      match Pool.step a (pool s) with
      | Some p => Some (mksys p (conns s) (started s) (units s ++ match a with Pool.CallClose => [None] | _ => [] end) (results s))
      | None => None
      end
  | CallSend d b =>
      match Pool.step Pool.CallSend (pool s) with
      | Some p => Some (mksys p (conns s) (started s) (units s ++ [Some (d, b)]) (results s))
      | None => None
      end
  | Connected i c =>
      match Pool.step (Pool.Dialled i true) (pool s) with
      | Some p => Some (mksys p (conns s ++ [c]) (started s ++ [c]) (units s) (results s))
      | None => None
      end
  | Exchange i chunks =>
      match nth_error (Pool.calls (pool s)) i, nth_error (units s) i with
      | Some (Pool.SSend k, _), Some (Some (d, b)) =>
          match nth_error (conns s) k with
          | Some c =>
              match conn_send w32 d b (arrive chunks c) with
              | Ok (r, c) =>
                  (* fifoch.go:76-80 *)
                  match Pool.step (Pool.Sent i (is_none (snd r))) (pool s) with
                  | Some p => Some (mksys p (Pool.set_nth k c (conns s)) (started s) (units s) ((i, r) :: results s))
                  | None => None
                  end
              | Panic => Some (mksys (Pool.crash (pool s)) (conns s) (started s) (units s) (results s))
              end
          | None => None
          end
      | _, _ => None
      end
  end.

(* A run: any interleaving of any calls. *)
Fixpoint run (w32 : bool) (acts : list action) (s : system) : option system :=
  match acts with
  | [] => Some s
  | a :: acts => match step w32 a s with Some s => run w32 acts s | None => None end
  end.
