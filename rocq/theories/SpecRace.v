(* Specification: data races, after the Go memory model (https://golang.org/ref/mem), for the histories of PoolMu. *)
From Coq Require Import List Arith.
From Verif Require Import Pool PoolMu.
Import ListNotations.

(* The states any number of concurrent calls can reach, in any interleaving. *)
Definition mreachable (n : nat) (m : mstate) : Prop := exists acts, mrun acts (mnew n) = Some m.

(* Event k of the history, counted from 0. *)
Definition at_ (tr : list ev) (k : nat) (who : option nat) (o : op) : Prop := nth_error tr k = Some (who, o).

(* How many sends, and receives of a connection, there were before event k. *)
Definition is_send (e : ev) : bool := match snd e with ChanSend _ => true | _ => false end.
Definition is_recv (e : ev) : bool := match snd e with ChanRecv _ => true | _ => false end.
Definition before (f : ev -> bool) (tr : list ev) (k : nat) : nat := length (filter f (firstn k tr)).

(* Event j happens before event k. *)
Inductive happens_before (tr : list ev) : nat -> nat -> Prop :=
(* "Within a single goroutine, the happens-before order is the order expressed by the program." *)
| hb_program j k g o o' : j < k -> at_ tr j g o -> at_ tr k g o' -> happens_before tr j k
(* The caller's part: a pool is used by others only after New has returned it, and after some synchronisation (a go statement, ...). *)
| hb_publish j k g o : j < k -> at_ tr j None Init -> at_ tr k g o -> happens_before tr j k
(* "For any sync.Mutex l and n < m, call n of l.Unlock() happens before call m of l.Lock() returns." *)
| hb_mutex j k g g' : j < k -> at_ tr j g Unlock -> at_ tr k g' Lock -> happens_before tr j k
(* "A send on a channel happens before the corresponding receive from that channel completes." The first send corresponds to the
   first receive, and so on. *)
| hb_channel j k g g' c c' : at_ tr j g (ChanSend c) -> at_ tr k g' (ChanRecv c') -> before is_send tr j = before is_recv tr k -> happens_before tr j k
(* "The closing of a channel happens before a receive that returns because the channel is closed." *)
| hb_close j k g g' : at_ tr j g ChanClose -> at_ tr k g' ChanRecvClosed -> happens_before tr j k
| hb_trans i j k : happens_before tr i j -> happens_before tr j k -> happens_before tr i k.

(* Memory locations, and how the operations access them: true is a write. Channels and the mutex are not accessed as memory. *)
Inductive location := FieldCh | FieldConnector | Memory (c : nat).
Definition accesses (o : op) (l : location) (write : bool) : Prop :=
  match o, l with
  | Init, FieldCh | Init, FieldConnector => write = true
  | ReadCh, FieldCh | ReadConnector, FieldConnector => write = false
  | Use c, Memory c' => c = c' /\ write = true
  | _, _ => False
  end.
(* Two accesses of one location by two goroutines, at least one of them a write. *)
Definition conflict (tr : list ev) (j k : nat) : Prop := exists g g' o o' l w w',
  at_ tr j g o /\ at_ tr k g' o' /\ g <> g' /\ accesses o l w /\ accesses o' l w' /\ (w = true \/ w' = true).
(* A data race: they are not ordered. *)
Definition race (tr : list ev) (j k : nat) : Prop := conflict tr j k /\ ~ happens_before tr j k /\ ~ happens_before tr k j.
