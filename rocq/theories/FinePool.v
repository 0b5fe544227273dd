(* Goroutines that build units of work at the same time, each with a pipe of its own, and send them through one pool (/repo/xpipe.go, builder.go over
   FineModel.v; netx/pool/fifoch/fifoch.go and netx/connection/connection.go over System.v). Memory is accessed one element at a time, and what conn.Send
   writes is what it then reads in memory. *)
From Coq Require Import List NArith Arith Bool.
From Verif Require Import Base GoSlice Values Builder Conn System Mem MemModel MemPipes Fine FineModel FineRun.
From Verif Require Pool.
Import ListNotations.

(* What the pool's Send returns (fifoch.go:53-89): how it ended, and what conn.Send returned if it came to that. *)
Definition answer : Type := Pool.outcome * option (list response * option cerr).

(* What a goroutine does: it uses its pipe, or sends what it built through the pool, and goes on as it likes after what it saw. A Send that does not get to
   the pool (an error of the builder, or a panic) shows what MemPipes.seen says. *)
Inductive plan :=
| End
| Use (a : act) (k : seen -> plan)
| Send (deadline : option N) (k : seen + answer -> plan).

(* What it has seen. *)
Inductive told := Saw (s : seen) | Answered (a : answer).

(* Where its code stops: at its end; at the pool's Send, which is given s, with its pipe, the rest of its plan and what it has seen; inside conn.Send with
   the bytes that were read. *)
Inductive stage :=
| Ends (l : list told)
| Asks (deadline : option N) (s : hslice) (b : hbuilder) (k : seen + answer -> plan) (l : list told)
| Hands (x : bytes).

Section Model.
Context `{E : Env}.

(* xpipe.go:10-25; the uses of a pipe as FineRun.g_act. The caller recovers from a panic and does not use the pipe again. *)
Fixpoint g_plan (p : plan) (b : option hbuilder) (l : list told) : go stage :=
  match p with
  | End => Return (Ends (rev l))
  | Use a k => let! (b, s) := g_act b a in g_plan (k s) b (Saw s :: l)
  | Send d k =>
      match b with
      | None => g_plan (k (inl SGone)) None (Saw SGone :: l)
      | Some b =>
          let! r := try (g_send b) in
          match r with
          | None => g_plan (k (inl (SUse None))) None (Saw (SUse None) :: l)
          | Some (inr e) => g_plan (k (inl (SSend (inr e)))) (Some b) (Saw (SSend (inr e)) :: l)
          | Some (inl s) => Return (Asks d s b k l)
          end
      end
  end.

(* The memory all share, the code of each goroutine, the call of the pool it is in, the pool with its connections, and (ghost) the calls it made, latest first. *)
Record all := mka {
  memory : mem;
  code : nat -> go stage;
  waits : nat -> option (nat * hbuilder * (seen + answer -> plan) * list told);
  sys : system;
  made : nat -> list nat }.

Definition put {A} (f : nat -> A) (g : nat) (x : A) : nat -> A := fun j => if (j =? g)%nat then x else f j.

(* The unit of call i is what was read in memory: conn.Send's Write is the first to look at the bytes (connection.go:70).
   Simplification: the headers, which ReadResponsesToSlice (connection.go:97-105) looks at again, are those of the bytes read for Write. *)
Definition set_unit (i : nat) (x : bytes) (s : system) : system :=
  mksys (pool s) (conns s) (started s)
    (match nth_error (units s) i with Some (Some (d, _)) => Pool.set_nth i (Some (d, x)) (units s) | _ => units s end) (results s).

(* What call i of the pool returned. *)
Definition answer_of (s : system) (i : nat) : option answer :=
  match nth_error (Pool.calls (pool s)) i with
  | Some (Pool.Returned o, _) => Some (o, option_map snd (find (fun x => (fst x =? i)%nat) (results s)))
  | _ => None
  end.
Definition in_send (s : system) (i : nat) : Prop := exists c b, nth_error (Pool.calls (pool s)) i = Some (Pool.SSend c, b).

(* What can be observed of a step: an access to memory, or what happens at the pool. *)
Inductive label := Access (g : nat) (x : access) | At (a : action) | Back (g : nat).

Inductive moves : all -> label -> all -> Prop :=
(* Goroutine g, which is not in a call of the pool, makes its next access. *)
| moves_by_itself m c w s h g x m' c' : w g = None -> happens (mks m c) g x (mks m' c') ->
    moves (mka m c w s h) (Access g x) (mka m' c' w s h)
(* It calls Send of the pool. The bytes of the slice at this moment are recorded; conn.Send does not use this record. *)
| moves_to_pool m c w s h g d q b k l s' : w g = None -> c g = Return (Asks d q b k l) ->
    step word32 (CallSend d (contents m q)) s = Some s' ->
    moves (mka m c w s h) (At (CallSend d (contents m q)))
      (mka m (put c g (let! x := g_read q in Return (Hands x))) (put w g (Some (length (units s), b, k, l))) s' (put h g (length (units s) :: h g)))
(* Inside conn.Send its bytes are read one after the other... *)
| moves_in_send m c w s h g x m' c' i b k l : w g = Some (i, b, k, l) -> in_send s i -> happens (mks m c) g x (mks m' c') ->
    moves (mka m c w s h) (Access g x) (mka m' c' w s h)
(* ...and these bytes are exchanged for responses. *)
| moves_exchange m c w s h g i b k l x chunks s' : w g = Some (i, b, k, l) -> c g = Return (Hands x) ->
    step word32 (Exchange i chunks) (set_unit i x s) = Some s' ->
    moves (mka m c w s h) (At (Exchange i chunks)) (mka m c w s' h)
(* The pool's Send returns. *)
| moves_back m c w s h g i b k l a : w g = Some (i, b, k, l) -> answer_of s i = Some a ->
    moves (mka m c w s h) (Back g) (mka m (put c g (g_plan (k (inr a)) (Some b) (Answered a :: l))) (put w g None) s h)
(* All else that happens at the pool: contexts that are done, connections taken, made, put back and closed, calls of Close. *)
| moves_pool m c w s h a s' : (match a with Step _ | Connected _ _ => True | _ => False end) -> step word32 a s = Some s' ->
    moves (mka m c w s h) (At a) (mka m c w s' h).

Inductive moves_on : all -> list label -> all -> Prop :=
| moves_none s : moves_on s [] s
| moves_more s tr s' l s'' : moves_on s tr s' -> moves s' l s'' -> moves_on s (tr ++ [l]) s''.

(* fifoch.New(n, connector), and goroutine g starts with plan p g. *)
Definition begin (m : mem) (n : nat) (p : nat -> plan) : all :=
  mka m (fun g => g_plan (p g) None []) (fun _ => None) (new_system n) (fun _ => []).

End Model.
