(* C106: what a goroutine does with its pipe and the pool, when it has the pipe for itself and the pool answers in this way. *)
From Coq Require Import List NArith Arith.
From Verif Require Import Base GoSlice Values Builder Conn System MemPipes Fine FineRun SpecFine FinePool.
From Verif Require Pool.
Import ListNotations.

Inductive rest := HasEnded | Sends (deadline : option N) (x : bytes).

(* The pipe is a slice value, and the pool's answers come from a list. What it sees; and whether it has then ended or is sending x, to which the list has no answer. *)
Fixpoint plan_alone `{Env} (p : plan) (v : option builder) (o : list answer) : list told * rest :=
  match p with
  | End => ([], HasEnded)
  | Use a k => let '(v, s) := alone_step v a in let '(l, r) := plan_alone (k s) v o in (Saw s :: l, r)
  | Send d k =>
      match alone_step v ASend with
      | (v, SSend (inl x)) =>
          match o with
          | [] => ([], Sends d x)
          | a :: o => let '(l, r) := plan_alone (k (inr a)) v o in (Answered a :: l, r)
          end
      | (v, s) => let '(l, r) := plan_alone (k (inl s)) v o in (Saw s :: l, r)
      end
  end.

(* The accesses to memory, with the goroutine that made them, and what happened at the pool. *)
Definition accesses (tr : list label) : list (nat * access) :=
  flat_map (fun l => match l with Access g x => [(g, x)] | _ => [] end) tr.
Definition at_pool (tr : list label) : list action :=
  flat_map (fun l => match l with At a => [a] | _ => [] end) tr.

(* The calls of the pool that goroutine g made, in order, and the answers to some of them. *)
Definition calls_of (s : all) (g : nat) : list nat := rev (made s g).
Definition are_answered (s : all) (is_ : list nat) (o : list answer) : Prop := Forall2 (fun i a => answer_of (sys s) i = Some a) is_ o.

(* Goroutine g has come to its end, and has seen l. *)
Definition came_to_end (s : all) (g : nat) (l : list told) : Prop := code s g = Return (Ends l) /\ waits s g = None.

(* The bytes x are what goroutine g, which has plan p, built for its call i: its Send hands them over after the answers that its earlier calls got. *)
Definition built `{Env} (p : nat -> plan) (s : all) (g i : nat) (deadline : option N) (x : bytes) : Prop :=
  exists j o l, nth_error (calls_of s g) j = Some i /\ are_answered s (firstn j (calls_of s g)) o /\ plan_alone (p g) None o = (l, Sends deadline x).

(* The step from s to s' is one of goroutine g: an access of its own, its call of the pool or its return, or a step of the call it is in. *)
Definition step_of (g : nat) (s : all) (l : label) (s' : all) : Prop :=
  match l with
  | Access g' _ | Back g' => g' = g
  | At (CallSend _ _) => made s' g <> made s g
  | At a => exists i b k t, waits s g = Some (i, b, k, t) /\
      match a with Step a => Pool.actor a = Some i | Connected j _ | Exchange j _ => j = i | CallSend _ _ => False end
  end.

(* From s to s' by steps of goroutine g only. *)
Inductive only `{Env} (g : nat) : all -> all -> Prop :=
| only_none s : only g s s
| only_more s l s' s'' : moves s l s' -> step_of g s l s' -> only g s' s'' -> only g s s''.
