(* Goroutines that run at the same time, each building and sending with a pipe of its own (/repo/xpipe.go over FineModel.v). *)
From Coq Require Import List NArith Arith.
From Verif Require Import Base GoSlice Values Builder Mem MemModel MemPipes Fine FineModel.
Import ListNotations.

Section Model.
Context `{E : Env}.

(* One use of a goroutine's pipe, as MemPipes.world_step: xtorm.New(n), any calls of its methods including those made in callbacks, Reset, Send
   (xpipe.go:10-25). The Sender reads the bytes it is given one after the other. The caller recovers from a panic and does not use the pipe again. *)
Definition g_act (b : option hbuilder) (a : act) : go (option hbuilder * seen) :=
  let after (c : go (hbuilder * seen)) : go (option hbuilder * seen) :=
    let! r := try c in
    match r with
    | Some (b, s) => Return (Some b, s)
    | None => Return (None, SUse None)
    end in
  match a with
  | ANew n => after (let! b := g_new_pipe n in Return (b, SNew))
  | _ =>
    match b with
    | None => Return (None, SGone)
    | Some b =>
      match a with
      | AUse pr => after (let! (st, out) := g_run pr [b] in
                          match st with b :: _ => Return (b, SUse (Some out)) | [] => Stop end)
      | AReset => after (let! b := g_reset b in Return (b, SReset))
      | _ => after (let! r := g_send b in
                    match r with
                    | inl s => let! x := g_read s in Return (b, SSend (inl x))
                    | inr e => Return (b, SSend (inr e))
                    end)
      end
    end
  end.

(* All that a goroutine does with its pipe, and all that it sees. *)
Fixpoint g_life (b : option hbuilder) (acts : list act) : go (list seen) :=
  match acts with
  | [] => Return []
  | a :: acts => let! (b, s) := g_act b a in let! l := g_life b acts in Return (s :: l)
  end.

End Model.

(* The memory all goroutines share, and what each is still to do. *)
Record state (A : Type) := mks { smem : mem; doing : nat -> go A }.
Arguments mks {A} _ _.
Arguments smem {A} _.
Arguments doing {A} _ _.
Definition goes_on {A} (f : nat -> go A) (i : nat) (c : go A) : nat -> go A :=
  fun j => if (j =? i)%nat then c else f j.

(* An access of a goroutine to memory: to element x of array a; or it allocates array a. *)
Inductive access := Reads (a x : nat) | Writes (a x : nat) | Makes (a : nat).

(* Goroutine i makes its next access. There is none if the array or the element does not exist. *)
Inductive happens {A} : state A -> nat -> access -> state A -> Prop :=
| does_read (m : mem) f i a x k l v : f i = Load a x k -> nth_error m a = Some l -> nth_error l x = Some v ->
    happens (mks m f) i (Reads a x) (mks m (goes_on f i (k v)))
| does_write (m : mem) f i a x v k l : f i = Store a x v k -> nth_error m a = Some l -> (x < length l)%nat ->
    happens (mks m f) i (Writes a x) (mks (write m a x [v]) (goes_on f i k))
| does_make (m : mem) f i l k : f i = Alloc l k ->
    happens (mks m f) i (Makes (length m)) (mks (m ++ [l]) (goes_on f i (k (length m)))).

(* Accesses of any goroutines in any order, each labelled with the goroutine. *)
Inductive runs {A} : state A -> list (nat * access) -> state A -> Prop :=
| runs_none s : runs s [] s
| runs_more s i x s' tr s'' : happens s i x s' -> runs s' tr s'' -> runs s ((i, x) :: tr) s''.

(* Goroutine i starts with memory m and does acts i. *)
Definition starts `{Env} (m : mem) (acts : nat -> list act) : state (list seen) := mks m (fun i => g_life None (acts i)).
