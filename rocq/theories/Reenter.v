(* Arguments whose AppendAny or AppendExpr uses the builder that is encoding them. *)
From Coq Require Import List NArith Arith.
From Verif Require Import Base GoSlice Values Builder.
Import ListNotations.

Section Model.
Context `{E : Env}.

(* builder.go:14-18: b.buf and the slice an encoder is given share an array. The slice of length n, from the start of c's array. *)
Definition view (n : nat) (c : slice) : slice :=
  mk (firstn n (data c ++ spare c)) (skipn n (data c ++ spare c)).

(* The user's encoder that runs pr on the builder and then appends to p what f does.
   b is that builder as it is while the call that encodes the argument runs: StmtExecute, Execute,
   Update and Delete (builder.go:65-73, 87-95, 156-176, 179-188) assign b.buf and b.err when the
   encoder has returned, from what it returned, so what pr does to them is gone by then. What pr
   writes to the array is not, if p is still in b.buf's array, which is so if nothing had to be
   reallocated for it (a reallocation always enlarges the capacity, so equal capacities mean the same array).
   Simplification: when pr outgrows the array, p is left unchanged; parts of pr written before that
   are not represented. *)
Definition reenter (b : builder) (pr : prog) (f : ufun) : ufun := fun p tag =>
  if (cap p =? cap (buf b))%nat then
    do (st, _) <- run pr [mkb (view (len (buf b)) p) (berr b) (disabled b)];
    match st with
    | [b'] => f (if (cap (buf b') =? cap p)%nat then view (len p) (buf b') else p) tag
    | _ => Panic
    end
  else
    do _ <- run pr [b];
    f p tag.

End Model.
