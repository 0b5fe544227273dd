(* Pipes that share one memory, used in any order (/repo/xpipe.go over MemModel.v), and one pipe alone over slice values. *)
From Coq Require Import List NArith Arith.
From Verif Require Import Base GoSlice Values Builder Mem MemModel.
Import ListNotations.

(* One use of a pipe: xtorm.New(n), any calls of its methods including those made in callbacks, Reset, Send. *)
Inductive act := ANew (n : nat) | AUse (pr : prog) | AReset | ASend.

(* What the user of the pipe sees: the results of InsertRow that a program hands out (None when a call panicked); the
   bytes the Sender gets, read in memory at that moment, or Send's error. SGone: the pipe was not made or has panicked. *)
Inductive seen := SNew | SUse (out : option (list (option exprfun))) | SReset | SSend (r : bytes + err) | SGone.

Section Model.
Context `{E : Env}.

(* All pipes, by number, and the memory they share. A pipe is not used again after a panic of one of its methods
   (Recover.v says what it then is); its array stays in memory. *)
Record world := mkw { wmem : mem; pipe : nat -> option hbuilder }.
Definition set_pipe (w : nat -> option hbuilder) (i : nat) (b : option hbuilder) : nat -> option hbuilder :=
  fun j => if (j =? i)%nat then b else w j.

Definition world_step (w : world) (i : nat) (a : act) : world * seen :=
  let after (r : hres (hbuilder * seen)) :=
    match r with
    | HOk (b, s) m => (mkw m (set_pipe (pipe w) i (Some b)), s)
    | HPanic m => (mkw m (set_pipe (pipe w) i None), SUse None)
    end in
  match a with
  | ANew n => after ((let* b := h_new_pipe n in hret (b, SNew)) (wmem w))
  | _ =>
    match pipe w i with
    | None => (w, SGone)
    | Some b =>
      match a with
      | AUse pr => after ((let* (st, out) := h_run pr [b] in
                           match st with b :: _ => hret (b, SUse (Some out)) | [] => hpanic end) (wmem w))
      | AReset => after ((let* b := h_reset b in hret (b, SReset)) (wmem w))
      | _ => after ((let* r := h_send b in
                     match r with
                     | inl s => let* x := h_read s in hret (b, SSend (inl x))
                     | inr e => hret (b, SSend (inr e))
                     end) (wmem w))
      end
    end
  end.

(* Any interleaving of the uses of any number of pipes; what is seen is labelled with the pipe. *)
Fixpoint world_run (w : world) (acts : list (nat * act)) : world * list (nat * seen) :=
  match acts with
  | [] => (w, [])
  | (i, a) :: acts =>
      let '(w, s) := world_step w i a in
      let '(w, l) := world_run w acts in (w, (i, s) :: l)
  end.

(* One pipe by itself, over slice values: xpipe.go, Builder.v. *)
Definition alone_step (b : option builder) (a : act) : option builder * seen :=
  match a, b with
  | ANew n, _ => (Some (new_pipe n), SNew)
  | _, None => (None, SGone)
  | AUse pr, Some b => match run pr [b] with
                       | Ok (b :: _, out) => (Some b, SUse (Some out))
                       | _ => (None, SUse None)
                       end
  | AReset, Some b => match reset b with Ok b => (Some b, SReset) | Panic => (None, SUse None) end
  | ASend, Some b => match send b with Ok r => (Some b, SSend r) | Panic => (None, SUse None) end
  end.
Fixpoint alone (b : option builder) (acts : list act) : list seen :=
  match acts with
  | [] => []
  | a :: acts => let '(b, s) := alone_step b a in s :: alone b acts
  end.

End Model.

Definition of_pipe {A} (i : nat) (l : list (nat * A)) : list A := map snd (filter (fun x => (fst x =? i)%nat) l).
