(* C25: what the expression constructors mean. *)
From Coq Require Import String List NArith ZArith Bool Lia.
From Coq Require Import List.
From Verif Require Import Base GoSlice SpecWire SpecMsg Text Values SpecValue SpecOps.
From Verif Require Operators.
Import ListNotations.
Open Scope list_scope.

(* A constructor computes g: it is a documented operator, and when its operands stand for
   expressions with integer values x, y, ..., the whole has the value g x y ... *)
Definition computes1 (F : gvalue -> exprfun) (g : Z -> option Z) : Prop :=
  forall a, is_documented (F a) /\ forall e, fun_denotes (F a) e ->
    exists ea, expr_denotes a ea /\ forall x z, evaluates ea x -> g x = Some z -> evaluates e z.
Definition computes2 (F : gvalue -> gvalue -> exprfun) (g : Z -> Z -> option Z) : Prop :=
  forall a b, is_documented (F a b) /\ forall e, fun_denotes (F a b) e ->
    exists ea eb, expr_denotes a ea /\ expr_denotes b eb /\
      forall x y z, evaluates ea x -> evaluates eb y -> g x y = Some z -> evaluates e z.
Definition computes3 (F : gvalue -> gvalue -> gvalue -> exprfun) (g : Z -> Z -> Z -> option Z) : Prop :=
  forall a b c, is_documented (F a b c) /\ forall e, fun_denotes (F a b c) e ->
    exists ea eb ec, expr_denotes a ea /\ expr_denotes b eb /\ expr_denotes c ec /\
      forall x y w z, evaluates ea x -> evaluates eb y -> evaluates ec w -> g x y w = Some z -> evaluates e z.
Definition computes_list (F : gvalue -> list gvalue -> exprfun) (g : Z -> list Z -> option Z) : Prop :=
  forall a bs, is_documented (F a bs) /\ forall e, fun_denotes (F a bs) e ->
    exists ea ebs, expr_denotes a ea /\ Forall2 expr_denotes bs ebs /\
      forall x ys z, evaluates ea x -> Forall2 evaluates ebs ys -> g x ys = Some z -> evaluates e z.

(* ---- an integer expression has one value ---- *)

Lemma s2b_inj : forall s t, s2b s = s2b t -> s = t.
Proof.
  induction s as [|a s IH]; intros [|b t] H; try discriminate H; [reflexivity|].
  cbn in H. injection H as H1 H2. rewrite (IH t H2). f_equal. rewrite <- (Ascii.ascii_N_embedding a), <- (Ascii.ascii_N_embedding b), H1. reflexivity.
Qed.

Fixpoint value_unique (e : expr) : forall x y, evaluates e x -> evaluates e y -> x = y.
Proof.
  destruct e as [n|l|n|name es|name es|n]; intros x y Hx Hy; inversion Hx as [?|?|name1 ? xs ? Fx Ix]; subst; inversion Hy as [?|?|name2 ? ys ? Fy Iy]; subst;
    try reflexivity.
  assert (Hl : forall xs ys, Forall2 evaluates es xs -> Forall2 evaluates es ys -> xs = ys).
  { clear - value_unique. induction es as [|e es IH]; intros xs ys Hx Hy; inversion Hx; subst; inversion Hy; subst; [reflexivity|].
    f_equal; [eapply value_unique; eassumption|]. apply IH; assumption. }
  rewrite (Hl xs ys Fx Fy) in Ix. match goal with H : s2b _ = s2b _ |- _ => apply s2b_inj in H; subst end. congruence.
Qed.

(* ---- operators on integers ---- *)

Ltac member := repeat (first [left; reflexivity|right]).
Ltac sem := cbn; try rewrite Z.gtb_ltb; try rewrite Z.geb_leb; reflexivity.

Lemma of_ex1 : forall name, In (name, Exactly 1) documented -> forall F g,
  (forall a, F a = EOperator (s2b name) [a]) -> (forall x, integer_operator name [x] = g x) -> computes1 F g.
Proof.
  intros name Hin F g HF Hg a. rewrite HF. split; [exists name, (Exactly 1), [a]; repeat split; assumption|].
  intros e He. inversion He as [| | |? ? ? Hp| |]; subst. inversion Hp as [|? ea ? ? Ha Hr]; subst. inversion Hr; subst.
  exists ea. split; [exact Ha|]. intros x z Hx Hz. apply V_operator with (xs := [x]); [auto|]. rewrite Hg. exact Hz.
Qed.
Lemma of_ex2 : forall name, In (name, Exactly 2) documented -> forall F g,
  (forall a b, F a b = EOperator (s2b name) [a; b]) -> (forall x y, integer_operator name [x; y] = g x y) -> computes2 F g.
Proof.
  intros name Hin F g HF Hg a b. rewrite HF. split; [exists name, (Exactly 2), [a; b]; repeat split; assumption|].
  intros e He. inversion He as [| | |? ? ? Hp| |]; subst. inversion Hp as [|? ea ? ? Ha Hr]; subst. inversion Hr as [|? eb ? ? Hb Hr2]; subst. inversion Hr2; subst.
  exists ea, eb. split; [exact Ha|]. split; [exact Hb|]. intros x y z Hx Hy Hz. apply V_operator with (xs := [x; y]); [auto|]. rewrite Hg. exact Hz.
Qed.
Lemma of_ex3 : forall name, In (name, Exactly 3) documented -> forall F g,
  (forall a b c, F a b c = EOperator (s2b name) [a; b; c]) -> (forall x y w, integer_operator name [x; y; w] = g x y w) -> computes3 F g.
Proof.
  intros name Hin F g HF Hg a b c. rewrite HF. split; [exists name, (Exactly 3), [a; b; c]; repeat split; assumption|].
  intros e He. inversion He as [| | |? ? ? Hp| |]; subst. inversion Hp as [|? ea ? ? Ha Hr]; subst. inversion Hr as [|? eb ? ? Hb Hr2]; subst.
  inversion Hr2 as [|? ec ? ? Hc Hr3]; subst. inversion Hr3; subst.
  exists ea, eb, ec. split; [exact Ha|]. split; [exact Hb|]. split; [exact Hc|]. intros x y w z Hx Hy Hw Hz.
  apply V_operator with (xs := [x; y; w]); [auto|]. rewrite Hg. exact Hz.
Qed.
Lemma of_list : forall name, In (name, Many) documented -> forall F g,
  (forall a bs, F a bs = EOperator (s2b name) (a :: bs)) -> (forall x ys, integer_operator name (x :: ys) = g x ys) -> computes_list F g.
Proof.
  intros name Hin F g HF Hg a bs. rewrite HF. split; [exists name, Many, (a :: bs); repeat split; [assumption|cbn; lia]|].
  intros e He. inversion He as [| | |? ? ? Hp| |]; subst. inversion Hp as [|? ea ? ebs Ha Hr]; subst.
  exists ea, ebs. split; [exact Ha|]. split; [exact Hr|]. intros x ys z Hx Hy Hz. apply V_operator with (xs := x :: ys); [auto|]. rewrite Hg. exact Hz.
Qed.

Open Scope Z_scope.
Theorem C25_integer_operators :
  computes1 Operators.Not (fun x => of_bool (x =? 0)) /\
  computes1 Operators.Plus (fun x => Some x) /\
  computes1 Operators.Minus (fun x => Some (- x)) /\
  computes2 Operators.And (fun x y => of_bool (negb (x =? 0) && negb (y =? 0))) /\
  computes2 Operators.Or (fun x y => of_bool (negb (x =? 0) || negb (y =? 0))) /\
  computes2 Operators.Xor (fun x y => of_bool (xorb (negb (x =? 0)) (negb (y =? 0)))) /\
  computes2 Operators.Eq (fun x y => of_bool (x =? y)) /\
  computes2 Operators.Neq (fun x y => of_bool (negb (x =? y))) /\
  computes2 Operators.Lte (fun x y => of_bool (x <=? y)) /\
  computes2 Operators.Lt (fun x y => of_bool (x <? y)) /\
  computes2 Operators.Gt (fun x y => of_bool (x >? y)) /\
  computes2 Operators.Gte (fun x y => of_bool (x >=? y)) /\
  computes2 Operators.BitAnd (fun x y => Some (Z.land x y)) /\
  computes2 Operators.BitOr (fun x y => Some (Z.lor x y)) /\
  computes2 Operators.BitXor (fun x y => Some (Z.lxor x y)) /\
  computes2 Operators.LeftShift (fun x y => Some (Z.shiftl x y mod 2 ^ 64)) /\
  computes2 Operators.RightShift (fun x y => Some (Z.shiftr x y)) /\
  computes2 Operators.Add (fun x y => Some (x + y)) /\
  computes2 Operators.Sub (fun x y => Some (x - y)) /\
  computes2 Operators.Mul (fun x y => Some (x * y)) /\
  computes2 Operators.Div (fun x y => if (y =? 0) || negb (x mod y =? 0) then None else Some (x / y)) /\
  computes2 Operators.IntDiv (fun x y => if y =? 0 then None else Some (Z.quot x y)) /\
  computes2 Operators.Mod (fun x y => if y =? 0 then None else Some (Z.rem x y)) /\
  computes3 Operators.Between (fun x y w => of_bool ((y <=? x) && (x <=? w))) /\
  computes_list Operators.In (fun x ys => of_bool (existsb (Z.eqb x) ys)) /\
  computes_list Operators.InV (fun x ys => of_bool (existsb (Z.eqb x) ys)) /\
  computes_list Operators.NotIn (fun x ys => of_bool (negb (existsb (Z.eqb x) ys))) /\
  computes_list Operators.NotInV (fun x ys => of_bool (negb (existsb (Z.eqb x) ys))).
Proof.
  split; [apply (of_ex1 "!"%string); [unfold documented; member|reflexivity|intros; sem]|].
  split; [apply (of_ex1 "sign_plus"%string); [unfold documented; member|reflexivity|intros; sem]|].
  split; [apply (of_ex1 "sign_minus"%string); [unfold documented; member|reflexivity|intros; sem]|].
  split; [apply (of_ex2 "&&"%string); [unfold documented; member|reflexivity|intros; sem]|].
  split; [apply (of_ex2 "||"%string); [unfold documented; member|reflexivity|intros; sem]|].
  split; [apply (of_ex2 "xor"%string); [unfold documented; member|reflexivity|intros; sem]|].
  split; [apply (of_ex2 "=="%string); [unfold documented; member|reflexivity|intros; sem]|].
  split; [apply (of_ex2 "!="%string); [unfold documented; member|reflexivity|intros; sem]|].
  split; [apply (of_ex2 "<="%string); [unfold documented; member|reflexivity|intros; sem]|].
  split; [apply (of_ex2 "<"%string); [unfold documented; member|reflexivity|intros; sem]|].
  split; [apply (of_ex2 ">"%string); [unfold documented; member|reflexivity|intros; sem]|].
  split; [apply (of_ex2 ">="%string); [unfold documented; member|reflexivity|intros; sem]|].
  split; [apply (of_ex2 "&"%string); [unfold documented; member|reflexivity|intros; sem]|].
  split; [apply (of_ex2 "|"%string); [unfold documented; member|reflexivity|intros; sem]|].
  split; [apply (of_ex2 "^"%string); [unfold documented; member|reflexivity|intros; sem]|].
  split; [apply (of_ex2 "<<"%string); [unfold documented; member|reflexivity|intros; sem]|].
  split; [apply (of_ex2 ">>"%string); [unfold documented; member|reflexivity|intros; sem]|].
  split; [apply (of_ex2 "+"%string); [unfold documented; member|reflexivity|intros; sem]|].
  split; [apply (of_ex2 "-"%string); [unfold documented; member|reflexivity|intros; sem]|].
  split; [apply (of_ex2 "*"%string); [unfold documented; member|reflexivity|intros; sem]|].
  split; [apply (of_ex2 "/"%string); [unfold documented; member|reflexivity|intros; sem]|].
  split; [apply (of_ex2 "div"%string); [unfold documented; member|reflexivity|intros; sem]|].
  split; [apply (of_ex2 "%"%string); [unfold documented; member|reflexivity|intros; sem]|].
  split; [apply (of_ex3 "between"%string); [unfold documented; member|reflexivity|intros; sem]|].
  split; [apply (of_list "in"%string); [unfold documented; member|reflexivity|intros; sem]|].
  split; [apply (of_list "in"%string); [unfold documented; member|reflexivity|intros; sem]|].
  split; [apply (of_list "not_in"%string); [unfold documented; member|reflexivity|intros; sem]|].
  apply (of_list "not_in"%string); [unfold documented; member|reflexivity|intros; sem].
Qed.
Close Scope Z_scope.

(* ---- the other operators ---- *)

Open Scope string_scope.
Theorem C25_named_operators :
  applies Operators.Default "default" [] /\
  (forall a b, applies (Operators.Is a b) "is" [a; b]) /\
  (forall a b, applies (Operators.IsNot a b) "is_not" [a; b]) /\
  (forall a b, applies (Operators.NotRegexp a b) "not_regexp" [a; b]) /\
  (forall a b, applies (Operators.Like a b) "like" [a; b]) /\
  (forall a b, applies (Operators.NotLike a b) "not_like" [a; b]) /\
  (forall a b, applies (Operators.ContIn a b) "cont_in" [a; b]) /\
  (forall a b, applies (Operators.NotContIn a b) "not_cont_in" [a; b]) /\
  (forall a b, applies (Operators.Overlaps a b) "overlaps" [a; b]) /\
  (forall a b, applies (Operators.NotOverlaps a b) "not_overlaps" [a; b]).
Proof. repeat match goal with |- _ /\ _ => split end; intros; (split; [reflexivity|]; eexists; split; [unfold documented; member|reflexivity]). Qed.

Definition units : list bytes := [Operators.UnitMicroSecond; Operators.UnitSecond; Operators.UnitMinute; Operators.UnitHour; Operators.UnitDay; Operators.UnitWeek; Operators.UnitMonth; Operators.UnitQuarter; Operators.UnitYear; Operators.UnitSecondMicrosecond; Operators.UnitMinuteMicrosecond; Operators.UnitMinuteSecond; Operators.UnitHourMicrosecond; Operators.UnitHourSecond; Operators.UnitHourMinute; Operators.UnitDayMicrosecond; Operators.UnitDaySecond; Operators.UnitDayMinute; Operators.UnitDayHour].
Theorem C25_date_arithmetic :
  (forall a b u, applies (Operators.DateAdd a b u) "date_add" [a; b; VBytes (Some u)]) /\
  (forall a b u, applies (Operators.DateSub a b u) "date_sub" [a; b; VBytes (Some u)]) /\
  units = map s2b date_units.
Proof. repeat match goal with |- _ /\ _ => split end; intros; try (split; [reflexivity|]; eexists; split; [unfold documented; member|reflexivity]). reflexivity. Qed.

Theorem C25_functions : forall ps e,
  (fun_denotes (Operators.Concat ps) e -> exists es, Forall2 expr_denotes ps es /\ e = XCall (s2b "CONCAT") es) /\
  (fun_denotes Operators.RowCount e -> e = XCall (s2b "ROW_COUNT") []) /\
  (fun_denotes Operators.LastInsertID e -> e = XCall (s2b "LAST_INSERT_ID") []).
Proof.
  intros ps e. split; [|split].
  - intros He. inversion He; subst. eauto.
  - intros He. inversion He as [| | | |? ? ? Hp|]; subst. inversion Hp. reflexivity.
  - intros He. inversion He as [| | | |? ? ? Hp|]; subst. inversion Hp. reflexivity.
Qed.

(* Two constructors are wrong: REGEXP is misspelt and NOT BETWEEN has another name in the protocol. *)
Lemma not_documented : forall name ps, (forall a, ~ In (name, a) documented) -> ~ is_documented (EOperator (s2b name) ps).
Proof. intros name ps Hn (name' & a & ps' & He & Hin & _). injection He as H1 H2. apply s2b_inj in H1. subst. exact (Hn a Hin). Qed.
Theorem C25_refuted :
  (forall a b, Operators.Regexp a b = EOperator (s2b "rexgexp") [a; b] /\ ~ is_documented (Operators.Regexp a b)) /\
  (forall a b c, Operators.NotBetween a b c = EOperator (s2b "not_between") [a; b; c] /\ ~ is_documented (Operators.NotBetween a b c)).
Proof. split; intros; (split; [reflexivity|]); apply not_documented; intros x Hx; unfold documented in Hx; repeat (destruct Hx as [Hx|Hx]; [discriminate|]); destruct Hx. Qed.

(* (2 + 3) < 4 * 5: the operands stand for integers, and the value is 1 *)
Definition comparison : exprfun :=
  Operators.Lt (VFunc (Some (Operators.Add (VInt 2) (VInt 3)))) (VFunc (Some (Operators.Mul (VUint8 4) (VInt16 5)))).
Example C25_example : exists e, fun_denotes comparison e /\ evaluates e 1.
Proof.
  exists (XOperator (s2b "<") [XOperator (s2b "+") [XLiteral (SSint 2); XLiteral (SSint 3)]; XOperator (s2b "*") [XLiteral (SUint 4); XLiteral (SSint 5)]]).
  split.
  - apply F_operator. repeat constructor.
  - apply V_operator with (xs := [5; 20]%Z); [|reflexivity].
    repeat constructor; [apply V_operator with (xs := [2; 3]%Z)|apply V_operator with (xs := [4; 5]%Z)]; try reflexivity; repeat constructor.
Qed.

Print Assumptions C25_integer_operators.
Print Assumptions C25_named_operators.
Print Assumptions C25_date_arithmetic.
Print Assumptions C25_functions.
Print Assumptions C25_refuted.
Print Assumptions value_unique.
