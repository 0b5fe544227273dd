(* Model of the expression constructors of /repo/expr.go:88-430. The closure each one returns is
   the exprfun that says what the closure will do. xproto.AppendExprOperatorV and
   AppendExprFunctionCallV (xproto/expr.go:313-315, 347-349) only collect their parameters in a
   slice. *)
From Coq Require Import String List NArith.
From Coq Require Import List.
From Verif Require Import Base GoSlice Text Values.
Import ListNotations.

(* expr.go:88-92 *)
Definition Column (name : bytes) : exprfun := EColumn name.
(* expr.go:96-100 *)
Definition Default : exprfun := EOperator (s2b "default") [].
(* expr.go:105-109 *)
Definition Not (a : gvalue) : exprfun := EOperator (s2b "!") [a].
(* expr.go:111-115 *)
Definition Plus (a : gvalue) : exprfun := EOperator (s2b "sign_plus") [a].
(* expr.go:117-121 *)
Definition Minus (a : gvalue) : exprfun := EOperator (s2b "sign_minus") [a].
(* expr.go:126-130 *)
Definition And (a b : gvalue) : exprfun := EOperator (s2b "&&") [a; b].
(* expr.go:133-137 *)
Definition Or (a b : gvalue) : exprfun := EOperator (s2b "||") [a; b].
(* expr.go:140-144 *)
Definition Xor (a b : gvalue) : exprfun := EOperator (s2b "xor") [a; b].
(* expr.go:147-151 *)
Definition Eq (a b : gvalue) : exprfun := EOperator (s2b "==") [a; b].
(* expr.go:154-158 *)
Definition Neq (a b : gvalue) : exprfun := EOperator (s2b "!=") [a; b].
(* expr.go:161-165 *)
Definition Lte (a b : gvalue) : exprfun := EOperator (s2b "<=") [a; b].
(* expr.go:168-172 *)
Definition Lt (a b : gvalue) : exprfun := EOperator (s2b "<") [a; b].
(* expr.go:175-179 *)
Definition Gt (a b : gvalue) : exprfun := EOperator (s2b ">") [a; b].
(* expr.go:182-186 *)
Definition Gte (a b : gvalue) : exprfun := EOperator (s2b ">=") [a; b].
(* expr.go:189-193 *)
Definition BitAnd (a b : gvalue) : exprfun := EOperator (s2b "&") [a; b].
(* expr.go:196-200 *)
Definition BitOr (a b : gvalue) : exprfun := EOperator (s2b "|") [a; b].
(* expr.go:203-207 *)
Definition BitXor (a b : gvalue) : exprfun := EOperator (s2b "^") [a; b].
(* expr.go:210-214 *)
Definition LeftShift (a b : gvalue) : exprfun := EOperator (s2b "<<") [a; b].
(* expr.go:217-221 *)
Definition RightShift (a b : gvalue) : exprfun := EOperator (s2b ">>") [a; b].
(* expr.go:224-228 *)
Definition Add (a b : gvalue) : exprfun := EOperator (s2b "+") [a; b].
(* expr.go:231-235 *)
Definition Sub (a b : gvalue) : exprfun := EOperator (s2b "-") [a; b].
(* expr.go:238-242 *)
Definition Mul (a b : gvalue) : exprfun := EOperator (s2b "*") [a; b].
(* expr.go:245-249 *)
Definition Div (a b : gvalue) : exprfun := EOperator (s2b "/") [a; b].
(* expr.go:252-256 *)
Definition IntDiv (a b : gvalue) : exprfun := EOperator (s2b "div") [a; b].
(* expr.go:259-263 *)
Definition Mod (a b : gvalue) : exprfun := EOperator (s2b "%") [a; b].
(* expr.go:265-269 *)
Definition Is (a b : gvalue) : exprfun := EOperator (s2b "is") [a; b].
(* expr.go:271-275 *)
Definition IsNot (a b : gvalue) : exprfun := EOperator (s2b "is_not") [a; b].
(* expr.go:277-281 *)
Definition Regexp (a b : gvalue) : exprfun := EOperator (s2b "rexgexp") [a; b].
(* expr.go:283-287 *)
Definition NotRegexp (a b : gvalue) : exprfun := EOperator (s2b "not_regexp") [a; b].
(* expr.go:289-293 *)
Definition Like (a b : gvalue) : exprfun := EOperator (s2b "like") [a; b].
(* expr.go:295-299 *)
Definition NotLike (a b : gvalue) : exprfun := EOperator (s2b "not_like") [a; b].
(* expr.go:301-305 *)
Definition ContIn (a b : gvalue) : exprfun := EOperator (s2b "cont_in") [a; b].
(* expr.go:307-311 *)
Definition NotContIn (a b : gvalue) : exprfun := EOperator (s2b "not_cont_in") [a; b].
(* expr.go:313-317 *)
Definition Overlaps (a b : gvalue) : exprfun := EOperator (s2b "overlaps") [a; b].
(* expr.go:319-323 *)
Definition NotOverlaps (a b : gvalue) : exprfun := EOperator (s2b "not_overlaps") [a; b].
(* expr.go:328-332 *)
Definition Between (a b c : gvalue) : exprfun := EOperator (s2b "between") [a; b; c].
(* expr.go:335-339 *)
Definition NotBetween (a b c : gvalue) : exprfun := EOperator (s2b "not_between") [a; b; c].
(* expr.go:342-349 *)
Definition In (a : gvalue) (b : list gvalue) : exprfun := EOperator (s2b "in") (a :: b).
(* expr.go:352-354 *)
Definition InV (a : gvalue) (b : list gvalue) : exprfun := In a b.
(* expr.go:357-364 *)
Definition NotIn (a : gvalue) (b : list gvalue) : exprfun := EOperator (s2b "not_in") (a :: b).
(* expr.go:367-369 *)
Definition NotInV (a : gvalue) (b : list gvalue) : exprfun := NotIn a b.

(* expr.go:371-393 *)
Definition UnitMicroSecond : bytes := s2b "MICROSECOND".
Definition UnitSecond : bytes := s2b "SECOND".
Definition UnitMinute : bytes := s2b "MINUTE".
Definition UnitHour : bytes := s2b "HOUR".
Definition UnitDay : bytes := s2b "DAY".
Definition UnitWeek : bytes := s2b "WEEK".
Definition UnitMonth : bytes := s2b "MONTH".
Definition UnitQuarter : bytes := s2b "QUARTER".
Definition UnitYear : bytes := s2b "YEAR".
Definition UnitSecondMicrosecond : bytes := s2b "SECOND_MICROSECOND".
Definition UnitMinuteMicrosecond : bytes := s2b "MINUTE_MICROSECOND".
Definition UnitMinuteSecond : bytes := s2b "MINUTE_SECOND".
Definition UnitHourMicrosecond : bytes := s2b "HOUR_MICROSECOND".
Definition UnitHourSecond : bytes := s2b "HOUR_SECOND".
Definition UnitHourMinute : bytes := s2b "HOUR_MINUTE".
Definition UnitDayMicrosecond : bytes := s2b "DAY_MICROSECOND".
Definition UnitDaySecond : bytes := s2b "DAY_SECOND".
Definition UnitDayMinute : bytes := s2b "DAY_MINUTE".
Definition UnitDayHour : bytes := s2b "DAY_HOUR".

(* expr.go:396-400 *)
Definition DateAdd (a b : gvalue) (c : bytes) : exprfun := EOperator (s2b "date_add") [a; b; VBytes (Some c)].
(* expr.go:403-407 *)
Definition DateSub (a b : gvalue) (c : bytes) : exprfun := EOperator (s2b "date_sub") [a; b; VBytes (Some c)].
(* expr.go:412-416 *)
Definition Concat (a : list gvalue) : exprfun := ECall (s2b "CONCAT") a.
(* expr.go:419-423 *)
Definition RowCount : exprfun := ECall (s2b "ROW_COUNT") [].
(* expr.go:426-430 *)
Definition LastInsertID : exprfun := ECall (s2b "LAST_INSERT_ID") [].
