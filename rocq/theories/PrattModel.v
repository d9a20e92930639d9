(** Model of the expression parser: /repo/src/compiler/parse_expr.c, the rule
    table (1935-2047) and the functions it names.

    Simplifications.  A token is its kind plus, for names, literals and types, an
    index standing for its text.  [TkType] stands for one complete type as
    parse_type_expression_with_path consumes it.  Tokens whose rules are leaf
    parsers with their own syntax (lambdas, $-calls, splat, string and bytes
    literal concatenation, paths) and the brace rules (initializer lists and
    generic parameters) are not represented, nor are the attributes, the `;`
    macro parameters and the trailing body of a call.  Spans are dropped.  The
    poisoned expression is [PErr]. *)
From Coq Require Import Arith Bool List.
Import ListNotations.

(** enums.h: the token kinds with an entry in the rule table that the model
    covers, and the closing tokens that have none. *)
Inductive tok :=
| TkName (n : nat) | TkLit (n : nat) | TkType (n : nat)
| TkQuestion | TkQuestQuest | TkElvis
| TkPlusPlus | TkMinusMinus | TkLParen | TkBangBang | TkLBracket
| TkMinus | TkPlus | TkDiv | TkMod | TkStar | TkDot | TkBang
| TkBitNot | TkBitXor | TkBitOr | TkAmp
| TkEqEq | TkNotEqual | TkGreater | TkGreaterEq | TkLess | TkLessEq
| TkShl | TkShr | TkOr | TkCtOr | TkCtConcat | TkAnd | TkCtAnd
| TkEq | TkPlusAssign | TkMinusAssign | TkMultAssign | TkModAssign | TkDivAssign
| TkXorAssign | TkAndAssign | TkOrAssign | TkShrAssign | TkShlAssign
| TkRParen | TkRBracket | TkComma | TkColon | TkDotDot | TkEos | TkEof.

(** enums.h:986-1001 *)
Definition PREC_NONE := 0.
Definition PREC_ASSIGNMENT := 1.
Definition PREC_TERNARY := 2.
Definition PREC_OR := 3.
Definition PREC_AND := 4.
Definition PREC_RELATIONAL := 5.
Definition PREC_ADDITIVE := 6.
Definition PREC_BIT := 7.
Definition PREC_SHIFT := 8.
Definition PREC_MULTIPLICATIVE := 9.
Definition PREC_UNARY := 10.
Definition PREC_CALL := 11.
Definition PREC_PRIMARY := 12.

(** parse_expr.c:1935-2047, precedence column *)
Definition precedence (t : tok) : nat :=
  match t with
  | TkQuestion | TkQuestQuest | TkElvis => PREC_TERNARY
  | TkPlusPlus | TkMinusMinus | TkLParen | TkBangBang | TkLBracket => PREC_CALL
  | TkMinus | TkPlus => PREC_ADDITIVE
  | TkDiv | TkMod | TkStar => PREC_MULTIPLICATIVE
  | TkDot | TkBang => PREC_CALL
  | TkBitNot => PREC_UNARY
  | TkBitXor | TkBitOr | TkAmp => PREC_BIT
  | TkEqEq | TkNotEqual | TkGreater | TkGreaterEq | TkLess | TkLessEq => PREC_RELATIONAL
  | TkShl | TkShr => PREC_SHIFT
  | TkOr | TkCtOr => PREC_OR
  | TkCtConcat => PREC_MULTIPLICATIVE
  | TkAnd | TkCtAnd => PREC_AND
  | TkEq | TkPlusAssign | TkMinusAssign | TkMultAssign | TkModAssign | TkDivAssign
  | TkXorAssign | TkAndAssign | TkOrAssign | TkShrAssign | TkShlAssign => PREC_ASSIGNMENT
  | _ => PREC_NONE
  end.

(** parse_expr.c:1935-2047, prefix column *)
Inductive prefix_fn := PfUnary | PfGrouping | PfName | PfLit | PfType.
Definition prefix (t : tok) : option prefix_fn :=
  match t with
  | TkName _ => Some PfName
  | TkLit _ => Some PfLit
  | TkType _ => Some PfType
  | TkLParen => Some PfGrouping
  | TkPlusPlus | TkMinusMinus | TkBangBang | TkMinus | TkPlus | TkStar | TkBang
  | TkBitNot | TkAmp | TkAnd | TkCtAnd => Some PfUnary
  | _ => None
  end.

(** parse_expr.c:1935-2047, infix column *)
Inductive infix_fn :=
| IfTernary | IfOrElse | IfElvis | IfPost | IfCall | IfForce | IfSubscript
| IfBinary | IfAccess | IfRethrow.
Definition infix (t : tok) : option infix_fn :=
  match t with
  | TkQuestion => Some IfTernary
  | TkQuestQuest => Some IfOrElse
  | TkElvis => Some IfElvis
  | TkPlusPlus | TkMinusMinus => Some IfPost
  | TkLParen => Some IfCall
  | TkBangBang => Some IfForce
  | TkLBracket => Some IfSubscript
  | TkDot => Some IfAccess
  | TkBang => Some IfRethrow
  | TkMinus | TkPlus | TkDiv | TkMod | TkStar
  | TkBitXor | TkBitOr | TkAmp
  | TkEqEq | TkNotEqual | TkGreater | TkGreaterEq | TkLess | TkLessEq
  | TkShl | TkShr | TkOr | TkCtOr | TkCtConcat | TkAnd | TkCtAnd
  | TkEq | TkPlusAssign | TkMinusAssign | TkMultAssign | TkModAssign | TkDivAssign
  | TkXorAssign | TkAndAssign | TkOrAssign | TkShrAssign | TkShlAssign => Some IfBinary
  | _ => None
  end.

(** enums.h: BinaryOp and UnaryOp; ast.c:182-216 and 236-247: the tables from
    tokens (absent entries are zero, the _ERROR operators). *)
Inductive binop :=
| BoError | BoMult | BoSub | BoAdd | BoDiv | BoMod | BoShr | BoShl
| BoBitOr | BoBitXor | BoBitAnd | BoAnd | BoOr | BoElse
| BoCtAnd | BoCtOr | BoCtConcat
| BoGt | BoGe | BoLt | BoLe | BoNe | BoEq
| BoAssign | BoAddAssign | BoAndAssign | BoOrAssign | BoXorAssign
| BoDivAssign | BoModAssign | BoMultAssign | BoShrAssign | BoShlAssign | BoSubAssign.
Inductive unop :=
| UoError | UoDeref | UoAddr | UoTaddr | UoBitneg | UoNot | UoNeg | UoPlus | UoInc | UoDec.

Definition binaryop_from_token (t : tok) : binop :=
  match t with
  | TkStar => BoMult | TkPlus => BoAdd | TkDiv => BoDiv | TkMinus => BoSub | TkMod => BoMod
  | TkShl => BoShl | TkShr => BoShr | TkAnd => BoAnd | TkOr => BoOr
  | TkCtAnd => BoCtAnd | TkCtOr => BoCtOr | TkCtConcat => BoCtConcat | TkQuestQuest => BoElse
  | TkAmp => BoBitAnd | TkBitOr => BoBitOr | TkBitXor => BoBitXor
  | TkEqEq => BoEq | TkNotEqual => BoNe | TkLess => BoLt | TkLessEq => BoLe
  | TkGreater => BoGt | TkGreaterEq => BoGe
  | TkEq => BoAssign | TkMultAssign => BoMultAssign | TkPlusAssign => BoAddAssign
  | TkMinusAssign => BoSubAssign | TkDivAssign => BoDivAssign | TkModAssign => BoModAssign
  | TkAndAssign => BoAndAssign | TkOrAssign => BoOrAssign | TkXorAssign => BoXorAssign
  | TkShrAssign => BoShrAssign | TkShlAssign => BoShlAssign
  | _ => BoError
  end.
Definition unaryop_from_token (t : tok) : unop :=
  match t with
  | TkStar => UoDeref | TkAmp => UoAddr | TkAnd => UoTaddr | TkBitNot => UoBitneg
  | TkBang => UoNot | TkBangBang => UoNot | TkMinus => UoNeg | TkPlus => UoPlus
  | TkPlusPlus => UoInc | TkMinusMinus => UoDec
  | _ => UoError
  end.

(** The parsed expressions.  [EBin] is EXPR_BINARY with its [grouped] flag,
    [ETern] and [EElvis] are EXPR_TERNARY with and without a then-branch,
    [ESub] and [ESlice] the two outcomes of parse_subscript_expr. A named
    argument carries its name.  A missing slice start is the constant 0 in the
    code, a missing end the absent expression: both are [BNone]. *)
Inductive expr :=
| EName (n : nat) | ELit (n : nat) | EType (n : nat)
| EUnary (op : unop) (e : expr)
| EPost (op : unop) (e : expr)
| EBin (op : binop) (grouped : bool) (l r : expr)
| ETern (grouped : bool) (c t f : expr)
| EElvis (grouped : bool) (c f : expr)
| EOpt (e : expr)
| ERethrow (e : expr)
| EForce (e : expr)
| ECall (fn : expr) (a : args)
| ESub (e : expr) (from_end : bool) (i : expr)
| ESlice (e : expr) (lo : bound) (is_len : bool) (hi : bound)
| EAccess (e c : expr)
| ECast (ty : nat) (e : expr)
with args := ANil | ACons (name : option nat) (e : expr) (r : args)
with bound := BNone | BSome (from_end : bool) (e : expr).

Inductive PR (A : Type) := POk (a : A) | PErr | PFuel.
Arguments POk {A}. Arguments PErr {A}. Arguments PFuel {A}.
Definition pbind {A B} (x : PR A) (k : A -> PR B) : PR B :=
  match x with POk a => k a | PErr => PErr | PFuel => PFuel end.
Notation "' p <~ e ;; k" := (pbind e (fun p => k)) (at level 100, p pattern, e at next level, right associativity, k at level 200).

(** The current token and peek; past the end of the list the lexer keeps giving EOF. *)
Definition cur (ts : list tok) : tok := hd TkEof ts.
Definition peek (ts : list tok) : tok := hd TkEof (tl ts).
Definition tok_eqb_simple (a b : tok) : bool :=
  match a, b with
  | TkRParen, TkRParen | TkRBracket, TkRBracket | TkComma, TkComma | TkColon, TkColon
  | TkDotDot, TkDotDot | TkBitXor, TkBitXor | TkEos, TkEos => true
  | _, _ => false
  end.
Definition tok_is (ts : list tok) (t : tok) : bool := tok_eqb_simple (cur ts) t.
(** try_consume *)
Definition try_consume (ts : list tok) (t : tok) : bool * list tok :=
  if tok_is ts t then (true, tl ts) else (false, ts).
(** CONSUME_OR_RET *)
Definition consume (ts : list tok) (t : tok) : PR (list tok) :=
  if tok_is ts t then POk (tl ts) else PErr.

Definition res := PR (expr * list tok).
(** [pp p ts] below stands for parse_precedence. *)
Definition parser := nat -> list tok -> res.

(** parse_expr.c:32-72.  The first component says whether it is a range. *)
Definition parse_range (pp : parser) (ts : list tok) : PR (bool * (bound * bool * bound) * list tok) :=
  ' (lo, ts) <~ (if tok_is ts TkDotDot || tok_is ts TkColon then POk (BNone, ts)
                 else let '(fe, ts) := try_consume ts TkBitXor in
                      ' (e, ts) <~ pp PREC_ASSIGNMENT ts ;; POk (BSome fe e, ts)) ;;
  let '(is_len, ts) := try_consume ts TkColon in
  let '(is_dots, ts) := if is_len then (false, ts) else try_consume ts TkDotDot in
  if negb is_len && negb is_dots then POk (false, (lo, false, BNone), ts)
  else
    let '(fe, ts) := try_consume ts TkBitXor in
    if fe || (match prefix (cur ts) with Some _ => true | None => false end) then
      ' (e, ts) <~ pp PREC_ASSIGNMENT ts ;; POk (true, (lo, is_len, BSome fe e), ts)
    else if is_len then PErr
    else POk (true, (lo, false, BNone), ts).

(** parse_expr.c:1044-1069 *)
Definition parse_subscript_expr (pp : parser) (lhs : expr) (ts : list tok) : res :=
  let ts := tl ts in
  ' (is_range, (lo, is_len, hi), ts) <~ parse_range pp ts ;;
  ' ts <~ consume ts TkRBracket ;;
  if is_range then POk (ESlice lhs lo is_len hi, ts)
  else match lo with
       | BSome fe i => POk (ESub lhs fe i, ts)
       | BNone => POk (ESub lhs false (ELit 0), ts)
       end.

(** parse_expr.c:700-720 *)
Definition parse_unary_expr (pp : parser) (ts : list tok) : res :=
  let t := cur ts in
  ' (rhs, ts) <~ pp PREC_UNARY (tl ts) ;;
  let unary := EUnary (unaryop_from_token t) rhs in
  match t with
  | TkBangBang => POk (EUnary UoNot unary, ts)
  | _ => POk (unary, ts)
  end.

(** parse_expr.c:796-841 *)
Definition parse_grouping_expr (pp : parser) (ts : list tok) : res :=
  ' (e, ts) <~ pp PREC_ASSIGNMENT (tl ts) ;;
  ' ts <~ consume ts TkRParen ;;
  match e with
  | EType ty =>
    match prefix (cur ts) with
    | Some _ => ' (inner, ts) <~ pp PREC_CALL ts ;; POk (ECast ty inner, ts)
    | None => POk (e, ts)
    end
  | EBin op _ l r => POk (EBin op true l r, ts)
  | ETern _ c t f => POk (ETern true c t f, ts)
  | EElvis _ c f => POk (EElvis true c f, ts)
  | _ => POk (e, ts)
  end.

(** The prefix rule of the current token: parse_expr.c:162-169.  Leaf rules
    consume their token. *)
Definition run_prefix (pp : parser) (ts : list tok) : res :=
  match prefix (cur ts) with
  | None => PErr
  | Some PfUnary => parse_unary_expr pp ts
  | Some PfGrouping => parse_grouping_expr pp ts
  | Some PfName => POk (match cur ts with TkName n => EName n | _ => EName 0 end, tl ts)
  | Some PfLit => POk (match cur ts with TkLit n => ELit n | _ => ELit 0 end, tl ts)
  | Some PfType => POk (match cur ts with TkType n => EType n | _ => EType 0 end, tl ts)
  end.

(** parse_expr.c:756-784 *)
Definition parse_ternary_expr (pp : parser) (lhs : expr) (ts : list tok) : res :=
  let ts := tl ts in
  let no_prefix t := match prefix t with Some _ => false | None => true end in
  let is_bang t := match t with TkBang | TkBangBang => true | _ => false end in
  if no_prefix (cur ts) || (is_bang (cur ts) && no_prefix (peek ts)) then POk (EOpt lhs, ts)
  else
    ' (t, ts) <~ pp PREC_ASSIGNMENT ts ;;
    ' ts <~ consume ts TkColon ;;
    ' (f, ts) <~ pp PREC_TERNARY ts ;;
    POk (ETern false lhs t f, ts).

(** parse_expr.c:918-944 *)
Definition parse_binary (pp : parser) (lhs : expr) (ts : list tok) : res :=
  let op := cur ts in
  ' (rhs, ts) <~ (if precedence op =? PREC_ASSIGNMENT then pp PREC_ASSIGNMENT (tl ts)
                    else pp (precedence op + 1) (tl ts)) ;;
  POk (EBin (binaryop_from_token op) false lhs rhs, ts).

(** parse_expr.c:898-916 *)
Definition parse_orelse (pp : parser) (lhs : expr) (ts : list tok) : res :=
  ' (rhs, ts) <~ pp PREC_TERNARY (tl ts) ;;
  POk (EBin BoElse false lhs rhs, ts).

(** parse_expr.c:738-749 *)
Definition parse_elvis_expr (pp : parser) (lhs : expr) (ts : list tok) : res :=
  ' (f, ts) <~ pp PREC_TERNARY (tl ts) ;;
  POk (EElvis false lhs f, ts).

(** parse_expr.c:1088-1097 *)
Definition parse_access_expr (pp : parser) (lhs : expr) (ts : list tok) : res :=
  ' (c, ts) <~ pp PREC_PRIMARY (tl ts) ;;
  POk (EAccess lhs c, ts).

(** parse_expr.c:946-974 with parse_arg_list (475-511) as [pargs]. *)
Definition parse_call_expr (pargs : list tok -> PR (args * list tok)) (lhs : expr) (ts : list tok) : res :=
  let ts := tl ts in
  ' (a, ts) <~ (if tok_is ts TkRParen || tok_is ts TkEos then POk (ANil, ts) else pargs ts) ;;
  ' ts <~ consume ts TkRParen ;;
  POk (ECall lhs a, ts).

(** The infix rule of the current token: parse_expr.c:140-149. *)
Definition run_infix (pp : parser) (pargs : list tok -> PR (args * list tok)) (lhs : expr) (ts : list tok) : res :=
  match infix (cur ts) with
  | None => PErr
  | Some IfTernary => parse_ternary_expr pp lhs ts
  | Some IfOrElse => parse_orelse pp lhs ts
  | Some IfElvis => parse_elvis_expr pp lhs ts
  | Some IfPost => POk (EPost (unaryop_from_token (cur ts)) lhs, tl ts)   (* 725-733 *)
  | Some IfCall => parse_call_expr pargs lhs ts
  | Some IfForce => POk (EForce lhs, tl ts)                               (* 1319-1326 *)
  | Some IfSubscript => parse_subscript_expr pp lhs ts
  | Some IfBinary => parse_binary pp lhs ts
  | Some IfAccess => parse_access_expr pp lhs ts
  | Some IfRethrow => POk (ERethrow lhs, tl ts)                           (* 111-119 *)
  end.

(** parse_expr.c:475-511: one argument; a name directly followed by ':' names it. *)
Definition parse_arg (pp : parser) (ts : list tok) : PR (option nat * expr * list tok) :=
  match cur ts, peek ts with
  | TkName n, TkColon => ' (e, ts) <~ pp PREC_ASSIGNMENT (tl (tl ts)) ;; POk (Some n, e, ts)
  | _, _ => ' (e, ts) <~ pp PREC_ASSIGNMENT ts ;; POk (None, e, ts)
  end.

(** parse_precedence (157-172), parse_precedence_with_left_side (125-152) and
    the loop of parse_arg_list, with fuel for the recursion. *)
Fixpoint pprec (fuel : nat) (p : nat) (ts : list tok) {struct fuel} : res :=
  match fuel with
  | O => PFuel
  | S f => ' (lhs, ts) <~ run_prefix (pprec f) ts ;; ploop f lhs p ts
  end
with ploop (fuel : nat) (lhs : expr) (p : nat) (ts : list tok) {struct fuel} : res :=
  match fuel with
  | O => PFuel
  | S f =>
    if precedence (cur ts) <? p then POk (lhs, ts)
    else ' (lhs, ts) <~ run_infix (pprec f) (pargs f) lhs ts ;; ploop f lhs p ts
  end
with pargs (fuel : nat) (ts : list tok) {struct fuel} : PR (args * list tok) :=
  match fuel with
  | O => PFuel
  | S f =>
    ' (name, e, ts) <~ parse_arg (pprec f) ts ;;
    let '(comma, ts) := try_consume ts TkComma in
    if negb comma then POk (ACons name e ANil, ts)
    else if tok_is ts TkRParen then POk (ACons name e ANil, ts)
    else ' (r, ts) <~ pargs f ts ;; POk (ACons name e r, ts)
  end.

(** parse_expr (356-359) on a whole token sequence. *)
Definition parse_expr (ts : list tok) : res := pprec (3 * length ts + 2) PREC_ASSIGNMENT ts.
