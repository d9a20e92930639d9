(** Specification of expression syntax, after the documented grammar
    /repo/resources/grammar/grammar.y:120-428 (rules base_expr to expr) and the
    precedence comments of /repo/src/compiler/enums.h:986-1001.  Nothing here
    mentions the parser. *)
From Coq Require Import Arith Bool List.
From Verif Require Import PrattModel.
Import ListNotations.

(** How each operator is written. *)
Definition bin_symbol (op : binop) : tok :=
  match op with
  | BoError => TkEof
  | BoMult => TkStar | BoSub => TkMinus | BoAdd => TkPlus | BoDiv => TkDiv | BoMod => TkMod
  | BoShr => TkShr | BoShl => TkShl | BoBitOr => TkBitOr | BoBitXor => TkBitXor
  | BoBitAnd => TkAmp | BoAnd => TkAnd | BoOr => TkOr | BoElse => TkQuestQuest
  | BoCtAnd => TkCtAnd | BoCtOr => TkCtOr | BoCtConcat => TkCtConcat
  | BoGt => TkGreater | BoGe => TkGreaterEq | BoLt => TkLess | BoLe => TkLessEq
  | BoNe => TkNotEqual | BoEq => TkEqEq
  | BoAssign => TkEq | BoAddAssign => TkPlusAssign | BoAndAssign => TkAndAssign
  | BoOrAssign => TkOrAssign | BoXorAssign => TkXorAssign | BoDivAssign => TkDivAssign
  | BoModAssign => TkModAssign | BoMultAssign => TkMultAssign | BoShrAssign => TkShrAssign
  | BoShlAssign => TkShlAssign | BoSubAssign => TkMinusAssign
  end.
Definition un_symbol (op : unop) : tok :=
  match op with
  | UoError => TkCtAnd
  | UoDeref => TkStar | UoAddr => TkAmp | UoTaddr => TkAnd | UoBitneg => TkBitNot
  | UoNot => TkBang | UoNeg => TkMinus | UoPlus => TkPlus | UoInc => TkPlusPlus
  | UoDec => TkMinusMinus
  end.

(** The twelve nested syntactic levels of grammar.y, loosest first:
    1 assignment, 2 ternary, 3 or, 4 and, 5 relational, 6 additive, 7 bit,
    8 shift, 9 mult, 10 unary, 11 call, 12 primary. *)
Definition doc_level (op : binop) : nat :=
  match op with
  | BoAssign | BoAddAssign | BoAndAssign | BoOrAssign | BoXorAssign | BoDivAssign
  | BoModAssign | BoMultAssign | BoShrAssign | BoShlAssign | BoSubAssign => 1
  | BoElse => 2
  | BoOr | BoCtOr => 3
  | BoAnd | BoCtAnd => 4
  | BoGt | BoGe | BoLt | BoLe | BoNe | BoEq => 5
  | BoAdd | BoSub | BoCtConcat => 6
  | BoBitOr | BoBitXor | BoBitAnd => 7
  | BoShr | BoShl => 8
  | BoMult | BoDiv | BoMod => 9
  | BoError => 0
  end.
(** The same table with `+++` binding like multiplication, as the compiler has it. *)
Definition real_level (op : binop) : nat :=
  match op with BoCtConcat => 9 | _ => doc_level op end.

(** Writing parentheses around an expression records that on operators. *)
Definition group (e : expr) : expr :=
  match e with
  | EBin op _ l r => EBin op true l r
  | ETern _ c t f => ETern true c t f
  | EElvis _ c f => EElvis true c f
  | _ => e
  end.
(** A named argument is written name ':' value. *)
Definition arg_name (n : option nat) : list tok := match n with Some x => [TkName x; TkColon] | None => [] end.

(** [writes lv p e ts]: the tokens [ts] are a way to write the tree [e] as a
    nonterminal of level [p], operator levels being given by [lv]. *)
Inductive writes (lv : binop -> nat) : nat -> expr -> list tok -> Prop :=
(* base_expr *)
| W_name p n : p <= 12 -> writes lv p (EName n) [TkName n]
| W_lit p n : p <= 12 -> writes lv p (ELit n) [TkLit n]
| W_paren p e ts : p <= 12 -> writes lv 1 e ts ->
    writes lv p (group e) (TkLParen :: ts ++ [TkRParen])
(* type '.' access_ident *)
| W_type_access p t c tc : p <= 11 -> writes lv 12 c tc ->
    writes lv p (EAccess (EType t) c) (TkType t :: TkDot :: tc)
(* call_trailing *)
| W_access p e te c tc : p <= 11 -> writes lv 11 e te -> writes lv 12 c tc ->
    writes lv p (EAccess e c) (te ++ TkDot :: tc)
| W_inc p e te : p <= 11 -> writes lv 11 e te -> writes lv p (EPost UoInc e) (te ++ [TkPlusPlus])
| W_dec p e te : p <= 11 -> writes lv 11 e te -> writes lv p (EPost UoDec e) (te ++ [TkMinusMinus])
| W_rethrow p e te : p <= 11 -> writes lv 11 e te -> writes lv p (ERethrow e) (te ++ [TkBang])
| W_force p e te : p <= 11 -> writes lv 11 e te -> writes lv p (EForce e) (te ++ [TkBangBang])
| W_sub p e te fe i ti : p <= 11 -> writes lv 11 e te -> writes_bound lv (BSome fe i) ti ->
    writes lv p (ESub e fe i) (te ++ TkLBracket :: ti ++ [TkRBracket])
| W_slice p e te lo tlo hi thi : p <= 11 -> writes lv 11 e te ->
    writes_bound lv lo tlo -> writes_bound lv hi thi ->
    writes lv p (ESlice e lo false hi) (te ++ TkLBracket :: tlo ++ TkDotDot :: thi ++ [TkRBracket])
| W_slice_len p e te lo tlo fe x thi : p <= 11 -> writes lv 11 e te ->
    writes_bound lv lo tlo -> writes_bound lv (BSome fe x) thi ->
    writes lv p (ESlice e lo true (BSome fe x)) (te ++ TkLBracket :: tlo ++ TkColon :: thi ++ [TkRBracket])
| W_call p e te a ta : p <= 11 -> writes lv 11 e te -> writes_args lv a ta ->
    writes lv p (ECall e a) (te ++ TkLParen :: ta ++ [TkRParen])
(* unary_expr, with '!!' standing for two negations *)
| W_unary p op e te : p <= 10 -> op <> UoError -> writes lv 10 e te ->
    writes lv p (EUnary op e) (un_symbol op :: te)
| W_notnot p e te : p <= 10 -> writes lv 10 e te ->
    writes lv p (EUnary UoNot (EUnary UoNot e)) (TkBangBang :: te)
| W_cast p t e te : p <= 10 -> writes lv 10 e te ->
    writes lv p (ECast t e) (TkLParen :: TkType t :: TkRParen :: te)
(* or_expr .. mult_expr: binary operators associate to the left *)
| W_binary p op l tl r tr : p <= lv op -> 3 <= lv op <= 9 ->
    writes lv (lv op) l tl -> writes lv (lv op + 1) r tr ->
    writes lv p (EBin op false l r) (tl ++ bin_symbol op :: tr)
(* suffix_expr *)
| W_opt p e te : p <= 2 -> writes lv 3 e te -> writes lv p (EOpt e) (te ++ [TkQuestion])
| W_opt_rethrow p e te : p <= 2 -> writes lv 3 e te ->
    writes lv p (ERethrow (EOpt e)) (te ++ [TkQuestion; TkBang])
(* ternary_expr: these associate to the right *)
| W_ternary p c tc t tt f tf : p <= 2 -> writes lv 3 c tc -> writes lv 1 t tt -> writes lv 2 f tf ->
    writes lv p (ETern false c t f) (tc ++ TkQuestion :: tt ++ TkColon :: tf)
| W_elvis p c tc f tf : p <= 2 -> writes_suffix lv c tc -> writes lv 2 f tf ->
    writes lv p (EElvis false c f) (tc ++ TkElvis :: tf)
| W_orelse p l tl r tr : p <= 2 -> writes_suffix lv l tl -> writes lv 2 r tr ->
    writes lv p (EBin BoElse false l r) (tl ++ TkQuestQuest :: tr)
(* assignment_expr: associates to the right.  grammar.y has unary_expr on the
   left; this rule, like the compiler, admits any ternary_expr. *)
| W_assign p op l tl r tr : p <= 1 -> lv op = 1 -> writes lv 2 l tl -> writes lv 1 r tr ->
    writes lv p (EBin op false l r) (tl ++ bin_symbol op :: tr)
(* suffix_expr as the left side of '?:' and '??' *)
with writes_suffix (lv : binop -> nat) : expr -> list tok -> Prop :=
| WS_or e te : writes lv 3 e te -> writes_suffix lv e te
| WS_opt e te : writes lv 3 e te -> writes_suffix lv (EOpt e) (te ++ [TkQuestion])
| WS_opt_rethrow e te : writes lv 3 e te -> writes_suffix lv (ERethrow (EOpt e)) (te ++ [TkQuestion; TkBang])
(* range_loc, or nothing *)
with writes_bound (lv : binop -> nat) : bound -> list tok -> Prop :=
| WB_none : writes_bound lv BNone []
| WB_some e te : writes lv 1 e te -> writes_bound lv (BSome false e) te
| WB_end e te : writes lv 1 e te -> writes_bound lv (BSome true e) (TkBitXor :: te)
(* call_arg_list *)
with writes_args (lv : binop -> nat) : args -> list tok -> Prop :=
| WA_nil : writes_args lv ANil []
| WA_one name e te : writes lv 1 e te -> writes_args lv (ACons name e ANil) (arg_name name ++ te)
| WA_trail name e te : writes lv 1 e te -> writes_args lv (ACons name e ANil) (arg_name name ++ te ++ [TkComma])
| WA_cons name e te n2 e2 r tr : writes lv 1 e te -> writes_args lv (ACons n2 e2 r) tr ->
    writes_args lv (ACons name e (ACons n2 e2 r)) (arg_name name ++ te ++ TkComma :: tr).

(** The tokens that can follow a complete expression: they neither start an
    expression nor continue one. *)
Definition stops (ts : list tok) : Prop :=
  match ts with
  | [] => True
  | (TkRParen | TkRBracket | TkComma | TkColon | TkDotDot | TkEos | TkEof) :: _ => True
  | _ => False
  end.

(** ** Printing a tree with the parentheses its levels require *)

(** The trees that have a syntax: no error operators, a bare type only before
    '.', and a ':' slice has a length. *)
Fixpoint sensible (e : expr) : Prop :=
  match e with
  | EName _ | ELit _ => True
  | EType _ => False
  | EUnary op e => op <> UoError /\ sensible e
  | EPost op e => (op = UoInc \/ op = UoDec) /\ sensible e
  | EBin op _ l r => op <> BoError /\ sensible l /\ sensible r
  | ETern _ c t f => sensible c /\ sensible t /\ sensible f
  | EElvis _ c f => sensible c /\ sensible f
  | EOpt e | ERethrow e | EForce e | ECast _ e => sensible e
  | ECall f a => sensible f /\ sensible_args a
  | ESub e _ i => sensible e /\ sensible i
  | ESlice e lo is_len hi =>
      sensible e /\ sensible_bound lo /\ sensible_bound hi /\ (is_len = true -> hi <> BNone)
  | EAccess e c => (match e with EType _ => True | _ => sensible e end) /\ sensible c
  end
with sensible_args (a : args) : Prop :=
  match a with ANil => True | ACons _ e r => sensible e /\ sensible_args r end
with sensible_bound (b : bound) : Prop :=
  match b with BNone => True | BSome _ e => sensible e end.

Definition parens (need : bool) (ts : list tok) : list tok :=
  if need then TkLParen :: ts ++ [TkRParen] else ts.

(** [render lv p e]: write [e] where level [p] is expected. *)
Fixpoint render (lv : binop -> nat) (p : nat) (e : expr) : list tok :=
  match e with
  | EName n => [TkName n]
  | ELit n => [TkLit n]
  | EType n => [TkType n]
  | EUnary op e => parens (10 <? p) (un_symbol op :: render lv 10 e)
  | ECast t e => parens (10 <? p) (TkLParen :: TkType t :: TkRParen :: render lv 10 e)
  | EPost op e => parens (11 <? p) (render lv 11 e ++ [un_symbol op])
  | ERethrow e => parens (11 <? p) (render lv 11 e ++ [TkBang])
  | EForce e => parens (11 <? p) (render lv 11 e ++ [TkBangBang])
  | EAccess e c => parens (11 <? p) (render lv 11 e ++ TkDot :: render lv 12 c)
  | ECall f a => parens (11 <? p) (render lv 11 f ++ TkLParen :: render_args lv a ++ [TkRParen])
  | ESub e fe i =>
      parens (11 <? p) (render lv 11 e ++ TkLBracket :: (if fe then [TkBitXor] else []) ++ render lv 1 i ++ [TkRBracket])
  | ESlice e lo is_len hi =>
      parens (11 <? p) (render lv 11 e ++ TkLBracket :: render_bound lv lo
                        ++ (if is_len then TkColon else TkDotDot) :: render_bound lv hi ++ [TkRBracket])
  | EBin op _ l r =>
      let k := lv op in
      if k <=? 2 then parens (k <? p) (render lv (k + 1) l ++ bin_symbol op :: render lv k r)
      else parens (k <? p) (render lv k l ++ bin_symbol op :: render lv (k + 1) r)
  | EOpt e => parens (2 <? p) (render lv 3 e ++ [TkQuestion])
  | ETern _ c t f =>
      parens (2 <? p) (render lv 3 c ++ TkQuestion :: render lv 1 t ++ TkColon :: render lv 2 f)
  | EElvis _ c f => parens (2 <? p) (render lv 3 c ++ TkElvis :: render lv 2 f)
  end
with render_args (lv : binop -> nat) (a : args) : list tok :=
  match a with
  | ANil => []
  | ACons name e ANil => arg_name name ++ render lv 1 e
  | ACons name e r => arg_name name ++ render lv 1 e ++ TkComma :: render_args lv r
  end
with render_bound (lv : binop -> nat) (b : bound) : list tok :=
  match b with BNone => [] | BSome fe e => (if fe then [TkBitXor] else []) ++ render lv 1 e end.

(** A tree without its record of which parentheses were written. *)
Fixpoint plain (e : expr) : expr :=
  match e with
  | EName _ | ELit _ | EType _ => e
  | EUnary op e => EUnary op (plain e)
  | EPost op e => EPost op (plain e)
  | EBin op _ l r => EBin op false (plain l) (plain r)
  | ETern _ c t f => ETern false (plain c) (plain t) (plain f)
  | EElvis _ c f => EElvis false (plain c) (plain f)
  | EOpt e => EOpt (plain e)
  | ERethrow e => ERethrow (plain e)
  | EForce e => EForce (plain e)
  | ECall f a => ECall (plain f) (plain_args a)
  | ESub e fe i => ESub (plain e) fe (plain i)
  | ESlice e lo n hi => ESlice (plain e) (plain_bound lo) n (plain_bound hi)
  | EAccess e c => EAccess (plain e) (plain c)
  | ECast t e => ECast t (plain e)
  end
with plain_args (a : args) : args :=
  match a with ANil => ANil | ACons n e r => ACons n (plain e) (plain_args r) end
with plain_bound (b : bound) : bound :=
  match b with BNone => BNone | BSome fe e => BSome fe (plain e) end.

(** ** What any accepted text satisfies *)

(** The operators and operands of a tree from left to right. *)
Fixpoint in_order (e : expr) : list tok :=
  match e with
  | EName n => [TkName n]
  | ELit n => [TkLit n]
  | EType n => [TkType n]
  | EUnary op e => un_symbol op :: in_order e
  | ECast t e => TkType t :: in_order e
  | EPost op e => in_order e ++ [un_symbol op]
  | ERethrow e => in_order e ++ [TkBang]
  | EForce e => in_order e ++ [TkBang; TkBang]
  | EOpt e => in_order e ++ [TkQuestion]
  | EAccess e c => in_order e ++ TkDot :: in_order c
  | ECall f a => in_order f ++ in_order_args a
  | ESub e fe i => in_order e ++ TkLBracket :: (if fe then [TkBitXor] else []) ++ in_order i ++ [TkRBracket]
  | ESlice e lo is_len hi =>
      in_order e ++ TkLBracket :: in_order_bound lo ++ (if is_len then TkColon else TkDotDot) :: in_order_bound hi
      ++ [TkRBracket]
  | EBin op _ l r => in_order l ++ bin_symbol op :: in_order r
  | ETern _ c t f => in_order c ++ TkQuestion :: in_order t ++ TkColon :: in_order f
  | EElvis _ c f => in_order c ++ TkElvis :: in_order f
  end
with in_order_args (a : args) : list tok :=
  match a with ANil => [] | ACons n e r => arg_name n ++ in_order e ++ in_order_args r end
with in_order_bound (b : bound) : list tok :=
  match b with BNone => [] | BSome fe e => (if fe then [TkBitXor] else []) ++ in_order e end.

(** A text without its parentheses and argument commas, '!!' counted as two '!'. *)
Definition bare (ts : list tok) : list tok :=
  flat_map (fun t => match t with
                     | TkLParen | TkRParen | TkComma => []
                     | TkBangBang => [TkBang; TkBang]
                     | _ => [t]
                     end) ts.

(** The level of an operator written without parentheses around it. *)
Definition open_level (lv : binop -> nat) (e : expr) : option nat :=
  match e with
  | EBin op false _ _ => Some (lv op)
  | ETern false _ _ _ | EElvis false _ _ => Some 2
  | _ => None
  end.
(** What may stand without parentheses left and right of an operator of level
    [k]: levels 1 and 2 associate to the right, the others to the left. *)
Definition left_ok (lv : binop -> nat) (k : nat) (e : expr) : Prop :=
  match open_level lv e with
  | None => True
  | Some m => if k <=? 2 then k < m else k <= m
  end.
Definition right_ok (lv : binop -> nat) (k : nat) (e : expr) : Prop :=
  match open_level lv e with
  | None => True
  | Some m => if k <=? 2 then k <= m else k < m
  end.
Definition closed_operand (lv : binop -> nat) (e : expr) : Prop := open_level lv e = None.

Fixpoint well_nested (lv : binop -> nat) (e : expr) : Prop :=
  match e with
  | EName _ | ELit _ | EType _ => True
  | EUnary _ e | EPost _ e | ERethrow e | EForce e | ECast _ e => closed_operand lv e /\ well_nested lv e
  | EOpt e => left_ok lv 2 e /\ well_nested lv e
  | EAccess e c => (closed_operand lv e /\ well_nested lv e) /\ closed_operand lv c /\ well_nested lv c
  | ECall f a => (closed_operand lv f /\ well_nested lv f) /\ well_nested_args lv a
  | ESub e _ i => (closed_operand lv e /\ well_nested lv e) /\ well_nested lv i
  | ESlice e lo _ hi =>
      (closed_operand lv e /\ well_nested lv e) /\ well_nested_bound lv lo /\ well_nested_bound lv hi
  | EBin op _ l r =>
      (left_ok lv (lv op) l /\ well_nested lv l) /\ (right_ok lv (lv op) r /\ well_nested lv r)
  | ETern _ c t f =>
      (left_ok lv 2 c /\ well_nested lv c) /\ well_nested lv t /\ (right_ok lv 2 f /\ well_nested lv f)
  | EElvis _ c f => (left_ok lv 2 c /\ well_nested lv c) /\ (right_ok lv 2 f /\ well_nested lv f)
  end
with well_nested_args (lv : binop -> nat) (a : args) : Prop :=
  match a with ANil => True | ACons _ e r => well_nested lv e /\ well_nested_args lv r end
with well_nested_bound (lv : binop -> nat) (b : bound) : Prop :=
  match b with BNone => True | BSome _ e => well_nested lv e end.

(** Does the tree use `+++`? *)
Fixpoint no_concat (e : expr) : Prop :=
  match e with
  | EName _ | ELit _ | EType _ => True
  | EUnary _ e | EPost _ e | ERethrow e | EForce e | ECast _ e | EOpt e => no_concat e
  | EAccess e c => no_concat e /\ no_concat c
  | ECall f a => no_concat f /\ no_concat_args a
  | ESub e _ i => no_concat e /\ no_concat i
  | ESlice e lo _ hi => no_concat e /\ no_concat_bound lo /\ no_concat_bound hi
  | EBin op _ l r => op <> BoCtConcat /\ no_concat l /\ no_concat r
  | ETern _ c t f => no_concat c /\ no_concat t /\ no_concat f
  | EElvis _ c f => no_concat c /\ no_concat f
  end
with no_concat_args (a : args) : Prop :=
  match a with ANil => True | ACons _ e r => no_concat e /\ no_concat_args r end
with no_concat_bound (b : bound) : Prop :=
  match b with BNone => True | BSome _ e => no_concat e end.
