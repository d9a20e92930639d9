(** Comparison of constants (src/compiler/number.c) and what is decided by it: ==, != and orderings that are folded, $switch
    and constant nextcase (src/compiler/sema_stmts.c). *)
From Coq Require Import ZArith List Bool SpecFloat.
From Verif Require Import Int128Model ConstArrModel.
Import ListNotations.
Open Scope Z_scope.

(** Constants (ExprConst, ConstKind in compiler_internal.h).  Declarations and types are numbers: decl_flatten is applied
    already, types are canonical.  Floats are IEEE values (Real is double or long double).  [VList]: CONST_SLICE,
    CONST_INITIALIZER and CONST_UNTYPED_LIST, as in ConstArrModel. *)
Inductive Value := VBool (b : bool) | VInt (i : Int) | VFloat (f : spec_float) | VEnum (type ordinal : Z) | VFault (decl : Z) | VRef (decl : Z)
  | VPointer (p : Z) | VString (b : list Z) | VBytes (b : list Z) | VTypeid (t : Z) | VMember (decl : Z) | VList (c : Const).

(** number.c:12-31 compare_bool. *)
Definition compare_bool (l r : bool) (op : CmpOp) : bool :=
  match op with
  | OpEQ => Bool.eqb l r | OpNE => xorb l r | OpGT => l && negb r | OpLT => negb l && r | OpGE => l || negb r | OpLE => negb l || r
  end.
(** number.c:32-51 compare_fps. *)
Definition compare_fps (l r : spec_float) (op : CmpOp) : bool :=
  match op with
  | OpEQ => SFeqb l r | OpNE => negb (SFeqb l r) | OpGT => SFltb r l | OpLT => SFltb l r | OpGE => SFleb r l | OpLE => SFleb l r
  end.
(** strncmp and memcmp of the first n bytes of two blocks of n: whether the result is 0. *)
Fixpoint strncmp_eq (a b : list Z) : bool :=
  match a, b with
  | x :: a, y :: b => if x =? y then (if x =? 0 then true else strncmp_eq a b) else false
  | _, _ => true
  end.
Fixpoint memcmp_eq (a b : list Z) : bool :=
  match a, b with
  | x :: a, y :: b => (x =? y) && memcmp_eq a b
  | _, _ => true
  end.
Definition len_eq (a b : list Z) : bool := Z.of_nat (length a) =? Z.of_nat (length b).
(** number.c:216-219: only == and != get here. *)
Definition equality (is_eq : bool) (op : CmpOp) : Outcome bool :=
  match op with OpEQ => Ok is_eq | OpNE => Ok (negb is_eq) | _ => Crash end.
Definition is_list (c : Const) : bool := match c with CSlice _ | CInit _ | CUntyped _ => true | _ => false end.
(** number.c:99-135: a list compared with bytes is turned into bytes first (number.c:52-97). *)
Definition contracted (l r : Value) : Outcome (Value * Value) :=
  match l, r with
  | VString _, VList c => match contract_const c with Some b => Ok (l, VString b) | None => Crash end
  | VBytes _, VList c => match contract_const c with Some b => Ok (l, VBytes b) | None => Crash end
  | VList c, VString _ => match contract_const c with Some b => Ok (VString b, r) | None => Crash end
  | VList c, VBytes _ => match contract_const c with Some b => Ok (VBytes b, r) | None => Crash end
  | _, _ => Ok (l, r)
  end.
(** number.c:104-223 expr_const_compare.  Other pairs of kinds read the wrong member of a union or fail an assertion. *)
Definition const_compare (l r : Value) (op : CmpOp) : Outcome bool :=
  obind (contracted l r) (fun p =>
  match p with
  | (VBool a, VBool b) => Ok (compare_bool a b op)
  | (VInt a, VInt b) => Ok (int_comp a b op)
  | (VFault a, VFault b) => Ok (b =? a)
  | (VRef _, VPointer _) => Ok false
  | (VRef a, VRef b) => Ok (b =? a)
  | (VFloat a, VFloat b) => Ok (compare_fps a b op)
  | (VPointer a, VPointer b) => Ok (int_comp (mkInt (mk128 0 a) U64) (mkInt (mk128 0 b) U64) op)
  | (VString a, VString b) | (VString a, VBytes b) => if negb (len_eq a b) then equality false op else equality (strncmp_eq a b) op
  | (VBytes a, VBytes b) | (VBytes a, VString b) => if negb (len_eq a b) then equality false op else equality (memcmp_eq a b) op
  | (VTypeid a, VTypeid b) | (VMember a, VMember b) => equality (a =? b) op
  | (VEnum t a, VEnum u b) => if negb (u =? t) then Ok false else
      Ok match op with OpGT => b <? a | OpGE => b <=? a | OpLT => a <? b | OpLE => a <=? b | OpNE => negb (a =? b) | OpEQ => a =? b end
  | (VList a, VList b) => if is_list a then Ok false else Crash
  | _ => Crash
  end).
(** sema_expr.c:216-239 sema_constant_fold_ops: the constants whose comparison is folded (7499-7503). *)
Definition folds (l : Value) : bool := match l with VList _ | VRef _ => false | _ => true end.
(** number.c:225-232 expr_const_in_range; [to] is None when both bounds are the same pointer. *)
Definition in_range (v from : Value) (to : option Value) : Outcome bool :=
  match to with
  | None => const_compare v from OpEQ
  | Some to => obind (const_compare v from OpGE) (fun b => if b then const_compare v to OpLE else Ok false)
  end.

(** *** $switch. *)
(** A $case: whether the parser made it a constant already, as it does for literals (parse_expr.c:1391, 1718, 1730, 1804,
    1852, 1865, 1880), its bounds, already cast to the type switched over, and whether it has a body. *)
Record Case := mkCase { known : bool; from : Value; to : option Value; body : bool }.
Inductive Item := ICase (c : Case) | IDefault (body : bool).
Definition is_integer (v : Value) : bool := match v with VInt _ => true | _ => false end.
(** sema_stmts.c:2541-2555: whether the start of the case lies in an earlier one that is resolved. *)
Fixpoint repeated (v : Value) (seen : list (Value * option Value)) : Outcome bool :=
  match seen with
  | [] => Ok false
  | (f, t) :: r => obind (in_range v f t) (fun b => if b then Ok true else repeated v r)
  end.
(** sema_stmts.c:2480-2583, for the type of [v]; [seen] are the resolved cases before, [matched] the case found.
    Returns the matched case and the $default.  A case that is not a constant yet is not looked at once a case matched (2495-2498);
    one that is not looked at stays unresolved, unless it is [known].
    Simplified: an error in the analysis of a case is not modelled; types are left out, see [ct_type_cases]. *)
Fixpoint ct_cases (v : Value) (items : list Item) (i : nat) (seen : list (Value * option Value)) (matched : option nat) : Outcome (option nat * option nat) :=
  match items with
  | [] => Ok (matched, None)
  | IDefault _ :: r => match r with [] => Ok (matched, Some i) | _ => Error end
  | ICase c :: r =>
      if match to c with Some _ => negb (is_integer v) | None => false end then Error
      else if match matched with Some _ => negb (known c) | None => false end then ct_cases v r (S i) seen matched
      else obind (match to c with Some t => const_compare (from c) t OpGT | None => Ok false end) (fun bad =>
        if bad then Error
        else obind (repeated (from c) seen) (fun dup =>
        if dup then Error
        else obind (in_range v (from c) (to c)) (fun hit =>
        ct_cases v r (S i) (seen ++ [(from c, to c)]) (if hit then Some i else matched))))
  end.
(** sema_stmts.c:2556-2564: types match by subtyping; [sub a b]: type_is_subtype(a, b). *)
Fixpoint ct_type_cases (sub : Z -> Z -> bool) (v : Z) (items : list Item) (i : nat) (seen : list (Value * option Value)) (matched : option nat) : Outcome (option nat * option nat) :=
  match items with
  | [] => Ok (matched, None)
  | IDefault _ :: r => match r with [] => Ok (matched, Some i) | _ => Error end
  | ICase c :: r =>
      match to c, from c with
      | None, VTypeid t =>
          if match matched with Some _ => negb (known c) | None => false end then ct_type_cases sub v r (S i) seen matched
          else obind (repeated (from c) seen) (fun dup =>
            if dup then Error
            else ct_type_cases sub v r (S i) (seen ++ [(from c, to c)])
                   (match matched with Some _ => matched | None => if sub t v then Some i else None end))
      | _, _ => Error
      end
  end.
(** sema_stmts.c:2585-2592: the first body from the case on. *)
Definition has_body (it : Item) : bool := match it with ICase c => body c | IDefault b => b end.
Fixpoint first_body (items : list Item) (i : nat) : option nat :=
  match items with
  | [] => None
  | it :: r => if has_body it then Some i else first_body r (S i)
  end.
Definition chosen (items : list Item) (m d : option nat) : nat := match m, d with Some i, _ => i | None, Some j => j | None, None => length items end.
Definition ct_switch (v : Value) (items : list Item) : Outcome (option nat) :=
  obind (match v with VTypeid _ => Error | _ => ct_cases v items 0 [] None end) (fun p =>
  let i := chosen items (fst p) (snd p) in Ok (first_body (skipn i items) i)).
Definition ct_switch_type (sub : Z -> Z -> bool) (v : Z) (items : list Item) : Outcome (option nat) :=
  obind (ct_type_cases sub v items 0 [] None) (fun p =>
  let i := chosen items (fst p) (snd p) in Ok (first_body (skipn i items) i)).

(** *** nextcase with a constant. *)
(** sema_stmts.c:2051-2065: Ok None when it is decided at run time, because a case before is no constant. *)
Inductive RCase := RConst (from : Value) (to : option Value) | RComputed | RDefault.
Fixpoint nextcase (v : Value) (cases : list RCase) (i : nat) : Outcome (option nat) :=
  match cases with
  | [] => Error
  | RDefault :: r => nextcase v r (S i)
  | RComputed :: _ => Ok None
  | RConst f t :: r => obind (in_range v f t) (fun b => if b then Ok (Some i) else nextcase v r (S i))
  end.
