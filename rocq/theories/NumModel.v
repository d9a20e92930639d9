(** Model of the arithmetic result type of two numeric types and of the implicit
    conversions between integers.  Optionals are left out; vectors, pointers, enums,
    and the other cases of type_find_max_type are not modelled. *)
From Coq Require Import ZArith Bool List.
From Verif Require Import Word Int128Model Int128Spec CmpModel CmpSpec.
Import ListNotations.
Open Scope Z_scope.

(** * Numeric types *)
(** enums.h:1317-1343: TYPE_F16 .. TYPE_F128. *)
Inductive FKind := F16 | BF16 | F32 | F64 | F128.
Inductive Num := NI (k : IKind) | NF (f : FKind).
(** types.c:1300-1345: the bit size given to each builtin type. *)
Definition fbits (f : FKind) : Z := match f with F16 | BF16 => 16 | F32 => 32 | F64 => 64 | F128 => 128 end.
Definition nbits (n : Num) : Z := match n with NI k => kbits k | NF f => fbits f end.
(** enums.h:1317-1343: the position of the kind in the enumeration. *)
Definition type_kind (n : Num) : Z :=
  match n with
  | NI I8 => 3 | NI I16 => 4 | NI I32 => 5 | NI I64 => 6 | NI I128 => 7
  | NI U8 => 8 | NI U16 => 9 | NI U32 => 10 | NI U64 => 11 | NI U128 => 12
  | NF F16 => 13 | NF BF16 => 14 | NF F32 => 15 | NF F64 => 16 | NF F128 => 17
  end.
Definition num_eqb (a b : Num) : bool := type_kind a =? type_kind b.

(** types.c:1770-1815, type_find_max_num_type, for two different numeric types the first of which has the smaller kind. *)
Definition max_num_type (t o : Num) : Num :=
  match o, t with
  | NF _, _ => o
  | NI ok, NI k =>
    if negb (ksigned ok) && ksigned k
    then (if kbits ok <=? kbits k then t else NI (signed_by_bitsize (kbits ok)))
    else o
  | NI _, NF _ => o (* not reached: the kinds are ordered *)
  end.
(** types.c:1922-1943 with the cases ALL_INTS and ALL_FLOATS (1957-1965), for two builtin numeric types. *)
Definition max_builtin (a b : Num) : Num :=
  if num_eqb a b then a
  else if type_kind b <? type_kind a then max_num_type b a else max_num_type a b.

(** A numeric type: builtin, or one declared by [typedef] from another ([TYPE_DISTINCT]); [id] stands for the
    declaration and [inl] says that it was declared [inline] (decl->is_substruct). *)
Inductive NumTy := Builtin (n : Num) | Distinct (id : nat) (inl : bool) (base : NumTy).
(** compiler_internal.h:3030-3048, type_flatten. *)
Fixpoint flatten (t : NumTy) : Num := match t with Builtin n => n | Distinct _ _ b => flatten b end.
Fixpoint ty_eqb (a b : NumTy) : bool :=
  match a, b with
  | Builtin x, Builtin y => num_eqb x y
  | Distinct i u x, Distinct j v y => Nat.eqb i j && Bool.eqb u v && ty_eqb x y
  | _, _ => false
  end.
Inductive MaxRes := Max (t : NumTy) | NoMax | TooDeep.
(** types.c:1896-1906: the array left_types.  [depth] counts down from MAX_SEARCH_DEPTH; [inl] is the early return
    when an ancestor of the left type is the right one. *)
Inductive Left := Chain (ts : list NumTy) | Found | Exceeded.
Fixpoint left_types (depth : nat) (left right : NumTy) : Left :=
  match depth with
  | O => Exceeded
  | S d =>
    match left with
    | Distinct _ true b =>
      if ty_eqb b right then Found
      else match left_types d b right with Chain ts => Chain (left :: ts) | r => r end
    | _ => match d with O => Exceeded | _ => Chain [left] end
    end
  end.
(** types.c:1912-1920: the loop over the ancestors of the right type. *)
Fixpoint right_search (ts : list NumTy) (right : NumTy) : MaxRes :=
  if existsb (ty_eqb right) ts then Max right
  else match right with
       | Distinct _ true b => right_search ts b
       | _ => NoMax
       end.
(** types.c:1890-1920, type_find_max_distinct_type. *)
Definition max_distinct (left right : NumTy) : MaxRes :=
  match left_types 512 left right with
  | Exceeded => TooDeep
  | Found => Max right
  | Chain ts => right_search ts right
  end.
(** types.c:1922-2060, type_find_max_type, for numeric types.  TYPE_DISTINCT is after all builtin numbers, so
    a builtin number is always [type] and the distinct type [other]. *)
Definition max_type (a b : NumTy) : MaxRes :=
  if ty_eqb a b then Max a
  else
    let num_dist (n : Num) (d : NumTy) :=
      match n with
      | NI _ => Max d
      | NF _ => match flatten d with NF _ => Max d | NI _ => NoMax end
      end in
    match a, b with
    | Builtin x, Builtin y => Max (Builtin (max_builtin x y))
    | Builtin x, Distinct _ _ _ => num_dist x b
    | Distinct _ _ _, Builtin y => num_dist y a
    | Distinct _ _ _, Distinct _ _ _ => max_distinct a b
    end.
(** sema_casts.c:658-680, cast_numeric_arithmetic_promotion; [w] is compiler.platform.width_c_int. *)
Definition arith_promote (w : Z) (t : NumTy) : NumTy :=
  match t with
  | Builtin (NI k) => if kbits k <? w then Builtin (NI (if ksigned k then signed_by_bitsize w else unsigned_by_bitsize w)) else t
  | Builtin (NF F16) | Builtin (NF BF16) => Builtin (NF F32)
  | _ => t
  end.
(** sema_expr.c:6592-6612, sema_binary_arithmetic_promotion: the type both operands get. *)
Definition arith_type (w : Z) (a b : NumTy) : MaxRes :=
  match max_type a b with Max t => Max (arith_promote w t) | r => r end.

(** * Implicit integer conversions *)
Inductive BOp := BAdd | BSub | BMul | BDiv | BMod | BOr | BXor | BAnd.
(** An analysed integer expression.  A [Var] is anything whose kind is not looked into (variable, call, dereference,
    field ...); it carries the bits it evaluates to.  The right side of a shift carries its amount only.  [Else] is
    "??", with the flag saying whether the left side had a value; the condition of a ternary is its outcome.
    [Ext] is EXPR_EXT_TRUNC; its sign flag is that of the inner type (sema_casts.c:1670).
    Assignments, increments, comma expressions and recasts are left out. *)
Inductive Ex :=
| Var (k : IKind) (v : Z)
| Lit (x : Int)
| SliceLen (n : Z)
| Bin (op : BOp) (l r : Ex)
| Shl (l : Ex) (n : Z)
| Shr (l : Ex) (n : Z)
| Else (ok : bool) (l r : Ex)
| Tern (c : bool) (t e : Ex)
| Neg (e : Ex)
| BitNot (e : Ex)
| Rethrow (e : Ex)
| Unwrap (e : Ex)
| Ext (k : IKind) (e : Ex).
(** The type of the expression (expr->type); usz is 64 bits wide. *)
Fixpoint ty (e : Ex) : IKind :=
  match e with
  | Var k _ => k
  | Lit x => itype x
  | SliceLen _ => U64
  | Bin _ l _ | Shl l _ | Shr l _ | Else _ l _ => ty l
  | Tern _ t _ => ty t
  | Neg e | BitNot e | Rethrow e | Unwrap e => ty e
  | Ext k _ => k
  end.
(** expr.c:923-990, expr_is_simple, with [to_float] false. *)
Fixpoint is_simple (e : Ex) : bool :=
  match e with
  | Tern _ t e => is_simple e && is_simple t
  | Rethrow e => is_simple e
  | Bin (BDiv | BMod) l r => is_simple l && is_simple r
  | Else _ l r => is_simple l && is_simple r
  | Bin _ _ _ | Shl _ _ | Shr _ _ => false
  | BitNot _ | Neg _ => false
  | _ => true
  end.
(** sema_casts.c:353-522, recursive_may_narrow: [true] when no problem is found; [cint] is the C int type. *)
Fixpoint may_narrow (cint : IKind) (e : Ex) (t : IKind) : bool :=
  match e with
  | Bin _ l r | Else _ l r => may_narrow cint l t && may_narrow cint r t
  | Shl l _ | Shr l _ => may_narrow cint l t
  | SliceLen _ => negb (kbits t <? kbits cint)
  | Tern _ a b => may_narrow cint a t && may_narrow cint b t
  | Ext k i => if kbits k <=? kbits t then true else may_narrow cint i t
  | Lit x => int_fits x t
  | Rethrow i | Unwrap i | Neg i | BitNot i => may_narrow cint i t
  | Var k _ => kbits k <=? kbits t
  end.
(** sema_casts.c:1238-1290, rule_widen_narrow without an explicit cast, between integer types. *)
Definition implicit_ok (cint : IKind) (e : Ex) (t : IKind) : bool :=
  if kbits (ty e) <? kbits t then is_simple e
  else if match e with Lit x => negb (int_fits x t) | _ => false end then false
  else if kbits t =? kbits (ty e) then true
  else may_narrow cint e t.
(** sema_casts.c:1657-1682, cast_int_to_int. *)
Definition convert (e : Ex) (t : IKind) : Ex :=
  match e with Lit x => Lit (int_conv x t) | _ => Ext t e end.

(** The bits the generated code computes; [None] when it has no result (division by zero, overflowing division,
    shift by the width or more).  llvm_codegen_expr.c:3560-3700 (add, sub, mul, sdiv/udiv, srem/urem, and, or, xor,
    shl, ashr/lshr), 2450-2500 (neg, not), 6830-6851 (ext/trunc). *)
Definition bin (k : IKind) (op : BOp) (a b : Z) : option Z :=
  let m := 2 ^ kbits k in
  let x := bits_value k a in
  let y := bits_value k b in
  match op with
  | BAdd => Some ((a + b) mod m)
  | BSub => Some ((a - b) mod m)
  | BMul => Some ((a * b) mod m)
  | BDiv => if (y =? 0) || (ksigned k && (y =? -1) && (x =? kmin k)) then None else Some (Z.quot x y mod m)
  | BMod => if (y =? 0) || (ksigned k && (y =? -1) && (x =? kmin k)) then None else Some (Z.rem x y mod m)
  | BOr => Some (Z.lor a b)
  | BXor => Some (Z.lxor a b)
  | BAnd => Some (Z.land a b)
  end.
Fixpoint eval (e : Ex) : option Z :=
  match e with
  | Var _ v => Some v
  | Lit x => Some (value x mod 2 ^ kbits (itype x))
  | SliceLen n => Some n
  | Bin op l r => match eval l, eval r with Some a, Some b => bin (ty l) op a b | _, _ => None end
  | Shl l n => match eval l with
               | Some a => if (0 <=? n) && (n <? kbits (ty l)) then Some (Z.shiftl a n mod 2 ^ kbits (ty l)) else None
               | None => None end
  | Shr l n => match eval l with
               | Some a => if (0 <=? n) && (n <? kbits (ty l)) then Some (Z.shiftr (bits_value (ty l) a) n mod 2 ^ kbits (ty l)) else None
               | None => None end
  | Else ok l r => if ok then eval l else eval r
  | Tern c t e => if c then eval t else eval e
  | Neg e => match eval e with Some a => Some ((- a) mod 2 ^ kbits (ty e)) | None => None end
  | BitNot e => match eval e with Some a => Some ((2 ^ kbits (ty e) - 1 - a)) | None => None end
  | Rethrow e | Unwrap e => eval e
  | Ext k e => match eval e with Some a => Some (ext_trunc (ty e) k a) | None => None end
  end.
