(** What the conversion theorems refer to. *)
From Coq Require Import ZArith Bool List.
From Verif Require Import Word Int128Model Int128Spec CmpModel CmpSpec NumModel.
Import ListNotations.
Open Scope Z_scope.

(** A type and the types it is declared [inline] from, nearest first. *)
Fixpoint ancestors (t : NumTy) : list NumTy :=
  t :: match t with Distinct _ true b => ancestors b | _ => [] end.
(** How many [typedef]s a type is built from. *)
Fixpoint typedefs (t : NumTy) : nat := match t with Builtin _ => 0%nat | Distinct _ _ b => S (typedefs b) end.

(** Both sides of a binary operator, "??" and "? :" have one type; values are bits of their type. *)
Fixpoint typed (e : Ex) : Prop :=
  match e with
  | Var k v => is_bits k v
  | Lit x => valid x
  | SliceLen n => is_bits U64 n
  | Bin _ l r | Else _ l r | Tern _ l r => ty l = ty r /\ typed l /\ typed r
  | Shl l _ | Shr l _ => typed l
  | Neg e | BitNot e | Rethrow e | Unwrap e | Ext _ e => typed e
  end.
(** The number an expression evaluates to. *)
Definition result (e : Ex) (z : Z) : Prop := exists v, eval e = Some v /\ bits_value (ty e) v = z.
(** The operands: what is left of an expression that does not fit [t] when operators and widening conversions are
    taken away.  A part whose type is no wider than [t] is an operand as a whole if it is a conversion. *)
Fixpoint operands (t : IKind) (e : Ex) : list Ex :=
  match e with
  | Bin _ l r | Else _ l r | Tern _ l r => operands t l ++ operands t r
  | Shl l _ | Shr l _ => operands t l
  | Neg e | BitNot e | Rethrow e | Unwrap e => operands t e
  | Ext k i => if kbits k <=? kbits t then [e] else operands t i
  | _ => [e]
  end.
(** An operand fits a type: it is no wider, or a constant in its range. *)
Definition fits (t : IKind) (e : Ex) : Prop :=
  match e with Lit x => in_kind t (value x) | _ => kbits (ty e) <= kbits t end.
Definition no_len (e : Ex) : Prop := match e with SliceLen _ => False | _ => True end.

(** Computing at the width of [t]: parts no wider than [t] and constants contribute their number, the others are
    computed modulo 2^width of [t]. *)
Definition zop (op : BOp) : Z -> Z -> Z :=
  match op with
  | BAdd => Z.add | BSub => Z.sub | BMul => Z.mul | BDiv => Z.quot | BMod => Z.rem | BOr => Z.lor | BXor => Z.lxor | BAnd => Z.land
  end.
Inductive computes (t : IKind) : Ex -> Z -> Prop :=
| Comp_operand e z : kbits (ty e) <= kbits t -> result e z -> computes t e z
| Comp_lit x : computes t (Lit x) (value x)
| Comp_wide e z : kbits t < kbits (ty e) -> computes_wide t e z -> computes t e z
with computes_wide (t : IKind) : Ex -> Z -> Prop :=
| Wide_bin op l r a b : computes t l a -> computes t r b -> computes_wide t (Bin op l r) (wrap t (zop op a b))
| Wide_shl l n a : computes t l a -> computes_wide t (Shl l n) (wrap t (a * 2 ^ n))
| Wide_shr l n a : computes t l a -> computes_wide t (Shr l n) (wrap t (a / 2 ^ n))
| Wide_else_l l r a : computes t l a -> computes_wide t (Else true l r) a
| Wide_else_r l r a : computes t r a -> computes_wide t (Else false l r) a
| Wide_then l r a : computes t l a -> computes_wide t (Tern true l r) a
| Wide_otherwise l r a : computes t r a -> computes_wide t (Tern false l r) a
| Wide_neg e a : computes t e a -> computes_wide t (Neg e) (wrap t (- a))
| Wide_not e a : computes t e a -> computes_wide t (BitNot e) (wrap t (- a - 1))
| Wide_rethrow e a : computes t e a -> computes_wide t (Rethrow e) a
| Wide_unwrap e a : computes t e a -> computes_wide t (Unwrap e) a
| Wide_ext k e a : computes t e a -> computes_wide t (Ext k e) a.
(** Division, remainder, right shift and the length of a slice do not occur in the part that is narrowed. *)
Fixpoint modular (t : IKind) (e : Ex) : Prop :=
  match e with
  | Bin op l r => op <> BDiv /\ op <> BMod /\ modular t l /\ modular t r
  | Else _ l r | Tern _ l r => modular t l /\ modular t r
  | Shl l _ | Neg l | BitNot l | Rethrow l | Unwrap l => modular t l
  | Shr _ _ | SliceLen _ => kbits (ty e) <= kbits t
  | Ext k i => kbits k <= kbits t \/ modular t i
  | Var _ _ | Lit _ => True
  end.

(** The number an expression stands for when nothing wraps. *)
Inductive exact : Ex -> Z -> Prop :=
| Ex_atom e z : match e with Var _ _ | Lit _ | SliceLen _ | Ext _ _ => True | _ => False end -> result e z -> exact e z
| Ex_bin op l r a b : exact l a -> exact r b -> exact (Bin op l r) (zop op a b)
| Ex_else_l l r a : exact l a -> exact (Else true l r) a
| Ex_else_r l r a : exact r a -> exact (Else false l r) a
| Ex_then l r a : exact l a -> exact (Tern true l r) a
| Ex_otherwise l r a : exact r a -> exact (Tern false l r) a
| Ex_rethrow e a : exact e a -> exact (Rethrow e) a
| Ex_unwrap e a : exact e a -> exact (Unwrap e) a.
Fixpoint no_unwrap (e : Ex) : Prop :=
  match e with
  | Bin _ l r | Else _ l r | Tern _ l r => no_unwrap l /\ no_unwrap r
  | Rethrow e => no_unwrap e
  | Unwrap _ => False
  | _ => True
  end.
