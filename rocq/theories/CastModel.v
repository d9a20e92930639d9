(** Model of the cast checker and of the choice of a conversion routine, src/compiler/sema_casts.c. *)
From Coq Require Import List Bool Arith.
From Verif Require Import CastTables.
Import ListNotations.

(** Types as the checker sees them (canonical, not optional).  [Simple g id] is a type of a group without structure
    that matters here, [id] telling the types of a group apart.  A [Dist] is declared by typedef from [b]; [inl]
    says that it was declared inline.  [StruktInl] and [EnmInl] have an inline member or value of type [b]. *)
Inductive Ty :=
| Simple (g : Group) (id : nat)
| Dist (id : nat) (inl : bool) (b : Ty)
| Strukt (id : nat)
| StruktInl (id : nat) (b : Ty)
| Enm (id : nat)
| EnmInl (id : nat) (b : Ty)
| Vec (len : nat) (b : Ty)
| Arr (len : nat) (b : Ty).
Definition group_eqb (a b : Group) : bool :=
  match a, b with
  | GVoid, GVoid | GWildcard, GWildcard | GBool, GBool | GInt, GInt | GFloat, GFloat | GPointer, GPointer | GSlice, GSlice
  | GVector, GVector | GBitstruct, GBitstruct | GDistinct, GDistinct | GArray, GArray | GStruct, GStruct | GUnion, GUnion
  | GAny, GAny | GInterface, GInterface | GEnum, GEnum | GFunc, GFunc | GTypeid, GTypeid | GAnyfault, GAnyfault
  | GVoidptr, GVoidptr | GVaptr, GVaptr | GInferred, GInferred | GUntypedList, GUntypedList => true
  | _, _ => false
  end.
(** The comparison of type pointers. *)
Fixpoint ty_eqb (a b : Ty) : bool :=
  match a, b with
  | Simple g i, Simple h j => group_eqb g h && Nat.eqb i j
  | Dist i u x, Dist j v y => Nat.eqb i j && Bool.eqb u v && ty_eqb x y
  | Strukt i, Strukt j | Enm i, Enm j => Nat.eqb i j
  | StruktInl i x, StruktInl j y | EnmInl i x, EnmInl j y | Vec i x, Vec j y | Arr i x, Arr j y => Nat.eqb i j && ty_eqb x y
  | _, _ => false
  end.
(** sema_casts.c:2349-2403, type_to_group and group_from_type. *)
Definition group (t : Ty) : Group :=
  match t with
  | Simple g _ => g | Dist _ _ _ => GDistinct | Strukt _ | StruktInl _ _ => GStruct | Enm _ | EnmInl _ _ => GEnum
  | Vec _ _ => GVector | Arr _ _ => GArray
  end.
Fixpoint index (g : Group) (l : list Group) : nat := match l with [] => 0 | x :: r => if group_eqb g x then 0 else S (index g r) end.
Definition rule (f t : Group) : Rule := nth (index t groups) (cast_rules f) R_NO.
Definition routine (f t : Group) : option Fun := nth (index t groups) (cast_function f) None.
(** compiler_internal.h:3030-3048, type_flatten. *)
Fixpoint flatten (t : Ty) : Ty := match t with Dist _ _ b => flatten b | _ => t end.
(** compiler_internal.h:2956-2967, type_flat_distinct_inline. *)
Fixpoint flat_inline (t : Ty) : Ty := match t with Dist _ true b => flat_inline b | _ => t end.
Definition is_inline (t : Ty) : bool := match t with Dist _ u _ => u | StruktInl _ _ | EnmInl _ _ => true | _ => false end.
(** types.c:1479-1515, type_is_subtype over type_find_parent_type: [t] is [s] or a type [s] is made inline from. *)
Fixpoint is_subtype (t s : Ty) : bool :=
  if ty_eqb t s then true else match s with Dist _ true b | StruktInl _ b => is_subtype t b | _ => false end.

(** The checker's answer; [Crash] is rule_not_applicable (UNREACHABLE). *)
Inductive Ans := Yes | No | Crash | NoFuel.
(** sema_cast_error evaluates its argument, then refuses. *)
Definition refuse (r : Ans) : Ans := match r with Crash | NoFuel => r | _ => No end.
Definition of_bool (b : bool) : Ans := if b then Yes else No.
(** sema_casts.c:1038-1052: the element groups an array may have to become a vector. *)
Definition vector_element (g : Group) : bool :=
  match g with GBool | GInt | GFloat | GPointer | GEnum | GTypeid | GAnyfault | GVoidptr | GVaptr => true | _ => false end.
Section Checker.
(** The rules that look at sizes, at the expression or at pointed-to types are an arbitrary answer. *)
Variable leaf : Rule -> bool -> Ty -> Ty -> bool.
(** cc->is_binary_conversion. *)
Variable binary : bool.
(** sema_casts.c:98-140, cast_is_allowed, with the rules that go on to another pair of types: 863-1495.  [konst] says
    that the expression is constant.  The choice between loud and silent checking only affects messages. *)
Fixpoint allowed (fuel : nat) (konst e : bool) (from to : Ty) : Ans :=
  match fuel with
  | O => NoFuel
  | S n =>
    if ty_eqb from to then Yes
    else
      (* rule_to_distinct, 1322-1355 *)
      let to_distinct (k e : bool) (from to : Ty) :=
        if k then (if e then allowed n k true from (flatten to)
                   else match allowed n k false from (flatten to) with No => refuse (allowed n k true from (flatten to)) | r => r end)
        else match allowed n k true from (flatten to) with Yes => of_bool e | r => r end in
      match rule (group from) (group to) with
      | R_NO => No
      | R_NA => Crash
      | ROKOK => Yes
      | REXPL => of_bool e
      | RDIXX => (* rule_from_distinct, 1302-1320 *)
        if e then allowed n konst e (flatten from) to
        else if negb (is_inline from) then refuse (allowed n konst true (flatten from) to)
        else allowed n konst e (flat_inline from) to
      | RXXDI => to_distinct konst e from to
      | RDIDI => (* rule_to_from_distinct, 1357-1375 *)
        if e then to_distinct konst e (flatten from) to
        else if is_subtype to from then Yes
        else if negb (is_inline from) then refuse (to_distinct konst true (flatten from) to)
        else allowed n konst e (flat_inline from) to
      | RSTDI => if is_subtype to from then Yes else to_distinct konst e from to   (* 1377-1384 *)
      | RSTST => of_bool (is_subtype to from)                                        (* 1386-1393 *)
      | RENXX => (* rule_enum_to_value, 1447-1473 *)
        match from with
        | EnmInl _ b => if e then allowed n konst e (flatten b) to else allowed n konst e b to
        | _ => No
        end
      | REXVC => (* rule_expand_to_vec, 1415-1425 *)
        match to with
        | Vec _ b => if negb e && negb binary then refuse (allowed n konst true from b) else allowed n konst e from b
        | _ => No
        end
      | RVCVC => (* rule_vec_to_vec, 1395-1413 *)
        match from, to with
        | Vec i a, Vec j b =>
          if negb (Nat.eqb i j) then No
          else if match a with Simple GBool _ => true | _ => false end && group_eqb (group b) GInt then Yes
          else match allowed n false e a b with No => if e then No else refuse (allowed n false true a b) | r => r end
        | _, _ => No
        end
      | RARVC => (* rule_arr_to_vec, 1034-1056 *)
        match from, to with
        | Arr i a, Vec j _ => if Nat.eqb i j && vector_element (group (flatten a)) then allowed n konst e (Vec i a) to else No
        | _, _ => No
        end
      | RVCAR => (* rule_vec_to_arr, 1058-1065 *)
        match from, to with
        | Vec i a, Arr j _ => if Nat.eqb i j then allowed n konst e (Arr i a) to else No
        | _, _ => No
        end
      | r => of_bool (leaf r e from to)
      end
  end.
End Checker.

(** The outcome of a conversion: done, no routine in the table (error_exit), UNREACHABLE, or a failed assertion. *)
Inductive Cast := Done | NoRoutine | Unreachable | Assert | CastFuel.
(** sema_casts.c:1790-1890, cast_vec_to_vec for an expression that is not constant, by the two element types, which
    are not flattened. *)
Definition pointer_kind (g : Group) : bool := match g with GPointer | GFunc | GTypeid | GAnyfault | GVoidptr | GVaptr => true | _ => false end.
Definition vec_to_vec (a b : Ty) : Cast :=
  let to := group b in
  match group a with
  | GFloat => match to with GFloat | GBool | GInt => Done | _ => Unreachable end
  | GBool => match to with GInt | GFloat => Done | _ => Unreachable end
  | GInt => match to with GFloat | GBool | GInt => Done | _ => Unreachable (* pointers run into default *) end
  | _ => match to with GBool | GInt => Done | g => if pointer_kind g then Done else Unreachable end
  end.
(** sema_casts.c:145-168, cast_no_check, and the routines that convert further: cast_expand_to_vec (1686), cast_enum_to_value
    (1732), cast_arr_to_vec (2172).  The other routines rewrite the expression and are taken to be done. *)
Fixpoint cast (fuel : nat) (from to : Ty) : Cast :=
  match fuel with
  | O => CastFuel
  | S n =>
    let f := flatten from in
    let t := flatten to in
    if ty_eqb f t then Done
    else match routine (group f) (group t) with
         | None => NoRoutine
         | Some EX2VC => match t with Vec _ b => cast n f b | _ => Assert end
         | Some EN2XX => match f with EnmInl _ b => cast n b t | _ => Assert end
         | Some VC2VC => match f, t with Vec _ a, Vec _ b => vec_to_vec a b | _, _ => Assert end
         | Some AR2VC => match f, t with
                         | Arr _ a, Vec _ b => if ty_eqb (flatten a) (flatten b) then Done else vec_to_vec (flatten a) b
                         | _, _ => Assert end
         | Some _ => Done
         end
  end.
