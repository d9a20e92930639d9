(** What the cast theorems refer to. *)
From Coq Require Import List Bool Arith.
From Verif Require Import CastTables CastModel.
Import ListNotations.

(** A type that can be a variable's: not the type of an untyped list, of an inferred length or the wildcard. *)
Definition real (t : Ty) : Prop := match t with Simple (GWildcard | GInferred | GUntypedList | GVoid) _ => False | _ => True end.
(** The groups with one type. *)
Definition lone (g : Group) : bool := match g with GVoid | GWildcard | GBool | GAny | GTypeid | GAnyfault | GVoidptr => true | _ => false end.
Fixpoint wf (t : Ty) : Prop :=
  match t with
  | Simple g id => match g with GVector | GDistinct | GArray | GStruct | GEnum => False | _ => lone g = true -> id = 0 end
  | Dist _ _ b | StruktInl _ b | EnmInl _ b | Vec _ b | Arr _ b => wf b /\ real b
  | Strukt _ | Enm _ => True
  end.
Fixpoint size (t : Ty) : nat := match t with Dist _ _ b | StruktInl _ b | EnmInl _ b | Vec _ b | Arr _ b => S (size b) | _ => 1 end.
(** Not a vector or array, nor a typedef or inline enum of one. *)
Fixpoint no_list (t : Ty) : Prop := match t with Vec _ _ | Arr _ _ => False | Dist _ _ b | EnmInl _ b => no_list b | _ => True end.
Definition not_vector (t : Ty) : Prop := match flatten t with Vec _ _ => False | _ => True end.
(** A vector element of a builtin number or truth value type. *)
Definition plain_element (t : Ty) : Prop := match t with Simple (GBool | GInt | GFloat) _ => True | _ => False end.
(** Both are (typedefs of) lists of such elements, the target a vector. *)
Definition plain_lists (from to : Ty) : Prop :=
  match flatten from, flatten to with
  | (Vec _ a | Arr _ a), Vec _ b => plain_element a /\ plain_element b
  | _, _ => False
  end.
(** [view t b]: [t] is [b], or is declared inline from a type with view [b]. *)
Inductive view : Ty -> Ty -> Prop :=
| View_refl t : view t t
| View_dist i t b : view t b -> view (Dist i true t) b
| View_struct i t b : view t b -> view (StruktInl i t) b
| View_enum i t b : view t b -> view (EnmInl i t) b.
