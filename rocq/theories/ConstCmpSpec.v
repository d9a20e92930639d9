(** When two constants are equal, and which case of a $switch is the one for a value. *)
From Coq Require Import ZArith List Bool SpecFloat.
From Verif Require Import Int128Model Int128Spec ConstArrModel ConstArrSpec ConstCmpModel.
Import ListNotations.
Open Scope Z_scope.

(** IEEE equality: NaN equals nothing, and both zeros are equal. *)
Definition float_same (x y : spec_float) : Prop :=
  match x, y with
  | S754_nan, _ | _, S754_nan => False
  | S754_zero _, S754_zero _ => True
  | _, _ => x = y
  end.
(** Equal values. *)
Definition same (l r : Value) : Prop :=
  match l, r with
  | VBool a, VBool b => a = b
  | VInt a, VInt b => value a = value b
  | VFloat a, VFloat b => float_same a b
  | VEnum t a, VEnum u b => t = u /\ a = b
  | VFault a, VFault b | VRef a, VRef b | VTypeid a, VTypeid b | VMember a, VMember b | VPointer a, VPointer b => a = b
  | (VString a | VBytes a), (VString b | VBytes b) => a = b
  | (VString a | VBytes a), VList c => exists l, items c = Some l /\ a = map byte_of l
  | VList c, (VString b | VBytes b) => exists l, items c = Some l /\ map byte_of l = b
  | VList a, VList b => exists l, items a = Some l /\ items b = Some l
  | _, _ => False
  end.
(** The pairs that are compared: of one kind; bytes with strings and with lists whose elements are scalars. *)
Definition proper (v : Value) : Prop :=
  match v with
  | VInt i => wf128 (ival i)
  | VPointer p => 0 <= p < 2 ^ 64
  | _ => True
  end.
Definition bytes_list (c : Const) : Prop := wf_const c /\ scalars c.
Definition comparable (l r : Value) : Prop :=
  proper l /\ proper r /\
  match l, r with
  | VBool _, VBool _ | VInt _, VInt _ | VFloat _, VFloat _ | VEnum _ _, VEnum _ _ | VFault _, VFault _ | VTypeid _, VTypeid _ | VMember _, VMember _ | VPointer _, VPointer _ => True
  | (VString _ | VBytes _), (VString _ | VBytes _) => True
  | (VString _ | VBytes _), VList c | VList c, (VString _ | VBytes _) => bytes_list c
  | _, _ => False
  end.
(** Strings compared by strncmp: no NUL before their ends. *)
Definition no_nul (v : Value) : Prop := match v with VString b => ~ In 0 b | _ => True end.
(** A value is in a case: equal to it or inside its range. *)
Definition covers (v : Value) (c : Case) : Prop :=
  match to c with
  | None => same v (from c)
  | Some t => match v, from c, t with
              | VInt x, VInt a, VInt b => value a <= value x <= value b
              | _, _, _ => False
              end
  end.
(** The values $switch takes, and the cases for one: of the same kind. *)
Definition switchable (v : Value) : Prop := match v with VBool _ | VInt _ | VFloat _ | VEnum _ _ | VString _ => True | _ => False end.
Definition case_for (v : Value) (c : Case) : Prop :=
  comparable v (from c) /\ no_nul v /\ no_nul (from c) /\ switchable (from c) /\ match to c with Some t => is_integer v = true /\ comparable v t | None => True end.
(** The case at [i] is the first that covers v; or there is none and [i] is $default, or the end. *)
Definition is_case (its : list Item) (i : nat) (c : Case) : Prop := nth_error its i = Some (ICase c).
Definition selects (hits : Case -> Prop) (its : list Item) (i : nat) : Prop :=
  (exists c, is_case its i c /\ hits c /\ forall j d, (j < i)%nat -> is_case its j d -> ~ hits d) \/
  ((forall j d, is_case its j d -> ~ hits d) /\ ((exists b, nth_error its i = Some (IDefault b)) \/ (i = length its /\ forall j b, nth_error its j <> Some (IDefault b)))).
(** The body that runs: of the case selected, or of the first one after it that has a body. *)
Definition runs (hits : Case -> Prop) (its : list Item) (o : option nat) : Prop :=
  exists i, selects hits its i /\
  match o with
  | Some j => (i <= j)%nat /\ (exists it, nth_error its j = Some it /\ has_body it = true) /\ forall k it, (i <= k < j)%nat -> nth_error its k = Some it -> has_body it = false
  | None => forall k it, (i <= k)%nat -> nth_error its k = Some it -> has_body it = false
  end.
(** Two cases that cover the value: the later one is not a range of literals. *)
Definition no_late_range (v : Value) (its : list Item) : Prop :=
  forall i j c d, (i < j)%nat -> is_case its i c -> is_case its j d -> covers v c -> covers v d -> known d = true -> to d = None.
(** $default is last. *)
Definition default_last (its : list Item) : Prop := forall i b, nth_error its i = Some (IDefault b) -> S i = length its.
(** The first case of a run-time switch that covers the value. *)
Definition first_target (v : Value) (cs : list RCase) (i : nat) : Prop :=
  (exists f t, nth_error cs i = Some (RConst f t) /\ covers v (mkCase true f t true)) /\
  forall j f t, (j < i)%nat -> nth_error cs j = Some (RConst f t) -> ~ covers v (mkCase true f t true).
(** Every case fits the value; a type matches a case by subtyping. *)
Definition item_for (v : Value) (it : Item) : Prop := match it with ICase c => case_for v c | IDefault _ => True end.
Definition type_hit (sub : Z -> Z -> bool) (v : Z) (c : Case) : Prop := exists t, from c = VTypeid t /\ sub t v = true.
