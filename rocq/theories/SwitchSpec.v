(** What a switch does. *)
From Coq Require Import ZArith Bool List.
From Verif Require Import Mach Word Int128Model Int128Spec CmpModel CmpSpec SwitchModel.
Import ListNotations.
Open Scope Z_scope.

(** The number a constant stands for. *)
Definition number (c : Const) : Z := match c with CInt x => value x | CEnum o => o end.
(** A constant of the switch type. *)
Definition const_ok (t : SwType) (c : Const) : Prop :=
  match t, c with
  | SInt k, CInt x => valid x /\ itype x = k
  | SEnum k n, CEnum o => 0 <= o < n
  | _, _ => False
  end.
Definition enum_ok (t : SwType) : Prop := match t with SInt _ => True | SEnum k n => 0 <= n <= kmax k + 1 /\ n < 2 ^ 32 end.
(** The numbers a case is for: [from] to [to]; a computed value is the number [x] as bits of the type [k]. *)
Definition covers (k : IKind) (c : Case) (z : Z) : Prop :=
  match label c with
  | Default => False
  | Value f t => number f <= z <= number (match t with Some t => t | None => f end)
  | Dynamic x => z = bits_value k x
  end.
Definition case_ok (t : SwType) (c : Case) : Prop :=
  match label c with
  | Default => True
  | Value f to => const_ok t f /\ match to with Some to => const_ok t to /\ number f <= number to | None => True end
  | Dynamic x => is_bits (lowered t) x
  end.
Definition constant (c : Case) : Prop := match label c with Dynamic _ => False | _ => True end.
(** No number is in two cases. *)
Definition disjoint (k : IKind) (cs : list Case) : Prop :=
  forall i j a b z, nth_error cs i = Some a -> nth_error cs j = Some b -> covers k a z -> covers k b z -> i = j.
(** The body a case runs: its own, or that of the next case that has one. *)
Inductive falls (cs : list Case) : nat -> Block -> Prop :=
| Falls_body i c : nth_error cs i = Some c -> body c = true -> falls cs i (At i)
| Falls_next i c b : nth_error cs i = Some c -> body c = false -> falls cs (S i) b -> falls cs i b
| Falls_end i : nth_error cs i = None -> falls cs i Exit.
(** What the switch does for a number: the body of the first case for it, else that of [default], else nothing. *)
Inductive does (k : IKind) (cs : list Case) (z : Z) : Block -> Prop :=
| Does_case i c b : nth_error cs i = Some c -> covers k c z -> (forall j d, (j < i)%nat -> nth_error cs j = Some d -> ~ covers k d z) -> falls cs i b -> does k cs z b
| Does_default i c b : (forall j d, nth_error cs j = Some d -> ~ covers k d z) -> nth_error cs i = Some c -> label c = Default -> falls cs i b -> does k cs z b
| Does_nothing : (forall j d, nth_error cs j = Some d -> ~ covers k d z) -> (forall j d, nth_error cs j = Some d -> label d <> Default) -> does k cs z Exit.
Definition one_default (cs : list Case) : Prop :=
  forall i j a b, nth_error cs i = Some a -> nth_error cs j = Some b -> label a = Default -> label b = Default -> i = j.
(** A [default] without a body is not followed by a case with one. *)
Definition default_last (cs : list Case) : Prop := forall i c, nth_error cs i = Some c -> label c = Default -> body c = false -> falls cs i Exit.
(** The end of a case's interval. *)
Definition hi_of (f : Const) (t : option Const) : Const := match t with Some t => t | None => f end.
(** The widest range has at most [fuel] + 1 values: the loop that lists them ends within [fuel] rounds. *)
Definition fuel_for (fuel : nat) (c : Case) : Prop := match label c with Value f t => number (hi_of f t) - number f <= Z.of_nat fuel | _ => True end.
(** A case with constant values. *)
Definition is_value (c : Case) : Prop := match label c with Value _ _ => True | _ => False end.
(** The span of the values is small, and the least and greatest are no further apart than the type's maximum. *)
Definition small_span (k : IKind) (cs : list Case) : Prop :=
  forall i j a b x y, nth_error cs i = Some a -> nth_error cs j = Some b -> covers k a x -> covers k b y -> y - x < 0x3FFF /\ y - x <= kmax k.
(** Every case with values runs the body of a case with values. *)
Definition lands (cs : list Case) : Prop :=
  forall i c b, nth_error cs i = Some c -> is_value c -> falls cs i b -> exists j d, b = At j /\ nth_error cs j = Some d /\ is_value d.
(** A case with one constant value, or [default]. *)
Definition single (c : Case) : Prop := match label c with Value _ None | Default => True | _ => False end.
(** The constant cases are listed in ascending order of their first values. *)
Definition ascending (cs : list Case) : Prop :=
  forall i j a b f to f' to', (i < j)%nat -> nth_error cs i = Some a -> nth_error cs j = Some b -> label a = Value f to -> label b = Value f' to' -> number f <= number f'.
Definition no_default (cs : list Case) : Prop := Forall (fun c => label c <> Default) cs.
(** A range of at most 257 values. *)
Definition narrow (c : Case) : Prop := match label c with Value f t => number (hi_of f t) - number f <= 256 | _ => True end.
