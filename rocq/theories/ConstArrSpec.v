(** What constant lists are, and what the operations on them should give. *)
From Coq Require Import ZArith List Bool.
From Verif Require Import ConstArrModel.
Import ListNotations.
Open Scope Z_scope.

(** The element at an index: elements that are not mentioned are zero. *)
Definition value_at (x : Init) (i : Z) : Elem :=
  match x with
  | IZero => EZero
  | IFull l => nth (Z.to_nat i) l EZero
  | ISparse l => match find (fun p => fst p =? i) l with Some p => snd p | None => EZero end
  end.
Definition indices (n : Z) : list Z := map Z.of_nat (seq 0 (Z.to_nat n)).
Definition elements (a : Arr) : list Elem := map (value_at (ainit a)) (indices (alen a)).
(** Sparse lists have increasing indices inside the array, and at least one. *)
Fixpoint increasing (from n : Z) (l : list (Z * Elem)) : Prop :=
  match l with
  | [] => True
  | (i, _) :: r => from <= i < n /\ increasing (i + 1) n r
  end.
Definition wf (a : Arr) : Prop :=
  0 < alen a /\
  match ainit a with
  | IZero => True
  | IFull l => Z.of_nat (length l) = alen a
  | ISparse l => l <> [] /\ increasing 0 (alen a) l
  end.
Definition wf_const (c : Const) : Prop := match c with CSlice (Some a) | CInit a => wf a | _ => True end.
(** The items of a list-like constant. *)
Definition items (c : Const) : option (list Elem) :=
  match c with
  | CBytes _ b => Some (map (fun x => EVal (SInt x)) b)
  | CSlice None => Some []
  | CSlice (Some a) | CInit a => Some (elements a)
  | CUntyped l => Some l
  | CStruct _ | CScalar _ => None
  end.
(** The constants a list is made of are scalars, or they are mentioned one by one in a sparse array. *)
Definition plain (c : Const) : Prop :=
  match c with
  | CSlice (Some a) | CInit a => match ainit a with IFull l => Forall (fun e => exists v, e = EVal v) l | _ => True end
  | CStruct _ | CScalar _ | CBytes _ _ => False
  | _ => True
  end.
(** The byte an element stands for in an array of bytes. *)
Definition byte_of (e : Elem) : Z := match e with EVal v => low_byte v | _ => 0 end.
(** Every constant mentioned is a scalar. *)
Definition scalars (c : Const) : Prop :=
  match c with
  | CSlice (Some a) | CInit a => match ainit a with
                                 | IFull l => Forall (fun e => exists v, e = EVal v) l
                                 | ISparse l => Forall (fun p => exists v, snd p = EVal v) l
                                 | IZero => True
                                 end
  | CSlice None => True
  | _ => False
  end.
(** The elements start .. start + count - 1 of a list. *)
Definition part {A} (l : list A) (start count : Z) : list A := firstn (Z.to_nat count) (skipn (Z.to_nat start) l).
(** What a range stands for, for a list of [len] elements: first index and number of elements. *)
Definition range_means (len start : Z) (start_back : bool) (e : End) (s n : Z) : Prop :=
  s = (if start_back then len - start else start) /\
  n = match e with
      | NoEnd => len - s
      | EndAt z => z + 1 - s
      | EndBack z => len - z + 1 - s
      | Length z => z
      | LengthBack z => len - z
      end.
(** The last designator that covers an index decides. *)
Fixpoint designated (l : list (Z * Z * Elem)) (i : Z) (acc : Elem) : Elem :=
  match l with
  | [] => acc
  | (low, high, e) :: r => designated r i (if (low <=? i) && (i <=? high) then e else acc)
  end.
(** The elements of an emitted constant. *)
Definition expand (parts : list Part) : list Elem := flat_map (fun p => match p with PElem e => [e] | PZeros n => repeat EZero (Z.to_nat n) end) parts.
