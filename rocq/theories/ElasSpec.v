(** What an elastic array is: a sequence of at most [max] elements.  [None] is a broken contract. *)
From Coq Require Import ZArith Bool List.
From Verif Require Import Mach ListModel ListSpec ElasModel.
Import ListNotations.
Local Open Scope Z_scope.

Section Spec.
Context {A : Type}.
Variable eqb : A -> A -> bool.
Variable null : A -> bool.
Variable max : Z.

Inductive eop :=
| EPush (x : A) | EPushTry (x : A) | EPop | EClear | EPopFirst | ERemoveAt (i : Z) | EAddArray (xs : list A) | EAddAll (xs : list A) | EAddSelf
| EAddLimit (xs : list A) | EAddAllLimit (xs : list A)
| EPushFront (x : A) | EPushFrontTry (x : A) | EInsertAt (i : Z) (x : A) | EInsertTry (i : Z) (x : A) | ESetAt (i : Z) (x : A) | ESet (i : Z) (x : A)
| EGet (i : Z) | ESwap (i j : Z) | EReverse | EFirst | ELast | ERemoveLast | ERemoveFirst | ELen | EToArray
| ERemoveIf (p : A -> bool) | ERetainIf (p : A -> bool) | ECompact | ECompactCount
| EIndexOf (x : A) | ERIndexOf (x : A) | EContains (x : A) | EEquals (xs : list A)
| ERemoveItem (x : A) | ERemoveFirstItem (x : A) | ERemoveLastItem (x : A) | ERemoveAllFrom (xs : list A).

Definition fits (n : Z) (l : list A) : bool := zlen l + n <=? max.
(** The first elements of [xs] that fit, and how many do not. *)
Definition fitting (l xs : list A) : list A := firstn (Z.to_nat (max - zlen l)) xs.
Definition left_over (l xs : list A) : Z := Z.max 0 (zlen l + zlen xs - max).

Definition bounded (o : eop) (l : list A) : option (lout A * list A) :=
  let ideal := ideal eqb null in
  match o with
  | EPush x => if fits 1 l then Some (VUnit, l ++ [x]) else None
  | EPushTry x => if fits 1 l then Some (VBool true, l ++ [x]) else Some (VBool false, l)
  | EPop => ideal LPop l
  | EClear => ideal LClear l
  | EPopFirst => match l with [] => None | x :: t => Some (VItem (Some x), t) end
  | ERemoveAt i => ideal (LRemoveAt i) l
  | EAddArray xs | EAddAll xs => if fits (zlen xs) l then Some (VUnit, l ++ xs) else None
  | EAddSelf => if fits (zlen l) l then Some (VUnit, l ++ l) else None
  | EAddLimit xs | EAddAllLimit xs => Some (VNum (left_over l xs), l ++ fitting l xs)
  | EPushFront x => if fits 1 l then Some (VUnit, x :: l) else None
  | EPushFrontTry x => if fits 1 l then Some (VBool true, x :: l) else None
  | EInsertAt i x => if fits 1 l then ideal (LInsertAt i x) l else None
  | EInsertTry i x => if (0 <=? i) && (i <=? zlen l) then
                        if fits 1 l then Some (VBool true, before l i ++ x :: after l i) else Some (VBool false, l) else None
  | ESetAt i x | ESet i x => ideal (LSet i x) l
  | EGet i => ideal (LGet i) l
  | ESwap i j => ideal (LSwap i j) l
  | EReverse => ideal LReverse l
  | EFirst => ideal LFirst l
  | ELast => ideal LLast l
  | ERemoveLast => ideal LRemoveLast l
  | ERemoveFirst => ideal LRemoveFirst l
  | ELen => ideal LLen l
  | EToArray => ideal LToArray l
  | ERemoveIf p => ideal (LRemoveIf p) l
  | ERetainIf p => ideal (LRetainIf p) l
  | ECompact => ideal LCompact l
  | ECompactCount => ideal LCompactCount l
  | EIndexOf x => ideal (LIndexOf x) l
  | ERIndexOf x => ideal (LRIndexOf x) l
  | EContains x => ideal (LContains x) l
  | EEquals xs => ideal (LEquals xs) l
  | ERemoveItem x => ideal (LRemoveItem x) l
  | ERemoveFirstItem x => ideal (LRemoveFirstItem x) l
  | ERemoveLastItem x => ideal (LRemoveLastItem x) l
  | ERemoveAllFrom xs => ideal (LRemoveAllFrom xs) l
  end.
Fixpoint bounded_run (l : list A) (os : list eop) : option (list (lout A) * list A) :=
  match os with
  | [] => Some ([], l)
  | o :: t => match bounded o l with
              | None => None
              | Some (v, l) => match bounded_run l t with None => None | Some (vs, l) => Some (v :: vs, l) end
              end
  end.
(** Other arrays given to an operation are elastic arrays of the same type, so of at most [max] elements. *)
Definition arg_fits (o : eop) : Prop := match o with EAddAll xs | EAddAllLimit xs | EEquals xs | ERemoveAllFrom xs => zlen xs <= max | _ => True end.

(** The operations of the model; the other array is filled by add_array. *)
Definition other (xs : list A) : Res (lst A) := ElasModel.add_array (empty max) xs.
Definition num_ (r : Res (Z * lst A)) : Res (lout A * lst A) := '(n, s) <- r ;; Ok (VNum n, s).
Definition bool_ (r : Res (bool * lst A)) : Res (lout A * lst A) := '(b, s) <- r ;; Ok (VBool b, s).
Definition item_ (r : Res (option A * lst A)) : Res (lout A * lst A) := '(x, s) <- r ;; Ok (VItem x, s).
Definition e_step (fuel : nat) (s : lst A) (o : eop) : Res (lout A * lst A) :=
  match o with
  | EPush x => unit_ (ElasModel.push s x)
  | EPushTry x => bool_ (push_try s x)
  | EPop => item_ (ElasModel.pop s)
  | EClear => Ok (VUnit, ElasModel.clear s)
  | EPopFirst => item_ (ElasModel.pop_first s)
  | ERemoveAt i => unit_ (ElasModel.remove_at s i)
  | EAddArray xs => unit_ (ElasModel.add_array s xs)
  | EAddAll xs => d <- other xs ;; unit_ (ElasModel.add_all false s d)
  | EAddSelf => unit_ (ElasModel.add_all true s s)
  | EAddLimit xs => num_ (add_array_to_limit s xs)
  | EAddAllLimit xs => d <- other xs ;; num_ (add_all_to_limit false s d)
  | EPushFront x => unit_ (ElasModel.push_front s x)
  | EPushFrontTry x => bool_ (push_front_try s x)
  | EInsertAt i x => unit_ (ElasModel.insert_at s i x)
  | EInsertTry i x => bool_ (insert_at_try s i x)
  | ESetAt i x => unit_ (ElasModel.set_at s i x)
  | ESet i x => unit_ (ElasModel.set s i x)
  | EGet i => keep s (x <- ElasModel.get_at s i ;; Ok (VItem (Some x)))
  | ESwap i j => unit_ (ElasModel.swap s i j)
  | EReverse => unit_ (reverse s)
  | EFirst => keep s (v <- ElasModel.first s ;; Ok (VItem v))
  | ELast => keep s (v <- ElasModel.last s ;; Ok (VItem v))
  | ERemoveLast => bool_ (ElasModel.remove_last s)
  | ERemoveFirst => bool_ (ElasModel.remove_first s)
  | ELen => Ok (VNum (size s), s)
  | EToArray => keep s (l <- to_array s ;; Ok (VArray l))
  | ERemoveIf p => num_ (remove_if fuel p s)
  | ERetainIf p => num_ (retain_if fuel p s)
  | ECompact => num_ (compact null s)
  | ECompactCount => keep s (n <- compact_count null s ;; Ok (VNum n))
  | EIndexOf x => keep s (i <- index_of eqb s x ;; Ok (VIndex i))
  | ERIndexOf x => keep s (i <- rindex_of eqb s x ;; Ok (VIndex i))
  | EContains x => keep s (b <- contains eqb s x ;; Ok (VBool b))
  | EEquals xs => d <- other xs ;; keep s (b <- equals eqb s d ;; Ok (VBool b))
  | ERemoveItem x => num_ (remove_item eqb s x)
  | ERemoveFirstItem x => bool_ (ElasModel.remove_first_item eqb s x)
  | ERemoveLastItem x => bool_ (ElasModel.remove_last_item eqb s x)
  | ERemoveAllFrom xs => d <- other xs ;; unit_ (remove_all_from eqb s d)
  end.
Fixpoint e_run (fuel : nat) (s : lst A) (os : list eop) : Res (list (lout A) * lst A) :=
  match os with
  | [] => Ok ([], s)
  | o :: t => '(v, s) <- e_step fuel s o ;; '(vs, s) <- e_run fuel s t ;; Ok (v :: vs, s)
  end.
End Spec.
Arguments eop A : clear implicits.
