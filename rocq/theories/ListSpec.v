(** What a list is: a sequence of elements.  Every operation as a function on sequences; [None] is a broken contract. *)
From Coq Require Import ZArith Bool List.
From Verif Require Import Mach ListModel.
Import ListNotations.
Open Scope Z_scope.

Section Spec.
Context {A : Type}.
Variable eqb : A -> A -> bool.
Variable null : A -> bool.

Inductive lop :=
| LPush (x : A) | LPop | LClear | LPopFirst | LRemoveAt (i : Z) | LAddArray (xs : list A) | LAddAll (xs : list A)
| LPushFront (x : A) | LInsertAt (i : Z) (x : A) | LSet (i : Z) (x : A) | LGet (i : Z) | LSwap (i j : Z) | LReverse
| LFirst | LLast | LRemoveLast | LRemoveFirst | LLen | LToArray | LFree | LReserve (n : Z)
| LRemoveIf (p : A -> bool) | LRetainIf (p : A -> bool) | LCompact | LCompactCount
| LIndexOf (x : A) | LRIndexOf (x : A) | LContains (x : A) | LEquals (xs : list A)
| LRemoveItem (x : A) | LRemoveFirstItem (x : A) | LRemoveLastItem (x : A) | LRemoveAllFrom (xs : list A).

Inductive lout := VUnit | VItem (x : option A) | VNum (n : Z) | VIndex (n : option Z) | VBool (b : bool) | VArray (l : list A).

Definition at_ (l : list A) (i : Z) : option A := if i <? 0 then None else nth_error l (Z.to_nat i).
Definition before (l : list A) (i : Z) : list A := firstn (Z.to_nat i) l.
Definition after (l : list A) (i : Z) : list A := skipn (Z.to_nat i) l.
Definition without (l : list A) (i : Z) : list A := before l i ++ after l (i + 1).
Definition put_at (l : list A) (i : Z) (x : A) : list A := before l i ++ x :: after l (i + 1).
Definition inside (l : list A) (i : Z) : bool := (0 <=? i) && (i <? zlen l).
(** The first position of an element satisfying [p]. *)
Fixpoint find_first (p : A -> bool) (l : list A) : option Z :=
  match l with [] => None | x :: t => if p x then Some 0 else option_map Z.succ (find_first p t) end.
(** The last one: the first of the reversed sequence, counted from the end. *)
Definition find_last (p : A -> bool) (l : list A) : option Z := option_map (fun i => zlen l - 1 - i) (find_first p (rev l)).
Definition matches (v x : A) : bool := eqb x v.
Definition others (p : A -> bool) (l : list A) : list A := filter (fun x => negb (p x)) l.
Definition removed_at (l : list A) (o : option Z) : list A := match o with Some i => without l i | None => l end.
Definition found (o : option Z) : bool := match o with Some _ => true | None => false end.
Fixpoint same (l m : list A) : bool :=
  match l, m with [], [] => true | x :: l, y :: m => eqb x y && same l m | _, _ => false end.

Definition ideal (o : lop) (l : list A) : option (lout * list A) :=
  match o with
  | LPush x => Some (VUnit, l ++ [x])
  | LPop => Some (VItem (hd_error (rev l)), removelast l)
  | LClear => Some (VUnit, [])
  | LPopFirst => Some (VItem (hd_error l), tl l)
  | LRemoveAt i => if inside l i then Some (VUnit, without l i) else None
  | LAddArray xs | LAddAll xs => Some (VUnit, l ++ xs)
  | LPushFront x => Some (VUnit, x :: l)
  | LInsertAt i x => if (0 <=? i) && (i <=? zlen l) then Some (VUnit, before l i ++ x :: after l i) else None
  | LSet i x => if inside l i then Some (VUnit, put_at l i x) else None
  | LGet i => if inside l i then Some (VItem (at_ l i), l) else None
  | LSwap i j => match at_ l i, at_ l j with Some x, Some y => Some (VUnit, put_at (put_at l i y) j x) | _, _ => None end
  | LReverse => Some (VUnit, rev l)
  | LFirst => Some (VItem (hd_error l), l)
  | LLast => Some (VItem (hd_error (rev l)), l)
  | LRemoveLast => Some (VBool (0 <? zlen l), removelast l)
  | LRemoveFirst => Some (VBool (0 <? zlen l), tl l)
  | LLen => Some (VNum (zlen l), l)
  | LToArray => Some (VArray l, l)
  | LFree => Some (VUnit, [])
  | LReserve n => if 0 <=? n then Some (VUnit, l) else None
  | LRemoveIf p => Some (VNum (zlen l - zlen (others p l)), others p l)
  | LRetainIf p => Some (VNum (zlen l - zlen (filter p l)), filter p l)
  | LCompact => Some (VNum (zlen l - zlen (others null l)), others null l)
  | LCompactCount => Some (VNum (zlen (others null l)), l)
  | LIndexOf x => Some (VIndex (find_first (matches x) l), l)
  | LRIndexOf x => Some (VIndex (find_last (matches x) l), l)
  | LContains x => Some (VBool (existsb (matches x) l), l)
  | LEquals xs => Some (VBool (same l xs), l)
  | LRemoveItem x => Some (VNum (zlen l - zlen (others (matches x) l)), others (matches x) l)
  | LRemoveFirstItem x => Some (VBool (existsb (matches x) l), removed_at l (find_first (matches x) l))
  | LRemoveLastItem x => Some (VBool (existsb (matches x) l), removed_at l (find_last (matches x) l))
  | LRemoveAllFrom xs => Some (VUnit, others (fun y => existsb (fun x => eqb y x) xs) l)
  end.
Fixpoint ideal_run (l : list A) (os : list lop) : option (list lout * list A) :=
  match os with
  | [] => Some ([], l)
  | o :: t => match ideal o l with
              | None => None
              | Some (v, l) => match ideal_run l t with None => None | Some (vs, l) => Some (v :: vs, l) end
              end
  end.
(** How much an operation can add, for the limit on the total size. *)
Definition adds (o : lop) : Z := match o with LAddArray xs | LAddAll xs | LEquals xs | LRemoveAllFrom xs => zlen xs | LReserve n => Z.max 0 n | _ => 1 end.
Definition grows (os : list lop) : Z := fold_right (fun o n => adds o + n) 0 os.

(** The operations of the model. *)
Definition unit_ (r : Res (lst A)) : Res (lout * lst A) := s <- r ;; Ok (VUnit, s).
Definition keep (s : lst A) (r : Res lout) : Res (lout * lst A) := v <- r ;; Ok (v, s).
Definition l_step (fuel : nat) (s : lst A) (o : lop) : Res (lout * lst A) :=
  match o with
  | LPush x => unit_ (push s x)
  | LPop => '(v, s) <- pop s ;; Ok (VItem v, s)
  | LClear => unit_ (clear s)
  | LPopFirst => '(v, s) <- pop_first s ;; Ok (VItem v, s)
  | LRemoveAt i => unit_ (remove_at s i)
  | LAddArray xs => unit_ (add_array s xs)
  | LAddAll xs => other <- init_with_array xs ;; unit_ (add_all false s other)
  | LPushFront x => unit_ (push_front s x)
  | LInsertAt i x => unit_ (insert_at s i x)
  | LSet i x => unit_ (set_at s i x)
  | LGet i => keep s (x <- get_at s i ;; Ok (VItem (Some x)))
  | LSwap i j => unit_ (swap s i j)
  | LReverse => unit_ (reverse s)
  | LFirst => keep s (v <- first s ;; Ok (VItem v))
  | LLast => keep s (v <- last s ;; Ok (VItem v))
  | LRemoveLast => '(b, s) <- remove_last s ;; Ok (VBool b, s)
  | LRemoveFirst => '(b, s) <- remove_first s ;; Ok (VBool b, s)
  | LLen => Ok (VNum (size s), s)
  | LToArray => keep s (l <- to_array s ;; Ok (VArray l))
  | LFree => Ok (VUnit, free s)
  | LReserve n => unit_ (reserve s n)
  | LRemoveIf p => '(n, s) <- remove_if fuel p s ;; Ok (VNum n, s)
  | LRetainIf p => '(n, s) <- retain_if fuel p s ;; Ok (VNum n, s)
  | LCompact => '(n, s) <- compact null s ;; Ok (VNum n, s)
  | LCompactCount => keep s (n <- compact_count null s ;; Ok (VNum n))
  | LIndexOf x => keep s (i <- index_of eqb s x ;; Ok (VIndex i))
  | LRIndexOf x => keep s (i <- rindex_of eqb s x ;; Ok (VIndex i))
  | LContains x => keep s (b <- contains eqb s x ;; Ok (VBool b))
  | LEquals xs => other <- init_with_array xs ;; keep s (b <- equals eqb s other ;; Ok (VBool b))
  | LRemoveItem x => '(n, s) <- remove_item eqb s x ;; Ok (VNum n, s)
  | LRemoveFirstItem x => '(b, s) <- remove_first_item eqb s x ;; Ok (VBool b, s)
  | LRemoveLastItem x => '(b, s) <- remove_last_item eqb s x ;; Ok (VBool b, s)
  | LRemoveAllFrom xs => other <- init_with_array xs ;; unit_ (remove_all_from eqb s other)
  end.
Fixpoint l_run (fuel : nat) (s : lst A) (os : list lop) : Res (list lout * lst A) :=
  match os with
  | [] => Ok ([], s)
  | o :: t => '(v, s) <- l_step fuel s o ;; '(vs, s) <- l_run fuel s t ;; Ok (v :: vs, s)
  end.
End Spec.
Arguments lop A : clear implicits.
Arguments lout A : clear implicits.
