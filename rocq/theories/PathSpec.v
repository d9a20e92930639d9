(** What paths mean: a path is cut into elements at the separators; reading them from a directory on leads to a place. *)
From Coq Require Import ZArith List Bool.
From Verif Require Import StrSpec.
Import ListNotations.
Open Scope Z_scope.

(** The elements of a text. *)
Fixpoint elements (sep : Z -> bool) (s : list Z) : list (list Z) :=
  match s with
  | [] => [[]]
  | c :: r => if sep c then [] :: elements sep r else match elements sep r with e :: es => (c :: e) :: es | [] => [[c]] end
  end.
Definition dot : list Z := [46].
Definition dotdot : list Z := [46; 46].
Definition same (a b : list Z) : bool := if list_eq_dec Z.eq_dec a b then true else false.
(** A place: so many directories up, then down along the names.  One step: an empty element or a dot stays, two dots go up (from the root
    nowhere), every other element is a name. *)
Record place := Place { ups : nat; names : list (list Z) }.
Definition walk (rooted : bool) (p : place) (e : list Z) : place :=
  if same e [] || same e dot then p
  else if same e dotdot then
    match names p with
    | [] => Place (if rooted then ups p else S (ups p)) []
    | _ => Place (ups p) (removelast (names p))
    end
  else Place (ups p) (names p ++ [e]).
Definition here : place := Place 0 [].
Definition reach (rooted : bool) (es : list (list Z)) : place := fold_left (walk rooted) es here.
(** Two dots at the root. *)
Fixpoint climbs (p : place) (es : list (list Z)) : bool :=
  match es with [] => false | e :: r => (same e dotdot && match names p with [] => true | _ => false end) || climbs (walk true p e) r end.
(** The shortest text for a place. *)
Definition shown (sp : Z) (p : place) : list Z := glue [sp] (repeat dotdot (ups p) ++ names p).

(** POSIX: is the path rooted, and the part behind the root. *)
Definition slash (c : Z) : bool := c =? 47.
Definition rooted (p : list Z) : bool := match p with c :: _ => slash c | [] => false end.
Definition body (p : list Z) : list Z := if rooted p then tl p else p.
Definition place_of (p : list Z) : place := reach (rooted p) (elements slash (body p)).
(** The shortest text of a path. *)
Definition canonical (p : list Z) : list Z :=
  if rooted p then 47 :: shown 47 (place_of p) else match shown 47 (place_of p) with [] => dot | t => t end.
(** Two bytes, the first a dot, the second not: the names that normalize takes for two dots. *)
Definition looks_like_dotdot (e : list Z) : Prop := exists x, e = [46; x] /\ x <> 46.
