(** The JSON writer and the changes made to project files with it (src/utils/json.c, src/build/project_manipulation.c). *)
From Coq Require Import ZArith QArith List Bool.
From Verif Require Import JsonModel.
Import ListNotations.
Open Scope Z_scope.

(** The decimal digits of n. *)
Fixpoint dig (k : nat) (n : Z) : list Z :=
  match k with O => [] | S k' => if n <? 10 then [48 + n] else dig k' (n / 10) ++ [48 + n mod 10] end.
Definition decimal_of (n : Z) : list Z := dig (S (Z.to_nat (Z.log2 n))) n.
(** Exactly k digits, with leading zeros. *)
Fixpoint padded (k : nat) (n : Z) : list Z := match k with O => [] | S k' => padded k' (n / 10) ++ [48 + n mod 10] end.
(** q * 10^6 to the nearest integer, ties to even. *)
Definition micro (q : Q) : Z :=
  let a := Z.abs (Qnum q) * 1000000 in let d := Z.pos (Qden q) in
  let f := a / d in let r := a mod d in
  if 2 * r <? d then f else if 2 * r =? d then (if Z.even f then f else f + 1) else f + 1.
(** printf "%f" (json.c:450): six digits after the point. *)
Definition fmtf (q : Q) : list Z :=
  let m := micro q in (if Qnum q <? 0 then [45] else []) ++ decimal_of (m / 1000000) ++ [46] ++ padded 6 (m mod 1000000).

(** fputs, print_indent (json.c:425-431). *)
Definition indent (n : nat) : list Z := concat (repeat [32; 32] n).
Definition is_object (v : json) : bool := match v with JObj _ => true | _ => false end.
Definition is_null (v : json) : bool := match v with JNull => true | _ => false end.
(** The loop that decides the layout (json.c:459-467) looks at the type of each element up to the first object: a null before it is a NULL dereference. *)
Fixpoint layout (l : list json) : option bool :=
  match l with [] => Some false | v :: r => if is_null v then None else if is_object v then Some true else layout r end.
(** Texts one after the other with a separator between them. *)
Fixpoint sep (s : list Z) (l : list (list Z)) : list Z := match l with [] => [] | [x] => x | x :: r => x ++ s ++ sep s r end.
Fixpoint all_some {A} (l : list (option A)) : option (list A) :=
  match l with [] => Some [] | o :: r => match o, all_some r with Some x, Some xs => Some (x :: xs) | _, _ => None end end.

(** print_json (json.c:433-508). [None] when a NULL pointer is dereferenced. A null prints nothing. *)
Fixpoint print (n : nat) (v : json) : option (list Z) :=
  match v with
  | JNull => Some []
  | JBool b => Some (if b then [116; 114; 117; 101] else [102; 97; 108; 115; 101])
  | JStr s => Some ([34] ++ s ++ [34])
  | JNum q => Some (fmtf q)
  | JArr [] => Some [32; 91; 32; 32; 93]
  | JArr l =>
      match layout l with
      | None => None
      | Some per_line =>
          if negb per_line && Nat.ltb (length l) 5
          then match all_some (map (print n) l) with Some ts => Some ([32; 91; 32] ++ sep [44; 32] ts ++ [32; 93]) | None => None end
          else match all_some (map (print (S n)) l) with Some ts => Some ([32; 91; 32; 10] ++ sep [44; 10] (map (fun t => indent (S n) ++ t) ts) ++ [10; 32; 93]) | None => None end
      end
  | JObj l =>
      match all_some (map (fun m => print (S n) (snd m)) l) with
      | Some ts => Some ([123; 10] ++ sep [44; 10] (map (fun p => indent (S n) ++ [34] ++ fst p ++ [34; 58; 32] ++ snd p) (combine (map fst l) ts)) ++ [10] ++ indent n ++ [125])
      | None => None
      end
  end.
(** print_json_to_file (json.c:510-513). *)
Definition save (v : json) : option (list Z) := print 0 v.

Fixpoint eqb_str (a b : list Z) : bool := match a, b with [], [] => true | x :: a', y :: b' => (x =? y) && eqb_str a' b' | _, _ => false end.
(** json_map_get (json.c:346-354). Members that are null and missing members are both NULL. *)
Fixpoint map_get (l : list (list Z * json)) (k : list Z) : json := match l with [] => JNull | (k', v) :: r => if eqb_str k' k then v else map_get r k end.
(** json_map_set (json.c:333-344): replaces every member of that name, and also adds one at the end. *)
Definition map_set (l : list (list Z * json)) (k : list Z) (v : json) : list (list Z * json) :=
  map (fun m => if eqb_str (fst m) k then (fst m, v) else m) l ++ [(k, v)].

(** Changing through its pointer the object found by json_map_get: the first member of that name. *)
Fixpoint set_first (l : list (list Z * json)) (k : list Z) (v : json) : list (list Z * json) :=
  match l with [] => [] | (k', v') :: r => if eqb_str k' k then (k', v) :: r else (k', v') :: set_first r k v end.
Definition key_targets : list Z := [116; 97; 114; 103; 101; 116; 115].
Definition key_type : list Z := [116; 121; 112; 101].
Definition key_sources : list Z := [115; 111; 117; 114; 99; 101; 115].
Definition key_dependencies : list Z := [100; 101; 112; 101; 110; 100; 101; 110; 99; 105; 101; 115].
(** add_target_project (project_manipulation.c:388-423) on the members of the project file, up to the writing. [None] when an error is reported, or when "targets" is
    not an object (an assertion). *)
Definition add_target (l : list (list Z * json)) (name ty : list Z) (sources : list (list Z)) : option (list (list Z * json)) :=
  let target := JObj (map_set (map_set [] key_type (JStr ty)) key_sources (JArr (map JStr sources))) in
  match map_get l key_targets with
  | JNull => Some (map_set l key_targets (JObj (map_set [] name target)))
  | JObj t => match map_get t name with JNull => Some (set_first l key_targets (JObj (map_set t name target))) | _ => None end
  | _ => None
  end.
(** The strings of an array; [None] when an element is not a string. *)
Fixpoint strings (l : list json) : option (list (list Z)) :=
  match l with [] => Some [] | JStr s :: r => match strings r with Some x => Some (s :: x) | None => None end | _ => None end.
(** add_libraries_to_project_file (project_manipulation.c:349-386). [None] when there are no dependencies (a NULL dereference), or when they are not an array of strings. *)
Fixpoint add_new (have libs : list (list Z)) : list (list Z) :=
  match libs with [] => have | x :: r => if existsb (fun y => eqb_str y x) have then add_new have r else add_new (have ++ [x]) r end.
Definition add_libraries (l : list (list Z * json)) (libs : list (list Z)) : option (list (list Z * json)) :=
  match map_get l key_dependencies with
  | JArr d => match strings d with Some have => Some (set_first l key_dependencies (JArr (map JStr (add_new have libs)))) | None => None end
  | _ => None
  end.
