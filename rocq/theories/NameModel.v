(** How a name in the source finds its declaration: src/compiler/sema_name_resolution.c, with the tables filled by src/compiler/context.c,
    decltable.c and sema_passes.c.
    Interned strings are compared as texts; a text is the list of its bytes.  A module is known by its name, because names of modules are unique
    (compiler.c:1553-1577).  Not modelled: the texts of error messages, `@if`, declarations that are poisoned by other errors,
    compile time variables, methods and members. *)
From Coq Require Import String Ascii ZArith List Bool.
Import ListNotations.
Open Scope Z_scope.

Definition text := list Z.
Definition lit (s : string) : text := map (fun c => Z.of_nat (nat_of_ascii c)) (list_ascii_of_string s).
Fixpoint text_eqb (a b : text) : bool := match a, b with [], [] => true | x :: a', y :: b' => (x =? y) && text_eqb a' b' | _, _ => false end.

(** sema_name_resolution.c:13-31: [matches_subpath]. *)
Definition matches_subpath (path_to_check path_to_find : text) : bool :=
  if text_eqb path_to_find path_to_check then true else
  if Z.of_nat (length path_to_check) - Z.of_nat (length path_to_find) <? 3 then false else
  let start := (length path_to_check - length path_to_find)%nat in
  if negb (nth (start - 1) path_to_check 0 =? 58) || negb (nth (start - 2) path_to_check 0 =? 58) then false else
  text_eqb (skipn start path_to_check) path_to_find.

(** sema_passes.c:7-18: [parent_path]; [i] counts down from the end, [None] is a length of 0. *)
Fixpoint last_colon (s : text) (i : nat) : option nat :=
  match i with
  | O => None
  | S k => if nth k s 0 =? 58 then Some k else last_colon s k
  end.
(** sema_passes.c:27-59: [sema_analyse_pass_module_hierarchy]: the parent of a module is the module with that name, made if there is none. *)
Definition parent (s : text) : option text :=
  match last_colon s (length s) with
  | Some i => if (i - 1 =? 0)%nat then None else Some (firstn (i - 1) s)
  | None => None
  end.
(** sema_passes.c:20-25: [sema_analyse_pass_top]; the fuel never runs out, a parent is shorter. *)
Fixpoint top_module (fuel : nat) (s : text) : text :=
  match fuel with O => s | S k => match parent s with Some p => top_module k p | None => s end end.
(** sema_name_resolution.c:228: the loop; [None] is the use of a null pointer. *)
Fixpoint climb (fuel : nat) (a : text) (n : nat) : option text :=
  if (n <? length a)%nat then
    match fuel with O => None | S k => match parent a with Some p => climb k p n | None => None end end
  else Some a.

(** compiler_internal.h:1510-1536: [Module]: its name, whether it is generic, and the generic module it is an instance of; a generic module is
    never an instance itself, so the loops of lines 217-218 take at most one step. *)
Record modu := Mod { m_name : text; m_generic : bool; m_instance_of : option text }.
Definition base (m : modu) : text := match m_instance_of m with Some g => g | None => m_name m end.
(** sema_name_resolution.c:214-230: [module_inclusion_match]. *)
Definition module_inclusion_match (a b : modu) : option bool :=
  let a := base a in let b := base b in
  if negb (text_eqb (top_module (length a) a) (top_module (length b) b)) then Some false else
  let '(a, b) := if (length a <? length b)%nat then (b, a) else (a, b) in
  match climb (length a) a (length b) with Some c => Some (text_eqb c b) | None => None end.

Inductive visibility := Public | Private | Local.
Definition is_public (v : visibility) : bool := match v with Public => true | _ => false end.
Definition is_local (v : visibility) : bool := match v with Local => true | _ => false end.
(** compiler_internal.h:586-672: [Decl]: [d_id] stands for its address, [d_unit] for the file, [d_type] for its type.
    [d_weak] is what a `@weak` alias of a type stands for: a type, or the declaration of a further alias. *)
Inductive decl := Decl (d_id : Z) (d_name : text) (d_mod : modu) (d_unit : Z) (d_vis : visibility) (d_auto : bool) (d_type : Z) (d_weak : option target)
with target := ToType (t : Z) | ToDecl (d : decl).
Definition d_id (d : decl) : Z := let (i, _, _, _, _, _, _, _) := d in i.
Definition d_name (d : decl) : text := let (_, n, _, _, _, _, _, _) := d in n.
Definition d_mod (d : decl) : modu := let (_, _, m, _, _, _, _, _) := d in m.
Definition d_unit (d : decl) : Z := let (_, _, _, u, _, _, _, _) := d in u.
Definition d_vis (d : decl) : visibility := let (_, _, _, _, v, _, _, _) := d in v.
Definition d_auto (d : decl) : bool := let (_, _, _, _, _, a, _, _) := d in a.
Definition d_type (d : decl) : Z := let (_, _, _, _, _, _, t, _) := d in t.
Definition d_weak (d : decl) : option target := let (_, _, _, _, _, _, _, w) := d in w.

(** compiler_internal.h:359-365: [ImportDecl]. *)
Record import := Import { i_mod : modu; i_private : bool; i_norecurse : bool }.
(** A name of the function scope, innermost first: a declaration, one that hides the name again (VARDECL_ERASE), or an alias (VARDECL_REWRAPPED). *)
Inductive local := Var (d : decl) | Erased (name : text) | Rewrapped (name : text) (d : decl).
(** Where a name is looked up: the file, its module, its imports, the names of the function, and all declarations in the order they were registered. *)
Record world := World { w_unit : Z; w_mod : modu; w_imports : list import; w_locals : list local; w_decls : list decl }.

(** sema_name_resolution.c:472-498: [sema_find_local]. *)
Fixpoint find_local (l : list local) (s : text) : option decl :=
  match l with
  | [] => None
  | Var d :: r => if text_eqb (d_name d) s then Some d else find_local r s
  | Erased n :: r => if text_eqb n s then None else find_local r s
  | Rewrapped n d :: r => if text_eqb n s then Some d else find_local r s
  end.
(** context.c:287: every declaration of a file is in its [local_symbols]. *)
Definition find_in_unit (w : world) (s : text) : option decl :=
  find (fun d => (d_unit d =? w_unit w) && text_eqb (d_name d) s) (w_decls w).
(** context.c:288-291 and semantic_analyser.c:259: [symbols] of a module; module.c:7-10: [module_find_symbol]. *)
Definition find_in_module (w : world) (m : modu) (s : text) : option decl :=
  find (fun d => negb (is_local (d_vis d)) && text_eqb (m_name (d_mod d)) (m_name m) && text_eqb (d_name d) s) (w_decls w).
(** context.c:152-187 and decltable.c: the global table has the declarations of modules that are not generic, in order. *)
Definition global_list (w : world) (s : text) : list decl :=
  filter (fun d => negb (is_local (d_vis d)) && negb (m_generic (d_mod d)) && text_eqb (d_name d) s) (w_decls w).

(** sema_name_resolution.c:130-137: [sema_find_decl_in_module]. *)
Definition find_decl_in_module (w : world) (m : modu) (path : option text) (s : text) : option decl :=
  match path with
  | None => find_in_module w m s
  | Some p => if (length (m_name m) <? length p)%nat then None else if negb (matches_subpath (m_name m) p) then None else find_in_module w m s
  end.
(** sema_name_resolution.c:232-266: [decl_is_visible]; [None] is the use of a null pointer. *)
Fixpoint under_core (fuel : nat) (s : text) : bool :=
  if text_eqb s (lit "std::core") then true else match fuel with O => false | S k => match parent s with Some p => under_core k p | None => false end end.
Fixpoint import_check (public : bool) (m : modu) (imports : list import) : option bool :=
  match imports with
  | [] => Some false
  | i :: r =>
      if negb public && negb (i_private i) then import_check public m r else
      if text_eqb (m_name (i_mod i)) (m_name m) then Some true else
      if i_norecurse i then import_check public m r else
      match module_inclusion_match (i_mod i) m with
      | Some true => Some true
      | Some false => import_check public m r
      | None => None
      end
  end.
Definition decl_is_visible (w : world) (d : decl) : option bool :=
  let m := d_mod d in
  if text_eqb (m_name m) (m_name (w_mod w)) then Some true else
  match m_instance_of m with
  | Some _ => Some false
  | None =>
      let public := is_public (d_vis d) in
      if negb public then import_check public m (w_imports w) else
      match module_inclusion_match m (w_mod w) with
      | None => None
      | Some true => Some true
      | Some false => if under_core (length (m_name m)) (m_name m) then Some true else import_check public m (w_imports w)
      end
  end.

(** sema_name_resolution.c:268-281: [sema_fold_weak]. *)
Fixpoint fold_weak (d : decl) : Z :=
  match d with Decl _ _ _ _ _ _ t w => match w with None => t | Some (ToType t') => t' | Some (ToDecl d') => fold_weak d' end end.
Definition is_weak (d : decl) : bool := match d_weak d with Some _ => true | None => false end.
Definition is_instance (m : modu) : bool := match m_instance_of m with Some _ => true | None => false end.
(** sema_name_resolution.c:294-319: [sema_first_is_preferred]. *)
Definition first_is_preferred (d d2 : decl) : bool :=
  if (d_auto d && negb (d_auto d2)) || (is_instance (d_mod d2) && negb (is_instance (d_mod d))) then true else
  if negb (is_weak d2) then false else
  if fold_weak d2 =? d_type d then true else
  if negb (is_weak d) then false else
  fold_weak d =? fold_weak d2.
(** sema_name_resolution.c:321-355: [sema_resolve_ambiguity], on the declaration so far and the one it clashes with. *)
Definition resolve_ambiguity (s : option decl * option decl) (candidate : decl) : option decl * option decl :=
  match s with
  | (None, a) => (Some candidate, a)
  | (Some original, a) =>
      if first_is_preferred candidate original then (Some candidate, None) else
      match a with
      | Some _ => s
      | None => if first_is_preferred original candidate then s else (Some original, Some candidate)
      end
  end.

(** sema_name_resolution.c:139-188: [sema_find_decl_in_imports] for names of modules that are not generic. *)
Definition import_step (w : world) (path : option text) (name : text) (s : option decl * option decl) (i : import) : option decl * option decl :=
  if m_generic (i_mod i) then s else
  let '(d, a) := s in
  match path, d with
  | None, Some _ => s
  | _, _ =>
      if match path with None => negb (i_private i) | Some _ => false end then s else
      match find_decl_in_module w (i_mod i) path name with
      | None => s
      | Some found =>
          if negb (is_public (d_vis found)) && match d with Some _ => true | None => negb (i_private i) end then s else
          match d with
          | Some _ => (d, Some found)
          | None => (Some found, a)
          end
      end
  end.
Definition find_in_imports (w : world) (path : option text) (name : text) : option decl * option decl :=
  fold_left (import_step w path name) (w_imports w) (None, None).

(** The answer: a declaration, a clash of two, none, or the use of a null pointer. *)
Inductive answer := Found (d : decl) | Clash (d d2 : decl) | NotFound | Crash.
Definition answer_of (s : option decl * option decl) : answer :=
  match s with (None, _) => NotFound | (Some d, None) => Found d | (Some d, Some d2) => Clash d d2 end.
Definition on_path (path : option text) (d : decl) : bool := match path with None => true | Some p => matches_subpath (m_name (d_mod d)) p end.
(** sema_name_resolution.c:357-423: [sema_find_decl_in_global]; lines 397-409. *)
Fixpoint global_loop (w : world) (path : option text) (l : list decl) (s : option decl * option decl) : answer :=
  match l with
  | [] => answer_of s
  | d :: r =>
      if negb (on_path path d) then global_loop w path r s else
      match decl_is_visible w d with
      | None => Crash
      | Some false => global_loop w path r s
      | Some true => global_loop w path r (resolve_ambiguity s d)
      end
  end.
Definition find_in_global (w : world) (path : option text) (name : text) : answer :=
  match global_list w name with
  | [] => NotFound
  | [d] => if negb (on_path path d) then NotFound else
           match decl_is_visible w d with None => Crash | Some true => Found d | Some false => NotFound end
  | l => global_loop w path l (None, None)
  end.
(** The imports, then everything: the end of [sema_resolve_path_symbol] and of [sema_resolve_no_path_symbol]. *)
Definition imports_then_global (w : world) (path : option text) (name : text) : answer :=
  match find_in_imports w path name with
  | (None, _) => find_in_global w path name
  | s => answer_of s
  end.
(** sema_name_resolution.c:425-460: [sema_resolve_path_symbol]; the module for the path `std` is an empty one (semantic_analyser.c:447-453). *)
Definition resolve_path_symbol (w : world) (p : text) (name : text) : answer :=
  if text_eqb p (lit "std") then NotFound else
  match (if matches_subpath (m_name (w_mod w)) p then find_in_module w (w_mod w) name else None) with
  | Some d => Found d
  | None => imports_then_global w (Some p) name
  end.
(** sema_name_resolution.c:500-533: [sema_resolve_no_path_symbol]. *)
Definition resolve_no_path_symbol (w : world) (name : text) : answer :=
  match find_local (w_locals w) name with
  | Some d => Found d
  | None =>
  match find_in_unit w name with
  | Some d => Found d
  | None =>
  match find_in_module w (w_mod w) name with
  | Some d => Found d
  | None => imports_then_global w None name
  end end end.
(** sema_name_resolution.c:736-807: [sema_resolve_symbol_common]: anything but [Found] is an error. *)
Definition resolve (w : world) (path : option text) (name : text) : answer :=
  match path with Some p => resolve_path_symbol w p name | None => resolve_no_path_symbol w name end.
