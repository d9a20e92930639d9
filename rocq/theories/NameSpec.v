(** What names mean: paths are lists of words, and a declaration can be used where it is visible. *)
From Coq Require Import String ZArith List Bool Permutation.
From Verif Require Import NameModel.
Import ListNotations.
Open Scope Z_scope.

(** A path is written with two colons between its words; a word has none. *)
Definition word (s : text) : Prop := s <> [] /\ ~ In 58 s.
Definition path_ok (p : list text) : Prop := p <> [] /\ Forall word p.
Fixpoint dotted (p : list text) : text := match p with [] => [] | [x] => x | x :: r => x ++ [58; 58] ++ dotted r end.

(** One of two paths is the beginning of the other. *)
Definition related (p q : list text) : Prop := (exists r, p = q ++ r) \/ (exists r, q = p ++ r).
(** The same of modules; an instance of a generic module stands where the generic module stands. *)
Definition Related (m m' : modu) : Prop := exists p q, path_ok p /\ path_ok q /\ base m = dotted p /\ base m' = dotted q /\ related p q.

(** Who may use a declaration: its own file; unless it is @local, its own module; if it is public, the modules above and below its own, every module if it is in
    std::core, and the files that import its module, or, without @norecurse, a module above or below it; if it is private, the files that import it like this with @public. *)
Inductive Visible (w : world) (d : decl) : Prop :=
| own_file : d_unit d = w_unit w -> Visible w d
| own_module : d_vis d <> Local -> d_mod d = w_mod w -> Visible w d
| family : d_vis d = Public -> m_instance_of (d_mod d) = None -> Related (d_mod d) (w_mod w) -> Visible w d
| core r : d_vis d = Public -> m_instance_of (d_mod d) = None -> Forall word r -> m_name (d_mod d) = dotted ([lit "std"; lit "core"] ++ r) -> Visible w d
| imported i : In i (w_imports w) -> d_vis d = Public \/ d_vis d = Private /\ i_private i = true -> m_instance_of (d_mod d) = None ->
               d_mod d = i_mod i \/ i_norecurse i = false /\ Related (i_mod i) (d_mod d) -> Visible w d.

(** A written path names the modules whose path ends with it. *)
Definition Named (path : option (list text)) (m : modu) : Prop :=
  match path with None => True | Some q => exists r, Forall word r /\ m_name m = dotted (r ++ q) end.
(** What a name with or without a path can stand for, outside of functions. *)
Definition Candidate (w : world) (path : option (list text)) (name : text) (d : decl) : Prop :=
  In d (w_decls w) /\ d_name d = name /\ m_generic (d_mod d) = false /\ Visible w d /\ Named path (d_mod d).

(** The modules of a program, and what the registration of declarations and imports makes sure of: names are paths; a name has one module; two declarations of
    a file, or two of a module that are not @local, have different names (context.c:287-296); a module is imported once, and a file imports
    neither its own module nor an instance of a generic one (sema_passes.c:61-118). *)
Definition modules (w : world) : list modu := w_mod w :: map i_mod (w_imports w) ++ map d_mod (w_decls w).
Record WellFormed (w : world) : Prop := {
  wf_names m : In m (modules w) -> exists p, path_ok p /\ m_name m = dotted p;
  wf_bases m : In m (modules w) -> exists p, path_ok p /\ base m = dotted p;
  wf_modules m m' : In m (modules w) -> In m' (modules w) -> m_name m = m_name m' -> m = m';
  wf_ordinary : m_generic (w_mod w) = false;
  wf_unit d : In d (w_decls w) -> d_unit d = w_unit w -> d_mod d = w_mod w;
  wf_once : NoDup (w_decls w);
  wf_file d d' : In d (w_decls w) -> In d' (w_decls w) -> d_unit d = d_unit d' -> d_name d = d_name d' -> d = d';
  wf_module d d' : In d (w_decls w) -> In d' (w_decls w) -> d_vis d <> Local -> d_vis d' <> Local -> d_mod d = d_mod d' -> d_name d = d_name d' -> d = d';
  wf_imports : NoDup (map i_mod (w_imports w));
  wf_not_own i : In i (w_imports w) -> i_mod i <> w_mod w;
  wf_import i : In i (w_imports w) -> m_instance_of (i_mod i) = None
}.
Definition written (path : option (list text)) : option text := option_map dotted path.
Definition Path_ok (path : option (list text)) : Prop := match path with None => True | Some q => path_ok q end.
(** The names of a function: the innermost one counts; an erased name is not there. *)
Definition local_name (l : local) : text := match l with Var d => d_name d | Erased n => n | Rewrapped n _ => n end.
Inductive Scoped (name : text) : list local -> option decl -> Prop :=
| scoped_none : Scoped name [] None
| scoped_var d r : d_name d = name -> Scoped name (Var d :: r) (Some d)
| scoped_erased r : Scoped name (Erased name :: r) None
| scoped_alias d r : Scoped name (Rewrapped name d :: r) (Some d)
| scoped_outer l r o : local_name l <> name -> Scoped name r o -> Scoped name (l :: r) o.

(** Two answers with the same effect on the program. *)
Definition same_answer (a b : answer) : Prop :=
  match a, b with Found d, Found d' => d = d' | Clash _ _, Clash _ _ => True | NotFound, NotFound => True | _, _ => False end.
(** The same program with its files, declarations and imports in another order. *)
Definition shuffled (w w' : world) : Prop :=
  w_unit w = w_unit w' /\ w_mod w = w_mod w' /\ w_locals w = w_locals w' /\ Permutation (w_imports w) (w_imports w') /\ Permutation (w_decls w) (w_decls w').
