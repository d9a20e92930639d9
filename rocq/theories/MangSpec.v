(** What it takes for made-up names to be told apart. *)
From Coq Require Import String ZArith List Bool.
From Verif Require Import JsonWModel JsonSpec MangModel.
Import ListNotations.
Open Scope Z_scope.

(** The keywords that name a type. *)
Definition keyword_types : list text :=
  map lit ["void"; "bool"; "ichar"; "char"; "short"; "ushort"; "int"; "uint"; "long"; "ulong"; "int128"; "uint128";
           "float16"; "bfloat"; "float"; "double"; "float128"; "fault"; "typeid"]%string.
(** Names are made of letters, digits and underscores. *)
Definition word_char (c : Z) : Prop := 48 <= c <= 57 \/ 65 <= c <= 90 \/ 97 <= c <= 122 \/ c = 95.
Definition name (s : text) : Prop := s <> [] /\ Forall word_char s.
(** After underscores, a part of a module path starts with a lower case letter and the name of a type with an upper case letter. *)
Fixpoint first_letter (s : text) : option Z := match s with [] => None | c :: r => if c =? 95 then first_letter r else Some c end.
Definition module_name (s : text) : Prop := name s /\ (exists c, first_letter s = Some c /\ 97 <= c <= 122) /\ ~ In s (lit "any" :: keyword_types).
Definition type_name (s : text) : Prop := name s /\ exists c, first_letter s = Some c /\ 65 <= c <= 90.
Definition module_path (p : list text) : Prop := p <> [] /\ Forall module_name p.

(** The parameters of a generic module, and the type its constants have. *)
Inductive param := PType | PBool | PInt (t : ty) | PEnum (t : ty).
(** The generic modules of a program. *)
Definition program := list (list text * list param).

(** The built-in String. *)
Definition String_type : ty := User (Plain [lit "std"; lit "core"] None) (lit "String") (Some (lit "String")) false false.

(** Types made of the built-in types and declared types by pointers, slices, arrays and vectors; declared types are not exported or extern.
    Function types are left out: their names say too little (see the refutation). *)
Inductive good_ty (P : program) : ty -> Prop :=
| good_prim n : In n keyword_types -> good_ty P (Prim n)
| good_any : good_ty P Any
| good_string : good_ty P String_type
| good_ptr t : good_ty P t -> good_ty P (Ptr t)
| good_slice t : good_ty P t -> good_ty P (Slice t)
| good_flex t : good_ty P t -> good_ty P (Flex t)
| good_vec n t : 1 <= n -> good_ty P t -> good_ty P (Vec n t)
| good_arr n t : 1 <= n -> good_ty P t -> good_ty P (Arr n t)
| good_user m n : good_mod P m -> type_name n -> good_ty P (User m n None false false)
with good_mod (P : program) : modu -> Prop :=
| good_plain p : module_path p -> good_mod P (Plain p None)
| good_inst p ks args : In (p, ks) P -> good_args P ks args -> good_mod P (Inst p None args)
with good_args (P : program) : list param -> list arg -> Prop :=
| good_nil : good_args P [] []
| good_cons k ks a args : good_arg P k a -> good_args P ks args -> good_args P (k :: ks) (a :: args)
with good_arg (P : program) : param -> arg -> Prop :=
| good_type t : good_ty P t -> good_arg P PType (AType t)
| good_bool b : good_arg P PBool (ABool b)
| good_int t v : good_arg P (PInt t) (AInt t v)
| good_enum t n : good_ty P t -> name n -> good_arg P (PEnum t) (AEnum t n).

(** A path with its parts run together. *)
Definition joined (p : list text) : text := sep (lit "_") p.
(** The words that stand for a way to make types in mangled names, and the names of types. *)
Definition reserved (w : text) : Prop :=
  w = lit "p" \/ w = lit "sa" \/ w = lit "any" \/ w = lit "String" \/ In w keyword_types \/
  exists ds, ds <> [] /\ Forall digit ds /\ (w = lit "a" ++ ds \/ w = lit "v" ++ ds).
(** No two generic modules have the same joined path, and none is a reserved word. *)
Definition clean (P : program) : Prop :=
  (forall g, In g P -> module_path (fst g) /\ snd g <> [] /\ ~ reserved (joined (fst g))) /\
  (forall g h, In g P -> In h P -> joined (fst g) = joined (fst h) -> g = h).
Definition good_request (P : program) (r : request) : Prop :=
  r_ext r = None /\ exists ks, In (r_path r, ks) P /\ good_args P ks (r_args r).

(** A declaration that is not exported or extern: of a function, a variable or a method of a built-in or declared type. *)
Definition good_decl (P : program) (d : sdecl) : Prop :=
  s_ext d = None /\ s_extern d = false /\ s_export d = false /\ good_mod P (s_mod d) /\ name (s_name d) /\
  match s_parent d with
  | None => True
  | Some (Prim n) => In n keyword_types
  | Some Any => True
  | Some (User m n e x y) => good_mod P m /\ type_name n
  | Some _ => False
  end.
(** The same thing is declared: the same name, in the same module or as a method of the same type; which module a method of a declared
    type is written in does not matter. *)
Definition declared_type (p : option ty) : option (modu * text) := match p with Some (User m n _ _ _) => Some (m, n) | _ => None end.
Definition same_declared (d e : sdecl) : Prop :=
  s_name d = s_name e /\ declared_type (s_parent d) = declared_type (s_parent e) /\
  (declared_type (s_parent d) = None -> s_parent d = s_parent e /\ s_mod d = s_mod e).

(** Some request of a history is answered with an instance that was made from something else. *)
Definition mixed_up (rs : list request) : Prop :=
  exists k r r' l is i, instantiate_all [] rs = (l, is) /\ nth_error rs k = Some r /\ nth_error is k = Some i /\ made_from l i = Some r' /\ r <> r'.
