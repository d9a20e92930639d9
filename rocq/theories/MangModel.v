(** Names the compiler makes up: the mangled names of types, the names of instances of generic modules and the names of linker symbols
    (src/compiler/types.c, src/compiler/module.c, src/compiler/ast.c, src/compiler/sema_decls.c). *)
From Coq Require Import String Ascii ZArith List Bool.
From Verif Require Import JsonWModel.
Import ListNotations.
Open Scope Z_scope.

(** A text is the list of its bytes. *)
Definition text := list Z.
Definition lit (s : string) : text := map (fun c => Z.of_nat (nat_of_ascii c)) (list_ascii_of_string s).

(** The canonical types (compiler_internal.h, Type).  A canonical type is what it is built from: types.c:747-960 caches pointers, slices and arrays
    on their element type, and a declared type is its declaration, which is found by its module and its name.
    - [Prim]: void, bool, the integers and floats, fault, typeid;
    - [Fun]: a pointer to a function (TYPE_FUNC_PTR); the two share the mangled name of the function type (types.c:597-599);
    - [User]: a declared type, with the name given by @extern or @export, whether it is extern, and whether it is exported; the built-in
      String is such a type, declared in std::core with its bare name given (types.c:1391-1394, compiler.c:1410-1417).
    Types of generic arguments and methods are never inferred arrays, untyped lists or other compile time types (sema_decls.c:4697-4713). *)
Inductive ty :=
| Prim (name : text)
| Any
| Ptr (t : ty)
| Slice (t : ty)
| Flex (t : ty)
| Opt (t : ty)
| Vec (n : Z) (t : ty)
| Arr (n : Z) (t : ty)
| Fun (ret : ty) (params : list ty) (raw_variadic : bool)
| User (m : modu) (name : text) (extname : option text) (extern export : bool)
(** A module: written in the source under a path, perhaps with @extern("..."), or made from a generic module with arguments. *)
with modu :=
| Plain (path : list text) (extname : option text)
| Inst (path : list text) (extname : option text) (args : list arg)
(** An argument of a generic module: a type or a constant.  Integers know the type they have. *)
with arg :=
| AType (t : ty)
| ABool (b : bool)
| AInt (t : ty) (v : Z)
| AEnum (t : ty) (name : text)
| AFault (m : modu) (name : text).

(** The name a type has in messages and in the name of function types: type_append_name_to_scratch and type_append_func_to_scratch (types.c:111-201).
    A vector has type->name, made by type_get_vector from the name of its element (types.c:1125): elements are numbers, bools or pointers, for which the two agree. *)
Fixpoint ty_name (t : ty) : text :=
  match t with
  | Prim n => n
  | Any => lit "any"
  | Ptr t => ty_name t ++ lit "*"
  | Slice t => ty_name t ++ lit "[]"
  | Flex t => ty_name t ++ lit "[*]"
  | Opt t => ty_name t ++ lit "!"
  | Vec n t => ty_name t ++ lit "[<" ++ decimal_of n ++ lit ">]"
  | Arr n t => ty_name t ++ lit "[" ++ decimal_of n ++ lit "]"
  | Fun r ps v => ty_name r ++ lit "(" ++ sep (lit ",") (map ty_name ps) ++ (if v && negb (Nat.eqb (length ps) 0) then lit "," else []) ++ lit ")"
  | User _ n _ _ _ => n
  end.
(** The name of a function type: func_create_new_func_proto (sema_types.c:638-648).  Whether it takes C varargs is not part of it. *)
Definition fn_name (r : ty) (ps : list ty) : text := lit "fn " ++ ty_name r ++ lit "(" ++ sep (lit ", ") (map ty_name ps) ++ lit ")".

(** char_is_alphanum_ (utils/lib.h). *)
Definition alnum_ (c : Z) : bool := (48 <=? c) && (c <=? 57) || (65 <=? c) && (c <=? 90) || (97 <=? c) && (c <=? 122) || (c =? 95).
(** The loop over the name of a function type (types.c:610-628). *)
Definition fn_char (c : Z) : text := if alnum_ c then [c] else if c =? 36 then [36; 36] else [36].

(** scratch_buffer_append_module (module.c:12-41); the assertion that colons come in pairs holds of every path. *)
Fixpoint append_module_name (export : bool) (name : text) : text :=
  match name with
  | [] => []
  | c :: r => if c =? 58 then (if export then 95 else 46) :: match r with _ :: r' => append_module_name export r' | [] => [] end
              else if c =? 46 then (if export then 95 else 46) :: append_module_name export r
              else c :: append_module_name export r
  end.
Definition append_module (name : text) (extname : option text) (export : bool) : text :=
  match extname with Some e => e | None => append_module_name export name end.

(** scratch_buffer_set_extern_decl_name (ast.c:462-498) for a declaration that is not a method, with the module already appended. *)
Definition decl_symbol (modtext : bool -> text) (name : text) (extname : option text) (extern export : bool) : text :=
  match extname with
  | Some e => e
  | None => if extern then name else modtext export ++ (if export then lit "__" else lit ".") ++ name
  end.

(** A constant integer: scratch_buffer_append_signed_int, scratch_buffer_append_unsigned_int or int_to_str, with the minus sign replaced (sema_decls.c:4793-4814). *)
Definition mangle_int (v : Z) : text := if v <? 0 then 95 :: decimal_of (- v) else decimal_of v.

(** type_mangle_introspect_name_to_buffer (types.c:552-644).  The name of a function type that has a declaration (types.c:602-607) is never used:
    func_create_new_func_proto leaves raw_type->function.decl NULL (sema_types.c:655). *)
Fixpoint mangle (t : ty) : text :=
  match t with
  | Prim n => n
  | Any => lit "any$"
  | Ptr t => lit "p$" ++ mangle t
  | Slice t => lit "sa$" ++ mangle t
  | Flex t => lit "a0$" ++ mangle t
  | Opt t => lit "f$" ++ mangle t
  | Vec n t => lit "v" ++ decimal_of n ++ lit "$" ++ mangle t
  | Arr n t => lit "a" ++ decimal_of n ++ lit "$" ++ mangle t
  | Fun r ps _ => flat_map fn_char (fn_name r ps)
  | User m n extname extern export => decl_symbol (mod_text m) n extname extern export
  end
(** What scratch_buffer_append_module makes of a module: the name of an instance is the path under which sema_analyse_parameterized_identifier
    files it (sema_decls.c:4734-4739, 4818, 4892-4904); it has no extname of its own (module_instantiate_generic, sema_decls.c:4663). *)
with mod_text (m : modu) (export : bool) : text :=
  match m with
  | Plain p e => append_module (sep (lit "::") p) e export
  | Inst p e args => append_module_name export (append_module (sep (lit "::") p) e true ++ lit "$" ++ sep (lit "$") (map mangle_arg args) ++ lit "$")
  end
(** One argument of a generic module (sema_decls.c:4750-4816). *)
with mangle_arg (a : arg) : text :=
  match a with
  | AType t => mangle t
  | ABool b => if b then lit "t" else lit "f"
  | AInt _ v => mangle_int v
  | AEnum t n => mangle t ++ lit "_" ++ n
  | AFault m n => lit "fault" ++ lit "_" ++ n       (* the type of a fault is the type fault (sema_decls.c:1657, types.c:1388) *)
  end.

(** sema_generate_parameterized_name_to_scratch with mangled = true (sema_decls.c:4734-4818). *)
Definition instance_name (path : list text) (extname : option text) (args : list arg) : text :=
  append_module (sep (lit "::") path) extname true ++ lit "$" ++ sep (lit "$") (map mangle_arg args) ++ lit "$".

(** A use of a generic module: which module, with which arguments. *)
Record request := Request { r_path : list text; r_ext : option text; r_args : list arg }.
(** The instances made so far, the newest last, each with the name it is filed under and what it was made from. *)
Definition instances := list (text * request).
Fixpoint text_eqb (a b : text) : bool := match a, b with [], [] => true | x :: a', y :: b' => (x =? y) && text_eqb a' b' | _, _ => false end.
Fixpoint find_instance (l : instances) (name : text) : option nat :=
  match l with
  | [] => None
  | (n, _) :: r => if text_eqb n name then Some O else option_map S (find_instance r name)
  end.
(** sema_analyse_parameterized_identifier (sema_decls.c:4892-4912): an instance filed under the name is used again, else one is made.
    The answer is the position of the instance.  Errors in the arguments and in the instance end the compilation and are not modelled. *)
Definition instantiate (l : instances) (r : request) : instances * nat :=
  let name := instance_name (r_path r) (r_ext r) (r_args r) in
  match find_instance l name with
  | Some i => (l, i)
  | None => (l ++ [(name, r)], length l)
  end.
Fixpoint instantiate_all (l : instances) (rs : list request) : instances * list nat :=
  match rs with
  | [] => (l, [])
  | r :: rs' => let '(l1, i) := instantiate l r in let '(l2, is) := instantiate_all l1 rs' in (l2, i :: is)
  end.
(** What the instance at a position was made from. *)
Definition made_from (l : instances) (i : nat) : option request := option_map snd (nth_error l i).

(** A declaration that gets a symbol: a function, a method, a global, a constant or a fault. *)
Record sdecl := SDecl { s_mod : modu; s_parent : option ty; s_name : text; s_ext : option text; s_extern : bool; s_export : bool }.
(** parent->name (ast.c:483, 490). *)
Definition is_user (t : ty) : bool := match t with User _ _ _ _ _ => true | _ => false end.
(** scratch_buffer_set_extern_decl_name (ast.c:462-498). *)
Definition symbol (d : sdecl) : text :=
  match s_ext d with
  | Some e => e
  | None =>
    if s_extern d then s_name d else
    let dot := if s_export d then lit "__" else lit "." in
    match s_parent d with
    | Some (User pm pn _ _ _) => mod_text pm (s_export d) ++ dot ++ pn ++ dot ++ s_name d
    | Some p => mod_text (s_mod d) (s_export d) ++ dot ++ ty_name p ++ dot ++ s_name d
    | None => mod_text (s_mod d) (s_export d) ++ dot ++ s_name d
    end
  end.
(** The global that holds the description of a type and whose address is the typeid (llvm_codegen_type.c:433-437). *)
Definition typeid_symbol (t : ty) : text := lit "$ct." ++ mangle t.
