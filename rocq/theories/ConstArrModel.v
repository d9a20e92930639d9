(** Constant arrays in the compiler: their representations, concatenation, slicing, indexing, element assignment and the
    constants emitted for them (src/compiler/sema_const.c, sema_expr.c, sema_initializers.c, number.c, llvm_codegen.c). *)
From Coq Require Import ZArith List Bool.
Import ListNotations.
Open Scope Z_scope.

(** A scalar constant (ExprConst, compiler_internal.h): an integer, or any other kind, which is opaque here.
    Simplified: types of constants are left out; where the code casts, the model takes the result of the cast. *)
Inductive Scalar := SInt (z : Z) | SOther (n : Z).
(** An element of an array (ConstInitializer): CONST_INIT_ZERO, CONST_INIT_VALUE, or a nested struct, union or array
    (opaque here).  The same type stands for the constant expressions of untyped lists (EZero: the zero of the type). *)
Inductive Elem := EZero | EVal (v : Scalar) | EAgg (n : Z).
(** The initialiser of an array or vector: CONST_INIT_ZERO, CONST_INIT_ARRAY_FULL, CONST_INIT_ARRAY with pairs of index
    and element (CONST_INIT_ARRAY_VALUE). *)
Inductive Init := IZero | IFull (l : list Elem) | ISparse (l : list (Z * Elem)).
(** An initialiser with the length of its type (init->type->array.len). *)
Record Arr := mkArr { alen : Z; ainit : Init }.
(** Constants (ConstKind): bytes and strings, slices (None: the empty one), arrays and vectors, structs and unions,
    untyped lists, scalars. *)
Inductive Const := CBytes (is_string : bool) (b : list Z) | CSlice (a : option Arr) | CInit (a : Arr) | CStruct (n : Z)
  | CUntyped (l : list Elem) | CScalar (v : Scalar).
(** What analysis does: a constant, an error message, or a stop on an assertion, UNREACHABLE or a bad pointer. *)
Inductive Outcome (A : Type) := Ok (a : A) | Error | Crash.
Arguments Ok {A} a. Arguments Error {A}. Arguments Crash {A}.
Definition obind {A B} (x : Outcome A) (f : A -> Outcome B) : Outcome B := match x with Ok a => f a | Error => Error | Crash => Crash end.

(** utils/lib.h: vec_size and the indexing of vectors. *)
Definition vlen {A} (l : list A) : Z := Z.of_nat (length l).
Definition at_ {A} (l : list A) (i : Z) : option A := if i <? 0 then None else nth_error l (Z.to_nat i).
Fixpoint set_nat {A} (l : list A) (n : nat) (x : A) : option (list A) :=
  match l, n with
  | [], _ => None
  | _ :: r, O => Some (x :: r)
  | y :: r, S n => option_map (cons y) (set_nat r n x)
  end.
Definition set_at {A} (l : list A) (i : Z) (x : A) : option (list A) := if i <? 0 then None else set_nat l (Z.to_nat i) x.
(** Loops that add n zero elements (sema_const.c:447-452, 526-529, 573-576, 603-606, 638-641). *)
Definition zeros (n : Z) : list Elem := repeat EZero (Z.to_nat n).

(** *** Bytes. *)
(** (char)int_to_i64(init_value->const_expr.ixx) for a scalar (number.c:82, 92). *)
Definition low_byte (v : Scalar) : Z := match v with SInt z => z mod 256 | SOther n => n mod 256 end.
(** number.c:52-97 expr_contract_array for an initialiser: an array of bytes.  None: an assertion or a null pointer. *)
Fixpoint contract_full (l : list Elem) : option (list Z) :=
  match l with
  | [] => Some []
  | EVal v :: r => option_map (cons (low_byte v)) (contract_full r)
  | _ :: _ => None
  end.
Fixpoint contract_sparse (l : list (Z * Elem)) (arr : list Z) : option (list Z) :=
  match l with
  | [] => Some arr
  | (i, EVal v) :: r => match set_at arr i (low_byte v) with Some arr => contract_sparse r arr | None => None end
  | _ :: _ => None
  end.
Definition contract (a : Arr) : option (list Z) :=
  if alen a <=? 0 then None else
  match ainit a with
  | IZero => Some (repeat 0 (Z.to_nat (alen a)))
  | ISparse l => contract_sparse l (repeat 0 (Z.to_nat (alen a)))
  | IFull l => match contract_full l with
               | Some b => if vlen b <=? alen a then Some (b ++ repeat 0 (Z.to_nat (alen a - vlen b))) else None
               | None => None
               end
  end.
(** number.c:54-58: the empty slice. *)
Definition contract_const (c : Const) : option (list Z) :=
  match c with
  | CSlice None => Some []
  | CSlice (Some a) | CInit a => contract a
  | _ => None
  end.
(** sema_const.c:103-134 expr_concat_character: the bytes appended. *)
Definition character (c : Z) : list Z :=
  if c <=? 127 then [c mod 256]
  else if c <=? 2047 then [Z.lor 192 (Z.shiftr c 6) mod 256; Z.lor 128 (Z.land c 63)]
  else if c <=? 65535 then [Z.lor 224 (Z.shiftr c 12) mod 256; Z.lor 128 (Z.land (Z.shiftr c 6) 63); Z.lor 128 (Z.land c 63)]
  else [Z.lor 240 (Z.shiftr c 18) mod 256; Z.lor 128 (Z.land (Z.shiftr c 12) 63); Z.lor 128 (Z.land (Z.shiftr c 6) 63); Z.lor 128 (Z.land c 63)].
(** sema_const.c:144-194 sema_concat_bytes_and_other.  [to_char]: the constant right becomes when cast to char;
    [to_chars]: what right becomes when cast to an array of char of inferred length. *)
Definition concat_bytes (is_string : bool) (b : list Z) (right : Const) (to_char : option Z) (to_chars : option Const) : Outcome Const :=
  match right with
  | CScalar (SInt z) =>
      if is_string then
        if (z <? 0) || (1114111 <? z) then Error else Ok (CBytes true (b ++ character z))
      else match to_char with Some c => Ok (CBytes false (b ++ [c])) | None => Error end
  | CScalar (SOther _) => Error
  | CBytes _ r => Ok (CBytes is_string (b ++ r))
  | _ => match to_chars with
         | None => Error
         | Some (CBytes _ r) => Ok (CBytes is_string (b ++ r))
         | Some c => match contract_const c with Some r => Ok (CBytes is_string (b ++ r)) | None => Crash end
         end
  end.

(** *** Appending one element. *)
(** sema_const.c:219-278 sema_append_const_array_one.  [elem]: the constant right; [cast]: right cast to the type of the
    elements. *)
Definition append_one (list_ : Const) (elem : Elem) (cast : option Elem) : Outcome Const :=
  let add (a : Arr) := match cast with
    | None => Error
    | Some e => Ok (mkArr (alen a + 1) match ainit a with
                                        | IZero => ISparse [(alen a, e)]
                                        | ISparse l => ISparse (l ++ [(alen a, e)])
                                        | IFull l => IFull (l ++ [e])
                                        end)
    end in
  match list_ with
  | CSlice None => Ok (CSlice (Some (mkArr 1 (IFull [elem]))))
  | CSlice (Some a) => obind (add a) (fun a => Ok (CSlice (Some a)))
  | CInit a => obind (add a) (fun a => Ok (CInit a))
  | _ => Crash
  end.
(** The element a constant is: a scalar, a string or byte array (opaque), an array or a struct (opaque). *)
Definition elem_of (c : Const) : Elem := match c with CScalar v => EVal v | _ => EAgg 0 end.
(** sema_const.c:56-81 sema_expr_const_append, called with lists only; bytes never get here (316-330). *)
Definition const_append (list_ : Const) (elem : Elem) (cast : option Elem) : Outcome Const :=
  match list_ with
  | CUntyped l => Ok (CUntyped (l ++ [elem]))
  | _ => append_one list_ elem cast
  end.

(** *** Concatenation of lists. *)
(** sema_const.c:280-292 expr_const_initializer_from_expr and the length of the constant (10-54 sema_len_from_const). *)
Definition init_of (c : Const) : option Arr := match c with CSlice a => a | CInit a => Some a | _ => None end.
Definition len_of (c : Const) : Z :=
  match c with
  | CBytes _ b => vlen b
  | CSlice None => 0
  | CSlice (Some a) | CInit a => alen a
  | CUntyped l => vlen l
  | CStruct _ | CScalar _ => -1
  end.
(** sema_const.c:424-427: the constants of a full array: only CONST_INIT_VALUE has an init_value. *)
Fixpoint full_values (l : list Elem) : option (list Elem) :=
  match l with
  | [] => Some []
  | EVal v :: r => option_map (cons (EVal v)) (full_values r)
  | _ :: _ => None
  end.
(** sema_const.c:453-473, 607-611, 642-646: the sparse elements are put over zeros, from [offset] on. *)
Fixpoint fill (l : list (Z * Elem)) (offset : Z) (arr : list Elem) : option (list Elem) :=
  match l with
  | [] => Some arr
  | (i, e) :: r => match set_at arr (offset + i) e with Some arr => fill r offset arr | None => None end
  end.
(** sema_const.c:401-478: one operand added to the untyped list. *)
Definition add_untyped (acc : list Elem) (c : Const) : Outcome (list Elem) :=
  match c with
  | CUntyped l => Ok (acc ++ l)
  | CSlice None => Ok acc
  | CSlice (Some a) | CInit a =>
      match ainit a with
      | IFull l => match full_values l with Some l => Ok (acc ++ l) | None => Crash end
      | IZero => Ok (acc ++ zeros (alen a))
      | ISparse l => match fill l (vlen acc) (acc ++ zeros (alen a)) with Some l => Ok l | None => Crash end
      end
  | CStruct _ | CBytes _ _ | CScalar _ => Crash
  end.
(** sema_const.c:508-674: the nine combinations.  In place changes of the operands are not modelled: both are copies. *)
Definition concat_inits (lhs rhs : Arr) : Outcome Arr :=
  let n := alen lhs + alen rhs in
  match ainit lhs, ainit rhs with
  | IZero, IZero => Ok (mkArr n IZero)
  | IZero, IFull r => Ok (mkArr n (IFull (zeros (alen lhs) ++ r)))
  | IZero, ISparse r => Ok (mkArr n (ISparse (map (fun p => (fst p + alen lhs, snd p)) r)))
  | IFull l, IZero => Ok (mkArr n (IFull (l ++ zeros (alen rhs))))
  | IFull l, IFull r => Ok (mkArr n (IFull (l ++ r)))
  | IFull l, ISparse r => match fill r (alen lhs) (l ++ zeros (alen rhs)) with Some x => Ok (mkArr n (IFull x)) | None => Crash end
  | ISparse l, IZero => Ok (mkArr n (ISparse l))
  | ISparse l, IFull r => match fill l 0 (zeros (alen lhs)) with Some x => Ok (mkArr n (IFull (x ++ r))) | None => Crash end
  | ISparse l, ISparse r => Ok (mkArr n (ISparse (l ++ map (fun p => (fst p + alen lhs, snd p)) r)))
  end.
(** sema_const.c:488-506: operands of one element type. *)
Definition concat_typed (left right : Const) : Outcome Const :=
  match init_of right, init_of left with
  | None, None => Crash
  | Some r, None => Ok (CInit r)
  | None, Some l => Ok (CInit l)
  | Some r, Some l => obind (concat_inits l r) (fun a => Ok (CInit a))
  end.
Definition concat_untyped (left right : Const) : Outcome Const :=
  obind (add_untyped [] left) (fun acc => obind (add_untyped acc right) (fun l => Ok (CUntyped l))).
(** The results of the casts of right, for the type of the elements of left: [as_elem] to that type, [as_list] to an array
    of it of inferred length, [as_char] to char; [same]: the type of right is that type; [chars]: that type is an integer of one byte. *)
Record Casts := mkCasts { as_elem : option Elem; as_list : option Const; as_char : option Z; same : bool; chars : bool }.
(** sema_const.c:304-677 sema_expr_analyse_ct_concat, for constant operands that are analysed. *)
Definition concat (left right : Const) (k : Casts) : Outcome Const :=
  let lists := match left, as_list k with
    | CUntyped _, _ => concat_untyped left right
    | _, None => concat_untyped left right
    | _, Some r => concat_typed left r
    end in
  match left with
  | CScalar _ | CStruct _ => Error
  | CBytes s b => concat_bytes s b right (as_char k) (as_list k)
  | _ =>
      match right with
      | CScalar v => const_append left (EVal v) (as_elem k)
      | CBytes _ r =>
          match left with
          | CUntyped _ => const_append left (elem_of right) (as_elem k)
          | _ => if same k then const_append left (elem_of right) (as_elem k)
                 else if negb (chars k) then Error
                 else match contract_const left with
                      | None => Crash
                      | Some b => concat_bytes false b right (as_char k) (as_list k)
                      end
          end
      | CUntyped _ => lists
      | CSlice _ | CInit _ | CStruct _ =>
          match left, as_elem k with
          | CUntyped _, _ => lists
          | _, Some e => const_append left (elem_of right) (Some e)
          | _, None => lists
          end
      end
  end.

(** *** Slicing. *)
(** utils/lib.h:287-300 vec_erase_front and 271-276 vec_resize: None when the vector is shorter than asked for. *)
Definition slice_list {A} (l : list A) (start count : Z) : option (list A) :=
  if (start <? 0) || (count <? 0) || (vlen l <? start + count) then None else Some (firstn (Z.to_nat count) (skipn (Z.to_nat start) l)).
(** sema_expr.c:3808-3862 sema_slice_initializer. *)
Definition slice_initializer (a : Arr) (start count : Z) : Outcome Const :=
  if count =? 0 then Ok (CSlice None) else
  match ainit a with
  | IZero => Ok (CSlice (Some (mkArr count IZero)))
  | IFull l => match slice_list l start count with Some l => Ok (CSlice (Some (mkArr count (IFull l)))) | None => Crash end
  | ISparse l =>
      let kept := filter (fun p => (start <=? fst p) && (fst p <? start + count)) l in
      Ok (CSlice (Some (mkArr count match kept with [] => IZero | _ => ISparse kept end)))
  end.
(** strlen. *)
Fixpoint until_nul (b : list Z) : list Z := match b with [] => [] | x :: r => if x =? 0 then [] else x :: until_nul r end.
(** sema_expr.c:3889-3952, constants and constant ranges; strings: 3893-3898 and expr.c:1155-1164. *)
Definition slice (c : Const) (start count : Z) : Outcome Const :=
  match c with
  | CBytes true b => match slice_list b start count with Some r => Ok (CBytes true (until_nul r)) | None => Crash end
  | CBytes false b => match slice_list b start count with Some r => Ok (CBytes false r) | None => Crash end
  | CUntyped l => match slice_list l start count with Some r => Ok (CUntyped r) | None => Crash end
  | CInit a => slice_initializer a start count
  | CSlice None => if count =? 0 then Ok (CSlice None) else Crash
  | CSlice (Some a) => slice_initializer a start count
  | CStruct _ | CScalar _ => Error
  end.
(** The end of a range: none, an index, an index from the end, a length, a length from the end. *)
Inductive End := NoEnd | EndAt (z : Z) | EndBack (z : Z) | Length (z : Z) | LengthBack (z : Z).
Definition max_index : Z := 2147483647.
(** sema_expr.c:3614-3778 sema_expr_analyse_range_internal with constant bounds, for arrays and constant slices of known
    length: start and length of the range, None when the range is left to run time. *)
Definition range (len : Z) (start : Z) (start_back : bool) (e : End) : Outcome (option (Z * Z)) :=
  (* 3661-3694: (end, is it a length) *)
  obind (match e with
    | NoEnd => Ok (if 0 <? len then Some (len - 1, false) else None)
    | EndAt z => if z <? 0 then Error else Ok (if max_index <? z then None else Some (z, false))
    | Length z => if z <? 0 then Error else Ok (if max_index <? z then None else Some (z, true))
    | EndBack z => if (z <? 0) || (len - z <? 0) then Error else Ok (Some (len - z, false))
    | LengthBack z => if (z <? 0) || (len - z <? 0) then Error else Ok (Some (len - z, true))
    end) (fun e =>
  (* 3696-3750 *)
  obind (if start_back then (if (start <? 0) || (len - start <? 0) then Error else Ok (len - start)) else Ok start) (fun start =>
  if start <? 0 then Error
  else if len <=? start then Error
  else match e with
  | None => Ok None
  | Some (z, is_len) =>
      if negb is_len && (z <? start) then Error
      else let n := if is_len then z else z + 1 - start in
      (* 3751-3774 *)
      if len <? n then Error else Ok (Some (start, n))
  end)).

(** *** Indexing and assignment. *)
(** sema_expr.c:4798-4846 sema_expr_fold_to_index: the constant at an index. *)
Definition fold_to_index (a : Arr) (i : Z) : Outcome Elem :=
  match ainit a with
  | IZero => Ok EZero
  | ISparse l => match find (fun p => fst p =? i) l with Some p => Ok (snd p) | None => Ok EZero end
  | IFull l => match at_ l i with Some e => Ok e | None => Crash end
  end.
(** expr.c:599-636 initializer_for_index and 738-763 expr_rewrite_to_const_initializer_index: Ok None when the element is no
    simple constant. *)
Definition at_index (a : Arr) (i : Z) (from_back : bool) : Outcome (option Elem) :=
  let simple e := match e with EAgg _ => None | _ => Some e end in
  match ainit a with
  | IZero => Ok (Some EZero)
  | IFull l => let n := vlen l in
      if from_back && ((n <? i) || (i =? 0)) then Ok (Some EZero)
      else match at_ l (if from_back then n - i else i) with Some e => Ok (simple e) | None => Crash end
  | ISparse l => let n := alen a in
      if from_back && ((n <? i) || (i =? 0)) then Ok (Some EZero)
      else match find (fun p => fst p =? (if from_back then n - i else i)) l with Some p => Ok (simple (snd p)) | None => Ok (Some EZero) end
  end.
(** sema_expr.c:3061-3106 sema_slice_index_is_in_range for arrays and vectors: the index used, or an error.  The index is
    cut to 32 bits first (3078). *)
Definition to_i32 (z : Z) : Z := let m := z mod 4294967296 in if m <? 2147483648 then m else m - 4294967296.
Definition index_check (len : Z) (index : Z) (from_end : bool) : Outcome Z :=
  if (index <? -9223372036854775808) || (9223372036854775807 <? index) then Error
  else if from_end && (index <? 0) then Error
  else let idx := if from_end then to_i32 (len - to_i32 index) else to_i32 index in
  if len <=? idx then Error else if idx <? 0 then Error
  else Ok (if from_end then idx else index).
(** sema_initializers.c:1047-1095 sema_update_const_initializer_at_index with 1097-1119 const_init_rewrite_array_at: the
    element is put in its place in the sparse list. *)
Fixpoint insert_at (l : list (Z * Elem)) (i : Z) (e : Elem) : list (Z * Elem) :=
  match l with
  | [] => [(i, e)]
  | (j, x) :: r => if j <? i then (j, x) :: insert_at r i e else if j =? i then (i, e) :: r else (i, e) :: (j, x) :: r
  end.
Definition rewrite_at (a : Arr) (i : Z) (e : Elem) : Outcome Arr :=
  match ainit a with
  | IZero => Ok (mkArr (alen a) (ISparse (insert_at [] i e)))
  | ISparse l => Ok (mkArr (alen a) (ISparse (insert_at l i e)))
  | IFull l => match set_at l i e with Some l => Ok (mkArr (alen a) (IFull l)) | None => Crash end
  end.
(** sema_initializers.c:624-640, 1121-1161: designators [low..high] = value, one after the other, over zeros.  Simplified:
    one level, and values that are no initialisers themselves. *)
Definition designate (len : Z) (l : list (Z * Z * Elem)) : Outcome Arr :=
  fold_left (fun acc d => let '(low, high, e) := d in
      fold_left (fun acc k => obind acc (fun a => rewrite_at a (low + Z.of_nat k) e)) (seq 0 (Z.to_nat (high - low + 1))) acc)
    l (Ok (mkArr len IZero)).
(** sema_stmts.c:2606-2730 $foreach: the elements the body sees. [is_slice]: the type of the constant is a slice. *)
Fixpoint visit (a : Arr) (i : nat) (n : nat) : Outcome (list Elem) :=
  match n with
  | O => Ok []
  | S n => obind (at_index a (Z.of_nat i) false) (fun e => match e with None => Error | Some e => obind (visit a (S i) n) (fun r => Ok (e :: r)) end)
  end.
Definition foreach (c : Const) : Outcome (list Elem) :=
  match c with
  | CSlice None => Ok []
  | CInit a => visit a 0 (Z.to_nat (alen a))
  | CSlice (Some a) =>
      match ainit a with
      | IZero => Ok []
      | ISparse _ => Error
      | IFull l => visit a 0 (length l)
      end
  | CUntyped l => Ok l
  | CBytes _ b => Ok (map (fun x => EVal (SInt x)) b)
  | CStruct _ | CScalar _ => Error
  end.

(** *** The constant emitted. *)
(** llvm_codegen.c:225-325: the parts of the LLVM constant, each an element or an array of zeros, and its kind. *)
Inductive Part := PElem (e : Elem) | PZeros (n : Z).
Inductive Kind := KZero | KArray | KVector | KStruct.
(** llvm_codegen.c:225-230 llvm_emit_const_array_padding. *)
Definition padding (diff : Z) : list Part * bool := if diff <=? 0 then ([], false) else if diff =? 1 then ([PElem EZero], false) else ([PZeros diff], true).
(** llvm_codegen.c:286-309. *)
Fixpoint emit_sparse (l : list (Z * Elem)) (current : Z) : list Part * bool * Z :=
  match l with
  | [] => ([], false, current)
  | (i, e) :: r =>
      let '(pad, m) := padding (i - current) in
      let '(rest, m', last) := emit_sparse r (i + 1) in
      (pad ++ PElem e :: rest, m || m', last)
  end.
Definition emit (is_vector : bool) (a : Arr) : Outcome (Kind * list Part) :=
  match ainit a with
  | IZero => Ok (KZero, [PZeros (alen a)])
  | IFull l => if alen a <=? 0 then Crash else
      match slice_list l 0 (alen a) with
      | Some l => Ok (if is_vector then KVector else KArray, map PElem l)
      | None => Crash
      end
  | ISparse [] => Crash
  | ISparse l =>
      let '(parts, m, last) := emit_sparse l 0 in
      let '(pad, m') := padding (alen a - last) in
      Ok (if m || m' then KStruct else if is_vector then KVector else KArray, parts ++ pad)
  end.
