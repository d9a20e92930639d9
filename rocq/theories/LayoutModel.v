(** Model of the layout of structs, unions and bitstructs: src/compiler/sema_decls.c, and of the machine types
    made from them: src/compiler/llvm_codegen_type.c. *)
From Coq Require Import ZArith List Bool.
Import ListNotations.
Open Scope Z_scope.

(** AlignSize and TypeSize are uint32_t, compiler_internal.h:16-24. *)
Definition u32 (x : Z) : Z := x mod 2 ^ 32.
(** compiler_internal.h:2789-2792, aligned_offset. *)
Definition aligned_offset (offset alignment : Z) : Z := (u32 (offset + alignment - 1) / alignment) * alignment.

(** What the layout of a type needs to know about a type: its size (types.c:314, type_size), its alignment (types.c:667,
    type_abi_alignment), the greatest natural alignment inside it (sema_decls.c:412-472,
    sema_get_max_natural_alignment) and the size and alignment LLVM gives to its machine type. *)
Record Info := mkInfo { size : Z; align : Z; nat_align : Z; ll_size : Z; ll_align : Z }.
(** A member with its own @align (0 without one) and @nopadding. *)
Record Member := mkMember { given : Z; nopad : bool; ty : Info }.
(** Accepted, refused with an error, or stopped on an assertion. *)
Inductive Out (A : Type) := Good (a : A) | Refused | Violated.
Arguments Good {A} a. Arguments Refused {A}. Arguments Violated {A}.
Definition bindo {A B} (x : Out A) (f : A -> Out B) : Out B := match x with Good a => f a | Refused => Refused | Violated => Violated end.

(** A member after layout: Decl.offset, Decl.padding and Decl.alignment. *)
Record Placed := mkPlaced { off : Z; pad : Z; mal : Z; info : Info }.
Record State := mkState { offset : Z; natural : Z; actual : Z; dalign : Z; unaligned : bool; naturally : bool }.
Record Struct := mkStruct { members : list Placed; s_size : Z; s_align : Z; s_packed : bool; s_pad : Z; s_nat : Z }.

(** sema_decls.c:508-617, the body of the loop over the members.  Erased members are taken out before. *)
Definition place_one (packed nopadding : bool) (st : State) (m : Member) : Out (State * Placed) :=
  let t := ty m in
  let member_alignment := if negb (given m =? 0) then given m else if packed then 1 else align t in
  let da := if negb (given m =? 0) && (dalign st <? given m) then given m else dalign st in
  let nat_max := if natural st <? nat_align t then nat_align t else natural st in
  let act := if actual st <? member_alignment then member_alignment else actual st in
  let align_offset := aligned_offset (offset st) member_alignment in
  let natural_offset := aligned_offset (offset st) (nat_align t) in
  let differ := negb (natural_offset =? align_offset) in
  let under := differ && (member_alignment <? nat_align t) in
  if under && (natural_offset <=? align_offset) then Violated
  else if differ && negb under && (align_offset <=? natural_offset) then Violated
  else
    let gap := u32 (align_offset - offset st) in
    if negb (gap =? 0) && (nopadding || nopad m) then Refused
    else Good (mkState (u32 (align_offset + size t)) nat_max act da (unaligned st || under) (naturally st && negb differ),
               mkPlaced align_offset gap member_alignment t).
Fixpoint place (packed nopadding : bool) (st : State) (ms : list Member) : Out (State * list Placed) :=
  match ms with
  | [] => Good (st, [])
  | m :: r => bindo (place_one packed nopadding st m) (fun p =>
              bindo (place packed nopadding (fst p) r) (fun q => Good (fst q, snd p :: snd q)))
  end.
Definition strip (p : Placed) : Placed := mkPlaced (off p) 0 (mal p) (info p).
(** sema_decls.c:475-679, sema_analyse_struct_members, after the members were checked.  [bare_inline] says that the
    first member is inline and of a struct or union type without @nopadding.  @compact (sema_check_struct_holes) is not
    modelled. *)
Definition struct_layout (packed nopadding bare_inline : bool) (galign : Z) (ms : list Member) : Out Struct :=
  bindo (place packed nopadding (mkState 0 1 1 galign false (negb packed)) ms) (fun p =>
  let st := fst p in
  let da := if packed && (dalign st =? 0) then 1 else dalign st in
  let da := if negb packed && (da <? actual st) then actual st else da in
  let sz := aligned_offset (offset st) da in
  let natural_size := aligned_offset (offset st) (natural st) in
  let pad1 := if natural_size <? sz then u32 (sz - offset st) else 0 in
  let un := unaligned st || (sz <? natural_size) in
  if un && (offset st <? sz) && negb (pad1 =? 0) then Violated
  else
    let pad2 := if un && (offset st <? sz) then u32 (sz - offset st) else pad1 in
    if nopadding && bare_inline then Refused
    else if negb (sz =? offset st) && nopadding then Refused
    else Good (mkStruct (if negb un && naturally st then map strip (snd p) else snd p) sz da un pad2 (natural st))).

(** sema_decls.c:304-409, sema_analyse_union_members. *)
Record UState := mkU { max_size : Z; max_elt : nat; max_align : Z }.
Definition union_step (st : UState) (i : nat) (m : Member) : UState :=
  let ma := if align (ty m) <? given m then given m else align (ty m) in
  let st := if max_align st <? ma then mkU (max_size st) i ma else st in
  if max_size st <? size (ty m)
  then mkU (size (ty m)) (if negb (Nat.eqb (max_elt st) i) && (max_align st =? ma) then i else max_elt st) (max_align st)
  else st.
Fixpoint union_scan (st : UState) (i : nat) (ms : list Member) : UState :=
  match ms with [] => st | m :: r => union_scan (union_step st i m) (S i) r end.
Record Union := mkUnion { u_size : Z; u_align : Z; u_rep : nat; u_pad : Z; u_packed : bool }.
Definition no_info : Info := mkInfo 0 1 1 0 1.
Definition union_layout (packed : bool) (galign : Z) (ms : list Member) : Out Union :=
  let st := union_scan (mkU 0 0%nat 0) 0%nat ms in
  let da := if packed && (galign =? 0) then 1 else galign in
  let da := if negb packed && (da <? max_align st) then max_align st else da in
  if max_size st =? 0 then Violated
  else
    let sz := aligned_offset (max_size st) da in
    let rep := match nth_error ms (max_elt st) with Some m => size (ty m) | None => 0 end in
    Good (mkUnion sz da (max_elt st) (if rep <? sz then sz - rep else 0) (packed && (1 <? max_align st))).

(** The machine type: llvm_codegen_type.c:29-77; a padding is an array of bytes. *)
Inductive Elem := Padding (n : Z) | Element (sz al : Z).
Definition elem_size (e : Elem) : Z := match e with Padding n => n | Element s _ => s end.
Definition elem_align (e : Elem) : Z := match e with Padding _ => 1 | Element _ a => a end.
Fixpoint member_elems (ps : list Placed) : list Elem :=
  match ps with
  | [] => []
  | p :: r => (if negb (pad p =? 0) then [Padding (pad p)] else []) ++ Element (ll_size (info p)) (ll_align (info p)) :: member_elems r
  end.
Definition end_elems (n : Z) : list Elem := if negb (n =? 0) then [Padding n] else [].
Definition struct_elems (s : Struct) : list Elem := member_elems (members s) ++ end_elems (s_pad s).
Definition union_elems (u : Union) (ms : list Member) : list Elem :=
  match nth_error ms (u_rep u) with Some m => Element (ll_size (ty m)) (ll_align (ty m)) :: end_elems (u_pad u) | None => [] end.
(** llvm_codegen_expr.c:4992-5015, llvm_value_struct_gep: the number of the element for a member. *)
Fixpoint gep_index (ps : list Placed) (i : nat) : nat :=
  match ps with
  | [] => 0%nat
  | p :: r => let here := if negb (pad p =? 0) then 1%nat else 0%nat in
              match i with O => here | S j => (here + 1 + gep_index r j)%nat end
  end.

(** Types: a [Leaf] is a builtin type, for which the compiler and LLVM agree. *)
Inductive T :=
| Leaf (size align : Z)
| Array (len : Z) (t : T)
| StructT (packed nopadding bare_inline : bool) (galign : Z) (ms : list (Z * bool * T))
| UnionT (packed : bool) (galign : Z) (ms : list (Z * T)).

(** sema_decls.c:883-897, the test for overlapping bit ranges. *)
Definition bits_overlap (start_bit end_bit other_start other_end : Z) : bool :=
  ((other_start <=? start_bit) || (other_start <=? end_bit)) && (start_bit <=? other_end).
(** A bitstruct member: its range as written (no end for a single bit) and the width of its type (1 for bool). *)
Record BitMember := mkBit { b_start : Z; b_end : option Z; b_bool : bool; b_width : Z }.
(** sema_decls.c:785-897, sema_analyse_bitstruct_member: the range of bits, or an error.  [earlier] are the ranges of the
    members before.  For bitstructs without ranges the members are numbered by the parser, parse_global.c:1900. *)
Definition bit_range (bits : Z) (consecutive : bool) (m : BitMember) : option (Z * Z) :=
  if consecutive then
    if negb (b_bool m) then None else if bits <=? b_start m then None else Some (b_start m, b_start m)
  else
    if b_start m <? 0 then None else if bits <=? b_start m then None
    else match (match b_end m with
                | Some e => if e <? 0 then None else if bits <=? e then None else Some e
                | None => if b_bool m then Some (b_start m) else None
                end) with
         | None => None
         | Some e => if e <? b_start m then None else if b_width m <? u32 (e + 1 - b_start m) then None else Some (b_start m, e)
         end.
Definition bit_member (bits : Z) (consecutive overlap : bool) (earlier : list (Z * Z)) (m : BitMember) : option (Z * Z) :=
  match bit_range bits consecutive m with
  | None => None
  | Some (s, e) => if negb overlap && existsb (fun o => bits_overlap s e (fst o) (snd o)) earlier then None else Some (s, e)
  end.
(** sema_decls.c:1071-1085. *)
Fixpoint bitstruct (bits : Z) (consecutive overlap : bool) (earlier : list (Z * Z)) (ms : list BitMember) : option (list (Z * Z)) :=
  match ms with
  | [] => Some earlier
  | m :: r => if 4096 <? bits then None else
              match bit_member bits consecutive overlap earlier m with
              | None => None
              | Some p => bitstruct bits consecutive overlap (earlier ++ [p]) r
              end
  end.
