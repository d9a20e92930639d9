(** Model of indexing and slicing: the compile-time analysis (sema_expr.c) and the code emitted for it (llvm_codegen_expr.c), of shifts and of
    [from_ordinal].  Words have 64 bits ([isz] and [usz] of a 64-bit target).  The feature [trap_on_wrap] is off: additions and
    subtractions wrap. *)
From Coq Require Import ZArith Bool List.
Import ListNotations.
Local Open Scope Z_scope.

Definition word (z : Z) : Z := z mod 2 ^ 64.
(** The number a word stands for in a signed or unsigned type; llvm_codegen_expr.c:3019-3214 llvm_emit_int_comp_raw for two operands of the same type. *)
Definition ival (sg : bool) (w : Z) : Z := if sg && (2 ^ 63 <=? w) then w - 2 ^ 64 else w.
Definition gt (sg : bool) (a b : Z) : bool := ival sg b <? ival sg a.
Definition ge (sg : bool) (a b : Z) : bool := ival sg b <=? ival sg a.

(** ** Ranges: sema_expr.c:3610-3616 RangeEnv, compiler_internal.h:685-710 Range.
    An operand is the value of the expression, of the common type of both ends (sema_expr.c:3618-3644), and whether it is a constant. *)
Record operand := Operand { val : Z; cst : bool }.
Inductive env := EArray | ESlice | EPointer | EFlexible.
Definition no_length (e : env) : bool := match e with EPointer | EFlexible => true | _ => false end.
Definition is_pointer (e : env) : bool := match e with EPointer => true | _ => false end.
Record range := Range { start : operand; stop : option operand; sfe : bool; efe : bool; is_len : bool }.
Inductive shape := Dynamic | ConstLen | ConstEnd | ConstRange.
Record resolved := Resolved { shp : shape; r_start : operand; r_stop : option operand; r_sfe : bool; r_efe : bool; r_len : bool; const_end : Z; start_index : Z; len_index : Z }.
Definition unresolved (r : range) : resolved := Resolved Dynamic (start r) (stop r) (sfe r) (efe r) (is_len r) 0 0 0.
Inductive cont := Bad | Return (x : resolved) | Go (x : resolved).
Definition fits_i64 (v : Z) : bool := (- 2 ^ 63 <=? v) && (v <? 2 ^ 63).
Definition MAX : Z := 2 ^ 31 - 1.               (* MAX_ARRAYINDEX *)
(** Storing into an ArrayIndex (compiler_internal.h:18-19, int32_t) keeps the low 32 bits. *)
Definition i32 (v : Z) : Z := (v + 2 ^ 31) mod 2 ^ 32 - 2 ^ 31.

(** sema_expr.c:3661-3698, the end; [len] is None for a length not known (-1). *)
Definition end_part (e : env) (len : option Z) (r : range) : cont :=
  let x := unresolved r in
  match stop r with
  | Some (Operand v true) =>
    if negb (fits_i64 v) then Bad else
    let store v efe' :=
      if (v <? 0) && negb (is_pointer e) then Bad
      else if (MAX <? v) || (v <? - MAX) then Return (Resolved Dynamic (start r) (stop r) (sfe r) efe' (is_len r) 0 0 0)
      else Go (Resolved (if is_len r then ConstLen else ConstEnd) (start r) (stop r) (sfe r) efe' (is_len r) v 0 0) in
    if efe r then
      if v <? 0 then Bad
      else match len with
           | None => Return x
           | Some n => if n - v <? 0 then Bad else store (n - v) false
           end
    else store v (efe r)
  | Some (Operand _ false) => Go x
  | None => match len with
            | Some n => if 0 <? n then Go (Resolved ConstEnd (start r) (stop r) (sfe r) (efe r) false (n - 1) 0 0) else Go x
            | None => Go x
            end
  end.
(** sema_expr.c:3700-3749, the start. *)
Definition start_part (e : env) (len : option Z) (x : resolved) : cont :=
  match r_start x with
  | Operand v true =>
    if negb (fits_i64 v) then Bad else
    let continue v sfe' :=
      if (v <? 0) && negb (is_pointer e) then Bad
      else if match len with Some n => n <=? v | None => false end then Bad
      else
        let x1 := Resolved (shp x) (r_start x) (r_stop x) sfe' (r_efe x) (r_len x) (const_end x) (start_index x) (len_index x) in
        match shp x1 with
        | ConstEnd =>
          if const_end x1 <? v then Bad
          else if MAX <? v then Return x1
          else Go (Resolved ConstRange (r_start x1) (r_stop x1) sfe' (r_efe x1) true (i32 (const_end x1 + 1 - v)) (i32 v) (i32 (const_end x1 + 1 - v)))
        | ConstLen => Go (Resolved ConstRange (r_start x1) (r_stop x1) sfe' (r_efe x1) (r_len x1) (const_end x1) (i32 v) (const_end x1))
        | _ => Go x1
        end in
    if r_sfe x then
      if v <? 0 then Bad
      else match len with
           | None => Return x
           | Some n => if n - v <? 0 then Bad else if (MAX <? n - v) || (n - v <? - MAX) then Return x else continue (n - v) false
           end
    else continue v (r_sfe x)
  | Operand _ false => Go x
  end.
(** sema_expr.c:3750-3776, the check against the length. *)
Definition length_part (len : option Z) (x : resolved) : option resolved :=
  match len with
  | None => Some x
  | Some n =>
    match shp x with
    | ConstEnd => if n <=? const_end x then None else Some x
    | ConstLen => if n <? const_end x then None else Some x
    | ConstRange => if n <? len_index x then None else Some x
    | Dynamic => Some x
    end
  end.
(** sema_expr.c:3618-3778 sema_expr_analyse_range_internal; None is an error message. *)
Definition analyse (e : env) (len : option Z) (r : range) : option resolved :=
  if no_length e && (sfe r || efe r || match stop r with None => true | Some _ => false end) then None else
  match end_part e len r with
  | Bad => None
  | Return x => Some x
  | Go x => match start_part e len x with Bad => None | Return x => Some x | Go x => length_part len x end
  end.

(** ** The code of a slice: llvm_codegen_expr.c:2566-2744 llvm_emit_slice_values, 2746-2792 gencontext_emit_slice.
    [sg] is the sign of the type of the ends, [n] the length at run time.  The answer is the offset and the number of elements. *)
Inductive outcome := Panic | Assertion | Sliced (offset size : Z).
Inductive ends := EPanic | EAssertion | Ends (first last : Z) (exclusive : bool).
Definition slice_values (safe sg : bool) (e : env) (n : Z) (x : resolved) : ends :=
  let const_range := match shp x with ConstRange => true | _ => false end in
  let sg := const_range || sg in
  let s0 := if const_range then word (start_index x) else word (val (r_start x)) in
  let s := if r_sfe x then word (n - s0) else s0 in
  if safe && negb (no_length e) && gt sg s n then EPanic
  else if safe && negb (is_pointer e) && negb const_range && (ival sg s <? 0) then EPanic
  else
    let finish (e0 : Z) :=
      if r_efe x && match shp x with Dynamic => false | _ => true end then EAssertion else
      let e1 := if r_efe x then word (n - e0) else e0 in
      let e2 := if r_len x then word (s + e1) else e1 in
      if safe && r_len x && negb (no_length e) && gt sg e2 n then EPanic
      else if safe && negb (r_len x) && gt sg s e2 then EPanic
      else if safe && negb (r_len x) && negb (no_length e) && ge sg e2 n then EPanic
      else Ends s e2 (r_len x) in
    match shp x with
    | Dynamic => match r_stop x with
                 | Some o => finish (word (val o))
                 | None => if no_length e then EAssertion else Ends s n true
                 end
    | ConstLen => if negb (r_len x) then EAssertion else finish (word (const_end x))
    | ConstEnd => if r_len x then EAssertion else finish (word (const_end x))
    | ConstRange => finish (word (len_index x))
    end.
Definition emit (safe sg : bool) (e : env) (n : Z) (x : resolved) : outcome :=
  match slice_values safe sg e n x with
  | EPanic => Panic
  | EAssertion => Assertion
  | Ends s t exclusive => Sliced s (if exclusive then word (t - s) else word (word (t + 1) - s))
  end.
(** sema_internal.h:175-199 range_const_len; None is -1. *)
Definition fits_i32 (v : Z) : bool := (- 2 ^ 31 <=? v) && (v <? 2 ^ 31).
Definition known_length (x : resolved) : option Z :=
  let some k := if k <? 0 then None else Some k in
  match shp x with
  | ConstLen => some (const_end x)
  | ConstEnd => None
  | ConstRange => some (len_index x)
  | Dynamic =>
    match r_stop x with
    | Some (Operand v true) =>
      if negb (fits_i32 v) then None
      else if r_len x then some v
      else match r_start x with
           | Operand s true =>
             if negb (fits_i32 s) then None
             else if r_sfe x && r_efe x then some (s - v + 1)
             else if negb (Bool.eqb (r_sfe x) (r_efe x)) then None
             else some (v - s + 1)
           | _ => None
           end
    | _ => None
    end
  end.

(** ** Assigning to every element of a slice: llvm_codegen_expr.c:2831-2949 llvm_emit_slice_assign.  The answer is the list of the offsets
    written; [consts] says that both ends are LLVM constants. *)
Inductive written := WPanic | WAssertion | WEndless | Offsets (l : list Z).
Fixpoint assign_loop (fuel : nat) (sg exclusive : bool) (i t : Z) : written :=
  match fuel with
  | O => WEndless
  | S fuel =>
    if (if exclusive then gt sg t i else ge sg t i) then
      match assign_loop fuel sg exclusive (word (i + 1)) t with Offsets l => Offsets (i :: l) | w => w end
    else Offsets []
  end.
Definition UNROLL : Z := 4.                      (* SLICE_MAX_UNROLL *)
Definition upto (s t : Z) : list Z := map (fun k => s + Z.of_nat k) (seq 0 (Z.to_nat (t - s + 1))).
Definition assign (fuel : nat) (consts safe sg : bool) (e : env) (n : Z) (x : resolved) : written :=
  let sg' := (match shp x with ConstRange => true | _ => false end) || sg in
  match slice_values safe sg e n x with
  | EPanic => WPanic
  | EAssertion => WAssertion
  | Ends s t exclusive =>
    let loop := assign_loop fuel sg' exclusive s t in
    if consts then
      if (2 ^ 63 <=? s) || (2 ^ 63 <=? t) then WAssertion
      else if t <? s then Offsets []
      else if exclusive && (s =? t) then Offsets []
      else let t' := if exclusive then t - 1 else t in
           if t' - s <? UNROLL then Offsets (upto s t') else loop
    else loop
  end.

(** ** Slices of constants: sema_expr.c:3890-3948, 3808-3862.  [s] and [k] are the [start_index] and [len_index] of a constant range. *)
(** A constant string or bytes: None is a read outside the constant. *)
Definition const_bytes (data : list Z) (s k : Z) : option (list Z) :=
  if Z.of_nat (length data) <? s + k then None else Some (firstn (Z.to_nat k) (skipn (Z.to_nat s) data)).
(** An untyped list or a full array: lib.h:271-300 vec_erase_front, vec_resize; the places after the new end keep their contents. *)
Definition const_full {T} (l : list T) (s k : Z) : list T :=
  firstn (Z.to_nat k) (skipn (Z.to_nat s) l ++ skipn (length l - Z.to_nat s) l).
(** A sparse array: the elements with their indices. *)
Definition const_sparse {T} (l : list (Z * T)) (s k : Z) : list (Z * T) := filter (fun p => negb ((fst p <? s) || (s + k <=? fst p))) l.
(** The element at an index of a sparse array, if any is stored. *)
Fixpoint sparse_at {T} (l : list (Z * T)) (i : Z) : option T := match l with [] => None | (j, v) :: r => if i =? j then Some v else sparse_at r i end.

(** ** Indexing: sema_expr.c:3208-3299 sema_expr_resolve_subscript_index, 3058-3141 sema_slice_index_is_in_range.
    [len] is the length known at compile time; the answer is an error, or the operand and whether it still counts from the end. *)
Definition analyse_index (e : env) (len : option Z) (o : operand) (from_end : bool) : option (operand * bool) :=
  if from_end && no_length e then None
  else if negb (cst o) then Some (o, from_end)
  else
    let v := val o in
    match len with
    | Some n =>
      if (v <? 0) || negb (fits_i64 v) || (n =? 0) then None
      else let i := if from_end then n - v else v in
           if (i <? 0) || (n <=? i) then None
           else match e with EArray => Some (Operand i true, false) | _ => Some (o, from_end) end
    | None =>
      if negb (fits_i64 v) then None
      else if from_end then if (v <? 0) || (i32 v =? 0) then None else Some (o, from_end)
      else match e with EPointer => Some (o, false) | _ => if i32 v <? 0 then None else Some (o, false) end
    end.
(** llvm_codegen_expr.c:618-637 llvm_emit_array_bounds_check, 695-748 llvm_emit_subscript_addr for an array or a slice.  The subtraction
    from the length is marked nuw: if it wraps, the result is undefined. *)
Inductive access := IPanic | Undefined | At (i : Z).
Definition emit_index (safe sg : bool) (n : Z) (o : operand) (from_end : bool) : access :=
  let i0 := word (val o) in
  if from_end && (n <? i0) then Undefined else
  let i := if from_end then n - i0 else i0 in
  if safe && (ival sg i <? 0) then IPanic
  else if safe && ge sg i n then IPanic
  else if (0 <=? i) && (i <? n) then At i else Undefined.
(** llvm_codegen_expr.c:670-688 llvm_emit_vector_subscript: reading an element of a vector. *)
Definition emit_vector_index (n : Z) (o : operand) (from_end : bool) : access :=
  let i0 := word (val o) in
  if from_end && (n <? i0) then Undefined else
  let i := if from_end then n - i0 else i0 in
  if (0 <=? i) && (i <? n) then At i else Undefined.

(** ** Shifts: llvm_codegen_expr.c:4105-4119, 2519-2564.  [wl] and [wr] are the widths of both sides, [sl] the sign of the left side; [v] is
    the word of the right side.  The answer is the distance shifted by. *)
Definition wval (sg : bool) (w v : Z) : Z := if sg && (2 ^ (w - 1) <=? v) then v - 2 ^ w else v.
Definition shift_distance (safe sl : bool) (wl v : Z) : access :=
  let d := v mod 2 ^ wl in
  if safe && (if sl then (wval sl wl d <? 0) || (wl <=? wval sl wl d) else wl <=? d) then IPanic
  else if d <? wl then At d else Undefined.
(** sema_expr.c:7203-7231 sema_expr_check_shift_rhs for a constant on the right side. *)
Definition check_shift (wl c : Z) : bool := negb ((wl <=? c) || (c <? 0)).

(** ** from_ordinal: llvm_codegen_expr.c:6852-6883 llvm_emit_enum_from_ord; [w] and [sg] are the type of the number, [count] the number of the values of the enum. *)
Definition from_ordinal (safe sg : bool) (w count v : Z) : access :=
  if safe && sg && (wval sg w v <? 0) then IPanic
  else if safe && (wval sg w (count mod 2 ^ w) <=? wval sg w v) then IPanic
  else if v <? count then At v else Undefined.
