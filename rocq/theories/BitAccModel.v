(** Model of the code emitted to read, write and initialise the members of a bitstruct:
    src/compiler/llvm_codegen_expr.c and src/compiler/llvm_codegen_instr.c.  An LLVM integer of [w] bits is a number
    below 2^w; the emitted instructions are run as they are emitted. *)
From Coq Require Import ZArith List Bool.
Import ListNotations.
Open Scope Z_scope.

(** llvm_codegen_instr.c:22-30, llvm_emit_lshr_fixed, for a shift that is not negative. *)
Definition lshr (w x k : Z) : Z := if w <=? k then 0 else Z.shiftr x k.
(** llvm_codegen_instr.c:42-50, llvm_emit_shl_fixed, for a shift that is not negative. *)
Definition shl (w x k : Z) : Z := if w <=? k then 0 else Z.shiftl x k mod 2 ^ w.
(** The number a [w]-bit word stands for when it is signed. *)
Definition signed (w x : Z) : Z := if x <? 2 ^ (w - 1) then x else x - 2 ^ w.
(** llvm_codegen_instr.c:32-40, llvm_emit_ashr_fixed, for 0 <= k < w. *)
Definition ashr (w x k : Z) : Z := Z.shiftr (signed w x) k mod 2 ^ w.
Definition ones (w : Z) : Z := 2 ^ w - 1.
Definition lnot (w x : Z) : Z := Z.lxor (ones w) x.
(** llvm_codegen_internal_impl.h:19-31, llvm_zext_trunc, and 33-45, llvm_sext_trunc. *)
Definition zext_trunc (to x : Z) : Z := x mod 2 ^ to.
Definition sext_trunc (from to x : Z) : Z := signed from x mod 2 ^ to.
(** llvm_codegen_expr.c:318-326, llvm_mask_low_bits. *)
Definition mask_low_bits (w x n : Z) : Z := if n <? 1 then 0 else if w <=? n then x else Z.land (lshr w (ones w) (w - n)) x.
(** llvm_codegen_expr.c:295-300 and 302-307, llvm_const_low_bitmask and llvm_const_high_bitmask. *)
Definition low_bitmask (w n : Z) : Z := if n <? 1 then 0 else if w <=? n then ones w else lshr w (ones w) (w - n).
Definition high_bitmask (w n : Z) : Z := if n <? 1 then 0 else if w <=? n then ones w else lnot w (lshr w (ones w) n).
(** The intrinsic llvm.bswap on [n] bytes. *)
Fixpoint bytes_of (n : nat) (x : Z) : list Z := match n with O => [] | S k => x mod 2 ^ 8 :: bytes_of k (x / 2 ^ 8) end.
Fixpoint of_bytes (l : list Z) : Z := match l with [] => 0 | b :: r => b + 2 ^ 8 * of_bytes r end.
Definition bswap (w x : Z) : Z := of_bytes (rev (bytes_of (Z.to_nat (w / 8)) x)).
(** utils/lib.h:436-439, is_power_of_two. *)
Definition is_power_of_two (x : Z) : bool := negb (x =? 0) && (Z.land x (x - 1) =? 0).
(** llvm_codegen_expr.c:906-912, llvm_bswap_non_integral on a word of [w] bits; [None] when the assertion fails. *)
Definition bswap_non_integral (w x n : Z) : option Z :=
  if n <=? 8 then Some x else if negb (is_power_of_two n) then None else Some (bswap w (shl w x (w - n))).

(** A member: its bits, the width of its type (8 for bool, which is kept in a byte) and whether it is signed or bool. *)
Record Field := mkField { f_start : Z; f_end : Z; f_width : Z; f_signed : bool; f_bool : bool }.

(** *** Integers as container, [bits] wide; [swap] is bitstruct_requires_bitswap, llvm_codegen_expr.c:1831-1838. *)

(** llvm_codegen_expr.c:983-1021, llvm_extract_bitvalue. *)
Definition extract (bits : Z) (swap : bool) (mem : Z) (f : Field) : Z :=
  let value := if swap then bswap bits mem else mem in
  if f_signed f then
    let left_shift := bits - f_end f - 1 in
    let value := if negb (left_shift =? 0) then shl bits value left_shift else value in
    let right_shift := left_shift + f_start f in
    let value := if negb (right_shift =? 0) then ashr bits value right_shift else value in
    sext_trunc bits (f_width f) value
  else
    let value := if negb (f_start f =? 0) then lshr bits value (f_start f) else value in
    zext_trunc (f_width f) (mask_low_bits bits value (f_end f - f_start f + 1)).
(** llvm_codegen_expr.c:1128-1152, llvm_emit_bitstruct_value_update. *)
Definition value_update (bits current : Z) (f : Field) (val : Z) : Z :=
  let left_shift := bits - f_end f - 1 in
  let mask := shl bits (lshr bits (shl bits (ones bits) left_shift) (left_shift + f_start f)) (f_start f) in
  let val := Z.land (shl bits (zext_trunc bits val) (f_start f)) mask in
  Z.lor (Z.land current (lnot bits mask)) val.
(** llvm_codegen_expr.c:1184-1196, the end of llvm_emit_bitassign_expr. *)
Definition assign (bits : Z) (swap : bool) (mem : Z) (f : Field) (val : Z) : Z :=
  let current := if swap then bswap bits mem else mem in
  let current := value_update bits current f val in
  if swap then bswap bits current else current.
(** llvm_codegen_expr.c:1547-1573, llvm_emit_initialize_reference_bitstruct, and 1781-1801 for designated members. *)
Definition initialize (bits : Z) (swap : bool) (inits : list (Field * Z)) : Z :=
  let data := fold_left (fun d p => value_update bits d (fst p) (snd p)) inits 0 in
  if swap then bswap bits data else data.
(** llvm_codegen_expr.c:1709-1729: a member of a bitstruct that is itself a member, in a designated initialiser. *)
Definition initialize_nested (bits : Z) (swap : bool) (mem : Z) (f : Field) (val : Z) : Z := value_update bits mem f val.
(** llvm_codegen_expr.c:1915-1968, llvm_emit_const_bitstruct: every member has a constant. *)
Definition const_step (bits result : Z) (f : Field) (val : Z) : Z :=
  let bit_size := f_end f - f_start f + 1 in
  let value := zext_trunc bits val in
  let value := if bit_size <? bits then Z.land (lshr bits (ones bits) (bits - bit_size)) value else value in
  let value := if 0 <? f_start f then shl bits value (f_start f) else value in
  Z.lor value result.
Definition const_init (bits : Z) (swap : bool) (inits : list (Field * Z)) : Z :=
  let result := fold_left (fun d p => const_step bits d (fst p) (snd p)) inits 0 in
  if swap then bswap bits result else result.

(** *** Arrays as container, of elements of [stride] bytes each (1 for char).  The memory of the container is a list of
    bytes; [None] is an access outside of it, or a failed assertion. *)
Definition get (m : list Z) (i : Z) : option Z := if i <? 0 then None else nth_error m (Z.to_nat i).
Fixpoint put_nat (m : list Z) (i : nat) (v : Z) : option (list Z) :=
  match m, i with
  | [], _ => None
  | _ :: r, O => Some (v :: r)
  | b :: r, S k => match put_nat r k v with Some r => Some (b :: r) | None => None end
  end.
Definition put (m : list Z) (i v : Z) : option (list Z) := if i <? 0 then None else put_nat m (Z.to_nat i) v.
Definition bind {A B} (x : option A) (f : A -> option B) : option B := match x with Some a => f a | None => None end.

(** llvm_codegen_expr.c:928-958, the loop of llvm_extract_bitvalue_from_array, from byte [i] on for [n] bytes. *)
Fixpoint read_bytes (stride : Z) (m : list Z) (w start_byte offset : Z) (i : Z) (n : nat) (res : Z) : option Z :=
  match n with
  | O => Some res
  | S k =>
    bind (get m (stride * i)) (fun byte =>
    let element := zext_trunc w byte in
    let current_offset := 8 * (i - start_byte) - offset in
    let element := if current_offset <? 0 then lshr w element (- current_offset)
                   else if 0 <? current_offset then shl w element current_offset else element in
    read_bytes stride m w start_byte offset (i + 1) k (Z.lor element res))
  end.
(** llvm_codegen_expr.c:888-904, llvm_extract_bool_bit_from_array, and 914-980, llvm_extract_bitvalue_from_array. *)
Definition extract_array (stride : Z) (swap : bool) (m : list Z) (f : Field) : option Z :=
  if f_bool f then bind (get m (stride * (f_start f / 8))) (fun e => Some (lshr 8 e (f_start f mod 8) mod 2))
  else
    let w := f_width f in
    let start_byte := f_start f / 8 in
    let end_byte := f_end f / 8 in
    bind (read_bytes stride m w start_byte (f_start f mod 8) start_byte (Z.to_nat (end_byte - start_byte + 1)) 0) (fun res =>
    bind (if swap then bswap_non_integral w res (f_end f - f_start f + 1) else Some res) (fun res =>
    Some (if f_signed f then
            let top := w - f_end f + f_start f - 1 in
            if negb (top =? 0) then ashr w (shl w res top) top else res
          else mask_low_bits w res (f_end f - f_start f + 1)))).

(** llvm_codegen_expr.c:1060-1119, the loop of llvm_emit_update_bitstruct_array from byte [i] on for [n] bytes. *)
Fixpoint write_bytes (stride : Z) (m : list Z) (f : Field) (i : Z) (n : nat) (value : Z) : option (list Z) :=
  let start_byte := f_start f / 8 in
  let end_byte := f_end f / 8 in
  let start_mod := f_start f mod 8 in
  let end_mod := f_end f mod 8 in
  match n with
  | O => Some m
  | S k =>
    if (i =? start_byte) && negb (start_mod =? 0) then
      let res := zext_trunc 8 (shl (f_width f) value start_mod) in
      let mask := low_bitmask 8 start_mod in
      let last := (i =? end_byte) && negb (end_mod =? 7) in
      let res := if last then Z.land res (low_bitmask 8 (end_mod + 1)) else res in
      let mask := if last then Z.lor mask (high_bitmask 8 (7 - f_end f)) else mask in
      bind (get m (stride * i)) (fun current =>
      bind (put m (stride * i) (Z.lor (Z.land current mask) res)) (fun m =>
      write_bytes stride m f (i + 1) k (lshr (f_width f) value (8 - start_mod))))
    else if (i =? end_byte) && negb (end_mod =? 7) then
      (* The result of llvm_emit_or_raw is dropped: line 1109. *)
      let mask := low_bitmask 8 (end_mod + 1) in
      bind (get m (stride * i)) (fun current =>
      bind (put m (stride * i) (Z.land current (lnot 8 mask))) (fun m =>
      write_bytes stride m f (i + 1) k (Z.land (zext_trunc 8 value) mask)))
    else
      bind (put m (stride * i) (zext_trunc 8 value)) (fun m => write_bytes stride m f (i + 1) k (lshr (f_width f) value 8))
  end.
(** llvm_codegen_expr.c:1023-1120, llvm_emit_update_bitstruct_array; a bool is a byte 0 or 1. *)
Definition update_array (stride : Z) (swap : bool) (m : list Z) (f : Field) (value : Z) : option (list Z) :=
  if f_bool f then
    let byte := stride * (f_start f / 8) in
    let bit := shl 8 1 (f_start f mod 8) in
    bind (get m byte) (fun current =>
    put m byte (Z.lor (Z.land current (lnot 8 bit)) (shl 8 value (f_start f mod 8))))
  else
    let bit_size := f_end f - f_start f + 1 in
    bind (if swap then bswap_non_integral (f_width f) value bit_size else Some value) (fun value =>
    if negb ((0 <? bit_size) && (bit_size <=? 128)) then None
    else write_bytes stride m f (f_start f / 8) (Z.to_nat (f_end f / 8 - f_start f / 8 + 1)) value).

(** llvm_codegen_expr.c:1840-1913, llvm_emit_const_bitstruct_array: one slot, a byte, per element of the container. *)
Fixpoint const_bytes (m : list Z) (f : Field) (j : Z) (n : nat) (value : Z) : option (list Z) :=
  match n with
  | O => Some m
  | S k =>
    let w := f_width f in
    let to_or := if j =? f_start f / 8 then shl w value (f_start f mod 8) else lshr w value (j * 8 - f_start f) in
    let to_or := if j =? f_end f / 8 then mask_low_bits w to_or (f_end f mod 8 + 1) else to_or in
    let to_or := if 8 <? w then to_or mod 2 ^ 8 else to_or in
    bind (get m j) (fun current => bind (put m j (Z.lor to_or current)) (fun m => const_bytes m f (j + 1) k value))
  end.
Definition const_array_step (swap : bool) (m : list Z) (f : Field) (value : Z) : option (list Z) :=
  if f_bool f then
    if value =? 0 then Some m
    else bind (get m (f_start f / 8)) (fun current => put m (f_start f / 8) (Z.lor current (shl 8 1 (f_start f mod 8))))
  else
    let bit_size := f_end f - f_start f + 1 in
    if negb ((0 <? bit_size) && (bit_size <=? 128)) then None
    else
      let value := mask_low_bits (f_width f) value bit_size in
      bind (if swap && (8 <? bit_size) then bswap_non_integral (f_width f) value bit_size else Some value) (fun value =>
      const_bytes m f (f_start f / 8) (Z.to_nat (f_end f / 8 - f_start f / 8 + 1)) value).
Fixpoint const_array_go (swap : bool) (m : list Z) (inits : list (Field * Z)) : option (list Z) :=
  match inits with [] => Some m | p :: r => bind (const_array_step swap m (fst p) (snd p)) (fun m => const_array_go swap m r) end.
Definition const_array (swap : bool) (elements : nat) (inits : list (Field * Z)) : option (list Z) :=
  const_array_go swap (repeat 0 elements) inits.
(** llvm_codegen_expr.c:1529-1545 and 1757-1777: the same at run time. *)
Fixpoint init_array_go (stride : Z) (swap : bool) (m : list Z) (inits : list (Field * Z)) : option (list Z) :=
  match inits with [] => Some m | p :: r => bind (update_array stride swap m (fst p) (snd p)) (fun m => init_array_go stride swap m r) end.
Definition init_array (stride : Z) (swap : bool) (elements : nat) (inits : list (Field * Z)) : option (list Z) :=
  init_array_go stride swap (repeat 0 (Z.to_nat stride * elements)) inits.
