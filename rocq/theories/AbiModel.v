(** How arguments and results are passed on x86-64 (System V): src/compiler/abi/c_abi_x64.c.
    Types are lowered types with the layout that semantic analysis has computed: [type_lowering] has replaced enums, distinct types, aliases, bitstructs and pointers to
    functions by what they stand for.  Sizes are integers without bound: a type has less than 2^32 bytes where they matter, as one of more than 64 bytes is in memory.
    Not modelled: the Windows convention, flexible array members, `regcall`, the attributes of arguments (sign extension, alignment of a copy in memory). *)
From Coq Require Import ZArith List Bool.
Import ListNotations.
Open Scope Z_scope.

(** The element of a vector. *)
Inductive velem := VInt (n : Z) | VFlt (n : Z) | VInt128.
(** compiler_internal.h: [Type]. [TInt] is bool, an integer or a pointer of [n] bytes; [TFlt] a float of 2, 4 or 8 bytes; [TPair] a slice or `any`;
    [TAgg] a union or a struct, with its size, alignment and members with their offsets. *)
Inductive ty :=
| TVoid | TInt (n : Z) | TInt128 | TFlt (n : Z) | TF128 | TPair
| TAgg (is_union : bool) (size align : Z) (members : list (Z * ty))
| TArray (base : ty) (len : nat)
| TVec (base : velem) (len : Z).
(** target.h:105-106, types.c:59: the parts of the target that matter. [max_vec] is 0 if there is no greatest alignment of vectors. *)
Record target := Target { avx : Z; int128_vec_in_mem : bool; max_vec : Z }.

Definition vsize1 (v : velem) : Z := match v with VInt n | VFlt n => n | VInt128 => 16 end.
(** lib.h:457-467: [next_highest_power_of_2], of a width that is not 0. *)
Definition pow2_up (w : Z) : Z := 2 ^ Z.log2_up w.
(** types.c:314-372: [type_size]. *)
Fixpoint size (t : ty) : Z :=
  match t with
  | TVoid => 1 | TInt n | TFlt n => n | TInt128 | TF128 | TPair => 16
  | TAgg _ s _ _ => s | TArray b n => size b * Z.of_nat n | TVec v n => pow2_up (vsize1 v * n)
  end.
(** types.c:667-736: [type_abi_alignment]; on this target scalars are aligned to their size. *)
Fixpoint align (g : target) (t : ty) : Z :=
  match t with
  | TVoid => 1 | TInt n | TFlt n => n | TInt128 | TF128 => 16 | TPair => 8
  | TAgg _ _ a _ => a | TArray b _ => align g b
  | TVec v n => let width := vsize1 v * (if n =? 0 then 1 else n) in
                if negb (max_vec g =? 0) && (max_vec g <? width) then max_vec g else pow2_up width
  end.

(** c_abi_x64.c:27-35: [X64Class]. *)
Inductive class := No | Mem | Integer | Sse | SseUp.
Definition rank (c : class) : Z := match c with No => 0 | Mem => 1 | Integer => 2 | Sse => 3 | SseUp => 4 end.
Definition ceq (a b : class) : bool := rank a =? rank b.
(** c_abi_x64.c:167-201: [x64_merge]; [None] is a failed assertion. *)
Definition merge (accum field : class) : option class :=
  if ceq accum Mem then None else
  if ceq accum field then Some accum else
  let '(accum, field) := if rank field <? rank accum then (field, accum) else (accum, field) in
  Some (match accum with No => field | Mem => Mem | Integer => Integer | SseUp | Sse => Sse end).
(** c_abi_x64.c:202-220: [x64_classify_post_merge]. *)
Definition post_merge (sz : Z) (lo hi : class) : class * class :=
  if ceq hi Mem then (Mem, hi) else
  if (16 <? sz) && (negb (ceq lo Sse) || negb (ceq hi SseUp)) then (Mem, hi) else
  if ceq hi SseUp && negb (ceq lo Sse) && negb (ceq lo SseUp) then (lo, Sse) else (lo, hi).
(** c_abi_x64.c:384-388: the classes with [c] at the current place. *)
Definition current (off : Z) (c : class) : class * class := if off <? 8 then (c, No) else (No, c).
(** c_abi_x64.c:314-356: [x64_classify_vector]. *)
Definition classify_vector (g : target) (named : bool) (v : velem) (n off : Z) : class * class :=
  let sz := pow2_up (vsize1 v * n) in
  if (sz =? 1) || (sz =? 2) || (sz =? 4) then
    let '(lo, hi) := current off Integer in
    if negb ((off + sz - 1) / 8 =? off / 8) then (lo, lo) else (lo, hi)
  else if sz =? 8 then
    match v with
    | VFlt 8 => current off Mem
    | _ => let '(lo, hi) := current off Sse in if negb (off =? 0) && negb (off =? 8) then (lo, lo) else (lo, hi)
    end
  else if (sz =? 16) || (named && (sz <=? avx g)) then
    if int128_vec_in_mem g && negb (sz =? 16) && match v with VInt128 => true | _ => false end then current off Mem else (Sse, SseUp)
  else current off Mem.
(** c_abi_x64.c:382-431: [x64_classify], with lines 222-267, [x64_classify_struct_union], and 269-312, [x64_classify_array], in place. [None] is a failed assertion. *)
Fixpoint classify (g : target) (named : bool) (t : ty) (off : Z) : option (class * class) :=
  match t with
  | TVoid => Some (No, No)
  | TInt128 | TPair => Some (Integer, Integer)
  | TInt _ => Some (current off Integer)
  | TFlt _ => Some (current off Sse)
  | TF128 => Some (Sse, SseUp)
  | TVec v n => Some (classify_vector g named v n off)
  | TAgg u sz _ ms =>
      if 64 <? sz then Some (current off Mem) else
      (fix members (ms : list (Z * ty)) (lo hi : class) : option (class * class) :=
         match ms with
         | [] => Some (post_merge sz lo hi)
         | (mo, m) :: r =>
             if (16 <? sz) && ((negb u && negb (sz =? size m)) || (avx g <? sz)) then Some (post_merge sz Mem hi) else
             if negb ((off + mo) mod align g m =? 0) then Some (post_merge sz Mem hi) else
             match classify g named m (off + mo) with
             | None => None
             | Some (fl, fh) =>
                 match merge lo fl, merge hi fh with
                 | Some lo, Some hi => if ceq lo Mem || ceq hi Mem then Some (post_merge sz lo hi) else members r lo hi
                 | _, _ => None
                 end
             end
         end) ms No No
  | TArray b n =>
      let sz := size b * Z.of_nat n in
      if 64 <? sz then Some (current off Mem) else
      if negb (off mod align g b =? 0) then let '(lo, hi) := current off Mem in Some (post_merge sz Mem hi) else
      if (16 <? sz) && (negb (sz =? size b) || (avx g <? sz)) then Some (Mem, No) else
      let check r := match r with Some (lo, hi) => if ceq hi SseUp && negb (ceq lo Sse) then None else r | None => None end in
      check ((fix elements (n : nat) (off : Z) (lo hi : class) : option (class * class) :=
         match n with
         | O => Some (post_merge sz lo hi)
         | S k =>
             match classify g named b off with
             | None => None
             | Some (fl, fh) =>
                 match merge lo fl, merge hi fh with
                 | Some lo, Some hi => if ceq lo Mem || ceq hi Mem then Some (post_merge sz lo hi) else elements k (off + size b) lo hi
                 | _, _ => None
                 end
             end
         end) n off No No)
  end.

(** c_abi_x64.c:433-466: [x64_bits_contain_no_user_data]. *)
Fixpoint no_data (t : ty) (start stop : Z) : bool :=
  if size t <=? start then true else
  match t with
  | TArray b n =>
      (fix go (n : nat) (off : Z) : bool :=
         match n with
         | O => true
         | S k => if stop <=? off then true else if no_data b (if off <? start then start - off else 0) (stop - off) then go k (off + size b) else false
         end) n 0
  | TAgg _ _ _ ms =>
      (fix go (ms : list (Z * ty)) : bool :=
         match ms with
         | [] => true
         | (mo, m) :: r => if stop <=? mo then true else if no_data m (if mo <? start then start - mo else 0) (stop - mo) then go r else false
         end) ms
  | _ => false
  end.

(** What a register holds: an integer of 1, 2, 4 or 8 bytes, one of another number of bytes, a float, two floats of 4 bytes, some floats of 2 bytes, or a vector. *)
Inductive abity := AInt (n : Z) | AOdd (n : Z) | AFlt (n : Z) | AFloats | AHalfs (n : Z) | AWide (n : Z).
(** c_abi.c:31-35: [abi_type_size]. *)
Definition asize (a : abity) : Z := match a with AInt n | AOdd n | AFlt n | AWide n => n | AFloats => 8 | AHalfs n => 2 * n end.
(** c_abi.c:37-41: [abi_type_abi_alignment]; a vector is never one of two parts. *)
Definition aalign (a : abity) : Z := match a with AOdd n => pow2_up n | _ => asize a end.
(** c_abi_internal.h:63-75: [abi_type_get_int_bits], in bytes. *)
Definition int_of (n : Z) : abity := if (n =? 1) || (n =? 2) || (n =? 4) || (n =? 8) then AInt n else AOdd n.

(** c_abi_x64.c:551-622: [x64_get_int_type_at_offset], with lines 358-370, [x64_get_member_at_offset], in place. [None] is a failed assertion. *)
Fixpoint int_at (t : ty) (off : Z) (src : ty) (soff : Z) : option abity :=
  let rest := if size src =? soff then None else if 8 <? size src - soff then Some (AInt 8) else Some (int_of (size src - soff)) in
  match t with
  | TVoid => None
  | TInt 8 => if off =? 0 then Some (AInt 8) else rest
  | TInt n => if negb (off =? 0) then rest else if no_data src (soff + n) (soff + 8) then Some (AInt n) else rest
  | TAgg false s _ ms =>
      if s <=? off then rest else
      (fix go (ms : list (Z * ty)) (last : option abity) : option abity :=
         match ms with [] => last | (mo, m) :: r => if off <? mo then last else go r (int_at m (off - mo) src soff) end) ms None
  | TPair => if off <? 16 then Some (AInt 8) else rest
  | TArray b _ => int_at b (off - off / size b * size b) src soff
  | _ => rest
  end.

(** c_abi_x64.c:487-503: [x64_get_fp_type_at_offset]: the size of the float there, if there is one. [None] is a dereferenced null pointer, or a failed assertion. *)
Fixpoint fp_at (t : ty) (off : Z) : option (option Z) :=
  match t with
  | TFlt n => Some (if off =? 0 then Some n else None)
  | TF128 => Some (if off =? 0 then Some 16 else None)
  | TAgg _ s _ ms =>
      if s <=? off then None else
      (fix go (ms : list (Z * ty)) (last : option (option Z)) : option (option Z) :=
         match ms with [] => last | (mo, m) :: r => if off <? mo then last else go r (fp_at m (off - mo)) end) ms None
  | TArray b _ => fp_at b (off - size b * (off / size b))
  | _ => Some None
  end.
(** c_abi_x64.c:505-549: [x64_get_sse_type_at_offset]; both types and offsets are always the same. *)
Definition sse_at (t : ty) (off : Z) : option abity :=
  match fp_at t off with
  | None => None
  | Some None => Some (AFlt 8)
  | Some (Some f) =>
      if f =? 8 then Some (AFlt 8) else
      let left := size t - off in
      let follow (need from : Z) := if need <? left then fp_at t (off + from) else Some None in
      match follow f f with
      | None => None
      | Some second =>
          match (match second with Some _ => Some second | None => if f =? 2 then follow 4 4 else Some None end) with
          | None => None
          | Some None => Some (AFlt f)
          | Some (Some f2) =>
              if (f =? 4) && (f2 =? 4) then Some AFloats else
              if (f =? 2) && (f2 =? 2) then
                match follow 4 4 with None => None | Some None => Some (AHalfs 2) | Some (Some _) => Some (AHalfs 4) end
              else if (f =? 2) || (f2 =? 2) then Some (AHalfs 4) else Some (AFlt 8)
          end
      end
  end.

(** How an argument or a result is passed: not at all, in one register, in two, or in memory (c_abi_x64.c:77-113, [x64_indirect_result]: a copy on the stack). *)
Inductive arg := Ignored | One (a : abity) | Two (lo hi : abity) | Memory.
(** c_abi_x64.c:658-664: [x64_get_argument_pair_return]; lib.h, [aligned_offset]. *)
Definition aligned_offset (off al : Z) : Z := (off + al - 1) / al * al.
Definition pair (lo hi : abity) : option arg := if aligned_offset (asize lo) (aalign hi) =? 8 then Some (Two lo hi) else None.
(** c_abi_x64.c:764-847: [x64_classify_argument_type]: how it is passed, and the integer and vector registers it needs. *)
Definition argument (g : target) (named : bool) (t : ty) : option (arg * Z * Z) :=
  match classify g named t 0 with
  | None => None
  | Some (lo, hi) =>
      if ceq hi Mem && negb (ceq lo Mem) then None else
      if ceq hi SseUp && negb (ceq lo Sse) then None else
      let low := match lo with Integer => int_at t 0 t 0 | Sse => sse_at t 0 | _ => None end in
      let ints := if ceq lo Integer then 1 else 0 in
      let sses := if ceq lo Sse then 1 else 0 in
      match lo with
      | No => if ceq hi No then Some (Ignored, 0, 0) else None
      | SseUp => None
      | Mem => Some (Memory, 0, 0)
      | Integer | Sse =>
          match low with
          | None => None
          | Some low =>
              match hi with
              | Mem => None
              | No => match low with AOdd n => if n =? size t then Some (One low, ints, sses) else None | _ => Some (One low, ints, sses) end
              | Integer => match int_at t 8 t 8 with None => None | Some high => option_map (fun r => (r, ints + 1, sses)) (pair low high) end
              | Sse => match sse_at t 8 with None => None | Some high => option_map (fun r => (r, ints, sses + 1)) (pair low high) end
              | SseUp => (* c_abi_x64.c:624-656: [x64_get_byte_vector_type]; a vector alone in a struct is passed as that vector, of the same size *)
                  if (size t =? 16) || (size t =? 32) || (size t =? 64) then Some (One (AWide (size t)), ints, sses) else None
              end
          end
      end
  end.
(** c_abi_x64.c:667-752: [x64_classify_return], and 42-54, [x64_indirect_return_result]: true if the caller passes the address of the result. *)
Definition aggregate (t : ty) : bool := match t with TAgg _ _ _ _ | TArray _ _ | TPair => true | _ => false end.
Definition result (g : target) (t : ty) : option (arg * bool) :=
  match argument g true t with
  | None => None
  | Some (r, _, _) => Some (r, match r with Memory => aggregate t | _ => false end)
  end.
(** c_abi_x64.c:870-882: [x64_classify_parameter], and 18-26, [try_use_registers]; the free registers are pairs of integer and vector registers. *)
Definition parameter (g : target) (named : bool) (t : ty) (free : Z * Z) : option (arg * (Z * Z)) :=
  match argument g named t with
  | None => None
  | Some (r, i, s) => if snd free <? s then Some (Memory, free) else if fst free <? i then Some (Memory, free) else Some (r, (fst free - i, snd free - s))
  end.
(** c_abi_x64.c:906-928: the loops over parameters. *)
Fixpoint parameters (g : target) (named : bool) (ts : list ty) (free : Z * Z) : option (list arg * (Z * Z)) :=
  match ts with
  | [] => Some ([], free)
  | t :: r =>
      match parameter g named t free with
      | None => None
      | Some (a, free) => match parameters g named r free with None => None | Some (l, free) => Some (a :: l, free) end
      end
  end.
(** c_abi_x64.c:884-930: [c_abi_func_create_x64]: the result, the hidden parameter for the result of an optional (a pointer), the parameters, the variable arguments. *)
Definition create (g : target) (ret : ty) (by_ref : bool) (params varargs : list ty) : option (arg * list arg * list arg * list arg) :=
  match result g ret with
  | None => None
  | Some (r, sret) =>
      let free := (if sret then 5 else 6, 8) in
      match parameters g true (if by_ref then [TInt 8] else []) free with
      | None => None
      | Some (h, free) =>
          match parameters g true params free with
          | None => None
          | Some (l, free) => match parameters g false varargs free with None => None | Some (v, _) => Some (r, h, l, v) end
          end
      end
  end.
