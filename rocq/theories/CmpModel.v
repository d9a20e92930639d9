(** Model of run-time integer comparisons: the operand widening done by the
    semantic analysis and the LLVM instructions emitted for the comparison. *)
From Coq Require Import ZArith Bool List.
From Verif Require Import Word Int128Model.
Open Scope Z_scope.

(** The static type of an operand as seen by sema_expr.c:7430-7444.
    [plain] says that [expr->type] itself is the builtin integer type; it is
    [false] when [expr->type] is an alias (isz, iptr, CInt, user aliases), an
    inline distinct type or an optional of it.  [kind] is the flattened type. *)
Record OpTy := mkTy { plain : bool; kind : IKind }.

(** types.c: type_int_signed_by_bitsize / type_int_unsigned_by_bitsize *)
Definition signed_by_bitsize (b : Z) : IKind :=
  if b =? 8 then I8 else if b =? 16 then I16 else if b =? 32 then I32 else if b =? 64 then I64 else I128.
Definition unsigned_by_bitsize (b : Z) : IKind :=
  if b =? 8 then U8 else if b =? 16 then U16 else if b =? 32 then U32 else if b =? 64 then U64 else U128.

(** llvm_codegen_expr.c:6840-6850 (EXPR_EXT_TRUNC) with the sign flag computed
    by cast_int_to_int, sema_casts.c:1657-1682: sign or zero extension of the
    bits of a [from] value to the width of [to]; truncation otherwise. *)
Definition ext_trunc (from to : IKind) (v : Z) : Z :=
  if kbits from <? kbits to then
    (if ksigned from then (swrap (kbits from) v) mod 2 ^ kbits to else v)
  else v mod 2 ^ kbits to.

(** sema_casts.c:173-198, cast_to_int_to_max_bit_size: the new type of each
    side.  The test [lhs->type->type_kind < TYPE_U8] looks at the unflattened
    type, so it is true only for a plain signed builtin. *)
Definition widen_target (t : OpTy) (bits : Z) : IKind :=
  if plain t && ksigned (kind t) then signed_by_bitsize bits else unsigned_by_bitsize bits.
Definition max_bit_size (l r : OpTy) : IKind * IKind :=
  let bl := kbits (kind l) in
  let br := kbits (kind r) in
  if bl =? br then (kind l, kind r)
  else if bl <? br then (widen_target l br, kind r)
  else (kind l, widen_target r bl).

(** sema_expr.c:7430-7470: mixed signedness goes through max_bit_size; with
    equal signedness both sides are cast to the larger type
    (type_find_max_num_type, types.c:1770). *)
Definition comp_types (l r : OpTy) : IKind * IKind :=
  if negb (Bool.eqb (ksigned (kind l)) (ksigned (kind r))) then max_bit_size l r
  else
    let m := if kbits (kind l) <? kbits (kind r) then kind r else kind l in (m, m).

(** The LLVM values the comparison refers to and the instructions emitted. *)
Inductive Val := VL | VR | VZero.
Inductive Pred := PEQ | PNE | PUGT | PUGE | PULT | PULE | PSGT | PSGE | PSLT | PSLE.
Inductive IR := ICmp (p : Pred) (a b : Val) | IAnd (a b : IR) | IOr (a b : IR) | IConst (b : bool).

Definition swap_op (op : CmpOp) : CmpOp :=
  match op with OpGE => OpLE | OpGT => OpLT | OpLE => OpGE | OpLT => OpGT | o => o end.
Definition upred (op : CmpOp) : Pred :=
  match op with OpEQ => PEQ | OpNE => PNE | OpGE => PUGE | OpGT => PUGT | OpLE => PULE | OpLT => PULT end.
Definition spred (op : CmpOp) : Pred :=
  match op with OpEQ => PEQ | OpNE => PNE | OpGE => PSGE | OpGT => PSGT | OpLE => PSLE | OpLT => PSLT end.

(** llvm_codegen_expr.c:3019-3214 after the swap: [a] is the left and [b] the
    right value.  [aconst] is [Some v] when the left value is a compile-time
    constant with bits [v] (LLVMConstIntGetSExtValue applies to sizes <= 8
    bytes only).  Vectors are not modelled. *)
Definition emit_ordered (w : Z) (ls rs : bool) (aconst : option Z) (a b : Val) (op : CmpOp) : IR :=
  let signed_tail :=
    let comp := ICmp (spred op) a b in
    if rs then comp
    else match op with
         | OpEQ => IAnd (ICmp PSGE a VZero) comp
         | OpNE => IOr (ICmp PSLT a VZero) comp
         | OpGE => IAnd (ICmp PSGE b VZero) comp
         | OpGT => IAnd (ICmp PSGE b VZero) comp
         | OpLE => IOr (ICmp PSLT b VZero) comp
         | OpLT => IOr (ICmp PSLT b VZero) comp
         end in
  match aconst with
  | Some v =>
    if ls && negb rs && (w <=? 64) then
      if swrap w v <? 0 then
        IConst (match op with OpEQ | OpGE | OpGT => false | OpNE | OpLE | OpLT => true end)
      else ICmp (upred op) a b
    else if negb ls then ICmp (upred op) a b else signed_tail
  | None => if negb ls then ICmp (upred op) a b else signed_tail
  end.

(** llvm_codegen_expr.c:3034-3066: swap so that a mixed comparison has the
    signed value on the left. *)
Definition emit_cmp (w : Z) (ls rs : bool) (lconst rconst : option Z) (op : CmpOp) : IR :=
  if negb (Bool.eqb ls rs) && negb ls
  then emit_ordered w true false rconst VR VL (swap_op op)
  else emit_ordered w ls rs lconst VL VR op.

(** LLVM semantics of icmp/and/or on w-bit values (LLVM LangRef). *)
Definition val_of (l r : Z) (v : Val) : Z := match v with VL => l | VR => r | VZero => 0 end.
Definition eval_pred (w : Z) (p : Pred) (x y : Z) : bool :=
  let sx := swrap w x in let sy := swrap w y in
  match p with
  | PEQ => x =? y | PNE => negb (x =? y)
  | PUGT => y <? x | PUGE => y <=? x | PULT => x <? y | PULE => x <=? y
  | PSGT => sy <? sx | PSGE => sy <=? sx | PSLT => sx <? sy | PSLE => sx <=? sy
  end.
Fixpoint eval_ir (w l r : Z) (e : IR) : bool :=
  match e with
  | ICmp p a b => eval_pred w p (val_of l r a) (val_of l r b)
  | IAnd x y => eval_ir w l r x && eval_ir w l r y
  | IOr x y => eval_ir w l r x || eval_ir w l r y
  | IConst b => b
  end.

(** The whole path: widen both operands, emit, run.  [lc]/[rc] say whether the
    operand is a compile-time constant. *)
Definition run_cmp (l r : OpTy) (lc rc : bool) (lv rv : Z) (op : CmpOp) : bool :=
  let '(tl, tr) := comp_types l r in
  let lv' := ext_trunc (kind l) tl lv in
  let rv' := ext_trunc (kind r) tr rv in
  let w := kbits tl in
  eval_ir w lv' rv'
    (emit_cmp w (ksigned tl) (ksigned tr) (if lc then Some lv' else None) (if rc then Some rv' else None) op).

(** Both operands constant: the operands are converted with int_conv and
    folded with int_comp (sema_expr.c, expr_const_compare). *)
Definition fold_cmp (l r : OpTy) (a b : Int) (op : CmpOp) : bool :=
  let '(tl, tr) := comp_types l r in
  int_comp (if kbits (kind l) =? kbits tl then mkInt (ival a) (itype a) else int_conv a tl)
           (if kbits (kind r) =? kbits tr then mkInt (ival b) (itype b) else int_conv b tr) op.
