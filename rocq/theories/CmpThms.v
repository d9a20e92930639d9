(** C06: run-time comparison of integers of any signedness. *)
From Coq Require Import ZArith Bool.
From Verif Require Import Word Int128Model Int128Spec CmpModel CmpSpec CmpProofs.
Open Scope Z_scope.

(** The emitted instructions, for two values already of one width (any width). *)
Theorem C06_emitted_compare : forall w ls rs lconst rconst op l r,
  0 < w -> 0 <= l < 2 ^ w -> 0 <= r < 2 ^ w ->
  match lconst with Some v => v = l | None => True end ->
  match rconst with Some v => v = r | None => True end ->
  eval_ir w l r (emit_cmp w ls rs lconst rconst op) =
  zcmp op (if ls then swrap w l else l) (if rs then swrap w r else r).
Proof. exact emit_any_width. Qed.
Print Assumptions C06_emitted_compare.

(** With widening, provided the narrower signed operand has the builtin type. *)
Theorem C06_runtime_compare_partial : forall l r lc rc lv rv op,
  narrow_signed_is_plain l r -> is_bits (kind l) lv -> is_bits (kind r) rv ->
  run_cmp l r lc rc lv rv op = zcmp op (bits_value (kind l) lv) (bits_value (kind r) rv).
Proof. exact run_cmp_spec. Qed.
Print Assumptions C06_runtime_compare_partial.

Theorem C06_folded_compare_partial : forall l r a b op, narrow_signed_is_plain l r ->
  valid a -> valid b -> itype a = kind l -> itype b = kind r ->
  fold_cmp l r a b op = zcmp op (value a) (value b).
Proof. exact fold_cmp_spec. Qed.
Print Assumptions C06_folded_compare_partial.

(** Without the proviso it is false: an operand of alias type (e.g. CInt = int,
    value -1) compared with ulong.max: "equal", and "-1 < ulong.max" is false. *)
Theorem C06_alias_compare_refuted : exists l r lv rv,
  is_bits (kind l) lv /\ is_bits (kind r) rv /\
  run_cmp l r false false lv rv OpEQ <> zcmp OpEQ (bits_value (kind l) lv) (bits_value (kind r) rv) /\
  run_cmp l r false false lv rv OpLT <> zcmp OpLT (bits_value (kind l) lv) (bits_value (kind r) rv).
Proof.
  exists (mkTy false I32), (mkTy true U64), (2 ^ 32 - 1), (2 ^ 64 - 1).
  repeat split; vm_compute; first [reflexivity | discriminate].
Qed.
Print Assumptions C06_alias_compare_refuted.

Example C06_ex : run_cmp (mkTy true I8) (mkTy true U64) false true (2 ^ 8 - 1) (2 ^ 64 - 1) OpLT = true /\
  narrow_signed_is_plain (mkTy true I8) (mkTy true U64).
Proof. split; [vm_compute; reflexivity|]. split; cbn; intros; congruence. Qed.
