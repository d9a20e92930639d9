(** Model of lib/std/collections/range.c3: Range and ExclusiveRange of an integer type.
    Integers wrap (no trap-on-wrap); usz has 64 bits and C's int 32.  A failed contract is [Oob].
    Not modelled: ranges of other ordered types, and the formats. *)
From Coq Require Import ZArith Bool.
From Verif Require Import Mach.
Local Open Scope Z_scope.

(** An integer type, e.g. [Int true 32] for int. *)
Inductive int_type := Int (signed : bool) (bits : Z).
(** Conversion to an integer type. *)
Definition cast (t : int_type) (v : Z) : Z :=
  match t with
  | Int false b => v mod 2 ^ b
  | Int true b => (v + 2 ^ (b - 1)) mod 2 ^ b - 2 ^ (b - 1)
  end.
Definition usz : int_type := Int false 64.
(** src/compiler/sema_casts.c:658-680: the type arithmetic is done in. *)
Definition promoted (t : int_type) : int_type := match t with Int s b => if b <? 32 then Int s 32 else t end.
(** range.c3:7-11, 37-41; the type is a parameter of the module. *)
Record range := Range { start : Z; end_ : Z }.
(** range.c3:13-17 Range.len. *)
Definition len (t : int_type) (r : range) : Z :=
  if end_ r <? start r then 0 else cast usz (cast usz (cast (promoted t) (end_ r - start r)) + 1).
(** range.c3:19-22 Range.contains. *)
Definition contains (r : range) (v : Z) : bool := (start r <=? v) && (v <=? end_ r).
(** range.c3:24-30 Range.get, with its contract. *)
Definition get (t : int_type) (r : range) (i : Z) : Res Z :=
  if i <? len t r then Ok (cast t (cast usz (cast usz (start r) + cast usz i))) else Oob.
(** range.c3:43-47 ExclusiveRange.len. *)
Definition ex_len (t : int_type) (r : range) : Z :=
  if end_ r <? start r then 0 else cast usz (cast (promoted t) (end_ r - start r)).
(** range.c3:49-52 ExclusiveRange.contains. *)
Definition ex_contains (r : range) (v : Z) : bool := (start r <=? v) && (v <? end_ r).
(** range.c3:59-65 ExclusiveRange.get, with its contract. *)
Definition ex_get (t : int_type) (r : range) (i : Z) : Res Z :=
  if i <? ex_len t r then Ok (cast t (cast usz (cast usz (start r) + i))) else Oob.
