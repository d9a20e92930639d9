(** UTF-8 (RFC 3629) and UTF-16 (RFC 2781). *)
From Coq Require Import ZArith Bool List.
From Verif Require Import Mach LexSpec.
Import ListNotations.
Open Scope Z_scope.

(** Unicode scalar values: the code points without the surrogates.  [utf8] (LexSpec.v) is the encoding of one. *)
Definition scalar (u : Z) : Prop := 0 <= u < 55296 \/ 57344 <= u <= 1114111.
Definition utf8s (us : list Z) : list Z := flat_map utf8 us.
Definition utf16 (u : Z) : list Z := if u <? 65536 then [u] else [55296 + (u - 65536) / 1024; 56320 + (u - 65536) mod 1024].
Definition utf16s (us : list Z) : list Z := flat_map utf16 us.

(** The byte sequences the decoder accepts: a lead byte and the continuation bytes it announces, with a code point whose bits above
    the last six are not all zero.  This is larger than UTF-8. *)
Definition cont (c : Z) : Prop := 128 <= c < 192.
Inductive loose : Z -> list Z -> Prop :=
| Loose1 u : 0 <= u < 128 -> loose u [u]
| Loose2 a b : 192 < a < 224 -> cont b -> loose (64 * (a - 192) + (b - 128)) [a; b]
| Loose3 a b c : 224 <= a < 240 -> cont b -> cont c -> 0 < 64 * (a - 224) + (b - 128) -> loose (4096 * (a - 224) + 64 * (b - 128) + (c - 128)) [a; b; c]
| Loose4 a b c d : 240 <= a < 248 -> cont b -> cont c -> cont d -> 0 < 4096 * (a - 240) + 64 * (b - 128) + (c - 128) ->
    loose (262144 * (a - 240) + 4096 * (b - 128) + 64 * (c - 128) + (d - 128)) [a; b; c; d].
Inductive looses : list Z -> list Z -> Prop :=
| Looses_nil : looses [] []
| Looses_cons u b us bs : loose u b -> looses us bs -> looses (u :: us) (b ++ bs).

Definition is_unit (c : Z) : Prop := 0 <= c < 65536.
(** How many of the code points need two UTF-16 units. *)
Definition pairs (us : list Z) : Z := zlen (filter (fun u => negb (u <? 65536)) us).
(** The rest of a caller's buffer behind the output: a terminating zero if there is room for it (in the second case: for it and one more). *)
Definition ended (r : list Z) : list Z := match r with [] => [] | _ :: q => 0 :: q end.
Definition ended2 (r : list Z) : list Z := match r with x :: y :: q => 0 :: y :: q | _ => r end.
