(** Model of lib/std/core/string_iterator.c3: walking over the code points of a string. *)
From Coq Require Import ZArith Bool List.
From Verif Require Import Mach UtfModel.
Import ListNotations.
Local Open Scope Z_scope.

(** string_iterator.c3:3-7. *)
Record siter := Siter { bytes_of : list Z; current : Z }.
(** A result of the type Char32?: a code point, NO_MORE_ELEMENT, or the fault of the decoder. *)
Inductive char_result := Char (u : Z) | NoMore | Invalid.
(** string.c3:640-643 String.iterator. *)
Definition iterator (s : list Z) : siter := Siter s 0.
(** string_iterator.c3:9-12 reset. *)
Definition reset (it : siter) : siter := Siter (bytes_of it) 0.
(** string_iterator.c3:19, 30, 43: how much the decoder may read. *)
Definition window (it : siter) : Z := let rest := zlen (bytes_of it) - current it in if rest <? 4 then rest else 4.
(** string_iterator.c3:14-23 next. *)
Definition next (it : siter) : Res (char_result * siter) :=
  if zlen (bytes_of it) <=? current it then Ok (NoMore, it) else
  r <- utf8_to_char32 (bytes_of it) (current it) (window it) ;;
  match r with None => Ok (Invalid, it) | Some (u, read) => Ok (Char u, Siter (bytes_of it) (current it + read)) end.
(** string_iterator.c3:25-33 peek. *)
Definition peek (it : siter) : Res char_result :=
  if zlen (bytes_of it) <=? current it then Ok NoMore else
  r <- utf8_to_char32 (bytes_of it) (current it) (window it) ;;
  match r with None => Ok Invalid | Some (u, _) => Ok (Char u) end.
(** string_iterator.c3:35-38 has_next. *)
Definition has_next (it : siter) : bool := current it <? zlen (bytes_of it).
(** string_iterator.c3:40-49 get. *)
Definition get_current (it : siter) : Res char_result :=
  let read := window it in
  let index := if read <? current it then current it - read else 0 in
  if zlen (bytes_of it) <=? index then Ok NoMore else
  r <- utf8_to_char32 (bytes_of it) index read ;;
  match r with None => Ok Invalid | Some (u, _) => Ok (Char u) end.
