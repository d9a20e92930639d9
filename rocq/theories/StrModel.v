(** Functions on String (lib/std/core/string.c3).  A String is the list of its bytes; a slice of one is the list of the bytes it covers. *)
From Coq Require Import ZArith List Bool.
From Verif Require Import Mach.
Import ListNotations.
Open Scope Z_scope.

(** s[from:n]; the compiler inserts a bounds check, so a slice that does not fit is [Oob]. *)
Definition slice (s : list Z) (from n : Z) : Res (list Z) :=
  if (0 <=? from) && (0 <=? n) && (from + n <=? zlen s) then Ok (firstn (Z.to_nat n) (skipn (Z.to_nat from) s)) else Oob.
(** Comparison of two strings with == . *)
Fixpoint eqs (a b : list Z) : bool := match a, b with [], [] => true | x :: a', y :: b' => (x =? y) && eqs a' b' | _, _ => false end.

(** char_in_set (string.c3:89-93). *)
Definition char_in_set (c : Z) (set : list Z) : bool := existsb (Z.eqb c) set.
(** The loop of trim_left (string.c3:145): k bounds the steps. *)
Fixpoint trim_start (s set : list Z) (k : nat) (start : Z) : Res Z :=
  if start <? zlen s then
    c <- get s start ;;
    if char_in_set c set then match k with O => Fuel | S k' => trim_start s set k' (start + 1) end else Ok start
  else Ok start.
(** String.trim_left (string.c3:141-148). *)
Definition trim_left (s set : list Z) : Res (list Z) :=
  start <- trim_start s set (length s) 0 ;;
  if start =? zlen s then slice s 0 0 else slice s start (zlen s - start).
(** The loop of trim_right (string.c3:161). *)
Fixpoint trim_end (s set : list Z) (k : nat) (len : Z) : Res Z :=
  if 0 <? len then
    c <- get s (len - 1) ;;
    if char_in_set c set then match k with O => Fuel | S k' => trim_end s set k' (len - 1) end else Ok len
  else Ok len.
(** String.trim_right (string.c3:158-163). *)
Definition trim_right (s set : list Z) : Res (list Z) := len <- trim_end s set (length s) (zlen s) ;; slice s 0 len.
(** String.trim (string.c3:128-131). *)
Definition trim (s set : list Z) : Res (list Z) := t <- trim_left s set ;; trim_right t set.

(** String.starts_with (string.c3:173-178). *)
Definition starts_with (s prefix : list Z) : Res bool :=
  if zlen prefix >? zlen s then Ok false else if zlen prefix =? 0 then Ok true else w <- slice s 0 (zlen prefix) ;; Ok (eqs w prefix).
(** String.ends_with (string.c3:188-193). *)
Definition ends_with (s suffix : list Z) : Res bool :=
  if zlen suffix >? zlen s then Ok false else if zlen suffix =? 0 then Ok true else w <- slice s (zlen s - zlen suffix) (zlen suffix) ;; Ok (eqs w suffix).
(** String.strip (string.c3:203-207). *)
Definition strip (s prefix : list Z) : Res (list Z) :=
  if zlen prefix =? 0 then Ok s else b <- starts_with s prefix ;; if b then slice s (zlen prefix) (zlen s - zlen prefix) else Ok s.
(** String.strip_end (string.c3:217-222). *)
Definition strip_end (s suffix : list Z) : Res (list Z) :=
  if zlen suffix =? 0 then Ok s else b <- ends_with s suffix ;; if b then slice s 0 (zlen s - zlen suffix) else Ok s.

(** String.index_of_char (string.c3:351-358), index_of_chars (370-381) and index_of_char_from (394-403): the first index from i with a byte of the set. *)
Fixpoint index_chars (s set : list Z) (k : nat) (i : Z) : Res (option Z) :=
  match k with
  | O => Ok None
  | S k' => c <- get s i ;; if char_in_set c set then Ok (Some i) else index_chars s set k' (i + 1)
  end.
Definition index_of_char (s : list Z) (c : Z) : Res (option Z) := index_chars s [c] (length s) 0.
Definition index_of_chars (s cs : list Z) : Res (option Z) := index_chars s cs (length s) 0.
Definition index_of_char_from (s : list Z) (c start : Z) : Res (option Z) :=
  if zlen s <=? start then Ok None else index_chars s [c] (Z.to_nat (zlen s - start)) start.
(** String.rindex_of_char (string.c3:415-422): k indices are left, from k - 1 down. *)
Fixpoint rindex_char (s : list Z) (c : Z) (k : nat) : Res (option Z) :=
  match k with
  | O => Ok None
  | S k' => x <- get s (Z.of_nat k') ;; if x =? c then Ok (Some (Z.of_nat k')) else rindex_char s c k'
  end.
Definition rindex_of_char (s : list Z) (c : Z) : Res (option Z) := rindex_char s c (length s).

(** The loop of index_of (string.c3:441-444). *)
Fixpoint index_loop (s sub : list Z) (first : Z) (k : nat) (i : Z) : Res (option Z) :=
  match k with
  | O => Ok None
  | S k' => c <- get s i ;;
            if c =? first then w <- slice s i (zlen sub) ;; if eqs w sub then Ok (Some i) else index_loop s sub first k' (i + 1)
            else index_loop s sub first k' (i + 1)
  end.
(** String.index_of (string.c3:435-447). *)
Definition index_of (s sub : list Z) : Res (option Z) :=
  if (0 <? zlen sub) && (zlen sub <=? zlen s) then
    first <- get sub 0 ;; index_loop s sub first (Z.to_nat (zlen s - zlen sub + 1)) 0
  else Ok None.
(** The loop of rindex_of (string.c3:466-469): k indices are left, from k - 1 down. *)
Fixpoint rindex_loop (s sub : list Z) (first : Z) (k : nat) : Res (option Z) :=
  match k with
  | O => Ok None
  | S k' => let i := Z.of_nat k' in
            c <- get s i ;;
            if c =? first then w <- slice s i (zlen sub) ;; if eqs w sub then Ok (Some i) else rindex_loop s sub first k'
            else rindex_loop s sub first k'
  end.
(** String.rindex_of (string.c3:460-472). *)
Definition rindex_of (s sub : list Z) : Res (option Z) :=
  if (0 <? zlen sub) && (zlen sub <=? zlen s) then
    first <- get sub 0 ;; rindex_loop s sub first (Z.to_nat (zlen s - zlen sub + 1))
  else Ok None.
(** String.contains (string.c3:336-339). *)
Definition contains (s sub : list Z) : Res bool := r <- index_of s sub ;; Ok (match r with Some _ => true | None => false end).

(** One turn of the loop of split (string.c3:244-255): the piece, the rest, and whether this was the last piece.
    max - 1 is computed in usz: max = 0 never meets the count. *)
Definition next_piece (s d : list Z) (max i : Z) : Res (list Z * list Z * bool) :=
  ix <- (if i =? (max - 1) mod 2 ^ 64 then Ok None else index_of s d) ;;
  match ix with
  | Some x => res <- slice s 0 x ;; rest <- slice s (x + zlen d) (zlen s - (x + zlen d)) ;; Ok (res, rest, false)
  | None => Ok (s, s, true)
  end.
(** String.split (string.c3:236-269) from its loop on: the pieces so far, how many there are, and the capacity of the array they are in. *)
Fixpoint split_loop (k : nat) (s d : list Z) (max : Z) (skip_empty : bool) (i cap : Z) (acc : list (list Z)) : Res (list (list Z)) :=
  match k with
  | O => Fuel
  | S k' =>
    ' (res, rest, no_more) <- next_piece s d max i ;;
    if (zlen res =? 0) && skip_empty then (if no_more then Ok acc else split_loop k' rest d max skip_empty i cap acc)
    else
      let cap := if i =? cap then 2 * cap else cap in
      if i <? cap then (if no_more then Ok (acc ++ [res]) else split_loop k' rest d max skip_empty (i + 1) cap (acc ++ [res]))
      else Oob
  end.
Definition split (s d : list Z) (max : Z) (skip_empty : bool) : Res (list (list Z)) := split_loop (S (length s)) s d max skip_empty 0 16 [].
(** String.split_to_buffer (string.c3:296-326): None is BUFFER_EXCEEDED. *)
Fixpoint split_buffer_loop (k : nat) (s d : list Z) (cap max : Z) (skip_empty : bool) (i : Z) (acc : list (list Z)) : Res (option (list (list Z))) :=
  match k with
  | O => Fuel
  | S k' =>
    ' (res, rest, no_more) <- next_piece s d max i ;;
    if (zlen res =? 0) && skip_empty then (if no_more then Ok (Some acc) else split_buffer_loop k' rest d cap max skip_empty i acc)
    else if i =? cap then Ok None
    else if i <? cap then (if no_more then Ok (Some (acc ++ [res])) else split_buffer_loop k' rest d cap max skip_empty (i + 1) (acc ++ [res]))
    else Oob
  end.
Definition split_to_buffer (s d : list Z) (cap max : Z) (skip_empty : bool) : Res (option (list (list Z))) :=
  split_buffer_loop (S (length s)) s d cap max skip_empty 0 [].

(** string::join (string.c3:95-118): the first string, then the joiner and each of the others. *)
Definition join (ss : list (list Z)) (joiner : list Z) : list Z :=
  match ss with [] => [] | s :: r => fold_left (fun res x => (res ++ joiner) ++ x) r s end.
(** String.concat (string.c3:508-517) and String.copy (string.c3:529-536): the bytes of the new block, the zero at the end included. *)
Definition concat_block (a b : list Z) : list Z := (a ++ b) ++ [0].
Definition copy_block (a : list Z) : list Z := a ++ [0].

(** Splitter.next (string.c3:811-829): the piece and the new position, or None for NO_MORE_ELEMENT. *)
Fixpoint splitter_next (k : nat) (s d : list Z) (tokenize : bool) (current : Z) : Res (option (list Z * Z)) :=
  if current >=? zlen s then Ok None else
  remaining <- slice s current (zlen s - current) ;;
  next <- index_of remaining d ;;
  match next with
  | Some n => let current' := current + n + zlen d in
              if (n =? 0) && tokenize then match k with O => Fuel | S k' => splitter_next k' s d tokenize current' end
              else piece <- slice remaining 0 n ;; Ok (Some (piece, current'))
  | None => Ok (Some (remaining, zlen s))
  end.
(** Calling next until it fails. *)
Fixpoint splitter_all (k : nat) (s d : list Z) (tokenize : bool) (current : Z) : Res (list (list Z)) :=
  r <- splitter_next (length s) s d tokenize current ;;
  match r with
  | None => Ok []
  | Some (piece, current') => match k with O => Fuel | S k' => l <- splitter_all k' s d tokenize current' ;; Ok (piece :: l) end
  end.

(** String.convert_to_lower and convert_to_upper (string.c3:597-600, 620-623; ascii.c3:4-5). *)
Definition to_lower (s : list Z) : list Z := map (fun c => if (65 <=? c) && (c <? 91) then c + 32 else c) s.
Definition to_upper (s : list Z) : list Z := map (fun c => if (97 <=? c) && (c <? 123) then c - 32 else c) s.

(** The answers of to_integer. *)
Inductive parsed := Val (v : Z) | EmptyString | NegativeValue | MalformedInteger | IntegerOverflow.
(** The value of z in an integer type of the given width. *)
Definition wrap_int (sgn : bool) (bits z : Z) : Z :=
  let m := z mod 2 ^ bits in if sgn && (2 ^ (bits - 1) <=? m) then m - 2 ^ bits else m.
(** The blanks at the start (string.c3:704; ascii.c3:16). *)
Fixpoint skip_blanks (s : list Z) : list Z := match s with c :: r => if (c =? 32) || (c =? 9) then skip_blanks r else s | [] => [] end.
(** The loop over the digits (string.c3:744-768); c is a char, so c -= '0' wraps at 256. *)
Fixpoint digits_loop (sgn : bool) (bits base : Z) (neg : bool) (s : list Z) (value : Z) : parsed :=
  match s with
  | [] => Val value
  | c :: r =>
    let d := if negb (base =? 16) || (c <? 65) then Some ((c - 48) mod 256)
             else if c <=? 70 then Some ((c - 55) mod 256)
             else if (c <? 97) || (c >? 102) then None
             else Some ((c - 87) mod 256) in
    match d with
    | None => MalformedInteger
    | Some d =>
      if d >=? base then MalformedInteger
      else if neg then let v := wrap_int sgn bits (value * base - d) in if v >? value then IntegerOverflow else digits_loop sgn bits base neg r v
      else let v := wrap_int sgn bits (value * base + d) in if v <? value then IntegerOverflow else digits_loop sgn bits base neg r v
    end
  end.
(** String.to_integer (string.c3:699-770).  The text from the index on is followed instead of the index. *)
Definition to_integer (sgn : bool) (bits base : Z) (s : list Z) : parsed :=
  match skip_blanks s with
  | [] => EmptyString
  | c :: r =>
    if (c =? 45) && negb sgn then NegativeValue else
    let neg := c =? 45 in
    match (if neg || (c =? 43) then r else c :: r) with
    | [] => MalformedInteger
    | (c1 :: r1) as s1 =>
      if (c1 =? 48) && (base =? 10) then
        match r1 with
        | [] => Val 0
        | c2 :: r2 =>
          let '(base', s2) := if (c2 =? 120) || (c2 =? 88) then (16, r2) else if (c2 =? 98) || (c2 =? 66) then (2, r2)
                              else if (c2 =? 111) || (c2 =? 79) then (8, r2) else (base, r1) in
          match s2 with [] => MalformedInteger | _ => digits_loop sgn bits base' neg s2 0 end
        end
      else digits_loop sgn bits base neg s1 0
    end
  end.
