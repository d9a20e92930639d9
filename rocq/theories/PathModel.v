(** Model of paths (lib/std/io/path.c3).  A path is the list of its bytes; env is given by win (true: WIN32, false: POSIX).  Reads and writes
    of the string are checked; None stands for the fault INVALID_PATH. *)
From Coq Require Import ZArith List Bool.
From Verif Require Import Mach StrModel.
Import ListNotations.
Open Scope Z_scope.

(** is_separator (path.c3:64-67), RESERVED_PATH_CHAR_POSIX / WIN32 (635-651). *)
Definition is_sep (win : bool) (c : Z) : bool := (c =? 47) || ((c =? 92) && win).
Definition reserved (win : bool) (c : Z) : bool :=
  if win then (c <=? 31) || existsb (Z.eqb c) [62; 60; 58; 34; 47; 92; 124; 63; 42] else (c =? 0) || (c =? 47).
Definition separator (win : bool) : Z := if win then 92 else 47.

(** volume_name_len (path.c3:353-387): the while loop that counts the backslashes, and the search for the second separator. *)
Fixpoint backslashes (k : nat) (p : list Z) (count : Z) : Res Z :=
  match k with
  | O => Fuel
  | S k' => if count <? zlen p then c <- get p count ;; if c =? 92 then backslashes k' p (count + 1) else Ok count else Ok count
  end.
Fixpoint share (k : nat) (p : list Z) (i base : Z) : Res (option Z) :=
  match k with
  | O => Fuel
  | S k' =>
    if i <? zlen p then
      c <- get p i ;;
      if is_sep true c then if base =? 0 then share k' p (i + 1) i else Ok (Some i)
      else if reserved true c then Ok None
      else share k' p (i + 1) base
    else if (0 <? base) && (base + 1 <? zlen p) then Ok (Some (zlen p)) else Ok None
  end.
Definition volume_name_len (win : bool) (p : list Z) : Res (option Z) :=
  let len := zlen p in
  if (len <? 2) || negb win then Ok (Some 0) else
  c <- get p 0 ;;
  if c =? 92 then
    if len =? 2 then Ok (Some 0) else
    count <- backslashes (S (length p)) p 1 ;;
    if negb (count =? 2) then Ok (Some 0) else share (S (length p)) p 2 0
  else if ((65 <=? c) && (c <=? 90)) || ((97 <=? c) && (c <=? 122)) then d <- get p 1 ;; Ok (Some (if d =? 58 then 2 else 0))
  else Ok (Some 0).

(** The number of dots of an element that starts with one (path.c3:454-471); 0 if it is a name. *)
Definition dots_at (win : bool) (mem : list Z) (i : Z) : Res Z :=
  let n := zlen mem in
  if i =? n - 1 then Ok 1 else
  next <- get mem (i + 1) ;;
  if next =? 46 then if i =? n - 2 then Ok 2 else c <- get mem (i + 2) ;; Ok (if is_sep win c then 2 else 0)
  else Ok (if is_sep win next then 1 else 0).
(** The test for a .. that is kept (path.c3:484-487), with its evaluation order; the byte len - 3 is tested twice, the byte len - 2 never. *)
Definition keep_dots (win : bool) (start : Z) (mem : list Z) (len : Z) : Res bool :=
  if len =? start then Ok true else
  if negb (3 <=? len - start) then Ok false else
  a <- get mem (len - 1) ;;
  if negb (a =? separator win) then Ok false else
  b <- get mem (len - 3) ;;
  if negb (b =? 46) then Ok false else
  if len - 3 =? 0 then Ok true else
  c <- get mem (len - 4) ;; Ok (c =? separator win).
(** Stepping back over a name (path.c3:502-505). *)
Fixpoint back (win : bool) (k : nat) (mem : list Z) (start len : Z) : Res Z :=
  match k with
  | O => Fuel
  | S k' => if start <? len then c <- get mem (len - 1) ;; if is_sep win c then Ok len else back win k' mem start (len - 1) else Ok len
  end.
(** The loop of normalize (path.c3:431-518).  prev is previous_was_separator; the result is the memory and the length. *)
Fixpoint loop (win root : bool) (start : Z) (k : nat) (mem : list Z) (i len : Z) (prev : bool) : Res (option (list Z * Z)) :=
  match k with
  | O => Fuel
  | S k' =>
    let n := zlen mem in
    if n <=? i then Ok (Some (mem, len)) else
    c <- get mem i ;;
    if is_sep win c then
      if prev then loop win root start k' mem (i + 1) len prev
      else mem <- set mem len (separator win) ;; loop win root start k' mem (i + 1) (len + 1) true
    else if reserved win c then Ok None else
    dots <- (if (c =? 46) && prev then dots_at win mem i else Ok 0) ;;
    if dots =? 1 then loop win root start k' mem (i + 2) len prev
    else if dots =? 2 then
      if (len =? start) && root then Ok None else
      keep <- keep_dots win start mem len ;;
      if keep : bool then
        mem <- (if i =? len then Ok mem else mem <- set mem len 46 ;; set mem (len + 1) 46) ;;
        if len + 2 <? n then mem <- set mem (len + 2) (separator win) ;; loop win root start k' mem (i + 3) (len + 3) prev
        else loop win root start k' mem (i + 3) (len + 2) prev
      else
        len <- back win (S (length mem)) mem start (len - 1) ;;
        loop win root start k' mem (i + 3) len prev
    else
      mem <- (if i =? len then Ok mem else set mem len c) ;;
      loop win root start k' mem (i + 1) (len + 1) false
  end.
(** The volume gets the preferred separators (path.c3:413-416). *)
Fixpoint fix_volume (k : nat) (mem : list Z) (i : Z) : Res (list Z) :=
  match k with
  | O => Ok mem
  | S k' => c <- get mem i ;; mem <- (if c =? 47 then set mem i 92 else Ok mem) ;; fix_volume k' mem (i + 1)
  end.
(** normalize (path.c3:409-528): the memory of the argument afterwards and the length of the result. *)
Definition normalize (win : bool) (path : list Z) : Res (option (list Z * Z)) :=
  if zlen path =? 0 then Ok (Some (path, 0)) else
  v <- volume_name_len win path ;;
  match v with
  | None => Ok None
  | Some start =>
    mem <- (if (0 <? start) && win then fix_volume (Z.to_nat start) path 0 else Ok path) ;;
    let n := zlen path in
    if start =? n then Ok (Some (mem, n)) else
    c <- get mem start ;;
    let root := is_sep win c in
    mem <- (if root then set mem start (separator win) else Ok mem) ;;
    let start := if root then start + 1 else start in
    r <- loop win root start (S (length path)) mem start start true ;;
    match r with
    | None => Ok None
    | Some (mem, len) =>
      trim <- (if start + 1 <? len then c <- get mem (len - 1) ;; Ok (is_sep win c) else Ok false) ;;
      let len := if trim : bool then len - 1 else len in
      mem <- (if len <? n then set mem len 0 else Ok mem) ;;
      if len =? 0 then mem <- set mem 0 46 ;; Ok (Some (mem, 1)) else Ok (Some (mem, len))
    end
  end.
(** path::new (path.c3:141-144): the string of the path, and what as_zstr (530) points at: the copy ends with a zero byte. *)
Definition path_string (r : list Z * Z) : list Z := firstn (Z.to_nat (snd r)) (fst r).
Fixpoint until_zero (m : list Z) : list Z := match m with [] => [] | c :: m => if c =? 0 then [] else c :: until_zero m end.
Definition as_zstr (r : list Z * Z) : list Z := until_zero (fst r).

(** start_of_base_name (path.c3:198-217), Path.basename (278-284) and Path.dirname (293-307) for POSIX. *)
Definition base_start (p : list Z) : Res Z := if zlen p =? 0 then Ok 0 else r <- rindex_of_char p 47 ;; Ok (match r with Some i => i + 1 | None => 0 end).
Definition basename (p : list Z) : Res (list Z) :=
  s <- base_start p ;; if s =? zlen p then Ok [] else slice p s (zlen p - s).
Definition dirname (p : list Z) : Res (list Z) :=
  s <- base_start p ;;
  if s =? 0 then Ok [46] else if s <=? 0 + 1 then slice p 0 s else slice p 0 (s - 1).
(** Path.parent (path.c3:396-407) for POSIX; None: NO_PARENT. *)
Fixpoint last_sep (k : nat) (p : list Z) : Res (option Z) :=
  match k with O => Ok None | S k' => c <- get p (Z.of_nat k') ;; if is_sep false c then Ok (Some (Z.of_nat k')) else last_sep k' p end.
Definition parent (p : list Z) : Res (option (list Z)) :=
  one <- (if zlen p =? 1 then c <- get p 0 ;; Ok (is_sep false c) else Ok false) ;;
  if one : bool then Ok None else
  r <- last_sep (length p) p ;;
  match r with Some i => q <- slice p 0 i ;; Ok (Some q) | None => Ok None end.
(** Path.has_extension (path.c3:319-325), Path.extension (327-334) for POSIX; None: the fault NOT_FOUND. *)
Definition has_extension (p ext : list Z) : Res bool :=
  b <- basename p ;;
  if zlen b <=? zlen ext then Ok false else
  c <- get b (zlen b - (zlen ext + 1)) ;;
  if negb (c =? 46) then Ok false else
  s <- slice b (zlen b - zlen ext) (zlen ext) ;; Ok (eqs s ext).
Definition extension (p : list Z) : Res (option (list Z)) :=
  b <- basename p ;;
  r <- rindex_of b [46] ;;
  match r with
  | None => Ok None
  | Some i => if (i =? 0) || (i =? zlen b) then Ok (Some []) else e <- slice b (i + 1) (zlen b - (i + 1)) ;; Ok (Some e)
  end.
(** Path.append (path.c3:181-194) for POSIX: None is INVALID_PATH; the assertion that the path does not end with a separator is Oob if it fails. *)
Definition append (p file : list Z) : Res (option (list Z * Z)) :=
  if zlen p =? 0 then normalize false file else
  c <- get p (zlen p - 1) ;;
  if is_sep false c then Oob else normalize false (p ++ [47] ++ file).
(** Path.is_absolute (path.c3:225-232). *)
Definition is_absolute (win : bool) (p : list Z) : Res (option bool) :=
  if zlen p =? 0 then Ok (Some false) else
  v <- volume_name_len win p ;;
  match v with
  | None => Ok None
  | Some s =>
    c <- get p 0 ;;
    if (0 <? s) && (c =? 92) then Ok (Some true) else
    if s <? zlen p then d <- get p s ;; Ok (Some (is_sep win d)) else Ok (Some false)
  end.
