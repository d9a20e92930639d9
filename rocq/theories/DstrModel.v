(** The dynamic string (lib/std/core/dstring.c3). *)
From Coq Require Import ZArith List Bool.
From Verif Require Import Mach UtfModel StrModel.
Import ListNotations.
Open Scope Z_scope.

(** StringData (dstring.c3:664-670): the cells of chars, of which there are capacity, and len.  A cell that was never written is None.
    The allocator is left out. *)
Record block := Block { cells : list (option Z); blen : Z }.
(** DString (dstring.c3:7): null or a pointer to the data. *)
Definition dstring := option block.
Definition cap (b : block) : Z := zlen (cells b).
(** Reading and writing a range of memory; mem::copy, mem::move and slice assignment (llvm_codegen_expr.c:2794-2828, a memmove) read all, then write. *)
Definition read_range (m : list (option Z)) (i n : Z) : Res (list (option Z)) :=
  if (0 <=? i) && (0 <=? n) && (i + n <=? zlen m) then Ok (firstn (Z.to_nat n) (skipn (Z.to_nat i) m)) else Oob.
Definition write_range (m : list (option Z)) (i : Z) (xs : list (option Z)) : Res (list (option Z)) :=
  if (0 <=? i) && (i + zlen xs <=? zlen m) then Ok (firstn (Z.to_nat i) m ++ xs ++ skipn (Z.to_nat (i + zlen xs)) m) else Oob.
Definition move_range (m : list (option Z)) (dst src n : Z) : Res (list (option Z)) := xs <- read_range m src n ;; write_range m dst xs.
(** Using a byte that was never written counts as an access outside. *)
Fixpoint bytes (xs : list (option Z)) : Res (list Z) :=
  match xs with [] => Ok [] | Some x :: r => l <- bytes r ;; Ok (x :: l) | None :: _ => Oob end.
Definition byte_of (x : option Z) : Res Z := match x with Some x => Ok x | None => Oob end.

(** DString.init (dstring.c3:20-28), new_with_capacity (43-46). *)
Definition with_capacity (capacity : Z) : block := Block (repeat None (Z.to_nat (if capacity <? 16 then 16 else capacity))) 0.
(** dstring::new (dstring.c3:50-60), temp (62). *)
Definition new (c : list Z) : Res block :=
  let b := with_capacity (zlen c) in
  if zlen c =? 0 then Ok b else m <- write_range (cells b) 0 (map Some c) ;; Ok (Block m (zlen c)).
(** The doubling loop of reserve (dstring.c3:629), in usz. *)
Fixpoint grow (k : nat) (new_capacity len : Z) : Res Z :=
  if new_capacity <? len then match k with O => Fuel | S k' => grow k' ((new_capacity * 2) mod 2 ^ 64) len end else Ok new_capacity.
(** DString.reserve (dstring.c3:617-632); realloc keeps the old bytes and never fails. *)
Definition reserve (d : dstring) (addition : Z) : Res block :=
  match d with
  | None => Ok (with_capacity addition)
  | Some b =>
    let len := (blen b + addition) mod 2 ^ 64 in
    if len <=? cap b then Ok b else
    let c := (cap b * 2) mod 2 ^ 64 in
    let c := if c <? 16 then 16 else c in
    c <- grow 64 c len ;;
    Ok (Block (cells b ++ repeat None (Z.to_nat (c - cap b))) (blen b))
  end.
(** DString.len (dstring.c3:149-153), str_view (164-169). *)
Definition dlen (d : dstring) : Z := match d with None => 0 | Some b => blen b end.
Definition str_view (d : dstring) : Res (list Z) :=
  match d with None => Ok [] | Some b => xs <- read_range (cells b) 0 (blen b) ;; bytes xs end.

(** DString.append_chars (dstring.c3:308-321) of a string that is not in the memory of this one; DString.write (341-345). *)
Definition append_chars (d : dstring) (t : list Z) : Res dstring :=
  if zlen t =? 0 then Ok d else
  match d with
  | None => b <- new t ;; Ok (Some b)
  | Some _ => b <- reserve d (zlen t) ;; m <- write_range (cells b) (blen b) (map Some t) ;; Ok (Some (Block m (blen b + zlen t)))
  end.
(** data.chars[data.len++] = c *)
Definition push (b : block) (c : Z) : Res block := m <- set (cells b) (blen b) (Some c) ;; Ok (Block m (blen b + 1)).
(** DString.append_char (dstring.c3:352-361). *)
Definition append_char (d : dstring) (c : Z) : Res dstring :=
  let b := match d with None => with_capacity 16 | Some b => b end in
  b <- reserve (Some b) 1 ;; b <- push b c ;; Ok (Some b).
(** DString.append_repeat (dstring.c3:208-217). *)
Fixpoint push_times (b : block) (c : Z) (k : nat) : Res block := match k with O => Ok b | S k' => b <- push b c ;; push_times b c k' end.
Definition append_repeat (d : dstring) (c times : Z) : Res dstring :=
  if times =? 0 then Ok d else b <- reserve d times ;; b <- push_times b c (Z.to_nat times) ;; Ok (Some b).
(** The bytes that char32_to_utf8_unsafe leaves in a buffer of four. *)
Definition char32_bytes (c : Z) : Res (list Z) := ' (buf, p) <- char32_to_utf8_unsafe c [0; 0; 0; 0] 0 ;; Ok (firstn (Z.to_nat p) buf).
(** DString.append_char32 (dstring.c3:222-232). *)
Definition append_char32 (d : dstring) (c : Z) : Res dstring :=
  t <- char32_bytes c ;; b <- reserve d (zlen t) ;; m <- write_range (cells b) (blen b) (map Some t) ;; Ok (Some (Block m (blen b + zlen t))).
(** DString.append_utf32 (dstring.c3:189-198). *)
Fixpoint append_all32 (d : dstring) (cs : list Z) : Res dstring := match cs with [] => Ok d | c :: r => d <- append_char32 d c ;; append_all32 d r end.
Definition append_utf32 (d : dstring) (cs : list Z) : Res dstring := b <- reserve d (zlen cs) ;; append_all32 (Some b) cs.

(** DString.delete (dstring.c3:377-393) and delete_range (368-371), for start within the string. *)
Definition delete (d : dstring) (start n : Z) : Res dstring :=
  if n =? 0 then Ok d else
  match d with
  | None => Oob
  | Some b =>
    let new_len := blen b - n in
    if new_len =? 0 then Ok (Some (Block (cells b) 0)) else
    let len_after := blen b - start - n in
    m <- (if 0 <? len_after then move_range (cells b) start (start + n) len_after else Ok (cells b)) ;;
    Ok (Some (Block m new_len))
  end.
(** DString.chop (dstring.c3:158-162), clear (335-339), set (203-206). *)
Definition chop (d : dstring) (n : Z) : dstring := match d with None => None | Some b => Some (Block (cells b) n) end.
Definition clear (d : dstring) : dstring := chop d 0.
Definition set_at (d : dstring) (i c : Z) : Res dstring := match d with None => Oob | Some b => m <- set (cells b) i (Some c) ;; Ok (Some (Block m (blen b))) end.

(** DString.insert_chars_at (dstring.c3:423-453) of a string that is not in the memory of this one: only the last case of the switch applies. *)
Definition insert_chars (d : dstring) (index : Z) (t : list Z) : Res dstring :=
  if zlen t =? 0 then Ok d else
  b <- reserve d (zlen t) ;;
  let len := blen b in
  let index := Z.min index len in
  m <- move_range (cells b) (index + zlen t) index (len - index) ;;
  m <- write_range m index (map Some t) ;;
  Ok (Some (Block m (len + zlen t))).
(** DString.insert_char_at (dstring.c3:468-477). *)
Definition insert_char (d : dstring) (index c : Z) : Res dstring :=
  b <- reserve d 1 ;;
  m <- move_range (cells b) (index + 1) index (blen b - index) ;;
  m <- set m index (Some c) ;;
  Ok (Some (Block m (blen b + 1))).
(** DString.insert_char32_at (dstring.c3:482-497). *)
Definition insert_char32 (d : dstring) (index c : Z) : Res dstring :=
  t <- char32_bytes c ;;
  b <- reserve d (zlen t) ;;
  m <- move_range (cells b) (index + zlen t) index (blen b - index) ;;
  m <- write_range m index (map Some t) ;;
  Ok (Some (Block m (blen b + zlen t))).
(** The loop of insert_utf32_at (dstring.c3:514-520). *)
Fixpoint insert_all32 (m : list (option Z)) (index : Z) (cs : list Z) : Res (list (option Z)) :=
  match cs with [] => Ok m | c :: r => t <- char32_bytes c ;; m <- write_range m index (map Some t) ;; insert_all32 m (index + zlen t) r end.
(** DString.insert_utf32_at (dstring.c3:502-525). *)
Definition insert_utf32 (d : dstring) (index : Z) (cs : list Z) : Res dstring :=
  let n := utf8len_for_utf32 cs 0 in
  b <- reserve d n ;;
  m <- move_range (cells b) (index + n) index (blen b - index) ;;
  m <- insert_all32 m index cs ;;
  Ok (Some (Block m (blen b + n))).

(** DString.replace_char (dstring.c3:65-72); a null string has no chars to slice. *)
Definition replace_char (d : dstring) (ch replacement : Z) : Res dstring :=
  match d with
  | None => Oob
  | Some b => xs <- read_range (cells b) 0 (blen b) ;; l <- bytes xs ;;
              m <- write_range (cells b) 0 (map Some (map (fun c => if c =? ch then replacement else c) l)) ;; Ok (Some (Block m (blen b)))
  end.
(** The loop of replace (dstring.c3:91-111): str is the copy of the text, i the index of the first of the bytes left. *)
Fixpoint replace_loop (d : dstring) (str needle replacement rest : list Z) (i matched : Z) : Res dstring :=
  match rest with
  | [] => if 0 <? matched then w <- slice str (zlen str - matched) matched ;; append_chars d w else Ok d
  | c :: r =>
    nc <- get needle matched ;;
    if c =? nc then
      if matched + 1 =? zlen needle then d <- append_chars d replacement ;; replace_loop d str needle replacement r (i + 1) 0
      else replace_loop d str needle replacement r (i + 1) (matched + 1)
    else
      d <- (if 0 <? matched then w <- slice str (i - matched) matched ;; append_chars d w else Ok d) ;;
      d <- append_char d c ;;
      replace_loop d str needle replacement r (i + 1) 0
  end.
(** DString.replace (dstring.c3:74-113). *)
Definition replace (d : dstring) (needle replacement : list Z) : Res dstring :=
  match d with
  | None => Ok d
  | Some b =>
    if blen b <? zlen needle then Ok d
    else if (zlen needle =? 1) && (zlen replacement =? 1) then x <- get needle 0 ;; y <- get replacement 0 ;; replace_char d x y
    else str <- str_view d ;; replace_loop (clear d) str needle replacement str 0 0
  end.

(** DString.reverse (dstring.c3:598-610): the loop from i up to mid. *)
Fixpoint reverse_loop (m : list (option Z)) (len i : Z) (k : nat) : Res (list (option Z)) :=
  match k with
  | O => Ok m
  | S k' => x <- get m i ;; y <- get m (len - 1 - i) ;; m <- set m i y ;; m <- set m (len - 1 - i) x ;; reverse_loop m len (i + 1) k'
  end.
Definition reverse (d : dstring) : Res dstring :=
  match d with None => Ok None | Some b => m <- reverse_loop (cells b) (blen b) 0 (Z.to_nat (blen b / 2)) ;; Ok (Some (Block m (blen b))) end.

(** DString.zstr_view (dstring.c3:126-141): the string afterwards and the bytes up to the zero.  The cell after the last byte is read only
    to see if the zero is there already. *)
Definition zstr_view (d : dstring) : Res (dstring * list Z) :=
  match d with
  | None => Ok (None, [0])
  | Some b =>
    b <- (if cap b =? blen b then reserve d 1 else Ok b) ;;
    m <- set (cells b) (blen b) (Some 0) ;;
    xs <- read_range m 0 (blen b + 1) ;; l <- bytes xs ;; Ok (Some (Block m (blen b)), l)
  end.

(** DString.copy (dstring.c3:236-243): the header, with len and capacity, and the bytes are copied. *)
Definition copy (d : dstring) : Res block :=
  match d with
  | None => new []
  | Some b => let b' := with_capacity (cap b) in xs <- read_range (cells b) 0 (blen b) ;; m <- write_range (cells b') 0 xs ;; Ok (Block m (blen b))
  end.
(** DString.append_string (dstring.c3:328-333) of another string; concat (115-122). *)
Definition append_string (d e : dstring) : Res dstring := match e with None => Ok d | Some _ => t <- str_view e ;; append_chars d t end.
Definition concat (d e : dstring) : Res dstring :=
  r <- append_string (Some (with_capacity (dlen d + dlen e))) d ;; append_string r e.
(** dstring::join (dstring.c3:574-590). *)
Fixpoint join_rest (d : dstring) (ss : list (list Z)) (joiner : list Z) : Res dstring :=
  match ss with [] => Ok d | s :: r => d <- append_chars d joiner ;; d <- append_chars d s ;; join_rest d r joiner end.
Definition djoin (ss : list (list Z)) (joiner : list Z) : Res dstring :=
  match ss with
  | [] => b <- new [] ;; Ok (Some b)
  | s :: r => d <- append_chars (Some (with_capacity (zlen joiner * zlen ss + fold_left (fun n s => n + zlen s) ss 0))) s ;; join_rest d r joiner
  end.

(** DString.equals (dstring.c3:266-280) of two strings that are not the same pointer, for lengths below 2^31 (the index is an int). *)
Fixpoint equal_from (m m' : list (option Z)) (k : nat) (i : Z) : Res bool :=
  match k with
  | O => Ok true
  | S k' => x <- get m i ;; y <- get m' i ;; x <- byte_of x ;; y <- byte_of y ;; if x =? y then equal_from m m' k' (i + 1) else Ok false
  end.
Definition equals (d e : dstring) : Res bool :=
  match d, e with
  | None, None => Ok true
  | None, Some b => Ok (blen b =? 0)
  | Some b, None => Ok (blen b =? 0)
  | Some b, Some c => if blen b =? blen c then equal_from (cells b) (cells c) (Z.to_nat (blen b)) 0 else Ok false
  end.
(** DString.less (dstring.c3:291-306), the same. *)
Fixpoint less_from (m m' : list (option Z)) (k : nat) (i : Z) : Res bool :=
  match k with
  | O => Ok true
  | S k' => x <- get m i ;; y <- get m' i ;; x <- byte_of x ;; y <- byte_of y ;; if x >=? y then Ok false else less_from m m' k' (i + 1)
  end.
Definition less (d e : dstring) : Res bool :=
  match d, e with
  | None, None => Ok false
  | None, Some b => Ok (negb (blen b =? 0))
  | Some b, None => Ok (blen b =? 0)
  | Some b, Some c => if blen b =? blen c then less_from (cells b) (cells c) (Z.to_nat (blen b)) 0 else Ok (blen b <? blen c)
  end.

(** append_chars and insert_chars_at (dstring.c3:308-321, 423-453) of the n bytes from index from of the string itself.  If reserve moves the
    data the argument points into freed memory: Oob. *)
Definition append_own (d : dstring) (from n : Z) : Res dstring :=
  if n =? 0 then Ok d else
  match d with
  | None => Oob
  | Some b =>
    b' <- reserve d n ;;
    if cap b' =? cap b then m <- move_range (cells b) (blen b) from n ;; Ok (Some (Block m (blen b + n))) else Oob
  end.
(** The loop from the last byte down (dstring.c3:443-446). *)
Fixpoint copy_down (m : list (option Z)) (from index : Z) (k : nat) : Res (list (option Z)) :=
  match k with O => Ok m | S k' => x <- get m (from + Z.of_nat k') ;; m <- set m (index + Z.of_nat k') x ;; copy_down m from index k' end.
Definition insert_own (d : dstring) (index from n : Z) : Res dstring :=
  if n =? 0 then Ok d else
  match d with
  | None => Oob
  | Some b =>
    b' <- reserve d n ;;
    if cap b' =? cap b then
      if from =? 0 then Ok d else
      let len := blen b in
      let index := Z.min index len in
      m <- move_range (cells b) (index + n) index (len - index) ;;
      m <- (if (from <=? index) && (index <? from + n) then copy_down m from index (Z.to_nat n)
            else if (index <=? from) && (from <? index + len) then move_range m index (from + n) n
            else move_range m index from n) ;;
      Ok (Some (Block m (len + n)))
    else Oob
  end.

(** A history of operations. *)
Inductive op :=
| AppendChars (t : list Z) | AppendChar (c : Z) | AppendRepeat (c times : Z) | AppendChar32 (c : Z) | AppendUtf32 (cs : list Z)
| InsertChars (i : Z) (t : list Z) | InsertChar (i c : Z) | InsertChar32 (i c : Z) | InsertUtf32 (i : Z) (cs : list Z)
| Delete (start n : Z) | Chop (n : Z) | Clear | SetAt (i c : Z) | ReplaceChar (a b : Z) | Reverse | Reserve (n : Z) | ZstrView.
Definition apply (d : dstring) (o : op) : Res dstring :=
  match o with
  | AppendChars t => append_chars d t
  | AppendChar c => append_char d c
  | AppendRepeat c times => append_repeat d c times
  | AppendChar32 c => append_char32 d c
  | AppendUtf32 cs => append_utf32 d cs
  | InsertChars i t => insert_chars d i t
  | InsertChar i c => insert_char d i c
  | InsertChar32 i c => insert_char32 d i c
  | InsertUtf32 i cs => insert_utf32 d i cs
  | Delete start n => delete d start n
  | Chop n => Ok (chop d n)
  | Clear => Ok (clear d)
  | SetAt i c => set_at d i c
  | ReplaceChar a b => replace_char d a b
  | Reverse => reverse d
  | Reserve n => b <- reserve d n ;; Ok (Some b)
  | ZstrView => ' (d, _) <- zstr_view d ;; Ok d
  end.
Fixpoint run (d : dstring) (os : list op) : Res dstring := match os with [] => Ok d | o :: r => d <- apply d o ;; run d r end.
