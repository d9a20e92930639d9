(** Model of byte literals: the hex and base64 decoding in src/compiler/parse_expr.c:1613-1720.

    Source pointers are the list of bytes from the pointer to the end of the file buffer (its NUL
    included); [end] is the length of the list at the end pointer.  Memory from MALLOC holds [None]
    until it is written.  Simplification: the allocator never fails and ArraySize (64 bits) does not wrap. *)
From Coq Require Import ZArith Bool List.
From Verif Require Import Mach LexModel.
Import ListNotations.
Open Scope Z_scope.

(** parse_expr.c:1635-1644; a negative [char] is none of these. *)
Definition sextet (c : Z) : Res Z :=
  Ok (if is_upper c then c - 65 else if is_lower c then c - 97 + 26 else if is_digit c then c - 48 + 52
      else if c =? 43 then 62 else if c =? 47 then 63 else if c =? 61 then 0 else -1).

(** [while ((val = f( *(data++))) < 0) if (data == end) return;] with [None] for the return; without the test when [stop] is [None]. *)
Fixpoint find_val (val : Z -> Res Z) (stop : option Z) (s : list Z) : Res (option Z * list Z) :=
  match s with
  | [] => Oob
  | a :: r =>
    v <- val a ;;
    if v <? 0 then (if match stop with Some e => zlen r =? e | None => false end then Ok (None, r) else find_val val stop r)
    else Ok (Some v, r)
  end.
Definition must (r : Res (option Z * list Z)) : Res (Z * list Z) := '(v, s) <- r ;; match v with Some v => Ok (v, s) | None => Oob end.

Definition mem := list (option Z).
(** parse_expr.c:1619-1630. *)
Fixpoint parse_hex (fuel : nat) (e : Z) (buf : mem) (pos : Z) (s : list Z) : Res mem :=
  match fuel with
  | O => Fuel
  | S f =>
    if e <? zlen s then
      '(v, s) <- find_val nibble (Some e) s ;;
      match v with
      | None => Ok buf
      | Some v =>
        '(v2, s) <- must (find_val nibble None s) ;;
        buf <- set buf pos (Some (Z.lor (Z.shiftl v 4) v2 mod 256)) ;;
        parse_hex f e buf (pos + 1) s
      end
    else Ok buf
  end.
(** [if (data_current < result_pointer_end) *(data_current++) = x;] *)
Definition put_below (rend : Z) (buf : mem) (pos : Z) (x : Z) : Res (mem * Z) :=
  if pos <? rend then (buf <- set buf pos (Some x) ;; Ok (buf, pos + 1)) else Ok (buf, pos).
(** parse_expr.c:1652-1669. *)
Fixpoint parse_base64 (fuel : nat) (e rend : Z) (buf : mem) (pos : Z) (s : list Z) : Res mem :=
  match fuel with
  | O => Fuel
  | S f =>
    if e <? zlen s then
      '(v, s) <- find_val sextet (Some e) s ;;
      match v with
      | None => Ok buf
      | Some v =>
        '(v2, s) <- must (find_val sextet None s) ;;
        '(v3, s) <- must (find_val sextet None s) ;;
        '(v4, s) <- must (find_val sextet None s) ;;
        let t := Z.shiftl v 18 + Z.shiftl v2 12 + Z.shiftl v3 6 + v4 in
        '(buf, pos) <- put_below rend buf pos (Z.land (Z.shiftr t 16) 255) ;;
        '(buf, pos) <- put_below rend buf pos (Z.land (Z.shiftr t 8) 255) ;;
        '(buf, pos) <- put_below rend buf pos (Z.land t 255) ;;
        parse_base64 f e rend buf pos s
      end
    else Ok buf
  end.

(** A TOKEN_BYTES: bytes_len, is_base64, the file from lex_start on, and lex_len. *)
Record btok := BTok { b_len : Z; b_64 : bool; b_src : list Z; b_lexlen : Z }.
(** parse_expr.c:1671-1705: the loop over adjacent literals; [data] is NULL exactly when [len] is 0. *)
Definition bytes_step (fuel : nat) (t : btok) (data : mem) (len : Z) : Res (mem * Z) :=
  if b_len t =? 0 then Ok (data, len) else
  let new_len := len + b_len t in
  let buf := firstn (Z.to_nat len) data ++ repeat None (Z.to_nat (b_len t + 1)) in
  buf <- (let skip := if b_64 t then 4 else 2 in
          let src := skipn (Z.to_nat skip) (b_src t) in
          let e := zlen src - (b_lexlen t - 1 - skip) in
          if b_64 t then parse_base64 fuel e (b_len t) buf len src else parse_hex fuel e buf len src) ;;
  buf <- set buf new_len (Some 0) ;;
  Ok (buf, new_len).
Fixpoint bytes_loop (fuel : nat) (ts : list btok) (data : mem) (len : Z) : Res (mem * Z) :=
  match ts with [] => Ok (data, len) | t :: r => '(data, len) <- bytes_step fuel t data len ;; bytes_loop fuel r data len end.
(** The bytes of the constant, or [None] for the "at least 1 byte long" error. *)
Definition parse_bytes (fuel : nat) (ts : list btok) : Res (option mem) :=
  '(data, len) <- bytes_loop fuel ts [] 0 ;;
  if len =? 0 then Ok None else Ok (Some (firstn (Z.to_nat len) data)).
