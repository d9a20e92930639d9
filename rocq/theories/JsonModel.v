(** The JSON reader and writer used for project files (src/utils/json.c). Text is the list of bytes before the terminating NUL, each from 1 to 255. *)
From Coq Require Import ZArith QArith Qreduction List Bool.
Import ListNotations.
Open Scope Z_scope.

(** json.h:13-31. `null` is a NULL pointer. Numbers are exact rationals here and double in the code: rounding is not modelled. *)
Inductive json := JNull | JBool (b : bool) | JNum (q : Q) | JStr (s : list Z) | JArr (l : list json) | JObj (l : list (list Z * json)).

(** json_skip_whitespace (json.c:13-54): as a scanner with three modes, for the code between comments, in a line comment, and in a block comment. An unfinished
    comment ends with the text. Line counting is not modelled. *)
Inductive mode := Code | Line | Block.
Fixpoint skip (m : mode) (l : list Z) : list Z :=
  match l with
  | [] => []
  | c :: r =>
    match m with
    | Code =>
        if c =? 47 then
          match r with
          | d :: r' => if d =? 47 then skip Line r' else if d =? 42 then skip Block r' else l
          | [] => l
          end
        else if (c =? 10) || (c =? 13) || (c =? 32) || (c =? 11) || (c =? 9) then skip Code r
        else l
    | Line => if c =? 10 then skip Code r else skip Line r
    | Block =>
        match r with
        | d :: r' => if (c =? 42) && (d =? 47) then skip Code r' else skip Block r
        | [] => []
        end
    end
  end.

Inductive token := TLBrace | TLBracket | TComma | TColon | TRBrace | TRBracket | TStr (s : list Z) | TNum (q : Q) | TErr | TTrue | TFalse | TNull | TEof.
(** A token and the text after it; [LOut] is a read or write outside the text or the string buffer. *)
Inductive lres := LTok (t : token) (r : list Z) | LOut.

Definition is_digit (c : Z) : bool := (48 <=? c) && (c <=? 57).
(** The digit loops of json_parse_number (json.c:80-84, 90-95): the value of the digits, how many, and the rest. *)
Fixpoint digits (l : list Z) (acc : Z) (n : nat) : Z * nat * list Z :=
  match l with
  | c :: r => if is_digit c then digits r (acc * 10 + (c - 48)) (S n) else (acc, n, l)
  | [] => (acc, n, [])
  end.
(** m / 10^k in lowest terms. *)
Definition decimal (m : Z) (k : nat) : Q := Qred (m # Z.to_pos (10 ^ Z.of_nat k)).
(** json_parse_number (json.c:74-100). The sign is skipped and has no effect. *)
Definition lex_number (l : list Z) : lres :=
  let l1 := match l with c :: r => if c =? 45 then r else l | [] => l end in
  let '(v, _, l2) := digits l1 0 0 in
  match l2 with
  | c :: r => if c =? 46 then let '(d, k, l3) := digits r 0 0 in LTok (TNum (decimal (v * 10 ^ Z.of_nat k + d) k)) l3 else LTok (TNum (decimal v 0)) l2
  | [] => LTok (TNum (decimal v 0)) l2
  end.

(** char_is_hex, char_hex_to_nibble (lib.h:510-540, 602-605). *)
Definition hex (c : Z) : option Z :=
  if (48 <=? c) && (c <=? 57) then Some (c - 48) else if (65 <=? c) && (c <=? 70) then Some (c - 55) else if (97 <=? c) && (c <=? 102) then Some (c - 87) else None.
(** json.c:105-110: how far the first scan goes, counting the closing quote or the NUL. *)
Fixpoint scan (l : list Z) : nat :=
  match l with
  | [] => 1%nat
  | c :: r => if c =? 34 then 1%nat else if c =? 92 then match r with _ :: r' => S (S (scan r')) | [] => 2%nat end else S (scan r)
  end.
(** The simple escapes (json.c:133-152). *)
Definition unescape (e : Z) : option Z :=
  if (e =? 92) || (e =? 34) || (e =? 47) then Some e else if e =? 98 then Some 8 else if e =? 110 then Some 10 else if e =? 102 then Some 12
  else if e =? 114 then Some 13 else if e =? 116 then Some 9 else None.
(** What a C string contains: the bytes before the first NUL. *)
Fixpoint cstr (l : list Z) : list Z := match l with [] => [] | c :: r => if c =? 0 then [] else c :: cstr r end.
(** The second scan (json.c:113-173), writing into a buffer of [cap] bytes. A \u escape reads four bytes whether or not the text ends before, and stores the low
    byte of the number. *)
Fixpoint lex_string (cap : nat) (l : list Z) (acc : list Z) : lres :=
  match l with
  | [] => LTok TErr []
  | c :: r =>
    if c =? 34 then (if Nat.ltb (length acc) cap then LTok (TStr (cstr acc)) r else LOut)
    else if c =? 92 then
      match r with
      | [] => LTok TErr []
      | e :: r' =>
        match unescape e with
        | Some x => if Nat.ltb (length acc) cap then lex_string cap r' (acc ++ [x]) else LOut
        | None =>
          if e =? 117 then
            match r' with
            | a :: b :: d :: r3 =>
              match r3 with
              | f :: r4 =>
                match hex a, hex b, hex d, hex f with
                | Some h1, Some h2, Some h3, Some h4 =>
                    if Nat.ltb (length acc) cap then lex_string cap r4 (acc ++ [(h1 * 4096 + h2 * 256 + h3 * 16 + h4) mod 256]) else LOut
                | _, _, _, _ => LTok TErr r4
                end
              | [] => LTok TErr []
              end
            | _ => LOut
            end
          else LTok TErr r'
        end
      end
    else if Nat.ltb (length acc) cap then lex_string cap r (acc ++ [c]) else LOut
  end.

(** json_match (json.c:56-64). *)
Fixpoint match_ (w l : list Z) : option (list Z) :=
  match w with [] => Some l | x :: w' => match l with c :: r => if c =? x then match_ w' r else None | [] => None end end.
Definition keyword (w : list Z) (t : token) (l : list Z) : lres := match match_ w l with Some r => LTok t r | None => LTok TErr l end.

(** json_lexer_advance (json.c:180-255). *)
Definition lex (l0 : list Z) : lres :=
  let l := skip Code l0 in
  match l with
  | [] => LTok TEof []
  | c :: r =>
    if c =? 123 then LTok TLBrace r else if c =? 125 then LTok TRBrace r else if c =? 91 then LTok TLBracket r else if c =? 93 then LTok TRBracket r
    else if c =? 58 then LTok TColon r else if c =? 44 then LTok TComma r
    else if c =? 34 then lex_string (S (scan r)) r []
    else if (c =? 45) || is_digit c then lex_number l
    else if c =? 116 then keyword [116; 114; 117; 101] TTrue l
    else if c =? 102 then keyword [102; 97; 108; 115; 101] TFalse l
    else if c =? 110 then keyword [110; 117; 108; 108] TNull l
    else LTok TErr l
  end.

(** The result of json_parse with the token then current; [PErr] when an error was reported. *)
Inductive pres := POk (v : json) (t : token) (r : list Z) | PErr | POut | PFuel.
Definition next (r : list Z) (k : token -> list Z -> pres) : pres := match lex r with LTok t r' => k t r' | LOut => POut end.
Definition same (t u : token) : bool :=
  match t, u with
  | TLBrace, TLBrace | TLBracket, TLBracket | TComma, TComma | TColon, TColon | TRBrace, TRBrace | TRBracket, TRBracket | TErr, TErr => true
  | _, _ => false end.

(** json_parse, json_parse_array, json_parse_object (json.c:268-331, 356-408). [fuel] bounds the recursion; the C stack is unbounded here. *)
Fixpoint parse (fuel : nat) (t : token) (r : list Z) : pres :=
  match fuel with
  | O => PFuel
  | S n =>
    match t with
    | TEof => POk JNull TEof r
    | TErr | TComma | TRBrace | TRBracket | TColon => PErr
    | TLBracket => next r (fun t1 r1 => if same t1 TRBracket then next r1 (POk (JArr [])) else elements n [] t1 r1)
    | TLBrace => next r (fun t1 r1 => if same t1 TRBrace then next r1 (POk (JObj [])) else members n [] t1 r1)
    | TStr s => next r (POk (JStr s))
    | TNum q => next r (POk (JNum q))
    | TTrue => next r (POk (JBool true))
    | TFalse => next r (POk (JBool false))
    | TNull => next r (POk JNull)
    end
  end
with elements (fuel : nat) (acc : list json) (t : token) (r : list Z) : pres :=
  match fuel with
  | O => PFuel
  | S n =>
    match parse n t r with
    | POk v t1 r1 =>
        if same t1 TErr then PErr
        else if same t1 TRBracket then next r1 (POk (JArr (acc ++ [v])))
        else if same t1 TComma then next r1 (fun t2 r2 => if same t2 TRBracket then next r2 (POk (JArr (acc ++ [v]))) else elements n (acc ++ [v]) t2 r2)
        else PErr
    | e => e
    end
  end
with members (fuel : nat) (acc : list (list Z * json)) (t : token) (r : list Z) : pres :=
  match fuel with
  | O => PFuel
  | S n =>
    match t with
    | TStr k =>
        next r (fun t0 r0 => if same t0 TColon then
          next r0 (fun t1 r1 =>
            match parse n t1 r1 with
            | POk v t2 r2 =>
                if same t2 TErr then PErr
                else if same t2 TRBrace then next r2 (POk (JObj (acc ++ [(k, v)])))
                else if same t2 TComma then next r2 (fun t3 r3 => if same t3 TRBrace then next r3 (POk (JObj (acc ++ [(k, v)]))) else members n (acc ++ [(k, v)]) t3 r3)
                else PErr
            | e => e
            end)
          else PErr)
    | _ => PErr
    end
  end.

(** json_init_string, json_parse and the check of the error message by every caller (json.c:410-416, project.c:568-575, libraries.c:168-171). What follows the
    first value is not looked at, except that the next token must not be an error. *)
Inductive outcome := Value (v : json) | Reported | Outside | NoFuel.
Definition load (l : list Z) : outcome :=
  match lex l with
  | LTok t r => match parse (2 * length l + 2) t r with POk v t1 _ => if same t1 TErr then Reported else Value v | PErr => Reported | POut => Outside | PFuel => NoFuel end
  | LOut => Outside
  end.
