(** The parts of the lexer specification that mention the lexer's own tokens and cursors. *)
From Coq Require Import ZArith Bool List.
From Verif Require Import Mach LexModel LexSpec.
Import ListNotations.
Open Scope Z_scope.

(** ** Identifiers *)
Definition class_tok (k : ident_class) : iclass := match k with Lower => CNormal | Upper => CConst | Mixed => CType end.
(** What scanning an identifier [s] gives: the token of its class; a lone underscore; else an error. *)
Definition ident_result (prefix : Z) (s : list Z) (c : cursor) (res : Res (bool * scan)) (m : bool) : Prop :=
  match class_of s with
  | Some k => res = Ok (m, Tok (TIdent prefix (class_tok k)) c)
  | None => if (prefix =? 0) && (zlen s =? 1) && forallb (fun c => c =? 95) s then res = Ok (m, Tok TUnderscore c) else exists e, res = Ok (m, Err e)
  end.
(** ** Running over a whole file: the tokens with the cursor after each, up to the end of file or ([Some]) the first error. *)
Fixpoint run (n fuel : nat) (m : bool) (c : cursor) : Res (list (tok * cursor) * option cursor) :=
  match n with
  | O => Fuel
  | S n =>
    '(m, s) <- scan_token fuel m c ;;
    match s with
    | Tok TEof d => Ok ([(TEof, d)], None)
    | Tok t d => '(l, e) <- run n fuel m d ;; Ok ((t, d) :: l, e)
    | Err d => Ok ([], Some d)
    end
  end.
(** The cursor [c] stands [u] into the file [buf], in the right row. *)
Definition at_pos (buf : list Z) (c : cursor) : Prop :=
  exists u, buf = u ++ c_rest c /\ c_prev c = rev u /\ c_row c = 1 + newlines u.
(** Every token takes at least one byte and leaves the NUL; the end of file comes at the NUL, and last. *)
Fixpoint progress (n : Z) (l : list (tok * cursor)) : Prop :=
  match l with
  | [] => True
  | (t, c) :: r => (if match t with TEof => true | _ => false end then c_rest c = [0] /\ r = [] else zlen (c_rest c) < n /\ c_rest c <> []) /\ progress (zlen (c_rest c)) r
  end.
