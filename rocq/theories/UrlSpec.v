(** What percent-encoding is (RFC 3986 section 2), independent of the encoder. *)
From Coq Require Import String.
From Coq Require Import ZArith Bool List.
From Verif Require Import CodecSpec CodecModel UrlModel.
Import ListNotations.
Open Scope Z_scope.

Definition letter_or_digit (c : Z) : bool := ((65 <=? c) && (c <=? 90)) || ((97 <=? c) && (c <=? 122)) || ((48 <=? c) && (c <=? 57)).
Definition unreserved (c : Z) : bool := letter_or_digit c || existsb (Z.eqb c) (chars "-._~").
(** The further characters a component keeps as they are. *)
Definition also_kept (m : mode) : list Z :=
  match m with
  | UNRESERVED => []
  | PATH => chars "$&+,/:;=@"
  | HOST => chars "!$&'()*+,;=:[]"
  | USERPASS => chars ";:&=+$,"
  | QUERY => []
  | FRAGMENT => chars "$&+,/:;=?@!()*"
  end.
Definition kept (m : mode) (c : Z) : bool := unreserved c || existsb (Z.eqb c) (also_kept m).
Definition upper_hex (d : Z) : Z := if d <? 10 then 48 + d else 55 + d.
(** The encoding of a byte: itself if kept, else "%XX"; a space in a query is "+". *)
Definition url_char (m : mode) (c : Z) : list Z :=
  match m with QUERY => if c =? 32 then [43] else if kept m c then [c] else [37; upper_hex (c / 16); upper_hex (c mod 16)]
  | _ => if kept m c then [c] else [37; upper_hex (c / 16); upper_hex (c mod 16)] end.
Definition url_text (m : mode) (s : list Z) : list Z := flat_map (url_char m) s.
(** The byte string an encoded text stands for; none if a "%" is not followed by two hexadecimal digits. *)
Fixpoint url_meaning (m : mode) (s : list Z) : option (list Z) :=
  match s with
  | [] => Some []
  | c :: r =>
    if c =? 37 then
      match r with
      | a :: b :: r' =>
        match hex_value a, hex_value b, url_meaning m r' with
        | Some x, Some y, Some l => Some (16 * x + y :: l)
        | _, _, _ => None
        end
      | _ => None
      end
    else match url_meaning m r with
         | Some l => Some ((match m with QUERY => if c =? 43 then 32 else c | _ => c end) :: l)
         | None => None
         end
  end.
