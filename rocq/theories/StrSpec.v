(** What searching, splitting, trimming and number reading mean, without reference to the code. *)
From Coq Require Import ZArith List Bool.
Import ListNotations.
Open Scope Z_scope.

Definition len (s : list Z) : Z := Z.of_nat (length s).
(** sub stands in s at index i. *)
Definition occurs_at (sub s : list Z) (i : Z) : Prop := exists a b, s = a ++ sub ++ b /\ len a = i.
(** c is the byte of s at index i. *)
Definition byte_at (s : list Z) (i : Z) (c : Z) : Prop := exists a b, s = a ++ c :: b /\ len a = i.

(** The first / the last index that has a property, or none. *)
Definition first_index (P : Z -> Prop) (r : option Z) : Prop :=
  match r with Some i => P i /\ forall j, P j -> i <= j | None => forall j, ~ P j end.
Definition last_index (P : Z -> Prop) (r : option Z) : Prop :=
  match r with Some i => P i /\ forall j, P j -> j <= i | None => forall j, ~ P j end.

(** Cutting s at the delimiter d, from the left: every piece but the last is followed by a d, whose first standing is
    right at its end, and the last holds no d. *)
Inductive Cut (d : list Z) : list Z -> list (list Z) -> Prop :=
| Cut_last s : (forall i, ~ occurs_at d s i) -> Cut d s [s]
| Cut_piece p r ps : (forall i, occurs_at d (p ++ d) i -> i = len p) -> Cut d r ps -> Cut d (p ++ d ++ r) (p :: ps).
(** Pieces with a delimiter between each two. *)
Fixpoint glue (d : list Z) (ps : list (list Z)) : list Z :=
  match ps with [] => [] | [p] => p | p :: r => p ++ d ++ glue d r end.
Definition empty (p : list Z) : bool := match p with [] => true | _ => false end.
(** Without the empty pieces, if they are to be skipped. *)
Definition kept (skip : bool) (ps : list (list Z)) : list (list Z) := if skip then filter (fun p => negb (empty p)) ps else ps.
(** At most n pieces: what follows the first n - 1 is left uncut, as one piece. *)
Fixpoint limited (d : list Z) (skip : bool) (n : nat) (ps : list (list Z)) : list (list Z) :=
  match ps with
  | [] => []
  | p :: r => match n with
              | O => []
              | S O => kept skip [glue d ps]
              | S n' => if skip && empty p then limited d skip n r else p :: limited d skip n' r
              end
  end.

(** t is s without its longest start / end made of bytes of the set. *)
Definition trimmed_left (set s t : list Z) : Prop :=
  exists a, s = a ++ t /\ Forall (fun c => In c set) a /\ (forall c r, t = c :: r -> ~ In c set).
Definition trimmed_right (set s t : list Z) : Prop :=
  exists b, s = t ++ b /\ Forall (fun c => In c set) b /\ (forall r c, t = r ++ [c] -> ~ In c set).

(** The digits of a base, and the number a row of digits stands for. *)
Definition digit_is (base c v : Z) : Prop :=
  0 <= v < base /\ ((48 <= c <= 57 /\ v = c - 48) \/ (base = 16 /\ 65 <= c <= 70 /\ v = c - 55) \/ (base = 16 /\ 97 <= c <= 102 /\ v = c - 87)).
(** The digits the reader takes besides: in base 16 also ':' to '?', as 10 to 15. *)
Definition lax_digit_is (base c v : Z) : Prop := digit_is base c v \/ (base = 16 /\ 58 <= c <= 63 /\ v = c - 48).
Inductive Number (digit : Z -> Z -> Prop) (base : Z) : list Z -> Z -> Prop :=
| Number_nil : Number digit base [] 0
| Number_snoc ds n c v : Number digit base ds n -> digit c v -> Number digit base (ds ++ [c]) (n * base + v).
(** A sign: its text, and whether it is a minus. *)
Inductive Sign : list Z -> bool -> Prop := Sign_none : Sign [] false | Sign_plus : Sign [43] false | Sign_minus : Sign [45] true.
(** A prefix: the base asked for, the text, the base it selects. *)
Inductive Prefix : Z -> list Z -> Z -> Prop :=
| Prefix_none b : Prefix b [] b
| Prefix_x : Prefix 10 [48; 120] 16 | Prefix_X : Prefix 10 [48; 88] 16
| Prefix_b : Prefix 10 [48; 98] 2 | Prefix_B : Prefix 10 [48; 66] 2
| Prefix_o : Prefix 10 [48; 111] 8 | Prefix_O : Prefix 10 [48; 79] 8.
Definition blank (c : Z) : Prop := c = 32 \/ c = 9.
(** s is blanks, a sign, a prefix and at least one digit; v is the number. *)
Definition Reads (digit : Z -> Z -> Z -> Prop) (base : Z) (s : list Z) (v : Z) : Prop :=
  exists bl sg neg pre base' ds n,
    s = bl ++ sg ++ pre ++ ds /\ Forall blank bl /\ Sign sg neg /\ Prefix base pre base' /\ ds <> [] /\
    Number (digit base') base' ds n /\ v = if neg then - n else n.
(** The values of an integer type. *)
Definition in_type (sgn : bool) (bits v : Z) : Prop := if sgn then - 2 ^ (bits - 1) <= v < 2 ^ (bits - 1) else 0 <= v < 2 ^ bits.
Definition base_ok (base : Z) : Prop := 1 < base <= 10 \/ base = 16.
(** Without the last piece, if that is empty. *)
Definition drop_last_empty (ps : list (list Z)) : list (list Z) := if empty (last ps [0]) then removelast ps else ps.
