(** How numbers are written, independent of the lexer. *)
From Coq Require Import ZArith Bool List Lia.
Import ListNotations.
Open Scope Z_scope.

Definition dec_dig (c : Z) : Prop := 48 <= c <= 57.
Definition oct_dig (c : Z) : Prop := 48 <= c <= 55.
Definition bin_dig (c : Z) : Prop := 48 <= c <= 49.
Definition hex_dig (c : Z) : Prop := 48 <= c <= 57 \/ 97 <= c <= 102 \/ 65 <= c <= 70.
(** A letter, a digit or '_'. *)
Definition word_char (c : Z) : Prop := 48 <= c <= 57 \/ 97 <= c <= 122 \/ 65 <= c <= 90 \/ c = 95.

(** ** The numbers of resources/grammar/c3.l:24-29 and 193-208 *)
(** D(_?D)* *)
Inductive units (P : Z -> Prop) : list Z -> Prop :=
| units_one d : P d -> units P [d]
| units_more s d : units P s -> P d -> units P (s ++ [d])
| units_us s d : units P s -> P d -> units P (s ++ [95; d]).
Definition widths : list (list Z) := [[56]; [49; 54]; [51; 50]; [54; 52]; [49; 50; 56]].
(** INTTYPE: u or i and a width, U or u and perhaps L or l, or L or l. *)
Inductive int_type : list Z -> Prop :=
| it_width c w : c = 117 \/ c = 105 -> In w widths -> int_type (c :: w)
| it_u c : c = 117 \/ c = 85 -> int_type [c]
| it_ul c d : c = 117 \/ c = 85 -> d = 108 \/ d = 76 -> int_type [c; d]
| it_l d : d = 108 \/ d = 76 -> int_type [d].
(** REALTYPE: f and perhaps a width. *)
Inductive real_type : list Z -> Prop :=
| rt_f : real_type [102]
| rt_width w : In w widths -> real_type (102 :: w).
Inductive opt (Q : list Z -> Prop) : list Z -> Prop := opt_none : opt Q [] | opt_some s : Q s -> opt Q s.
(** E and P: the mark (either case), a sign perhaps, and decimal digits. *)
Inductive power (mark : Z) : list Z -> Prop :=
| power_of c sg ds : c = mark \/ c = mark - 32 -> In sg [[]; [43]; [45]] -> ds <> [] -> Forall dec_dig ds -> power mark (c :: sg ++ ds).
Definition prefixed (mark : Z) (s r : list Z) : Prop := exists c, (c = mark \/ c = mark - 32) /\ s = 48 :: c :: r.
(** [official false] are the INTEGER texts, [official true] the REAL texts. *)
Inductive official : bool -> list Z -> Prop :=
| of_hex s i t : units hex_dig i -> opt int_type t -> prefixed 120 s (i ++ t) -> official false s
| of_oct s i t : units oct_dig i -> opt int_type t -> prefixed 111 s (i ++ t) -> official false s
| of_bin s i t : units bin_dig i -> opt int_type t -> prefixed 98 s (i ++ t) -> official false s
| of_int i t : units dec_dig i -> opt int_type t -> official false (i ++ t)
| of_real i t : units dec_dig i -> real_type t -> official true (i ++ t)
| of_exp i e t : units dec_dig i -> power 101 e -> opt real_type t -> official true (i ++ e ++ t)
| of_hexp s i e t : units hex_dig i -> power 112 e -> opt real_type t -> prefixed 120 s (i ++ e ++ t) -> official true s
| of_frac i j e t : units dec_dig i -> units dec_dig j -> opt (power 101) e -> opt real_type t -> official true (i ++ 46 :: j ++ e ++ t)
| of_hfrac s i j e t : units hex_dig i -> units hex_dig j -> power 112 e -> opt real_type t -> prefixed 120 s (i ++ 46 :: j ++ e ++ t) -> official true s.

(** ** A wider language of numbers *)
(** A digit first, then digits and '_', no two '_' together. *)
Definition spaced (P : Z -> Prop) (s : list Z) : Prop :=
  (exists d r, s = d :: r /\ P d) /\ Forall (fun c => P c \/ c = 95) s /\ forall u v, s <> u ++ 95 :: 95 :: v.
(** What may follow the number proper; the first flag says whether it is a real so far, the second whether it is one then. *)
Inductive suffix : bool -> bool -> list Z -> Prop :=
| sf_none b : suffix b b []
| sf_l d : d = 108 \/ d = 76 -> suffix false false [d]
| sf_ul c d : c = 117 \/ c = 85 -> d = 108 \/ d = 76 -> suffix false false [c; d]
| sf_int c ds : c = 117 \/ c = 85 \/ c = 105 \/ c = 73 -> Forall dec_dig ds -> suffix false false (c :: ds)
| sf_real b c ds : c = 102 \/ c = 70 -> Forall dec_dig ds -> suffix b true (c :: ds).
(** A fraction: nothing, a dot, or a dot and digits; the flag says which. *)
Inductive fraction (P : Z -> Prop) : bool -> list Z -> Prop :=
| fr_none : fraction P false []
| fr_dot : fraction P true [46]
| fr_digits s : spaced P s -> fraction P true (46 :: s).
Inductive exponent (mark : Z) : bool -> list Z -> Prop :=
| ex_none : exponent mark false []
| ex_some s : power mark s -> exponent mark true s.
(** Without an exponent a hexadecimal number has no f suffix: the f would be a digit. *)
Inductive number : bool -> list Z -> Prop :=
| nu_dec i fr ex sf d e b : spaced dec_dig i -> fraction dec_dig d fr -> exponent 101 e ex ->
    last (i ++ fr ++ ex) 0 <> 95 -> suffix (d || e) b sf -> number b (i ++ fr ++ ex ++ sf)
| nu_hex s i fr ex sf d e b : spaced hex_dig i -> fraction hex_dig d fr -> exponent 112 e ex ->
    last (i ++ fr ++ ex) 0 <> 95 -> suffix (d || e) b sf -> (e = true \/ ~ hex_dig (hd 0 sf)) -> prefixed 120 s (i ++ fr ++ ex ++ sf) -> number b s
| nu_oct s i sf : spaced oct_dig i -> last i 0 <> 95 -> suffix false false sf -> prefixed 111 s (i ++ sf) -> number false s
| nu_bin s i sf : spaced bin_dig i -> last i 0 <> 95 -> suffix false false sf -> prefixed 98 s (i ++ sf) -> number false s.

(** What comes after the number [s] cannot belong to it: no letter, digit or '_', and no dot unless it is the first of two (a range). *)
Definition ends (s r : list Z) : Prop :=
  exists x r', r = x :: r' /\ ~ word_char x /\ (x = 46 -> hd 0 r' = 46 /\ ~ In 46 s).
