(** What JSON text is: RFC 8259, with the extensions the reader accepts added when [ext] is true. *)
From Coq Require Import String Ascii ZArith QArith Qreduction List Bool.
From Verif Require Import JsonModel.
Import ListNotations.
Open Scope Z_scope.

(** The bytes of a literal, for examples and refutations. *)
Fixpoint bytes (s : string) : list Z := match s with EmptyString => [] | String a r => Z.of_nat (nat_of_ascii a) :: bytes r end.

(** Whitespace between tokens; with extensions also vertical tabs, // comments and closed /* comments. *)
Definition rfc_space (c : Z) : Prop := c = 32 \/ c = 9 \/ c = 10 \/ c = 13.
Definition no_end (l : list Z) : Prop := forall a b, l <> a ++ [42; 47] ++ b.
Inductive gap (ext : bool) : list Z -> Prop :=
| gap_nil : gap ext []
| gap_space c g : rfc_space c -> gap ext g -> gap ext (c :: g)
| gap_vt g : ext = true -> gap ext g -> gap ext (11 :: g)
| gap_line s g : ext = true -> ~ In 10 s -> gap ext g -> gap ext ([47; 47] ++ s ++ [10] ++ g)
| gap_block s g : ext = true -> no_end (s ++ [42]) -> gap ext g -> gap ext ([47; 42] ++ s ++ [42; 47] ++ g).
(** At the end of the text a comment may also be unfinished. *)
Inductive end_gap (ext : bool) : list Z -> Prop :=
| eg_gap g : gap ext g -> end_gap ext g
| eg_line g s : ext = true -> gap ext g -> ~ In 10 s -> end_gap ext (g ++ [47; 47] ++ s)
| eg_block g s : ext = true -> gap ext g -> no_end s -> end_gap ext (g ++ [47; 42] ++ s).

(** The value of a run of digits, most significant first. *)
Definition digit (c : Z) : Prop := 48 <= c <= 57.
Definition dec (l : list Z) : Z := fold_left (fun a c => a * 10 + (c - 48)) l 0.
Definition frac (i f : list Z) : Q := Qred (dec (i ++ f) # Z.to_pos (10 ^ Z.of_nat (length f))).
(** RFC numbers without sign and exponent: digits without a superfluous zero, and an optional fraction. With extensions also missing digits,
    superfluous zeros and a sign (which the reader ignores). *)
Inductive number (ext : bool) : list Z -> Q -> Prop :=
| num_int i : Forall digit i -> i <> [] -> (hd 0 i = 48 -> length i = 1%nat) -> number ext i (frac i [])
| num_frac i f : Forall digit i -> i <> [] -> (hd 0 i = 48 -> length i = 1%nat) -> Forall digit f -> f <> [] -> number ext (i ++ [46] ++ f) (frac i f)
| num_ext sign i dot f : ext = true -> (sign = [] /\ i <> [] \/ sign = [45]) -> Forall digit i -> Forall digit f -> (dot = [46] \/ dot = [] /\ f = []) ->
    number ext (sign ++ i ++ dot ++ f) (frac i f).

(** Characters of strings: any byte but the quote, the backslash and control characters stands for itself; the eight short escapes. With extensions also raw control
    characters, and \u escapes, which give the low byte of the number. *)
Inductive esc : Z -> Z -> Prop :=
| esc_quote : esc 34 34 | esc_back : esc 92 92 | esc_slash : esc 47 47 | esc_b : esc 98 8 | esc_f : esc 102 12 | esc_n : esc 110 10 | esc_r : esc 114 13 | esc_t : esc 116 9.
Inductive hexd : Z -> Z -> Prop :=
| hex_dig c : 48 <= c <= 57 -> hexd c (c - 48) | hex_up c : 65 <= c <= 70 -> hexd c (c - 55) | hex_lo c : 97 <= c <= 102 -> hexd c (c - 87).
Inductive chars (ext : bool) : list Z -> list Z -> Prop :=
| ch_nil : chars ext [] []
| ch_raw c t s : c <> 34 -> c <> 92 -> (ext = true \/ 32 <= c) -> chars ext t s -> chars ext (c :: t) (c :: s)
| ch_esc e x t s : esc e x -> chars ext t s -> chars ext (92 :: e :: t) (x :: s)
| ch_u a b c d h1 h2 h3 h4 t s : ext = true -> hexd a h1 -> hexd b h2 -> hexd c h3 -> hexd d h4 -> chars ext t s ->
    chars ext (92 :: 117 :: a :: b :: c :: d :: t) ((h1 * 4096 + h2 * 256 + h3 * 16 + h4) mod 256 :: s).
(** A quoted string. C strings end at the first NUL, which only a \u escape can produce. *)
Inductive quoted (ext : bool) : list Z -> list Z -> Prop :=
| quoted_intro t s : chars ext t s -> quoted ext ([34] ++ t ++ [34]) (cstr s).

(** Values. With extensions a comma may follow the last element. *)
Inductive value (ext : bool) : list Z -> json -> Prop :=
| val_null : value ext [110; 117; 108; 108] JNull
| val_true : value ext [116; 114; 117; 101] (JBool true)
| val_false : value ext [102; 97; 108; 115; 101] (JBool false)
| val_num t q : number ext t q -> value ext t (JNum q)
| val_str t s : quoted ext t s -> value ext t (JStr s)
| val_arr0 g : gap ext g -> value ext ([91] ++ g ++ [93]) (JArr [])
| val_arr t l : elems ext t l -> value ext ([91] ++ t ++ [93]) (JArr l)
| val_obj0 g : gap ext g -> value ext ([123] ++ g ++ [125]) (JObj [])
| val_obj t l : membs ext t l -> value ext ([123] ++ t ++ [125]) (JObj l)
with elems (ext : bool) : list Z -> list json -> Prop :=
| el_one g1 t v g2 : gap ext g1 -> value ext t v -> gap ext g2 -> elems ext (g1 ++ t ++ g2) [v]
| el_trail g1 t v g2 g3 : ext = true -> gap ext g1 -> value ext t v -> gap ext g2 -> gap ext g3 -> elems ext (g1 ++ t ++ g2 ++ [44] ++ g3) [v]
| el_more g1 t v g2 t' l : gap ext g1 -> value ext t v -> gap ext g2 -> elems ext t' l -> elems ext (g1 ++ t ++ g2 ++ [44] ++ t') (v :: l)
with membs (ext : bool) : list Z -> list (list Z * json) -> Prop :=
| mb_one g1 tk k g2 g3 t v g4 : gap ext g1 -> quoted ext tk k -> gap ext g2 -> gap ext g3 -> value ext t v -> gap ext g4 ->
    membs ext (g1 ++ tk ++ g2 ++ [58] ++ g3 ++ t ++ g4) [(k, v)]
| mb_trail g1 tk k g2 g3 t v g4 g5 : ext = true -> gap ext g1 -> quoted ext tk k -> gap ext g2 -> gap ext g3 -> value ext t v -> gap ext g4 -> gap ext g5 ->
    membs ext (g1 ++ tk ++ g2 ++ [58] ++ g3 ++ t ++ g4 ++ [44] ++ g5) [(k, v)]
| mb_more g1 tk k g2 g3 t v g4 t' l : gap ext g1 -> quoted ext tk k -> gap ext g2 -> gap ext g3 -> value ext t v -> gap ext g4 -> membs ext t' l ->
    membs ext (g1 ++ tk ++ g2 ++ [58] ++ g3 ++ t ++ g4 ++ [44] ++ t') ((k, v) :: l).
Scheme value_mut := Minimality for value Sort Prop with elems_mut := Minimality for elems Sort Prop with membs_mut := Minimality for membs Sort Prop.
Combined Scheme json_mut from value_mut, elems_mut, membs_mut.

(** A document: one value with whitespace around it. *)
Inductive document (ext : bool) : list Z -> json -> Prop :=
| doc g1 t v g2 : gap ext g1 -> value ext t v -> end_gap ext g2 -> document ext (g1 ++ t ++ g2) v.
