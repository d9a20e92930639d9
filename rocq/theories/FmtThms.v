(** C107–C112: formatted printing. *)
From Coq Require Import String Ascii ZArith List Bool Lia.
From Verif Require Import Mach LexSpec UtfSpec StrSpec FmtModel FmtSpec.
From Verif Require FmtProofs4 FmtProofs5 FmtProofs6 FmtProofs7.
Import ListNotations.
Local Open Scope string_scope.
Open Scope Z_scope.

(** C107: %d, %x, %X, %o, %O, %b and %B without further ado: every integer is printed as its sign and its digits, and counted right. *)
Theorem C107_plain c base up s b v ds : int_base c = Some (base, up) -> c <> 112 -> in_range v -> Numeral base up (Z.abs v) ds ->
  let t := ((if v <? 0 then tx "-" else []) ++ ds)%list in printf [37; c] [AInt s b v] = (t, Val (zlen t)).
Proof. exact (FmtProofs7.plain_int c base up s b v ds). Qed.
(** Every number has such digits. *)
Theorem C107_digits base up n : base = 2 \/ base = 8 \/ base = 10 \/ base = 16 -> 0 <= n -> exists ds, Numeral base up n ds.
Proof. intros Hb. apply FmtProofs7.numeral_ex; lia. Qed.
Example C107_plain_ex : int_base 88 = Some (16, true) /\ in_range (-48879) /\ printf (tx "%X") [AInt true 32 (-48879)] = (tx "-BEEF", Val 5).
Proof. split; [reflexivity|]. split; [unfold in_range; lia|]. vm_compute. reflexivity. Qed.
(** With flags, width and precision, under the conditions listed. *)
Theorem C107_integer_partial fs w p c args wv args1 pv s b v rest base up ds :
  wf (Dir fs w p c) -> Field w args wv args1 ->
  match p with None => args1 = AInt s b v :: rest /\ pv = None | Some q => exists n, Field q args1 n (AInt s b v :: rest) /\ 0 <= n /\ pv = Some n end ->
  int_base c = Some (base, up) ->
  let h := adapt c (how_of fs wv pv) in let num := number h base up v ds in
  OwnDigits h base up v ds ->
  (left h = true -> match pv with Some n => n <= len ds | None => True end) ->
  (prefix h base up v <> [] -> zero h = true -> left h = false -> pv = None -> wv = 0) ->
  (num = [] -> wv = 0) -> len num <= 256 ->
  fst (printf (spell (Dir fs w p c)) args) = padded h num.
Proof.
  intros Hw HF HP Hc h num Ho Hl Hz He Hn. assert (Hh : left h = left (how_of fs wv pv) /\ prec (how_of fs wv pv) = pv /\ width (how_of fs wv pv) = Z.abs wv) by (unfold h, adapt; destruct (c =? 112); auto). destruct Hh as (H1 & H2 & H3).
  erewrite FmtProofs7.one_dir; [reflexivity|exact Hw|exact HF|exact HP|]. apply D_int; try assumption.
  - rewrite <- H1, H2. exact Hl.
  - rewrite <- H1, H2, H3. intros Hp Hzz Hll Hpp. rewrite (Hz Hp Hzz Hll Hpp). reflexivity.
  - rewrite H3. intros E. rewrite (He E). reflexivity.
Qed.
Example C107_integer_ex :
  printf (tx "%08d|%-8d|%8d|%+.4d|%#x|%8.3o|% d|%*d") [AInt true 32 (-42); AInt true 32 (-42); AInt true 32 (-42); AInt true 32 42; AInt false 32 255; AInt false 32 8; AInt true 32 7; AInt true 32 (-4); AInt true 32 7]
    = (tx "-0000042|-42     |     -42|+0042|0xff|     010| 7|7   ", Val 36) /\
  wf (Dir (tx "0") (Digits (tx "8")) None 100) /\ Field (Digits (tx "8")) [AInt true 32 (-42)] 8 [AInt true 32 (-42)] /\ OwnDigits (how_of (tx "0") 8 None) 10 false (-42) (tx "42").
Proof.
  split; [vm_compute; reflexivity|]. split; [|split].
  - split; [repeat constructor|]. split; [split; [discriminate|repeat constructor; discriminate]|]. split; [intros ds E; discriminate E|]. split; [exact I|cbn; tauto].
  - exact (Field_digits (tx "8") _ eq_refl).
  - split; [|split; [change (Forall (fun c => ~ 65 <= c <= 70) [52; 50]); apply Forall_cons; [lia|apply Forall_cons; [lia|apply Forall_nil]]|split; [discriminate|intros r E; discriminate E]]]. exact (Number_snoc (digit_is 10) 10 [52] 4 50 2 (Number_snoc (digit_is 10) 10 [] 0 52 4 (Number_nil _ _) ltac:(unfold digit_is; lia)) ltac:(unfold digit_is; lia)).
Qed.
(** Without the conditions: a precision is ignored for numbers at the left, zeros do not leave room for a prefix, a zero without digits is not
    padded, and a number of more than 256 bytes is a fault. *)
Theorem C107_integer_refuted :
  (fst (printf (tx "%-.5d") [AInt true 32 42]) = tx "42" /\ (let h := how_of (tx "-") 0 (Some 5) in padded h (number h 10 false 42 (tx "42")) = tx "00042")) /\
  (fst (printf (tx "%#08x") [AInt false 32 255]) = tx "0x000000ff" /\ (let h := how_of (tx "#0") 8 None in padded h (number h 16 false 255 (tx "ff")) = tx "0x0000ff")) /\
  (fst (printf (tx "%5.0d") [AInt true 32 0]) = [] /\ (let h := how_of [] 5 (Some 0) in padded h (number h 10 false 0 []) = tx "     ")) /\
  printf (tx "%0257d") [AInt true 32 7] = ([], Flt INTERNAL_BUFFER_EXCEEDED).
Proof. repeat match goal with |- _ /\ _ => split end; vm_compute; reflexivity. Qed.

(** C108: the pieces of a format are printed in order, each directive with the next argument; %% is a percent sign. *)
Theorem C108_text_partial ps args t m : Forall wf ps -> Prints ps args t m -> fst (printf (concat (map spell ps)) args) = t.
Proof. intros Hw H. now rewrite (FmtProofs4.printf_ok ps args t m H Hw). Qed.
Example C108_text_ex : concat (map spell [Byte 97; Dir [] Nothing None 115; Percent; Dir [] Nothing None 104]) = tx "a%s%%%h" /\
  Forall wf [Byte 97; Dir [] Nothing None 115; Percent; Dir [] Nothing None 104] /\
  Prints [Byte 97; Dir [] Nothing None 115; Percent; Dir [] Nothing None 104] [AList [ABool true; AStr (tx "x")]; AList [AInt false 8 175]] (tx "a[true, x]%af") 0.
Proof.
  split; [reflexivity|]. split.
  - repeat constructor; try discriminate; try (intros ds E; discriminate E); cbn; tauto.
  - apply (Prints_byte 97 _ _ (tx "[true, x]%af") 0). apply (Prints_dir [] Nothing 115 _ _ 0 (AList [ABool true; AStr (tx "x")]) [AList [AInt false 8 175]] (tx "[true, x]") 0 (tx "%af") 0); [constructor| |].
    + apply (D_str (how_of [] 0 None) _ (tx "[true, x]")); [reflexivity|]. apply (Shown_list _ [tx "true"; tx "x"]). repeat constructor.
    + apply (Prints_percent _ _ (tx "af") 0). apply (Prints_dir [] Nothing 104 [] _ 0 (AList [AInt false 8 175]) [] (tx "af") 0 [] 0); [constructor| |constructor].
      apply (D_hex (how_of [] 0 None) 104 _ (tx "af")); [tauto|]. apply (Hexed_cons false false 175 [] 97 102 []); [|apply Forall_cons; [lia|apply Forall_cons; [lia|apply Forall_nil]]|constructor].
      exact (Number_snoc (digit_is 16) 16 [97] 10 102 15 (Number_snoc (digit_is 16) 16 [] 0 97 10 (Number_nil _ _) ltac:(unfold digit_is; lia)) ltac:(unfold digit_is; lia)).
Qed.
(** A precision meant for text becomes leading zeros of a number in it; a width is read modulo 2^32, and may so become negative. *)
Theorem C108_text_refuted :
  (fst (printf (tx "%.3s") [AList [AInt true 32 5; AStr (tx "abcd")]]) = tx "[005, abcd]") /\
  (value (tx "4294967295") = 2 ^ 32 - 1 /\ fst (printf (tx "%4294967295d|") [AInt true 32 7]) = tx "7|") /\
  fst (printf (tx "%4294967293d|") [AInt true 32 7]) = tx "7  |".
Proof. repeat match goal with |- _ /\ _ => split end; vm_compute; reflexivity. Qed.

(** C109: the count returned is the number of bytes written, less the spaces around integers and the second and further bytes of characters. *)
Theorem C109_count_partial ps args t m : Forall wf ps -> Prints ps args t m -> snd (printf (concat (map spell ps)) args) = Val (zlen t - m).
Proof. intros Hw H. now rewrite (FmtProofs4.printf_ok ps args t m H Hw). Qed.
Theorem C109_count_refuted :
  printf (tx "%5d") [AInt true 32 7] = (tx "    7", Val 1) /\ printf (tx "%c") [AInt false 32 233] = ([195; 169], Val 1).
Proof. split; vm_compute; reflexivity. Qed.

(** C110: %c prints the UTF-8 text of a character, and the replacement character for what is no 32-bit number. *)
Theorem C110_char_partial s b v : scalar v -> v <> 127 -> v <> 2047 -> v <> 65535 -> fst (printf (tx "%c") [AInt s b v]) = utf8 v.
Proof. intros Hs H1 H2 H3. change (tx "%c") with [37; 99]. now rewrite FmtProofs7.plain_char. Qed.
Theorem C110_replacement s b v : v < 0 \/ 2 ^ 32 <= v -> fst (printf (tx "%c") [AInt s b v]) = utf8 65533.
Proof. intros H. change (tx "%c") with [37; 99]. now rewrite FmtProofs7.odd_char. Qed.
Example C110_char_ex : scalar 8364 /\ fst (printf (tx "%c") [AInt false 32 8364]) = [226; 130; 172]. Proof. split; [unfold scalar; lia|vm_compute; reflexivity]. Qed.
(** The last character of every length is printed one byte too long, which is no UTF-8; a width is not kept, or kept twice. *)
Theorem C110_char_refuted :
  (fst (printf (tx "%c") [AInt false 32 127]) = [193; 191] /\ utf8 127 = [127]) /\
  (fst (printf (tx "%c") [AInt false 32 2047]) = [224; 159; 191] /\ utf8 2047 = [223; 191]) /\
  (fst (printf (tx "%c") [AInt false 32 65535]) = [240; 143; 191; 191] /\ utf8 65535 = [239; 191; 191]) /\
  fst (printf (tx "%3c|") [AInt false 32 65]) = tx "A|" /\ fst (printf (tx "%-3c|") [AInt false 32 65]) = tx "  A  |".
Proof. repeat match goal with |- _ /\ _ => split end; vm_compute; reflexivity. Qed.

(** C111: printing into a buffer of n bytes, for every format and all arguments, however malformed: what fits is printed as without a limit; if it
    does not fit, the buffer holds the first n bytes of it, and the result is a fault. *)
Theorem C111_buffer n s args : 0 <= n -> let '(t, r) := printf s args in
  if zlen t <=? n then bprintf n s args = (t, match r with Val _ => Val t | Flt e => Flt e | Stuck => Stuck end)
  else exists e, bprintf n s args = (firstn (Z.to_nat n) t, Flt e).
Proof. exact (FmtProofs5.bprintf_ok n s args). Qed.
Example C111_buffer_ex : bprintf 4 (tx "%5d") [AInt true 32 7] = (tx "    ", Flt BUFFER_EXCEEDED) /\ bprintf 5 (tx "%5d") [AInt true 32 7] = (tx "    7", Val (tx "    7")) /\
  bprintf 8 (tx "%d%d") [AStr (tx "x"); AInt true 32 1] = (tx "<INVALID", Flt INVALID_ARGUMENT).
Proof. repeat match goal with |- _ /\ _ => split end; vm_compute; reflexivity. Qed.

(** C112: a format that does not end with a digit is never read past its end, and printing ends (floating-point conversions are not modelled). *)
Theorem C112_in_bounds_partial s args : (forall r c, s = (r ++ [c])%list -> ~ is_digit c) -> (forall c, In c s -> ~ In c (tx "AaFfEeGg")) -> snd (printf s args) <> Stuck.
Proof.
  intros Hs. apply FmtProofs6.printf_safe. intros c Hc. destruct (Mach.split_at s (zlen s - 1)) as (a & x & r & E & El); [split; [|lia]; apply Mach.get_inv in Hc; lia|].
  assert (r = []) by (destruct r; [reflexivity|]; rewrite E, zlen_app, !zlen_cons in El; pose proof (zlen_nonneg r); lia). subst r. rewrite E in Hc at 1. rewrite get_app in Hc by (rewrite El; reflexivity). injection Hc as <-. now apply (Hs a).
Qed.
Example C112_in_bounds_ex : snd (printf (tx "%-+08.*q %s %") [AInt true 32 3; AInt true 32 1]) = Flt INVALID_FORMAT. Proof. vm_compute. reflexivity. Qed.
Theorem C112_in_bounds_refuted : printf (tx "x%5") [AInt true 32 7] = (tx "x", Stuck) /\ printf (tx "%.1") [AInt true 32 7] = ([], Stuck).
Proof. split; vm_compute; reflexivity. Qed.

Print Assumptions C107_plain. Print Assumptions C107_digits. Print Assumptions C107_integer_partial. Print Assumptions C107_integer_refuted.
Print Assumptions C108_text_partial. Print Assumptions C108_text_refuted. Print Assumptions C109_count_partial. Print Assumptions C109_count_refuted.
Print Assumptions C110_char_partial. Print Assumptions C110_replacement. Print Assumptions C110_char_refuted. Print Assumptions C111_buffer.
Print Assumptions C112_in_bounds_partial. Print Assumptions C112_in_bounds_refuted.
