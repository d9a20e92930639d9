(** C30: reading a JSON text gives the value it denotes, and errors are reported. *)
From Coq Require Import String Ascii ZArith QArith Qreduction List Bool Lia.
From Verif Require Import JsonModel JsonSpec JsonProofs JsonSound.
Import ListNotations.
Open Scope Z_scope.

(** Every RFC 8259 document without negative numbers, exponents and \u escapes is read as the value it denotes, without an error. *)
Theorem C30_reads_partial : forall text v, document false text v -> load text = Value v.
Proof. exact (load_document false). Qed.
Print Assumptions C30_reads_partial.

(** So is every document using the extensions of the reader: comments, trailing commas, raw control characters, lax numbers, \u escapes of one byte. *)
Theorem C30_reads_extended : forall text v, document true text v -> load text = Value v.
Proof. exact (load_document true). Qed.
Print Assumptions C30_reads_extended.

Example C30_reads_example : document false (bytes "{ ""a"" : [1.5, true], ""b"" : null } ") (JObj [(bytes "a", JArr [JNum (3 # 2); JBool true]); (bytes "b", JNull)])
  /\ load (bytes "{ ""a"" : [1.5, true], ""b"" : null } ") = Value (JObj [(bytes "a", JArr [JNum (3 # 2); JBool true]); (bytes "b", JNull)]).
Proof.
  split; [|vm_compute; reflexivity].
  assert (SP : gap false [32]) by (apply gap_space; [left; reflexivity|constructor]).
  assert (Q : forall c, 93 <= c -> quoted false [34; c; 34] (cstr [c])) by (intros c H; apply (quoted_intro false [c] [c]); apply ch_raw; [lia|lia|right; lia|constructor]).
  apply (doc false [] (bytes "{ ""a"" : [1.5, true], ""b"" : null }") _ [32]); [constructor| |apply eg_gap, SP].
  apply (val_obj false (bytes " ""a"" : [1.5, true], ""b"" : null ")).
  apply (mb_more false [32] (bytes """a""") (bytes "a") [32] [32] (bytes "[1.5, true]") _ [] (bytes " ""b"" : null ") [(bytes "b", JNull)]); try exact SP; try constructor.
  - apply (Q 97). lia.
  - apply (val_arr false (bytes "1.5, true")). apply (el_more false [] (bytes "1.5") _ [] (bytes " true")); try constructor.
    + assert (D : forall c, 48 <= c <= 57 -> Forall digit [c]) by (intros c H; constructor; [exact H|constructor]).
      change (3 # 2) with (frac [49] [53]). apply (num_frac false [49] [53]); try (apply D; lia); try discriminate; reflexivity.
    + apply (el_one false [32] (bytes "true") _ []); [exact SP|constructor|constructor].
  - apply (mb_one false [32] (bytes """b""") (bytes "b") [32] [32] (bytes "null") JNull [32]); try exact SP; [apply (Q 98); lia|constructor].
Qed.

(** Signs and exponents are lost or rejected, \u escapes give the low byte of the code point instead of its UTF-8 encoding, and a \u0000 cuts the string. *)
Theorem C30_reads_refuted :
  load (bytes "-1") = Value (JNum 1) /\ load (bytes "[1e5]") = Reported /\ load (bytes """\u00e9""") = Value (JStr [233]) /\ load (bytes """\u1234""") = Value (JStr [52])
  /\ load (bytes """a\u0000b""") = Value (JStr (bytes "a")).
Proof. vm_compute. repeat split; reflexivity. Qed.
Print Assumptions C30_reads_refuted.

(** If the reader reports no error, the text begins (after whitespace) with a value of the extended grammar, and that is the value it returned; or the text is
    blank, and it returned null. Missing: errors after the first value are not reported, nor is a blank text. *)
Theorem C30_errors_partial : forall text v, load text = Value v ->
  (exists g t rest, text = g ++ t ++ rest /\ gap true g /\ value true t v) \/ (end_gap true text /\ v = JNull).
Proof. intros text v H. destruct (load_sound text v H) as [X|X]; auto. Qed.
Print Assumptions C30_errors_partial.

Example C30_errors_example : load (bytes "[1 2]") = Reported /\ load (bytes "{""a"":}") = Reported /\ load (bytes "[1") = Reported /\ load (bytes """abc") = Reported /\ load (bytes "nul") = Reported
  /\ load (bytes """\q""") = Reported.
Proof. vm_compute. repeat split; reflexivity. Qed.

(** Texts that are not JSON and are read without an error. *)
Theorem C30_errors_refuted :
  load (bytes "1 2") = Value (JNum 1) /\ load (bytes "") = Value JNull /\ load (bytes "-") = Value (JNum 0) /\ load (bytes "01.") = Value (JNum 1)
  /\ load (bytes "[1] /* not closed") = Value (JArr [JNum 1]) /\ load (bytes "{} ]") = Value (JObj []).
Proof. vm_compute. repeat split; reflexivity. Qed.
Print Assumptions C30_errors_refuted.

(** The reader always finishes: the recursion depth is bounded by the length of the text. *)
Theorem C30_terminates : forall text, load text <> NoFuel.
Proof. exact load_fuel. Qed.
Print Assumptions C30_terminates.

(** The reader reads only the text and writes only its string buffers, if at least three bytes follow every "\u" in it. *)
Theorem C30_in_bounds_partial : forall text, (forall a b, text = a ++ bytes "\u" ++ b -> (3 <= length b)%nat) -> load text <> Outside.
Proof. exact load_safe. Qed.
Print Assumptions C30_in_bounds_partial.

Example C30_in_bounds_example : (forall a b, bytes "[""\u0041""]" = a ++ bytes "\u" ++ b -> (3 <= length b)%nat) /\ load (bytes "[""\u0041""]") = Value (JArr [JStr (bytes "A")]).
Proof.
  split; [|vm_compute; reflexivity]. intros a b E. change (bytes "[""\u0041""]") with [91; 34; 92; 117; 48; 48; 52; 49; 34; 93] in E. change (bytes "\u") with [92; 117] in E.
  destruct a as [|x1 [|x2 [|x3 a]]]; cbn [app] in E; try discriminate E.
  - injection E as _ _ <-. cbn. lia.
  - exfalso. injection E as _ _ _ E. destruct a as [|y1 [|y2 [|y3 [|y4 [|y5 [|y6 [|y7 a]]]]]]]; try discriminate E. cbn [app] in E. injection E as _ _ _ _ _ _ _ E. destruct a; discriminate E.
Qed.

(** Otherwise it reads past the end of the text. *)
Theorem C30_in_bounds_refuted : load (bytes """\u") = Outside /\ load (bytes """\u12") = Outside.
Proof. vm_compute. split; reflexivity. Qed.
Print Assumptions C30_in_bounds_refuted.
