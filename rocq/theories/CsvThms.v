(** C178-C179: reading rows of columns. *)
From Coq Require Import ZArith Bool List Lia ZifyBool.
From Verif Require Import Mach StrModel StrSpec StrProofs IoModel CsvModel CsvSpec CsvProofs.
Import ListNotations.
Local Open Scope Z_scope.

(** C178: a row read is the next line cut at the separators, so its columns with separators between them are the line; the rest of the text follows.
    Skipping a row leaves the same rest. *)
Theorem C178_read_row : forall separator l cr more p, separator <> [] -> plain (l, cr) -> exists r,
  read_row (Src (l ++ line_end cr ++ more) p) separator = Ok (Got r, Src more p) /\ Cut separator l (columns r) /\ glue separator (columns r) = l /\ line r = l /\
  skip_row (Src (l ++ line_end cr ++ more) p) = Src more p.
Proof.
  intros d l cr more p D P. destruct (read_row_ok d l cr more p D P) as (ps & C & E). eexists. split; [exact E|]. cbn [columns line].
  split; [exact C|]. split; [eapply cut_glue; eauto|]. split; [reflexivity|]. unfold skip_row. rewrite read_line by apply P. reflexivity.
Qed.
Example C178_read_ex : [44] <> [] /\ plain ([97; 44; 44; 98], true) /\
  read_row (Src [97; 44; 44; 98; 13; 10; 99] []) [44] = Ok (Got (CsvRow [[97]; []; [98]] [97; 44; 44; 98] true), Src [99] []).
Proof. split; [discriminate|]. split; [|reflexivity]. repeat split; cbn [fst In]; try lia. Qed.
Print Assumptions C178_read_row.

(** @each_row gives the rows of the text in order, at most as many as asked for, ends without a fault, and leaves the other lines to be read. *)
Theorem C178_each_row : forall separator lines p max, separator <> [] -> Forall plain lines -> 0 <= max < 2 ^ 31 -> exists rows, cut_at separator lines rows /\
  forall fuel, (length lines < fuel)%nat ->
    each_row fuel (Src (text_of lines) p) separator max = Ok (firstn (Z.to_nat max) rows, None, Src (text_of (skipn (Z.to_nat max) lines)) p).
Proof. exact each_row_ok. Qed.
Example C178_each_ex : Forall plain [([97; 44; 98], false); ([], true); ([99], false)] /\
  each_row 9 (Src (text_of [([97; 44; 98], false); ([], true); ([99], false)]) []) [44] 2 = Ok ([[[97]; [98]]; [[]]], None, Src [99; 10] []).
Proof. split; [|reflexivity]. repeat constructor; cbn [fst In]; try lia. Qed.
Print Assumptions C178_each_row.

(** C179: a row that was read can be freed.
    Missing: the row of an empty line that ends in a line feed alone (below). *)
Theorem C179_free_partial : forall separator l cr more p, separator <> [] -> plain (l, cr) -> l <> [] \/ cr = true -> exists r s,
  read_row (Src (l ++ line_end cr ++ more) p) separator = Ok (Got r, s) /\ free r = Ok tt.
Proof.
  intros d l cr more p D P N. destruct (read_row_ok d l cr more p D P) as (ps & _ & E). eexists. eexists. split; [exact E|]. unfold free. cbn [allocated].
  destruct N as [N | ->]; [|reflexivity]. destruct l as [|c l]; [contradiction|]. rewrite zlen_cons. pose proof (zlen_nonneg l).
  destruct (Z.eqb_spec (1 + zlen l) 0); [lia|]. rewrite orb_true_r. reflexivity.
Qed.
Example C179_free_ex : plain ([97], false) /\ [97] <> [] /\ exists r s, read_row (Src [97; 10] []) [44] = Ok (Got r, s) /\ free r = Ok tt.
Proof. split; [repeat split; cbn [fst In]; lia|]. split; [discriminate|]. eexists. eexists. split; reflexivity. Qed.
Print Assumptions C179_free_partial.

(** The text of an empty line is a constant: freeing its row releases memory that was never allocated, whatever follows. *)
Theorem C179_free_refuted : forall separator more p, separator <> [] -> exists r s, read_row (Src (10 :: more) p) separator = Ok (Got r, s) /\ free r = Oob.
Proof.
  intros d more p D. destruct (read_row_ok d [] false more p D) as (ps & _ & E); [repeat split; cbn [fst In]; try tauto; reflexivity|].
  eexists. eexists. split; [exact E|]. reflexivity.
Qed.
Print Assumptions C179_free_refuted.
