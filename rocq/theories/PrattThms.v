(** C14: expression parsing. *)
From Coq Require Import Arith Bool List.
From Verif Require Import PrattModel PrattSpec PrattProofs PrattProofs2.
Import ListNotations.

(** Any way of writing any tree without `+++` by the documented grammar parses
    to that tree (with its parentheses recorded) and leaves exactly what
    follows it. *)
Theorem C14_parse_written_partial : forall e ts rest,
  writes doc_level 1 e ts -> no_concat e -> stops rest -> parse_expr (ts ++ rest) = POk (e, rest).
Proof. intros e ts rest H1 H2 H3. apply writes_parse; [apply writes_doc_real; assumption|exact H3]. Qed.
Print Assumptions C14_parse_written_partial.

(** The same for every tree when `+++` is given the level of multiplication. *)
Theorem C14_parse_written_concat : forall e ts rest,
  writes real_level 1 e ts -> stops rest -> parse_expr (ts ++ rest) = POk (e, rest).
Proof. exact writes_parse. Qed.
Print Assumptions C14_parse_written_concat.

(** Every tree, printed with the parentheses the documented levels require, is
    read back. *)
Theorem C14_print_parse_partial : forall e, sensible e -> no_concat e ->
  exists e', parse_expr (render doc_level 1 e) = POk (e', []) /\ plain e' = plain e.
Proof. exact render_parse_doc. Qed.
Print Assumptions C14_print_parse_partial.

Theorem C14_print_parse_concat : forall e, sensible e ->
  exists e', parse_expr (render real_level 1 e) = POk (e', []) /\ plain e' = plain e.
Proof. exact render_parse. Qed.
Print Assumptions C14_print_parse_concat.

(** Whatever is accepted: the tree has the operators and operands of the text in
    their order, nests them by level and associativity, and stops only at a token
    that cannot continue an expression. *)
Theorem C14_accepted : forall ts e rest, parse_expr ts = POk (e, rest) ->
  exists used, ts = used ++ rest /\ bare used = in_order e /\ well_nested real_level e /\ precedence (cur rest) = 0.
Proof. exact parse_sound. Qed.
Print Assumptions C14_accepted.

(** The parser terminates on every token sequence. *)
Theorem C14_terminates : forall ts, parse_expr ts <> PFuel.
Proof. exact parse_expr_total. Qed.
Print Assumptions C14_terminates.

(** `+++` is documented at the level of `+`, but binds like `*`: printing
    a +++ (b ^ c) by the documented levels gives a +++ b ^ c, read as (a +++ b) ^ c. *)
Theorem C14_print_parse_refuted : ~ (forall e, sensible e ->
  exists e', parse_expr (render doc_level 1 e) = POk (e', []) /\ plain e' = plain e).
Proof.
  intros H. destruct (H (EBin BoCtConcat false (EName 0) (EBin BoBitXor false (EName 1) (EName 2)))) as (e' & H1 & H2).
  - cbn. repeat split; discriminate.
  - vm_compute in H1. injection H1 as <-. vm_compute in H2. discriminate.
Qed.
Print Assumptions C14_print_parse_refuted.

(** ** The hypotheses are met *)
(** a = b + c * d == e && f ?? g *)
Example C14_ex1 : parse_expr [TkName 0; TkEq; TkName 1; TkPlus; TkName 2; TkStar; TkName 3; TkEqEq; TkName 4; TkAnd; TkName 5; TkQuestQuest; TkName 6; TkEos]
  = POk (EBin BoAssign false (EName 0)
          (EBin BoElse false
            (EBin BoAnd false
              (EBin BoEq false (EBin BoAdd false (EName 1) (EBin BoMult false (EName 2) (EName 3))) (EName 4))
              (EName 5))
            (EName 6)), [TkEos]).
Proof. reflexivity. Qed.
(** a - (b - c)(d, x: -e)[1..^2].f! ? g : (int)*h ?: i is a written tree *)
Definition C14_tree : expr :=
  ETern false
    (EBin BoSub false (EName 0)
       (ERethrow (EAccess (ESlice (ECall (EBin BoSub true (EName 1) (EName 2))
          (ACons None (EName 3) (ACons (Some 9) (EUnary UoNeg (EName 4)) ANil)))
          (BSome false (ELit 1)) false (BSome true (ELit 2))) (EName 5))))
    (EName 6)
    (EElvis false (ECast 0 (EUnary UoDeref (EName 7))) (EName 8)).
Example C14_ex2 : sensible C14_tree /\ no_concat C14_tree
  /\ render doc_level 1 C14_tree =
     [TkName 0; TkMinus; TkLParen; TkName 1; TkMinus; TkName 2; TkRParen; TkLParen; TkName 3; TkComma; TkName 9; TkColon; TkMinus; TkName 4; TkRParen;
      TkLBracket; TkLit 1; TkDotDot; TkBitXor; TkLit 2; TkRBracket; TkDot; TkName 5; TkBang;
      TkQuestion; TkName 6; TkColon; TkLParen; TkType 0; TkRParen; TkStar; TkName 7; TkElvis; TkName 8]
  /\ parse_expr (render doc_level 1 C14_tree) = POk (C14_tree, []).
Proof. split; [cbn; repeat split; discriminate|]. split; [cbn; repeat split; discriminate|]. split; reflexivity. Qed.
Example C14_ex3 : writes doc_level 1 (EBin BoElse false (ERethrow (EOpt (EName 0))) (EName 1)) [TkName 0; TkQuestion; TkBang; TkQuestQuest; TkName 1].
Proof.
  apply (W_orelse _ 1 (ERethrow (EOpt (EName 0))) [TkName 0; TkQuestion; TkBang] (EName 1) [TkName 1]); [repeat constructor| |constructor; repeat constructor].
  apply (WS_opt_rethrow _ (EName 0) [TkName 0]). constructor. repeat constructor.
Qed.
Example C14_ex4 : parse_expr [TkName 0; TkPlus; TkStar] = PErr /\ parse_expr [TkLParen; TkName 1] = PErr
  /\ parse_expr [TkName 0; TkBitNot; TkName 1] = PErr.
Proof. repeat split. Qed.
