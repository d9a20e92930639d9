(** C62, C63, C64: what a function's statements become. *)
From Coq Require Import List Arith Bool Lia.
From Verif Require Import FlowAst FlowSpec FlowModel FlowProofs.
Import ListNotations.

(** A function the compiler accepts, none of whose statements is one of the kinds it gets wrong (labelled [if] with a constant condition broken out of,
    [while (false)], a macro right of [||], an endless loop with nothing in it), does when called what its source says: the same things in the same order,
    every scope's defers included, however each scope is left, and the same result; for every sequence of run-time decisions. *)
Theorem C62_defers_partial : forall rounds world is_void is_optional body code, 2 <= rounds ->
  ana_fun is_void is_optional body = AOk code -> flow_ok_list body = true ->
  compiled_run rounds world is_void code = reference_run rounds world is_void body.
Proof. intros N orc v o b l N2 H F. apply (fun_sim orc N N2 v o b l H F). Qed.
Print Assumptions C62_defers_partial.

(** Statements from a list. *)
Fixpoint block (l : list stmt) : stmts := match l with [] => SNil | x :: r => SCons x (block r) end.

(** A loop with defers of all three kinds left by a labelled continue, a rethrow, a nextcase and a labelled break from inside a switch. *)
Definition sample : stmts := block
  [ SDefer DPlain (block [SExpr (RVal 1)]);
    SFor (Some 9) false (Some (CUnk 5)) (Some 77) (SBlock (block
      [ SDefer DTry (block [SExpr (RVal 2)]);
        SDefer DCatch (block [SExpr (RVal 3)]);
        SIf None (CUnk 8) (SBlock (block [SDefer DPlain (block [SExpr (RVal 4)]); SCont (Some 9)]));
        SExpr (RRethrow (ROpt 6));
        SSwitch None 11 false
          (KBody false (block [SNextPlain]) (KEmpty false (KBody true (block [SDefer DPlain (block [SExpr (RVal 12)]); SBreak (Some 9)]) KNil))) ]));
    SRet (RMac (block [SDefer DPlain (block [SExpr (RVal 20)]); SIf None (CUnk 21) (SRet (RVal 22)); SRet (ROpt 23)])) ].

Example C62_defers_example : exists code, ana_fun false true sample = AOk code /\ flow_ok_list sample = true
  /\ reference_run 9 (fun i => match i with 3 | 4 | 5 | 6 => 0 | _ => 1 end) false sample =
       (Returned true, [EvDo 1; EvDo 20; EvOpt 23 true; EvCond 21 false; EvDo 2; EvDo 12; EvSwitch 11 0; EvOpt 6 false; EvCond 8 false; EvCond 5 true;
                        EvDo 77; EvDo 2; EvDo 4; EvCond 8 true; EvCond 5 true])
  /\ reference_run 9 (fun i => match i with 1 => 0 | _ => 1 end) false sample =
       (Returned true, [EvDo 1; EvDo 3; EvOpt 6 true; EvCond 8 false; EvCond 5 true]).
Proof. eexists. split; [vm_compute; reflexivity|]. split; [reflexivity|]. split; vm_compute; reflexivity. Qed.

(** Programs the compiler gets wrong.
    1. [fn void f() { defer A; if L: (true) { break L; } }]: the code after the [if] is taken for dead, and the defer with it.
    2. [fn void f() { while (false) A; B; }]: the body of the loop runs, once.
    3. [fn void f() { if (c || @die()) {} A; }] with a macro that does not return: A is taken for dead and never runs, though c is true. *)
Definition wrong_if : stmts := block [SDefer DPlain (block [SExpr (RVal 1)]); SIf (Some 0) (CConst true) (SBlock (block [SBreak (Some 0)]))].
Definition wrong_while : stmts := block [SFor None false (Some (CConst false)) None (SExpr (RVal 1)); SExpr (RVal 2)].
Definition wrong_or : stmts := block [SExpr (ROr 3 (RMac (block [SNoRet 4]))); SExpr (RVal 5)].
Theorem C62_defers_refuted :
  (exists code, ana_fun true false wrong_if = AOk code /\ forall rounds world,
     reference_run rounds world true wrong_if = (Returned false, [EvDo 1]) /\ compiled_run rounds world true code = (Returned false, []))
  /\ (exists code, ana_fun true false wrong_while = AOk code /\ forall rounds world,
     reference_run (S rounds) world true wrong_while = (Returned false, [EvDo 2]) /\ compiled_run (S rounds) world true code = (Returned false, [EvDo 2; EvDo 1]))
  /\ (exists code, ana_fun true false wrong_or = AOk code /\ forall rounds,
     reference_run rounds (fun _ => 1) true wrong_or = (Returned false, [EvDo 5; EvCond 3 true])
     /\ compiled_run rounds (fun _ => 1) true code = (Returned false, [EvCond 3 true])).
Proof.
  split; [|split]; (eexists; split; [vm_compute; reflexivity|]).
  - intros N w. split; reflexivity.
  - intros N w. split; reflexivity.
  - intros N. split; reflexivity.
Qed.
Print Assumptions C62_defers_refuted.

(** An accepted function without those statements never runs off its end when it has a value to return, never jumps to a place that is not there or out of a
    defer, and returns a fault only if its type says so. *)
Theorem C63_returns_partial : forall rounds world is_void is_optional body code, 2 <= rounds ->
  ana_fun is_void is_optional body = AOk code -> flow_ok_list body = true ->
  let ends := fst (compiled_run rounds world is_void code) in
  ends <> FellOff /\ ends <> Meaningless /\ (is_optional = false -> ends <> Returned true).
Proof.
  intros N orc v o b l N2 H F. cbv zeta. destruct (fun_sim orc N N2 v o b l H F) as (E & A & B & C). rewrite E. auto.
Qed.
Print Assumptions C63_returns_partial.

(** An endless loop and an exhaustive switch end a function without a return; a fault can be returned only by an optional function. *)
Definition sample2 : stmts := block
  [ SFor (Some 1) false None None (SBlock (block
      [ SIfElse None (CUnk 2) (SBlock (block [SBreak (Some 1)]))
          (SBlock (block [SSwitch None 3 true (KBody false (block [SRet (RVal 4)]) (KBody false (block [SCont None]) KNil))])) ]));
    SSwitch None 6 false (KBody false (block [SRet (RVal 7)]) (KBody true (block [SFor None false (Some (CConst true)) None (SExpr (RVal 8))]) KNil)) ].
Example C63_returns_example : (exists code, ana_fun false false sample2 = AOk code) /\ flow_ok_list sample2 = true
  /\ ana_fun false false sample = AErr /\ ana_fun false false (block [SIf None (CUnk 1) (SRet (RVal 2))]) = AErr.
Proof. split; [eexists; vm_compute; reflexivity|]. split; [reflexivity|]. split; vm_compute; reflexivity. Qed.

(** With a labelled [if] or a macro on the right of [||] a function with a result can run off its end. *)
Definition no_return_if : stmts := block [SIf (Some 0) (CConst true) (SBlock (block [SBreak (Some 0)]))].
Definition no_return_or : stmts := block [SExpr (ROr 3 (RMac (block [SNoRet 4]))); SRet (RVal 5)].
Theorem C63_returns_refuted :
  (exists code, ana_fun false false no_return_if = AOk code /\ forall rounds world, compiled_run rounds world false code = (FellOff, []))
  /\ (exists code, ana_fun false false no_return_or = AOk code /\ forall rounds,
       reference_run rounds (fun _ => 1) false no_return_or = (Returned false, [EvDo 5; EvCond 3 true])
       /\ compiled_run rounds (fun _ => 1) false code = (FellOff, [EvCond 3 true])).
Proof.
  split; (eexists; split; [vm_compute; reflexivity|]).
  - intros N w. reflexivity.
  - intros N. split; reflexivity.
Qed.
Print Assumptions C63_returns_refuted.

(** Whatever the statements, and however they jump, the analysis of a function accepts it or rejects it with a message, if statements nest at most 127 deep and no
    case but a switch's last is empty. *)
Theorem C64_analysis_ends_partial : forall is_void is_optional body, nesting_list body <= 127 -> full_cases_list body = true ->
  ana_fun is_void is_optional body <> AFatal.
Proof. exact fun_alive. Qed.
Print Assumptions C64_analysis_ends_partial.

Example C64_analysis_ends_example : nesting_list sample2 = 5 /\ full_cases_list sample2 = true
  /\ ana_fun false false sample2 <> AErr /\ ana_fun true false (block [SBreak None; SDefer DPlain (block [SRetVoid])]) = AErr.
Proof. split; [reflexivity|]. split; [reflexivity|]. split; [vm_compute; discriminate|vm_compute; reflexivity]. Qed.

(** [switch (x) { case 0: case 1: ... case 300: }] kills the compiler: each empty case leaves a scope open. *)
Fixpoint empty_cases (n : nat) : cases := match n with 0 => KNil | S n => KEmpty false (empty_cases n) end.
Theorem C64_analysis_ends_refuted : exists body, nesting_list body = 1 /\ ana_fun true false body = AFatal.
Proof. exists (block [SSwitch None 1 false (empty_cases 301)]). split; vm_compute; reflexivity. Qed.
Print Assumptions C64_analysis_ends_refuted.
