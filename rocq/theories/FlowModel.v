(** How the compiler handles the statements of a function: the semantic analysis that checks jumps, finds dead code and copies the bodies of defers to every
    way out (src/compiler/sema_stmts.c, semantic_analyser.c, sema_expr.c), and the code generated for the result (src/compiler/llvm_codegen_stmt.c). *)
From Coq Require Import List Arith Bool.
From Verif Require Import FlowAst.
Import ListNotations.

(** ** The analysed statements *)

(** A statement with everything resolved: jump targets are the statements themselves (Ast pointers; here the nesting level of the enclosing target,
    which tells apart all the statements a jump can go to), and the defers to run on the way are copies of their bodies. *)
Inductive lst :=
| LExpr (e : lexp)
| LNoRet (n : nat)
| LBlock (b : lsts)
| LIf (lev : nat) (c : cond) (th : lst) (el : option lst)
| LFor (lev : nat) (skip_first : bool) (c : option cond) (incr : option nat) (body : lst)
| LSwitch (lev n : nat) (all_enums : bool) (cs : lcases)
| LBreak (lev : nat) (cleanup : lsts)
| LCont (lev : nat) (cleanup : lsts)
| LNext (lev k : nat) (cleanup : lsts)
| LNextVar (lev n : nat) (cleanup : lsts)
| LRetVoid (cleanup : lsts)
| LRet (e : lexp) (cleanup cleanup_fail : lsts)
| LNop
with lsts := LNil | LCons (s : lst) (r : lsts)
with lcases := LKNil | LKEmpty (dflt : bool) (cs : lcases) | LKBody (dflt : bool) (b : lsts) (cs : lcases)
with lexp := LVal (n : nat) | LOpt (n : nat) | LFault (n : nat) | LMac (b : lsts) | LRethrow (e : lexp) (cleanup : lsts) | LOr (n : nat) (e : lexp).

Fixpoint lapp (a b : lsts) : lsts := match a with LNil => b | LCons s r => LCons s (lapp r b) end.

(** ** Semantic analysis *)

(** Accepted; rejected with an error message; stopped by FATAL_ERROR or a failed ASSERT (src/utils/common.h:117). *)
Inductive ares (A : Type) := AOk (a : A) | AErr | AFatal.
Arguments AOk {A}. Arguments AErr {A}. Arguments AFatal {A}.
Definition abind {A B} (x : ares A) (f : A -> ares B) : ares B := match x with AOk a => f a | AErr => AErr | AFatal => AFatal end.
Notation "x <- e ;; f" := (abind e (fun x => f)) (at level 61, e at next level, right associativity).
Notation "' p <- e ;; f" := (abind e (fun p => f)) (at level 61, p pattern, e at next level, right associativity).

(** compiler_internal.h:41 *)
Definition max_scope_depth : nat := 256.

(** One registered defer (AstDeferStmt). The chain of defers (active_scope.defer_last, linked by prev_defer) is the list of them, latest first, and a
    position in the chain (an AstId) is the number of defers from there on. *)
Record dfr := Dfr { dk : dkind; dbody : lsts }.
Definition chain := list dfr.

(** What a jump needs to know about its target: the statement and the position in the defer chain when it was entered. *)
Record target := Tgt { t_lev : nat; t_mark : nat }.
(** A switch as nextcase sees it (AstSwitchStmt: cases, defer). *)
Record swinfo := Sw { sw_lev : nat; sw_mark : nat; sw_count : nat; sw_default : option nat }.
(** A label (Decl label: parent, defer): of an if, a loop, or a switch. *)
Inductive lkind := LkIf | LkFor | LkSwitch (w : swinfo).
Record label := Lab { lb_name : lbl; lb_tgt : target; lb_kind : lkind }.

(** The parts of SemaContext and DynamicScope that do not change while the statements of one scope are analysed: break_target/break_defer,
    continue_target/continue_defer, next_switch with next_target (the index of the case after this one), the labels in scope
    (entering a defer or a macro hides the outer ones), whether this is inside a defer, inside a macro, whether the function returns an optional, whether it
    returns void, the nesting depth, defer_start, and the level the next target gets. *)
Record cx := Cx {
  c_brk : option target; c_cnt : option target; c_nxt : option (swinfo * option nat); c_labels : list label;
  c_indefer : bool; c_inmacro : bool; c_opt : bool; c_void : bool; c_depth : nat; c_start : nat; c_lev : nat }.

(** A return statement or rethrow of a macro as recorded in context->returns: does it carry a value, can it be a fault. *)
Record reti := Rt { rt_value : option bool; rt_opt : bool }.

(** The parts that do change: defer_last, jump_end, the statements that have flow.has_break set, context->returns. *)
Record sc := Sc { a_chain : chain; a_jend : bool; a_brks : list nat; a_rets : list reti }.

Definition with_jend (b : bool) (a : sc) := Sc (a_chain a) b (a_brks a) (a_rets a).
Definition with_chain (c : chain) (a : sc) := Sc c (a_jend a) (a_brks a) (a_rets a).
Definition with_brks (l : list nat) (a : sc) := Sc (a_chain a) (a_jend a) l (a_rets a).
Definition with_rets (l : list reti) (a : sc) := Sc (a_chain a) (a_jend a) (a_brks a) l.

(** The part of a defer chain above a position; walking past the end would follow a null AstId. *)
Fixpoint above (c : chain) (mark : nat) : ares chain :=
  if length c =? mark then AOk []
  else match c with [] => AFatal | d :: r => l <- above r mark;; AOk (d :: l) end.

(** semantic_analyser.c:77-95, the defers a way out runs: not those for the other outcome. Each is a copied compound statement. *)
Definition wanted (is_success : bool) (d : dfr) : bool :=
  match dk d with DPlain => true | DTry => is_success | DCatch => negb is_success end.
Fixpoint bodies (l : chain) : lsts := match l with [] => LNil | d :: r => LCons (LBlock (dbody d)) (bodies r) end.
Definition get_defers (c : chain) (bottom : nat) (is_success : bool) : ares lsts :=
  l <- above c bottom;; AOk (bodies (filter (wanted is_success) l)).

(** sema_stmts.c:407-416 *)
Definition has_try_or_catch (l : chain) : bool := existsb (fun d => match dk d with DPlain => false | _ => true end) l.

(** Entering a scope: semantic_analyser.c:11-52 (the check on the depth; the scope starts with jump_end unset). *)
Definition enter (depth : nat) : ares nat := if max_scope_depth <? S depth then AFatal else AOk (S depth).

Definition find_label (l : lbl) (ls : list label) : option label := find (fun b => Nat.eqb (lb_name b) l) ls.

Definition lab (l : option lbl) (t : target) (k : lkind) (ls : list label) : list label :=
  match l with Some n => Lab n t k :: ls | None => ls end.

(** The scope of a labelled statement (semantic_analyser.c:63-74) at depth [d], with [start] defers in the chain. *)
Definition scope_cx (c : cx) (d start : nat) : cx :=
  Cx (c_brk c) (c_cnt c) (c_nxt c) (c_labels c) (c_indefer c) (c_inmacro c) (c_opt c) (c_void c) d start (c_lev c).
Definition if_cx (c : cx) (l : option lbl) (d start : nat) : cx :=
  Cx (c_brk c) (c_cnt c) (c_nxt c) (lab l (Tgt (c_lev c) start) LkIf (c_labels c)) (c_indefer c) (c_inmacro c) (c_opt c) (c_void c) d start (S (c_lev c)).
Definition for_cx (c : cx) (l : option lbl) (d start : nat) : cx :=
  let t := Tgt (c_lev c) start in
  Cx (Some t) (Some t) (c_nxt c) (lab l t LkFor (c_labels c)) (c_indefer c) (c_inmacro c) (c_opt c) (c_void c) d start (S (c_lev c)).
Definition case_cx (c : cx) (l : option lbl) (w : swinfo) (next : option nat) (d : nat) : cx :=
  let t := Tgt (sw_lev w) (sw_mark w) in
  Cx (Some t) (c_cnt c) (Some (w, next)) (lab l t (LkSwitch w) (c_labels c)) (c_indefer c) (c_inmacro c) (c_opt c) (c_void c) d (sw_mark w) (S (c_lev c)).
(** sema_stmts.c:1220-1258: a defer's body has no targets outside itself. *)
Definition defer_cx (c : cx) (d : nat) : cx := Cx None None None [] true false (c_opt c) (c_void c) d 0 (c_lev c).
(** sema_expr.c:2246-2290: a macro is analysed in a context of its own. *)
Definition macro_cx (c : cx) (d : nat) : cx := Cx None None None [] false true (c_opt c) (c_void c) d 0 0.

Definition mem (n : nat) (l : list nat) : bool := existsb (Nat.eqb n) l.
Definition drop (n : nat) (l : list nat) : list nat := filter (fun m => negb (Nat.eqb m n)) l.

(** sema_stmts.c:1272-1302: is the loop endless, and the condition that remains (a constant true one is removed). *)
Definition cond_infinite (c : option cond) : bool := match c with None | Some (CConst true) => true | _ => false end.
Definition cond_left (c : option cond) : option cond := match c with Some (CConst true) => None | _ => c end.

(** Is the expression an optional by its type (IS_OPTIONAL)? A macro's type is that of its returns (sema_expr.c:2132-2170, 2555-2580), which the analysis finds. *)
Definition rets_opt (l : list reti) : bool := existsb rt_opt l.
Definition rets_values (l : list reti) : list bool := flat_map (fun r => match rt_value r with Some b => [b] | None => [] end) l.

Definition is_defer (x : stmt) : bool := match x with SDefer _ _ => true | _ => false end.
Definition is_block (x : stmt) : bool := match x with SBlock _ => true | _ => false end.
Definition is_if (x : stmt) : bool := match x with SIf _ _ _ | SIfElse _ _ _ _ => true | _ => false end.
Definition is_fault (r : rexp) : bool := match r with RFault _ => true | _ => false end.

(** How many defaults there are (sema_stmts.c:2378-2388 allows one). *)
Fixpoint defaults (cs : cases) : nat :=
  match cs with KNil => 0 | KEmpty d r | KBody d _ r => (if d then 1 else 0) + defaults r end.

(** [ana] is sema_analyse_statement (sema_stmts.c:3016-3042) around sema_analyse_statement_inner (2944-3013): a statement met when jump_end is already set is
    analysed, then turned into a nop, and its returns are forgotten. The warning given for it is not modelled.
    [ana_list] is sema_analyse_compound_statement_no_scope (2143-2162) with context_pop_defers (semantic_analyser.c:97-117).
    [ana_cases] is the second loop of sema_analyse_switch_body (2396-2411). [ana_exp] is the analysis of an expression; it gives the lowered expression and
    whether its type is an optional. *)
Fixpoint ana (c : cx) (a : sc) (x : stmt) : ares (lst * sc) :=
  let dead := a_jend a in
  let rets := a_rets a in
  '(l, a1) <-
    match x with
    | SExpr r =>
        (* 1179-1218, sema_expr_check_discard *)
        '(e, opt, a1) <- ana_exp c a r;;
        if opt then AErr
        else AOk (LExpr e, match r with RRethrow r' => if is_fault r' then with_jend true a1 else a1 | _ => a1 end)
    | SNoRet n => AOk (LNoRet n, with_jend true a)
    | SBlock b =>
        (* 221-232 *)
        d <- enter (c_depth c);;
        '(l, a1) <- ana_list (scope_cx c d (length (a_chain a))) (with_jend false a) b;;
        if length (a_chain a1) =? length (a_chain a) then AOk (LBlock l, Sc (a_chain a) (a_jend a1) (a_brks a1) (a_rets a1)) else AFatal
    | SDefer k b =>
        (* 1220-1270 *)
        d <- enter (c_depth c);;
        d <- enter d;;
        '(l, a1) <- ana_list (defer_cx c d) (Sc [] false (a_brks a) (a_rets a)) b;;
        if length (a_chain a1) =? 0 then AOk (LNop, Sc (Dfr k l :: a_chain a) (a_jend a) (a_brks a1) (a_rets a1)) else AFatal
    | SIf l c0 th =>
        (* 1758-1856 without an else *)
        if is_defer th then AErr
        else
          d <- enter (c_depth c);;
          d <- enter d;;
          '(t, a1) <- ana (if_cx c l d (length (a_chain a))) (with_jend false a) th;;
          if length (a_chain a1) =? length (a_chain a) then
            let jump := match c0 with CConst true => a_jend a1 | _ => false end in
            AOk (LIf (c_lev c) c0 t None, Sc (a_chain a) (if jump then true else a_jend a) (drop (c_lev c) (a_brks a1)) (a_rets a1))
          else AFatal
    | SIfElse l c0 th el =>
        if is_block th && (is_block el || is_if el) then
          d <- enter (c_depth c);;
          d <- enter d;;
          '(t, a1) <- ana (if_cx c l d (length (a_chain a))) (with_jend false a) th;;
          if length (a_chain a1) =? length (a_chain a) then
            '(e, a2) <- ana (if_cx c l d (length (a_chain a))) (with_jend false a1) el;;
            if length (a_chain a2) =? length (a_chain a) then
              let then_jump := a_jend a1 in
              let else_jump := a_jend a2 in
              let jump :=
                if then_jump && else_jump && negb (mem (c_lev c) (a_brks a2)) then true
                else if then_jump && match c0 with CConst true => true | _ => false end then true
                else else_jump && match c0 with CConst false => true | _ => false end in
              AOk (LIf (c_lev c) c0 t (Some e), Sc (a_chain a) (if jump then true else a_jend a) (drop (c_lev c) (a_brks a2)) (a_rets a2))
            else AFatal
          else AFatal
        else AErr
    | SFor l is_do c0 incr body =>
        (* 1303-1390; the parser always gives a do loop a condition *)
        if is_defer body then AErr
        else if is_do && negb (is_block body) then AErr
        else
          d <- enter (c_depth c);;
          d <- enter d;;
          '(b, a1) <- ana (for_cx c l d (length (a_chain a))) (with_jend false a) body;;
          if length (a_chain a1) =? length (a_chain a) then
            let infinite := cond_infinite c0 in
            let skip := if is_do then negb infinite else false in
            let jump := infinite && negb (mem (c_lev c) (a_brks a1)) in
            AOk (LFor (c_lev c) skip (cond_left c0) incr b,
                 Sc (a_chain a) (if jump then true else a_jend a) (drop (c_lev c) (a_brks a1)) (a_rets a1))
          else AFatal
    | SSwitch l n all_enums cs =>
        (* 2328-2439, 2742-2778; an enum has at least one value, so a switch without cases does not name them all *)
        d <- enter (c_depth c);;
        if 1 <? defaults cs then AErr
        else
          let w := Sw (c_lev c) (length (a_chain a)) (num_cases cs) (default_idx cs) in
          '(lc, alljump, a1) <- ana_cases c l w 0 d (with_jend false a) cs;;
          let exhaustive := match default_idx cs with Some _ => true | None => all_enums && negb (num_cases cs =? 0) end in
          let jump := (exhaustive && alljump) && negb (mem (c_lev c) (a_brks a1)) in
          AOk (LSwitch (c_lev c) n all_enums lc, Sc (a_chain a) (if jump then true else a_jend a) (drop (c_lev c) (a_brks a1)) (a_rets a1))
    | SBreak l =>
        (* 177-216 *)
        match (match l with None => c_brk c | Some n => option_map lb_tgt (find_label n (c_labels c)) end) with
        | None => AErr
        | Some t =>
            ls <- get_defers (a_chain a) (t_mark t) true;;
            AOk (LBreak (t_lev t) ls, with_brks (t_lev t :: a_brks a) (with_jend true a))
        end
    | SCont l =>
        (* 256-296 *)
        match (match l with
               | None => c_cnt c
               | Some n => match find_label n (c_labels c) with Some b => match lb_kind b with LkFor => Some (lb_tgt b) | _ => None end | None => None end
               end) with
        | None => AErr
        | Some t => ls <- get_defers (a_chain a) (t_mark t) true;; AOk (LCont (t_lev t) ls, with_jend true a)
        end
    | SNextPlain =>
        (* 1950-1964, 2003-2010 *)
        match c_nxt c with
        | Some (w, Some k) => ls <- get_defers (a_chain a) (sw_mark w) true;; AOk (LNext (sw_lev w) k ls, with_jend true a)
        | _ => AErr
        end
    | SNextTo l t =>
        (* 1966-2002, 2012-2070 *)
        match (match l with
               | None => option_map fst (c_nxt c)
               | Some n => match find_label n (c_labels c) with Some b => match lb_kind b with LkSwitch w => Some w | _ => None end | None => None end
               end) with
        | None => AErr
        | Some w =>
            ls <- get_defers (a_chain a) (sw_mark w) true;;
            match t with
            | NDefault => match sw_default w with Some k => AOk (LNext (sw_lev w) k ls, with_jend true a) | None => AErr end
            | NCase k => if k <? sw_count w then AOk (LNext (sw_lev w) k ls, with_jend true a) else AErr
            | NVar n => AOk (LNextVar (sw_lev w) n ls, with_jend true a)
            end
        end
    | SRetVoid =>
        (* 628-676, 526-560 *)
        if c_indefer c then AErr
        else if negb (c_inmacro c) && negb (c_void c) then AErr
        else
          ls <- get_defers (a_chain a) 0 true;;
          AOk (LRetVoid ls, Sc (a_chain a) true (a_brks a) (Rt (Some false) false :: a_rets a))
    | SRet r =>
        (* 628-706, 526-560 with sema_inline_return_defers 418-433 *)
        if c_indefer c then AErr
        else
          '(e, opt, a1) <- ana_exp c (with_jend true a) r;;
          if opt && negb (c_inmacro c) && negb (c_opt c) then AErr
          else
            ls <- get_defers (a_chain a1) 0 true;;
            fs <- (if opt && has_try_or_catch (a_chain a1) then get_defers (a_chain a1) 0 false else AOk ls);;
            AOk (LRet e ls fs, Sc (a_chain a1) true (a_brks a1) (Rt (Some true) opt :: a_rets a1))
    end;;
  AOk (if dead then (LNop, with_rets rets a1) else (l, a1))
with ana_list (c : cx) (a : sc) (b : stmts) : ares (lsts * sc) :=
  match b with
  | SNil =>
      l <- above (a_chain a) (c_start c);;
      let rest := skipn (length (a_chain a) - c_start c) (a_chain a) in
      AOk (if a_jend a then LNil else bodies (filter (wanted true) l), with_chain rest a)
  | SCons x r =>
      '(l, a1) <- ana c a x;;
      '(ls, a2) <- ana_list c a1 r;;
      AOk (LCons l ls, a2)
  end
with ana_cases (c : cx) (l : option lbl) (w : swinfo) (i depth : nat) (a : sc) (cs : cases) : ares (lcases * bool * sc) :=
  match cs with
  | KNil => AOk (LKNil, true, a)
  | KEmpty dflt r =>
      d <- enter depth;;
      (* 2407: the [continue] inside SCOPE_START leaves the scope open unless this is the last case *)
      let last := S i =? sw_count w in
      '(lr, j, a1) <- ana_cases c l w (S i) (if last then depth else d) a r;;
      AOk (LKEmpty dflt lr, if last then false else j, a1)
  | KBody dflt b r =>
      d <- enter depth;;
      let next := if S i =? sw_count w then None else Some (S i) in
      '(lb, a1) <- ana_list (case_cx c l w next d) (with_jend false a) b;;
      if length (a_chain a1) =? length (a_chain a) then
        '(lr, j, a2) <- ana_cases c l w (S i) depth (with_jend false (with_chain (a_chain a) a1)) r;;
        AOk (LKBody dflt lb lr, a_jend a1 && j, a2)
      else AFatal
  end
with ana_exp (c : cx) (a : sc) (r : rexp) : ares (lexp * bool * sc) :=
  match r with
  | RVal n => AOk (LVal n, false, a)
  | ROpt n => AOk (LOpt n, true, a)
  | RFault n => AOk (LFault n, true, a)
  | RMac b =>
      (* sema_expr.c:2440-2652, macros without a declared return type and without a trailing body *)
      _ <- enter (c_depth c);;
      '(l, a1) <- ana_list (macro_cx c 2) (Sc [] false [] []) b;;
      let values := rets_values (a_rets a1) in
      if existsb (fun v => v) values && (existsb negb values || negb (a_jend a1)) then AErr
      else
        let noreturn := match a_rets a1 with [] => a_jend a1 | _ => false end in
        AOk (LMac l, rets_opt (a_rets a1), if noreturn then with_jend true a else a)
  | RRethrow r =>
      (* 8449-8488 *)
      '(e, opt, a1) <- ana_exp c a r;;
      if c_indefer c || negb opt then AErr
      else
        ls <- get_defers (a_chain a1) 0 false;;
        if c_inmacro c then AOk (LRethrow e ls, false, with_rets (Rt None true :: a_rets a1) a1)
        else if c_opt c then AOk (LRethrow e ls, false, a1) else AErr
  | ROr n r => '(e, opt, a1) <- ana_exp c a r;; AOk (LOr n e, opt, a1)
  end.

(** sema_analyse_function_body, sema_stmts.c:3125-3225, without contracts: the missing return check. *)
Definition ana_fun (is_void is_opt : bool) (b : stmts) : ares lsts :=
  d <- enter 0;;
  '(l, a) <- ana_list (Cx None None None [] false false is_opt is_void d 0 0) (Sc [] false [] []) b;;
  if negb (a_jend a) && negb is_void then AErr else AOk l.

(** ** The generated code *)

(** Where control goes after a statement: on, to the exit or continue block of an enclosing statement, to a case of an enclosing switch (or its value
    dispatch again, with a new value), out of the function or macro, nowhere. *)
Inductive lout := ONorm | OBrk (lev : nat) | OCnt (lev : nat) | ONxt (lev k : nat) | ONxtV (lev v : nat) | ORet (fault : bool) | OStop | OFuel.
Inductive leout := LeOk | LeFault | LeLeave (o : lout).

(** ast.c:268-280 *)
Fixpoint not_empty (l : lst) : bool :=
  match l with
  | LBlock LNil => false
  | LBlock (LCons s LNil) => not_empty s
  | _ => true
  end.

(** llvm_codegen_stmt.c:469-497 *)
Inductive loop_type := LoopNormal | LoopInfinite | LoopNone.
Definition loop_type_for_cond (c : option cond) (do_while : bool) : loop_type :=
  match c with
  | None => if do_while then LoopNone else LoopInfinite
  | Some (CConst b) => if b then LoopInfinite else LoopNone
  | Some (CUnk _) => LoopNormal
  end.

Fixpoint lnum_cases (cs : lcases) : nat := match cs with LKNil => 0 | LKEmpty _ r => S (lnum_cases r) | LKBody _ _ r => S (lnum_cases r) end.
(** The default block: the last case without an expression, 933-948. *)
Fixpoint ldefault (cs : lcases) (i : nat) (found : option nat) : option nat :=
  match cs with
  | LKNil => found
  | LKEmpty d r | LKBody d _ r => ldefault r (S i) (if d then Some i else found)
  end.

(** The block a switch value goes to: the world's decision stands for the value, as in the source. *)
Definition dispatch (cs : lcases) (all_enums : bool) (k : nat) : option nat :=
  match ldefault cs 0 None with
  | Some d => Some (if k <? lnum_cases cs then k else d)
  | None => if all_enums then (if lnum_cases cs =? 0 then None else Some (k mod lnum_cases cs))
            else if k <? lnum_cases cs then Some k else None
  end.

Section Run.
Variable orc : oracle.
Variable N : nat.

Definition lcond (c : cond) (s : st) : bool * st :=
  match c with
  | CConst b => (b, s)
  | CUnk n => let '(b, s1) := ask_bool orc s in (b, emit (EvCond n b) s1)
  end.

Definition do_incr (incr : option nat) (s : st) : st := match incr with Some n => emit (EvDo n) s | None => s end.

(** After the body of a loop: the continue block is the increment, or else the start of the loop (552-562); break leaves. [back] is what follows the
    increment. *)
Definition after_body {A} (lev : nat) (incr : option nat) (back : A + lout) (r : lout * st) : (A + lout) * st :=
  match r with
  | (ONorm, s) => (back, do_incr incr s)
  | (OCnt l, s) => if l =? lev then (back, do_incr incr s) else (inr (OCnt l), s)
  | (OBrk l, s) => if l =? lev then (inr ONorm, s) else (inr (OBrk l), s)
  | (o, s) => (inr o, s)
  end.

(** llvm_emit_for_stmt, 499-690. *)
Definition lloop (lev : nat) (skip : bool) (c : option cond) (incr : option nat) (nonempty : bool) (body : st -> lout * st) (s : st) : lout * st :=
  let body := if nonempty then body else fun s => (ONorm, s) in
  let something := nonempty || match incr with Some _ => true | None => false end in
  match loop_type_for_cond c skip with
  | LoopNone =>
      (* the body is emitted once, with no test; then the increment *)
      if something then
        match after_body lev incr (inr ONorm : unit + lout) (body s) with (inr o, s1) => (o, s1) | (inl _, s1) => (ONorm, s1) end
      else (ONorm, s)
  | LoopInfinite =>
      if something then iter OFuel N (fun (_ : unit) s => after_body lev incr (inl tt) (body s)) tt s
      else (OStop, emit EvPanic s)
  | LoopNormal =>
      iter OFuel N (fun (skip_test : bool) s =>
        let '(go, s1) := if skip_test then (true, s) else match c with Some c => lcond c s | None => (true, s) end in
        if go then after_body lev incr (inl false) (body s1) else (inr ONorm, s1)) skip s
  end.

(** llvm_emit_switch_body, 925-1040: blocks of the cases; an empty case shares the block of the next, the last empty ones that of the exit. *)
Definition lswitch_round (lev : nat) (cs : lcases) (all_enums : bool) (body : nat -> option (st -> lout * st)) (i : nat) (s : st) : (nat + lout) * st :=
  match body i with
  | None => (inr ONorm, s)
  | Some b =>
      match b s with
      | (OBrk l, s1) => if l =? lev then (inr ONorm, s1) else (inr (OBrk l), s1)
      | (ONxt l k, s1) => if l =? lev then (inl k, s1) else (inr (ONxt l k), s1)
      | (ONxtV l v, s1) =>
          if l =? lev then match dispatch cs all_enums v with Some k => (inl k, s1) | None => (inr ONorm, s1) end
          else (inr (ONxtV l v), s1)
      | (o, s1) => (inr o, s1)
      end
  end.

(** The jump of a statement after its cleanup ran (llvm_emit_break 1068-1090, continue 1092-1111, nextcase 1114-1150, return 221-297). *)
Definition then_jump (o : lout) (r : lout * st) : lout * st := match r with (ONorm, s) => (o, s) | r => r end.

Fixpoint lexec (x : lst) (s : st) : lout * st :=
  match x with
  | LExpr e => match leval e s with (LeOk, s1) => (ONorm, s1) | (LeFault, s1) => (ONorm, s1) | (LeLeave o, s1) => (o, s1) end
  | LNoRet n => (OStop, emit (EvNoRet n) s)
  | LBlock b => lexec_list b s
  | LIf lev c th el =>
      (* 358-460 *)
      let '(b, s1) := lcond c s in
      match (if b then lexec th s1 else match el with Some e => lexec e s1 | None => (ONorm, s1) end) with
      | (OBrk l, s2) => if l =? lev then (ONorm, s2) else (OBrk l, s2)
      | r => r
      end
  | LFor lev skip c incr body => lloop lev skip c incr (not_empty body) (lexec body) s
  | LSwitch lev n all_enums cs =>
      let '(k, s1) := ask orc s in
      let s2 := emit (EvSwitch n k) s1 in
      match dispatch cs all_enums k with
      | None => (ONorm, s2)
      | Some i => iter OFuel N (lswitch_round lev cs all_enums (fun i => lcase_body cs i)) i s2
      end
  | LBreak lev ls => then_jump (OBrk lev) (lexec_list ls s)
  | LCont lev ls => then_jump (OCnt lev) (lexec_list ls s)
  | LNext lev k ls => then_jump (ONxt lev k) (lexec_list ls s)
  | LNextVar lev n ls => let '(k, s1) := ask orc s in then_jump (ONxtV lev k) (lexec_list ls (emit (EvSwitch n k) s1))
  | LRetVoid ls => then_jump (ORet false) (lexec_list ls s)
  | LRet e ls fs =>
      match leval e s with
      | (LeOk, s1) => then_jump (ORet false) (lexec_list ls s1)
      | (LeFault, s1) => then_jump (ORet true) (lexec_list fs s1)
      | (LeLeave o, s1) => (o, s1)
      end
  | LNop => (ONorm, s)
  end
with lexec_list (b : lsts) (s : st) : lout * st :=
  match b with
  | LNil => (ONorm, s)
  | LCons x r => match lexec x s with (ONorm, s1) => lexec_list r s1 | r => r end
  end
with lcase_body (cs : lcases) (i : nat) : option (st -> lout * st) :=
  match cs with
  | LKNil => None
  | LKEmpty _ r => lcase_body r (pred i)
  | LKBody _ b r => match i with 0 => Some (lexec_list b) | S i' => lcase_body r i' end
  end
with leval (e : lexp) (s : st) : leout * st :=
  match e with
  | LVal n => (LeOk, emit (EvDo n) s)
  | LOpt n => let '(f, s1) := ask_bool orc s in ((if f then LeFault else LeOk), emit (EvOpt n f) s1)
  | LFault n => (LeFault, emit (EvFault n) s)
  | LMac b =>
      (* llvm_codegen_expr.c:6069-6165 *)
      match lexec_list b s with
      | (ONorm, s1) => (LeOk, s1)
      | (ORet f, s1) => ((if f then LeFault else LeOk), s1)
      | (o, s1) => (LeLeave o, s1)
      end
  | LRethrow e ls =>
      (* llvm_codegen_expr.c:4247-4296 *)
      match leval e s with
      | (LeFault, s1) => match then_jump (ORet true) (lexec_list ls s1) with (o, s2) => (LeLeave o, s2) end
      | r => r
      end
  | LOr n e =>
      let '(b, s1) := ask_bool orc s in
      let s2 := emit (EvCond n b) s1 in
      if b then (LeOk, s2) else leval e s2
  end.
End Run.

(** A call of the compiled function. *)
Definition compiled_run (N : nat) (orc : oracle) (is_void : bool) (b : lsts) : ending * list ev :=
  let '(o, s) := lexec_list orc N b (St 0 []) in
  (match o with
   | ONorm => if is_void then Returned false else FellOff
   | ORet f => Returned f
   | OStop => Stopped
   | OFuel => Running
   | _ => Meaningless
   end, tr s).
