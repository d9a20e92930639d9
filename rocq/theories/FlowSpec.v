(** What C3 statements mean, by the language's rules: a scope's defers run when the scope is left, in reverse order of registration, whichever way it is left. *)
From Coq Require Import List Arith Bool.
From Verif Require Import FlowAst.
Import ListNotations.

(** How a statement ends: normally; by a jump that looks for its target outwards; by leaving the function (or macro) with or without a fault; not at all. *)
Inductive out :=
| Norm | Brk (l : option lbl) | Cnt (l : option lbl) | NxtPlain | NxtTo (l : option lbl) (t : ntgt) (chosen : nat) | Ret (fault : bool)
| Stop | Fuel | Bad.

(** An expression yields a value, a fault, or leaves. *)
Inductive eout := EOk | EFault | ELeave (o : out).

(** Does this way of leaving run [defer try] (true) or [defer catch] (false)? *)
Definition is_success (o : out) : bool := match o with Ret true => false | _ => true end.
Definition selected (success : bool) (k : dkind) : bool :=
  match k with DPlain => true | DTry => success | DCatch => negb success end.

Definition runs := st -> out * st.

(** Leaving a scope with registered defers [ds] (latest first) in the way [o]: run those selected, in order; then leave on. A defer that does not end
    normally can only stop the program. *)
Fixpoint leave (ds : list (dkind * runs)) (o : out) (s : st) : out * st :=
  match ds with
  | [] => (o, s)
  | (k, d) :: r =>
      if selected (is_success o) k then
        match d s with
        | (Norm, s') => leave r o s'
        | (Stop, s') => (Stop, s')
        | (Fuel, s') => (Fuel, s')
        | (_, s') => (Bad, s')
        end
      else leave r o s
  end.

(** Things that stop everything run no defers. *)
Definition leave_scope (ds : list (dkind * runs)) (o : out) (s : st) : out * st :=
  match o with Stop | Fuel | Bad => (o, s) | _ => leave ds o s end.

Definition same_lbl (a : option lbl) (b : lbl) : bool := match a with Some x => Nat.eqb x b | None => false end.

(** Is a labelled or plain jump for the statement labelled [l]? *)
Definition for_me (l : option lbl) (j : option lbl) : bool := match j with None => true | Some x => same_lbl l x end.
(** Plain [break] does not stop at an [if]. *)
Definition for_me_if (l : option lbl) (j : option lbl) : bool := match j with None => false | Some x => same_lbl l x end.

(** The case a switch value selects: decision [k] stands for the value. One of the cases; else the default; else nothing. A switch that names
    every enum value always selects a case. *)
Definition choose (cs : cases) (all_enums : bool) (k : nat) : option nat :=
  match default_idx cs with
  | Some d => Some (if k <? num_cases cs then k else d)
  | None => if all_enums then (if num_cases cs =? 0 then None else Some (k mod num_cases cs))
            else if k <? num_cases cs then Some k else None
  end.

Section Run.
Variable orc : oracle.
Variable N : nat.

Definition eval_cond (c : cond) (s : st) : bool * st :=
  match c with
  | CConst b => (b, s)
  | CUnk n => let '(b, s1) := ask_bool orc s in (b, emit (EvCond n b) s1)
  end.

(** One round of a loop: test (unless this is the first round of a do loop), body, increment. *)
Definition loop_round (l : option lbl) (c : option cond) (incr : option nat) (body : runs) (skip_test : bool) (s : st) : (bool + out) * st :=
  let '(go, s1) := if skip_test then (true, s) else match c with None => (true, s) | Some c => eval_cond c s end in
  if go then
    let next s2 := (inl false, match incr with Some n => emit (EvDo n) s2 | None => s2 end) in
    match body s1 with
    | (Norm, s2) => next s2
    | (Cnt j, s2) => if for_me l j then next s2 else (inr (Cnt j), s2)
    | (Brk j, s2) => if for_me l j then (inr Norm, s2) else (inr (Brk j), s2)
    | (o, s2) => (inr o, s2)
    end
  else (inr Norm, s1).

(** One round of a switch: the body of case [i], or of the next case that has one. *)
Definition switch_round (l : option lbl) (cs : cases) (all_enums : bool) (body : nat -> option (nat * runs)) (i : nat) (s : st) : (nat + out) * st :=
  match body i with
  | None => (inr Norm, s)
  | Some (i', b) =>
      match b s with
      | (Brk j, s1) => if for_me l j then (inr Norm, s1) else (inr (Brk j), s1)
      | (NxtPlain, s1) => if i' + 1 <? num_cases cs then (inl (i' + 1), s1) else (inr Bad, s1)
      | (NxtTo j t k, s1) =>
          if for_me l j then
            match t with
            | NDefault => match default_idx cs with Some d => (inl d, s1) | None => (inr Bad, s1) end
            | NCase c => if c <? num_cases cs then (inl c, s1) else (inr Bad, s1)
            | NVar _ => match choose cs all_enums k with Some c => (inl c, s1) | None => (inr Norm, s1) end
            end
          else (inr (NxtTo j t k), s1)
      | (o, s1) => (inr o, s1)
      end
  end.

Fixpoint exec (x : stmt) (s : st) : out * st :=
  match x with
  | SExpr r => match eval r s with (EOk, s1) => (Norm, s1) | (EFault, s1) => (Bad, s1) | (ELeave o, s1) => (o, s1) end
  | SNoRet n => (Stop, emit (EvNoRet n) s)
  | SBlock b => exec_list b [] s
  | SDefer _ _ => (Bad, s)
  | SIf l c th =>
      let '(b, s1) := eval_cond c s in
      if b then
        match exec th s1 with (Brk j, s2) => if for_me_if l j then (Norm, s2) else (Brk j, s2) | r => r end
      else (Norm, s1)
  | SIfElse l c th el =>
      let '(b, s1) := eval_cond c s in
      match (if b then exec th s1 else exec el s1) with (Brk j, s2) => if for_me_if l j then (Norm, s2) else (Brk j, s2) | r => r end
  | SFor l is_do c incr body => iter Fuel N (loop_round l c incr (exec body)) is_do s
  | SSwitch l n all_enums cs =>
      let '(k, s1) := ask orc s in
      let s2 := emit (EvSwitch n k) s1 in
      match choose cs all_enums k with
      | None => (Norm, s2)
      | Some i => iter Fuel N (switch_round l cs all_enums (fun i => case_body cs i)) i s2
      end
  | SBreak l => (Brk l, s)
  | SCont l => (Cnt l, s)
  | SNextPlain => (NxtPlain, s)
  | SNextTo l t =>
      match t with
      | NVar n => let '(k, s1) := ask orc s in (NxtTo l t k, emit (EvSwitch n k) s1)
      | _ => (NxtTo l t 0, s)
      end
  | SRetVoid => (Ret false, s)
  | SRet r => match eval r s with (EOk, s1) => (Ret false, s1) | (EFault, s1) => (Ret true, s1) | (ELeave o, s1) => (o, s1) end
  end
(** The statements of one scope, [ds] being the defers registered in it so far. *)
with exec_list (b : stmts) (ds : list (dkind * runs)) (s : st) : out * st :=
  match b with
  | SNil => leave_scope ds Norm s
  | SCons (SDefer k d) r => exec_list r ((k, exec_list d []) :: ds) s
  | SCons x r => match exec x s with (Norm, s1) => exec_list r ds s1 | (o, s1) => leave_scope ds o s1 end
  end
(** The first case at or after [i] that has statements, with its index. *)
with case_body (cs : cases) (i : nat) : option (nat * runs) :=
  match cs with
  | KNil => None
  | KEmpty _ r => match case_body r (pred i) with Some (j, b) => Some (S j, b) | None => None end
  | KBody _ b r =>
      match i with
      | 0 => Some (0, exec_list b [])
      | S i' => match case_body r i' with Some (j, b) => Some (S j, b) | None => None end
      end
  end
with eval (r : rexp) (s : st) : eout * st :=
  match r with
  | RVal n => (EOk, emit (EvDo n) s)
  | ROpt n => let '(f, s1) := ask_bool orc s in ((if f then EFault else EOk), emit (EvOpt n f) s1)
  | RFault n => (EFault, emit (EvFault n) s)
  | RMac b =>
      match exec_list b [] s with
      | (Norm, s1) => (EOk, s1)
      | (Ret f, s1) => ((if f then EFault else EOk), s1)
      | (Stop, s1) => (ELeave Stop, s1)
      | (Fuel, s1) => (ELeave Fuel, s1)
      | (_, s1) => (ELeave Bad, s1)
      end
  | RRethrow r => match eval r s with (EFault, s1) => (ELeave (Ret true), s1) | e => e end
  | ROr n r =>
      let '(b, s1) := ask_bool orc s in
      let s2 := emit (EvCond n b) s1 in
      if b then (EOk, s2) else eval r s2
  end.
End Run.

(** A call of a function with body [b], given the world's decisions and at most [N] rounds of each loop: how it ends and what was seen, latest first. *)
Definition reference_run (N : nat) (orc : oracle) (is_void : bool) (b : stmts) : ending * list ev :=
  let '(o, s) := exec_list orc N b [] (St 0 []) in
  (match o with
   | Norm => if is_void then Returned false else FellOff
   | Ret f => Returned f
   | Stop => Stopped
   | Fuel => Running
   | _ => Meaningless
   end, tr s).

(** ** Programs the compiler gets wrong are left out of the positive theorems by these conditions *)

(** Is there a [break l] in the statement (not counting defers and macros, which it cannot leave)? *)
Fixpoint breaks (l : lbl) (x : stmt) : bool :=
  match x with
  | SBreak (Some m) => Nat.eqb m l
  | SBlock b => breaks_list l b
  | SIf _ _ th => breaks l th
  | SIfElse _ _ th el => breaks l th || breaks l el
  | SFor _ _ _ _ body => breaks l body
  | SSwitch _ _ _ cs => breaks_cases l cs
  | _ => false
  end
with breaks_list (l : lbl) (b : stmts) : bool := match b with SNil => false | SCons x r => breaks l x || breaks_list l r end
with breaks_cases (l : lbl) (cs : cases) : bool :=
  match cs with KNil => false | KEmpty _ r => breaks_cases l r | KBody _ b r => breaks_list l b || breaks_cases l r end.

(** Nothing but braces. *)
Fixpoint empty_stmt (x : stmt) : bool :=
  match x with SBlock SNil => true | SBlock (SCons y SNil) => empty_stmt y | _ => false end.

(** Not [while (false)] or [for (..; false; ..)] with something in it; not an endless loop with nothing in it. *)
Definition loop_ok (is_do : bool) (c : option cond) (incr : option nat) (body : stmt) : bool :=
  let nothing := empty_stmt body && match incr with None => true | Some _ => false end in
  match c with
  | Some (CConst false) => is_do || nothing
  | Some (CUnk _) => true
  | _ => negb nothing
  end.

(** Not an [if] with a label and a constant condition whose taken branch breaks out of it. *)
Definition if_ok (l : option lbl) (c : cond) (th : stmt) (el : option stmt) : bool :=
  match l, c, el with
  | Some n, CConst true, _ => negb (breaks n th)
  | Some n, CConst false, Some e => negb (breaks n e)
  | _, _, _ => true
  end.

(** No macro call in it. *)
Fixpoint no_macro (r : rexp) : bool := match r with RMac _ => false | RRethrow r | ROr _ r => no_macro r | _ => true end.

(** The conditions hold everywhere in a body; and no macro is called on the right of [||]. *)
Fixpoint flow_ok (x : stmt) : bool :=
  match x with
  | SExpr r | SRet r => flow_ok_exp r
  | SBlock b | SDefer _ b => flow_ok_list b
  | SIf l c th => flow_ok th && if_ok l c th None
  | SIfElse l c th el => flow_ok th && flow_ok el && if_ok l c th (Some el)
  | SFor _ is_do c incr body => flow_ok body && loop_ok is_do c incr body
  | SSwitch _ _ _ cs => flow_ok_cases cs
  | _ => true
  end
with flow_ok_list (b : stmts) : bool := match b with SNil => true | SCons x r => flow_ok x && flow_ok_list r end
with flow_ok_cases (cs : cases) : bool :=
  match cs with KNil => true | KEmpty _ r => flow_ok_cases r | KBody _ b r => flow_ok_list b && flow_ok_cases r end
with flow_ok_exp (r : rexp) : bool :=
  match r with RMac b => flow_ok_list b | RRethrow r => flow_ok_exp r | ROr _ r => flow_ok_exp r && no_macro r | _ => true end.

(** How deep statements nest: every block, if, loop, switch, defer and macro counts one. *)
Fixpoint nesting (x : stmt) : nat :=
  match x with
  | SExpr r | SRet r => nesting_exp r
  | SBlock b | SDefer _ b => S (nesting_list b)
  | SIf _ _ th => S (nesting th)
  | SIfElse _ _ th el => S (max (nesting th) (nesting el))
  | SFor _ _ _ _ body => S (nesting body)
  | SSwitch _ _ _ cs => S (nesting_cases cs)
  | _ => 0
  end
with nesting_list (b : stmts) : nat := match b with SNil => 0 | SCons x r => max (nesting x) (nesting_list r) end
with nesting_cases (cs : cases) : nat :=
  match cs with KNil => 0 | KEmpty _ r => nesting_cases r | KBody _ b r => max (nesting_list b) (nesting_cases r) end
with nesting_exp (r : rexp) : nat :=
  match r with RMac b => S (nesting_list b) | RRethrow r | ROr _ r => nesting_exp r | _ => 0 end.

(** Every case but the last has statements of its own. *)
Fixpoint full_cases (x : stmt) : bool :=
  match x with
  | SExpr r | SRet r => full_cases_exp r
  | SBlock b | SDefer _ b => full_cases_list b
  | SIf _ _ th => full_cases th
  | SIfElse _ _ th el => full_cases th && full_cases el
  | SFor _ _ _ _ body => full_cases body
  | SSwitch _ _ _ cs => full_cases_cases cs
  | _ => true
  end
with full_cases_list (b : stmts) : bool := match b with SNil => true | SCons x r => full_cases x && full_cases_list r end
with full_cases_cases (cs : cases) : bool :=
  match cs with
  | KNil => true
  | KEmpty _ r => match r with KNil => true | _ => false end
  | KBody _ b r => full_cases_list b && full_cases_cases r
  end
with full_cases_exp (r : rexp) : bool :=
  match r with RMac b => full_cases_list b | RRethrow r | ROr _ r => full_cases_exp r | _ => true end.
