(** The statements of a function body as the parser hands them over, the events a run makes visible, and where a run's decisions come from.
    Shared by the reference semantics (FlowSpec) and the compiler model (FlowModel). *)
From Coq Require Import List Arith Bool.
Import ListNotations.

Definition lbl := nat.

(** src/compiler/parse_stmt.c:545-574: [defer], [defer try], [defer catch]. *)
Inductive dkind := DPlain | DTry | DCatch.

(** A condition: one the compiler folds to a constant, or one decided at run time (named by a number). *)
Inductive cond := CConst (b : bool) | CUnk (n : nat).

(** What [nextcase] names: [nextcase default], the case matching a constant (by index), or an expression only known at run time. *)
Inductive ntgt := NDefault | NCase (k : nat) | NVar (n : nat).

(** Statements and expressions (src/compiler/enums.h AST_*_STMT and EXPR_*, the parts that move control).
    Simplified: declarations, assignments and calls are all [RVal n], "do thing [n]"; a conditional's [try]/[catch] unwrapping, [foreach],
    compile-time statements, contracts, asm, asserts and trailing macro bodies are left out; a for loop's initialiser is a statement before it.
    - [RVal n]: cannot fault; [ROpt n]: yields a value or a fault at run time; [RFault n]: the literal fault [FOO?];
    - [RMac b]: a macro call, inlined; [RRethrow r]: [r!]; [ROr n r]: condition [n] [||] r. *)
Inductive stmt :=
| SExpr (r : rexp)
| SNoRet (n : nat)
| SBlock (b : stmts)
| SDefer (k : dkind) (b : stmts)
| SIf (l : option lbl) (c : cond) (th : stmt)
| SIfElse (l : option lbl) (c : cond) (th el : stmt)
| SFor (l : option lbl) (is_do : bool) (c : option cond) (incr : option nat) (body : stmt)
| SSwitch (l : option lbl) (n : nat) (all_enums : bool) (cs : cases)
| SBreak (l : option lbl)
| SCont (l : option lbl)
| SNextPlain
| SNextTo (l : option lbl) (t : ntgt)
| SRetVoid
| SRet (r : rexp)
with stmts := SNil | SCons (s : stmt) (ss : stmts)
(** A switch's cases in order; [true] marks [default:]. [KEmpty] has no statements before the next case. *)
with cases := KNil | KEmpty (dflt : bool) (cs : cases) | KBody (dflt : bool) (b : stmts) (cs : cases)
with rexp := RVal (n : nat) | ROpt (n : nat) | RFault (n : nat) | RMac (b : stmts) | RRethrow (r : rexp) | ROr (n : nat) (r : rexp).

Scheme stmt_mind := Induction for stmt Sort Prop
  with stmts_mind := Induction for stmts Sort Prop
  with cases_mind := Induction for cases Sort Prop
  with rexp_mind := Induction for rexp Sort Prop.
Combined Scheme flow_mind from stmt_mind, stmts_mind, cases_mind, rexp_mind.

Fixpoint num_cases (cs : cases) : nat :=
  match cs with KNil => 0 | KEmpty _ r => S (num_cases r) | KBody _ _ r => S (num_cases r) end.

(** Index of the [default:] case. *)
Fixpoint default_idx (cs : cases) : option nat :=
  match cs with
  | KNil => None
  | KEmpty true _ | KBody true _ _ => Some 0
  | KEmpty false r | KBody false _ r => option_map S (default_idx r)
  end.

(** What an observer sees: a thing done, an optional's outcome, a condition's value, the case a switch chose, a fault made, a call that does not return,
    a panic. *)
Inductive ev := EvDo (n : nat) | EvOpt (n : nat) (fault : bool) | EvFault (n : nat) | EvCond (n : nat) (b : bool)
| EvSwitch (n k : nat) | EvNoRet (n : nat) | EvPanic.

(** The outside world: the [i]th decision of a run. A run's state: decisions used, events so far (latest first). *)
Definition oracle := nat -> nat.
Record st := St { pos : nat; tr : list ev }.
Definition emit (e : ev) (s : st) : st := St (pos s) (e :: tr s).
Definition ask (orc : oracle) (s : st) : nat * st := (orc (pos s), St (S (pos s)) (tr s)).
Definition ask_bool (orc : oracle) (s : st) : bool * st := (Nat.odd (orc (pos s)), St (S (pos s)) (tr s)).

(** At most [n] rounds of [f]; [out] when they do not suffice. *)
Fixpoint iter {A O : Type} (out : O) (n : nat) (f : A -> st -> (A + O) * st) (a : A) (s : st) : O * st :=
  match n with
  | 0 => (out, s)
  | S n' => match f a s with (inl a', s') => iter out n' f a' s' | (inr o, s') => (o, s') end
  end.

(** How a function call ends: it returns (with a fault or not), runs off the end of the body, stops in a call that does not return or a panic,
    is still running, or does something that has no meaning (leaving a defer by a jump, jumping to a label that is not there). *)
Inductive ending := Returned (fault : bool) | FellOff | Stopped | Running | Meaningless.
