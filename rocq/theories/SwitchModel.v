(** Switch statements: the checks of src/compiler/sema_stmts.c and the three lowerings of src/compiler/llvm_codegen_stmt.c. *)
From Coq Require Import ZArith Bool List.
From Verif Require Import Mach Word Int128Model CmpModel.
Import ListNotations.
Open Scope Z_scope.

(** A constant case value: an integer of the switch type, or an enum constant of the switch's enum, by ordinal.
    Floats, strings, types and the rest always make a compare chain and are not modelled. *)
Inductive Const := CInt (x : Int) | CEnum (ord : Z).
(** A case label after the analysis of its expressions, which converts them to the switch type: [default], a constant or a range
    of constants, or an expression that is not constant, of which [v] is the value (bits of the switch type) when it is evaluated.
    That the end of a range is constant is not checked by the code (sema_stmts.c:2200-2211 tests the start only); here it is. *)
Inductive Label := Default | Value (from : Const) (to : option Const) | Dynamic (v : Z).
(** [body] says whether the case has statements; without, it falls through (AST case_stmt.body). *)
Record Case := mkCase { label : Label; body : bool }.
(** The flattened switch type: an integer, or an enum with [n] values lowered to the integer [k]. *)
Inductive SwType := SInt (k : IKind) | SEnum (k : IKind) (n : Z).
Definition lowered (t : SwType) : IKind := match t with SInt k => k | SEnum k _ => k end.

(** ** The checks *)
(** number.c:104-216, expr_const_compare, for integers (line 133) and enums of one type (162-186).
    Integers are never compared to enums: both were converted to the switch type. *)
Definition const_comp (a b : Const) (op : CmpOp) : bool :=
  match a, b with
  | CInt x, CInt y => int_comp x y op
  | CEnum x, CEnum y => match op with OpGT => y <? x | OpGE => y <=? x | OpLT => x <? y | OpLE => x <=? y | OpNE => negb (x =? y) | OpEQ => x =? y end
  | _, _ => false
  end.
(** number.c:225-232 *)
Definition const_in_range (c from : Const) (to : option Const) : bool :=
  match to with
  | None => const_comp c from OpEQ
  | Some to => const_comp c from OpGE && const_comp c to OpLE
  end.
(** What sema_check_value_case updates (sema_stmts.c:2188-2190).  [None] in [lowest] and [highest] is TYPE_POISONED. *)
Record Checks := mkChecks { if_chained : bool; max_ranged : bool; actual_cases : Z; lowest : option Int; highest : option Int }.
(** Settings compiler.build.switchrange_max_size and switchjump_max_size (build.h:15-16). *)
Definition switchrange_max_size : Z := 256.
Definition switchjump_max_size : Z := 0x3FFF.
(** sema_stmts.c:2218-2222 *)
Definition update_bounds (from to : Const) (s : Checks) : Checks :=
  match from, to with
  | CInt f, CInt t =>
    let lo := match lowest s with None => f | Some l => if int_comp l f OpGT then f else l end in
    let hi := match highest s with None => t | Some h => if int_comp h t OpLT then t else h end in
    mkChecks (if_chained s) (max_ranged s) (actual_cases s) (Some lo) (Some hi)
  | _, _ => s
  end.
(** sema_stmts.c:2223-2260: [None] is the error "the range is not valid". *)
Definition check_range (from to : Const) (s : Checks) : option Checks :=
  if max_ranged s then Some s
  else
    match from, to with
    | CEnum a, CEnum b =>
      if b <? a then None
      else Some (mkChecks (if_chained s) (switchrange_max_size <? b - a) (w64 (actual_cases s + (b - a))) (lowest s) (highest s))
    | CInt a, CInt b =>
      if int_comp a b OpGT then None
      else
        let range := ival (int_sub b a) in
        let wide := match i128_scomp range (mk128 0 switchrange_max_size) with CMP_GT => true | _ => false end in
        Some (mkChecks (if_chained s) wide (w64 (actual_cases s + low range)) (lowest s) (highest s))
    | _, _ => Some s
    end.
(** sema_stmts.c:2261-2276: is the start of the new case inside an earlier one? *)
Fixpoint seen_before (from : Const) (earlier : list Case) : bool :=
  match earlier with
  | [] => false
  | mkCase (Value f t) _ :: r => const_in_range from f t || seen_before from r
  | _ :: r => seen_before from r
  end.
(** sema_stmts.c:2188-2279; [None] is an error. *)
Definition check_value_case (l : Label) (earlier : list Case) (s : Checks) : option Checks :=
  match l with
  | Default => Some s
  | Dynamic _ => Some (mkChecks true (max_ranged s) (w64 (actual_cases s + 1)) (lowest s) (highest s))
  | Value f t =>
    let s := mkChecks (if_chained s) (max_ranged s) (w64 (actual_cases s + 1)) (lowest s) (highest s) in
    let s := update_bounds f (match t with Some t => t | None => f end) s in
    match (match t with Some t => check_range f t s | None => Some s end) with
    | None => None
    | Some s => if seen_before f earlier then None else Some s
    end
  end.
(** sema_stmts.c:2350-2390: the loop over the cases; the second result says whether there is a [default]. *)
Fixpoint check_cases (cs earlier : list Case) (has_default : bool) (s : Checks) : option (Checks * bool) :=
  match cs with
  | [] => Some (s, has_default)
  | c :: r =>
    match label c with
    | Default => if has_default then None else check_cases r (earlier ++ [c]) true s
    | l => match check_value_case l earlier s with None => None | Some s => check_cases r (earlier ++ [c]) has_default s end
    end
  end.
Inductive Verdict := Rejected | Accepted (exhaustive if_chain jump : bool).
Definition is_enum (t : SwType) : bool := match t with SEnum _ _ => true | SInt _ => false end.
(** sema_stmts.c:2328-2443 without the analysis of the bodies.  [jump] is the '@jump' attribute. *)
Definition check_switch (t : SwType) (cs : list Case) (jump : bool) : Verdict :=
  match check_cases cs [] false (mkChecks false false 0 None None) with
  | None => Rejected
  | Some (s, has_default) =>
    let exhaustive := if has_default then true else match t with SEnum _ n => actual_cases s =? n | SInt _ => false end in
    if is_enum t && negb exhaustive then Rejected
    else if jump then
      if if_chained s then Rejected
      else
        let too_large :=
          match lowest s, highest s with
          | Some lo, Some hi =>
            let range := int_sub hi lo in
            int_comp range (mkInt (mk128 0 switchjump_max_size) (itype range)) OpGE
          | _, _ => false
          end in
        if too_large then Rejected
        else Accepted exhaustive (if_chained s) (negb (has_default && (Nat.eqb (length cs) 1)))
    else Accepted exhaustive (if_chained s || max_ranged s) false
  end.

(** ** The generated code *)
(** A basic block: the body of a case, by position, or the end of the switch. *)
Inductive Block := At (i : nat) | Exit.
Definition block_eqb (a b : Block) : bool := match a, b with At i, At j => Nat.eqb i j | Exit, Exit => true | _, _ => false end.
(** llvm_codegen_stmt.c:937-979: the block of each case; one without a body gets the block of the next. *)
Fixpoint backend_blocks (i : nat) (cs : list Case) : list Block :=
  match cs with
  | [] => []
  | c :: r =>
    let bs := backend_blocks (S i) r in
    (if body c then At i else match bs with b :: _ => b | [] => Exit end) :: bs
  end.
(** The last [default] of the list with its block (there is at most one): llvm_codegen_stmt.c:936-950. *)
Fixpoint default_case (cs : list Case) (bs : list Block) : option (Case * Block) :=
  match cs, bs with
  | c :: cs, b :: bs =>
    match default_case cs bs with
    | Some d => Some d
    | None => match label c with Default => Some (c, b) | _ => None end
    end
  | _, _ => None
  end.
(** How the generated code ends: in a block; or it is not valid LLVM; or undefined; or the compiler stops, or writes out of bounds. *)
Inductive Out := Runs (b : Block) | InvalidIR | Undefined | Crash | OutOfBounds | NoFuel.
(** The LLVM constant for a case value, of [w] bits. *)
Definition bits_of (w : Z) (c : Const) : Z :=
  match c with CInt x => (high (ival x) * 2 ^ 64 + low (ival x)) mod 2 ^ w | CEnum o => o mod 2 ^ w end.
(** llvm_emit_comp (llvm_codegen_expr.c:3678-3690) of a constant or a computed value with the switch value, of the same type. *)
Definition comp_const (k : IKind) (c v : Z) (op : CmpOp) : bool :=
  eval_ir (kbits k) c v (emit_cmp (kbits k) (ksigned k) (ksigned k) (Some c) None op).
Definition comp_dynamic (k : IKind) (c v : Z) (op : CmpOp) : bool :=
  eval_ir (kbits k) c v (emit_cmp (kbits k) (ksigned k) (ksigned k) None None op).
(** llvm_codegen_stmt.c:687-751, without the type switch. *)
Fixpoint chain_loop (k : IKind) (cs : list Case) (bs : list Block) (v : Z) : option Block :=
  match cs, bs with
  | c :: cs, b :: bs =>
    match label c with
    | Default => chain_loop k cs bs v
    | Value f (Some t) =>
      if comp_const k (bits_of (kbits k) f) v OpLE && comp_const k (bits_of (kbits k) t) v OpGE then Some b else chain_loop k cs bs v
    | Value f None => if comp_const k (bits_of (kbits k) f) v OpEQ then Some b else chain_loop k cs bs v
    | Dynamic x => if comp_dynamic k x v OpEQ then Some b else chain_loop k cs bs v
    end
  | _, _ => None
  end.
Definition run_chain (k : IKind) (cs : list Case) (v : Z) : Out :=
  let bs := backend_blocks 0 cs in
  match chain_loop k cs bs v with
  | Some b => Runs b
  | None => match default_case cs bs with Some (c, b) => if body c then Runs b else Runs Exit | None => Runs Exit end
  end.

(** llvm_codegen_stmt.c:1011-1031: the values added to the LLVM switch for a range: [from], then 1 is added until [to] is met. *)
Fixpoint range_values (fuel : nat) (w cur to : Z) : option (list Z) :=
  if to =? cur then Some []
  else match fuel with
       | O => None
       | S f => let cur := (cur + 1) mod 2 ^ w in option_map (cons cur) (range_values f w cur to)
       end.
Fixpoint add_cases (fuel : nat) (w : Z) (cs : list Case) (bs : list Block) : option (list (Z * Block)) :=
  match cs, bs with
  | c :: cs, b :: bs =>
    match add_cases fuel w cs bs with
    | None => None
    | Some r =>
      match label c with
      | Value f t =>
        match range_values fuel w (bits_of w f) (match t with Some t => bits_of w t | None => bits_of w f end) with
        | None => None
        | Some vs => Some (map (fun x => (x, b)) (bits_of w f :: vs) ++ r)
        end
      | _ => Some r
      end
    end
  | _, _ => Some []
  end.
Fixpoint distinct (l : list Z) : bool := match l with [] => true | x :: r => negb (existsb (Z.eqb x) r) && distinct r end.
(** llvm_codegen_stmt.c:1002-1045, and LLVM's meaning of [switch]: the case values must differ. *)
Definition run_llvm_switch (fuel : nat) (k : IKind) (cs : list Case) (v : Z) : Out :=
  let bs := backend_blocks 0 cs in
  match add_cases fuel (kbits k) cs bs with
  | None => NoFuel
  | Some table =>
    if negb (distinct (map fst table)) then InvalidIR
    else
      match find (fun p => fst p =? v) table with
      | Some p => Runs (snd p)
      | None => match default_case cs bs with Some (_, b) => Runs b | None => Runs Exit end
      end
  end.

(** llvm_codegen_stmt.c:788-813 *)
Definition table_value (k : IKind) (c : Const) : Int := match c with CInt x => x | CEnum o => mkInt (mk128 0 o) k end.
Definition table_values (k : IKind) (f : Const) (t : option Const) : Int * Int :=
  (table_value k f, match t with Some t => table_value k t | None => table_value k f end).
(** llvm_codegen_stmt.c:829-857: least value, greatest value and the case with the least; the block for [default]. *)
Fixpoint table_bounds (k : IKind) (cs : list Case) (bs : list Block) (mm : option (Int * Int * Const)) (dflt : Block) : option (Int * Int * Const) * Block :=
  match cs, bs with
  | c :: cs, b :: bs =>
    match label c with
    | Default => table_bounds k cs bs mm (if body c then b else dflt)
    | Value f t =>
      let '(value, to_value) := table_values k f t in
      let mm :=
        match mm with
        | None => Some (value, to_value, f)
        | Some (mn, mx, mf) =>
          if int_comp value mn OpLT then Some (value, mx, f)
          else if int_comp to_value mx OpGT then Some (mn, to_value, mf)
          else Some (mn, mx, mf)
        end in
      table_bounds k cs bs mm dflt
    | Dynamic _ => (None, dflt) (* not constant: ASSERT_SPAN in line 793 *)
    end
  | _, _ => (mm, dflt)
  end.
(** The loop of lines 897-900 with [n] rounds to go. *)
Fixpoint fill (n : nat) (refs : list (option Block)) (j : Z) (b : Block) : Res (list (option Block)) :=
  match n with
  | O => Ok refs
  | S n => refs <- set refs j (Some b) ;; fill n refs (j + 1) b
  end.
(** llvm_codegen_stmt.c:886-908: the table and the destinations of the indirect branch. *)
Fixpoint fill_table (k : IKind) (mn : Int) (cs : list Case) (bs : list Block) (refs : list (option Block)) (dests : list Block) : Res (list (option Block) * list Block) :=
  match cs, bs with
  | c :: cs, b :: bs =>
    match label c with
    | Value f t =>
      let '(value, to_value) := table_values k f t in
      let from_val := low (ival (int_sub value mn)) in
      let to_val := low (ival (int_sub to_value mn)) in
      refs <- fill (Z.to_nat (to_val + 1 - from_val)) refs from_val b ;;
      fill_table k mn cs bs refs (if body c then dests ++ [b] else dests)
    | _ => fill_table k mn cs bs refs dests
    end
  | _, _ => Ok (refs, dests)
  end.
(** llvm_codegen_stmt.c:910-919 *)
Definition complete (dflt : Block) (refs : list (option Block)) : list Block := map (fun r => match r with Some b => b | None => dflt end) refs.
Definition has_gap (refs : list (option Block)) : bool := existsb (fun r => match r with None => true | _ => false end) refs.
(** llvm_codegen_stmt.c:815-923 and 753-786, and LLVM's meaning of [indirectbr]: the target must be a listed destination.
    [refs] has 16 entries on the stack, or [count] when there are more (875-879). *)
Definition run_jump_table (k : IKind) (cs : list Case) (v : Z) : Out :=
  let bs := backend_blocks 0 cs in
  match table_bounds k cs bs None Exit with
  | (None, _) => Crash
  | (Some (mn, mx, min_case), dflt) =>
    let mx := int_sub mx mn in
    if negb (low (ival mx) <=? 0xFFFF) then Crash
    else
      let count := low (ival mx) + 1 in
      if negb (high (ival mx) =? 0) then Crash
      else if negb (count <? 0x3FFF + 1) then Crash
      else
        let size := if 16 <? count then count else 16 in
        match fill_table k mn cs bs (repeat None (Z.to_nat size)) [] with
        | Ok (refs, dests) =>
          let refs := firstn (Z.to_nat count) refs in
          let dests := if has_gap refs then dests ++ [dflt] else dests in
          let w := kbits k in
          let index := if bits_of w min_case =? 0 then v else (v - bits_of w min_case) mod 2 ^ w in
          if (count - 1) mod 2 ^ w <? index then Runs dflt
          else
            let index := if ksigned k then swrap w index else index in
            match get (complete dflt refs) index with
            | Ok b => if existsb (block_eqb b) dests then Runs b else Undefined
            | _ => Undefined
            end
        | _ => OutOfBounds
        end
  end.

(** llvm_codegen_stmt.c:989-1003: which lowering is used. *)
Definition run_switch (fuel : nat) (k : IKind) (if_chain jump : bool) (cs : list Case) (v : Z) : Out :=
  match cs with
  | [] => Runs Exit
  | _ => if if_chain then run_chain k cs v else if jump then run_jump_table k cs v else run_llvm_switch fuel k cs v
  end.
