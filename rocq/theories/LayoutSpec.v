(** What the layout theorems refer to. *)
From Coq Require Import ZArith List Bool.
From Verif Require Import LayoutModel.
Import ListNotations.
Open Scope Z_scope.

(** The least multiple of [a] that is at least [lo]. *)
Definition least_multiple (a lo x : Z) : Prop := x mod a = 0 /\ lo <= x /\ forall y, y mod a = 0 -> lo <= y -> x <= y.
(** The alignment a member asks for: its own @align, else none in a packed struct, else that of its type. *)
Definition member_align (packed : bool) (m : Member) : Z :=
  if negb (given m =? 0) then given m else if packed then 1 else align (ty m).
(** Members laid out one after the other from [lo], each at the least multiple of its alignment; [hi] is the end. *)
Fixpoint laid (packed : bool) (lo : Z) (ms : list Member) (offs : list Z) (hi : Z) : Prop :=
  match ms, offs with
  | [], [] => hi = lo
  | m :: r, o :: s => least_multiple (member_align packed m) lo o /\ laid packed (o + size (ty m)) r s hi
  | _, _ => False
  end.
Definition max_of (l : list Z) (lo : Z) : Z := fold_left Z.max l lo.
(** The alignment of the struct. *)
Definition struct_align (packed : bool) (galign : Z) (ms : list Member) : Z :=
  if packed then (let a := max_of (map given ms) galign in if a =? 0 then 1 else a)
  else Z.max 1 (max_of (map (member_align false) ms) galign).

Definition pow2 (a : Z) : Prop := exists k, 0 <= k /\ a = 2 ^ k.
(** A type of at least the size 0 whose alignments are powers of two. *)
Definition wf_info (t : Info) : Prop := 0 <= size t < 2 ^ 32 /\ pow2 (align t) /\ pow2 (nat_align t) /\ pow2 (ll_align t).
Definition wf_given (a : Z) : Prop := a = 0 \/ pow2 a.
Definition wf_member (m : Member) : Prop := wf_info (ty m) /\ wf_given (given m).
Definition sum_sizes (ms : list Member) : Z := fold_right (fun m s => size (ty m) + s) 0 ms.
(** No offset leaves the 32 bits it is stored in: [a] bounds the alignments. *)
Definition small (a galign : Z) (ms : list Member) : Prop :=
  galign <= a /\ 1 <= a /\ (forall m, In m ms -> given m <= a /\ align (ty m) <= a /\ nat_align (ty m) <= a) /\
  sum_sizes ms + (Z.of_nat (length ms) + 1) * a < 2 ^ 32.

(** LLVM's layout of a struct type (llvm::StructLayout). *)
Definition round_up (x a : Z) : Z := ((x + a - 1) / a) * a.
Definition ll_place (packed : bool) (lo : Z) (e : Elem) : Z := if packed then lo else round_up lo (elem_align e).
Fixpoint ll_offsets (packed : bool) (lo : Z) (es : list Elem) : list Z :=
  match es with [] => [] | e :: r => let o := ll_place packed lo e in o :: ll_offsets packed (o + elem_size e) r end.
Fixpoint ll_end (packed : bool) (lo : Z) (es : list Elem) : Z :=
  match es with [] => lo | e :: r => ll_end packed (ll_place packed lo e + elem_size e) r end.
Definition ll_struct_align (packed : bool) (es : list Elem) : Z := if packed then 1 else max_of (map elem_align es) 1.
Definition ll_struct_size (packed : bool) (es : list Elem) : Z := round_up (ll_end packed 0 es) (ll_struct_align packed es).
(** Where LLVM has the [i]th member. *)
Definition ll_member_offset (s : Struct) (i : nat) : Z := nth (gep_index (members s) i) (ll_offsets (s_packed s) 0 (struct_elems s)) (-1).
(** The machine type agrees with the layout. *)
Definition struct_agrees (s : Struct) : Prop :=
  (forall i p, nth_error (members s) i = Some p -> ll_member_offset s i = off p) /\ ll_struct_size (s_packed s) (struct_elems s) = s_size s.

(** The layout of a type tree, with what LLVM makes of it. *)
Definition omap {A B} (f : A -> Out B) : list A -> Out (list B) :=
  fix go l := match l with [] => Good [] | x :: r => bindo (f x) (fun y => bindo (go r) (fun z => Good (y :: z))) end.
Definition struct_info (s : Struct) : Info :=
  mkInfo (s_size s) (s_align s) (s_nat s) (ll_struct_size (s_packed s) (struct_elems s)) (ll_struct_align (s_packed s) (struct_elems s)).
Definition union_info (u : Union) (ms : list Member) : Info :=
  mkInfo (u_size u) (u_align u) (max_of (map (fun m => nat_align (ty m)) ms) 0)
         (ll_struct_size (u_packed u) (union_elems u ms)) (ll_struct_align (u_packed u) (union_elems u ms)).
Fixpoint info_of (t : T) : Out Info :=
  match t with
  | Leaf s a => Good (mkInfo s a a s a)
  | Array n t => bindo (info_of t) (fun i => Good (mkInfo (u32 (size i * n)) (align i) (nat_align i) (ll_size i * n) (ll_align i)))
  | StructT packed nop bare g ms =>
    bindo (omap (fun m => bindo (info_of (snd m)) (fun i => Good (mkMember (fst (fst m)) (snd (fst m)) i))) ms) (fun l =>
    bindo (struct_layout packed nop bare g l) (fun s => Good (struct_info s)))
  | UnionT packed g ms =>
    bindo (omap (fun m => bindo (info_of (snd m)) (fun i => Good (mkMember (fst m) false i))) ms) (fun l =>
    bindo (union_layout packed g l) (fun u => Good (union_info u l)))
  end.

(** The gaps of a layout. *)
Fixpoint gapless (lo : Z) (ps : list Placed) (hi : Z) : Prop :=
  match ps with [] => hi = lo | p :: r => off p = lo /\ gapless (lo + size (info p)) r hi end.

(** A bitstruct: a range inside the container; ranges apart from each other. *)
Definition in_container (bits : Z) (r : Z * Z) : Prop := 0 <= fst r <= snd r /\ snd r < bits.
Definition apart (a b : Z * Z) : Prop := forall i, fst a <= i <= snd a -> fst b <= i <= snd b -> False.

(** Unions: the alignment a member asks for. *)
Definition umember_align (m : Member) : Z := Z.max (align (ty m)) (given m).
Definition union_align (packed : bool) (galign : Z) (ms : list Member) : Z :=
  if packed then (if galign =? 0 then 1 else galign) else max_of (map umember_align ms) galign.
Definition largest (ms : list Member) : Z := max_of (map (fun m => size (ty m)) ms) 0.
Definition union_agrees (u : Union) (ms : list Member) : Prop := ll_struct_size (u_packed u) (union_elems u ms) = u_size u.

(** The members of a struct or union type. *)
Definition struct_members (ms : list (Z * bool * T)) : Out (list Member) :=
  omap (fun m => bindo (info_of (snd m)) (fun i => Good (mkMember (fst (fst m)) (snd (fst m)) i))) ms.
Definition union_members (ms : list (Z * T)) : Out (list Member) :=
  omap (fun m => bindo (info_of (snd m)) (fun i => Good (mkMember (fst m) false i))) ms.
(** Types inside which nothing is packed, no member is aligned below its natural alignment, no union has over-aligned
    members, and all sizes fit. *)
Fixpoint plain (t : T) : Prop :=
  match t with
  | Leaf s a => 0 <= s < 2 ^ 32 /\ pow2 a
  | Array n t => plain t /\ 0 <= n /\ forall i, info_of t = Good i -> size i * n < 2 ^ 32
  | StructT packed nop bare g ms =>
    packed = false /\ wf_given g /\
    (fix all l := match l with
                  | [] => True
                  | m :: r => (plain (snd m) /\ wf_given (fst (fst m)) /\
                               forall i, info_of (snd m) = Good i -> fst (fst m) = 0 \/ nat_align i <= fst (fst m)) /\ all r
                  end) ms /\
    exists a, forall l, struct_members ms = Good l -> small a g l
  | UnionT packed g ms =>
    packed = false /\ wf_given g /\
    (fix all l := match l with
                  | [] => True
                  | m :: r => (plain (snd m) /\ fst m = 0 /\ forall i, info_of (snd m) = Good i -> nat_align i = align i) /\ all r
                  end) ms /\
    forall l, union_members ms = Good l -> largest l + union_align packed g l < 2 ^ 32
  end.
