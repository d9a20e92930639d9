(** How the System V ABI for x86-64 (psABI, section 3.2.3) classifies a value: by the scalars that lie in each of its eightbytes. *)
From Coq Require Import ZArith List Bool.
From Verif Require Import AbiModel.
Import ListNotations.
Open Scope Z_scope.

(** A scalar of a type: where it is, its size, and how it is passed: in an integer register, in a vector register, as 16 bytes of one vector register, or in memory
    only (`double[<1>]`, by the convention of gcc, and vectors of no register size). *)
Inductive kind := KInt | KSse | KWide | KMem.
Record scalar := Scalar { s_off : Z; s_size : Z; s_kind : kind }.
Definition vector_kind (v : velem) (sz : Z) : kind :=
  if sz <=? 4 then KInt else if sz =? 8 then match v with VFlt 8 => KMem | _ => KSse end else if sz =? 16 then KWide else KMem.
Fixpoint scalars (t : ty) (off : Z) : list scalar :=
  match t with
  | TVoid => []
  | TInt n => [Scalar off n KInt] | TInt128 | TPair => [Scalar off 16 KInt]
  | TFlt n => [Scalar off n KSse] | TF128 => [Scalar off 16 KWide]
  | TVec v n => [Scalar off (size t) (vector_kind v (size t))]
  | TAgg _ _ _ ms => (fix go (ms : list (Z * ty)) : list scalar := match ms with [] => [] | (mo, m) :: r => scalars m (off + mo) ++ go r end) ms
  | TArray b n => (fix go (n : nat) (off : Z) : list scalar := match n with O => [] | S k => scalars b off ++ go k (off + size b) end) n off
  end.
(** Every member and element lies at a multiple of its alignment. *)
Fixpoint aligned (g : target) (t : ty) (off : Z) : bool :=
  match t with
  | TAgg _ _ _ ms => (fix go (ms : list (Z * ty)) : bool := match ms with [] => true | (mo, m) :: r => ((off + mo) mod align g m =? 0) && aligned g m (off + mo) && go r end) ms
  | TArray b n => (fix go (n : nat) (off : Z) : bool := match n with O => true | S k => (off mod align g b =? 0) && aligned g b off && go k (off + size b) end) n off
  | _ => true
  end.
(** The class of eightbyte [e], 0 or 1, of some scalars (rules 4a to 4f): INTEGER if one of them in it is, else SSE if one is, else SSEUP. *)
Definition touches (e : Z) (s : scalar) : bool := (s_off s <? 8 * (e + 1)) && (8 * e <? s_off s + s_size s).
Definition has_int (e : Z) (s : scalar) : bool := match s_kind s with KInt => touches e s | _ => false end.
Definition has_sse (e : Z) (s : scalar) : bool := match s_kind s with KSse => touches e s | KWide => e =? 0 | _ => false end.
Definition has_up (e : Z) (s : scalar) : bool := match s_kind s with KWide => negb (e =? 0) | _ => false end.
Definition eightbyte (e : Z) (l : list scalar) : class :=
  if existsb (has_int e) l then Integer else if existsb (has_sse e) l then Sse else if existsb (has_up e) l then SseUp else No.
(** Rule 5d: SSEUP that does not follow SSE is SSE. *)
Definition classes (l : list scalar) : class * class :=
  (eightbyte 0 l, match eightbyte 1 l, eightbyte 0 l with SseUp, Sse => SseUp | SseUp, _ => Sse | c, _ => c end).
Definition in_memory (g : target) (t : ty) (off : Z) : bool :=
  negb (aligned g t off) || existsb (fun s => match s_kind s with KMem => true | _ => false end) (scalars t off).
Definition no_wide (t : ty) (off : Z) : Prop := forall s, In s (scalars t off) -> s_kind s = KInt \/ s_kind s = KSse \/ s_kind s = KMem /\ s_size s = 8.

(** A type as semantic analysis lays it out: members lie one behind the other, those of a union all at 0, the first one at 0, all inside of the type;
    the size is a multiple of the alignment; there is at least one member or element. *)
Definition scalar_ok (v : velem) : Prop := match v with VInt n => In n [1; 2; 4; 8] | VFlt n => In n [2; 4; 8; 16] | VInt128 => True end.
Fixpoint laid (g : target) (t : ty) : Prop :=
  match t with
  | TVoid => False
  | TInt n => In n [1; 2; 4; 8] | TFlt n => In n [2; 4; 8]
  | TInt128 | TF128 | TPair => True
  | TVec v n => scalar_ok v /\ 0 < n
  | TArray b n => (0 < n)%nat /\ laid g b
  | TAgg u sz a ms =>
      0 < a /\ sz mod a = 0 /\ ms <> [] /\ match ms with (o, _) :: _ => o = 0 | [] => True end /\
      (fix go (from : Z) (ms : list (Z * ty)) : Prop :=
         match ms with [] => True | (mo, m) :: r => from <= mo /\ (u = true -> mo = 0) /\ mo + size m <= sz /\ laid g m /\ go (if u then 0 else mo + size m) r end) 0 ms
  end.
Definition target_ok (g : target) : Prop := (avx g = 16 \/ avx g = 32 \/ avx g = 64) /\ (max_vec g = 0 \/ exists k, 4 <= k /\ max_vec g = 2 ^ k).

(** The bytes of a type that are data rather than padding, and what a register must hold to pass those from [off] on. *)
Definition data (t : ty) (b : Z) : Prop := exists s, In s (scalars t 0) /\ s_off s <= b < s_off s + s_size s.
Definition holds (a : abity) (t : ty) (off : Z) : Prop := forall b, data t b -> off <= b < off + 8 -> b - off < asize a.
(** The argument arrives whole. *)
Definition arrives (t : ty) (r : arg) : Prop :=
  match r with
  | Ignored => forall b, ~ data t b
  | One (AWide n) => n = size t
  | One a => holds a t 0 /\ forall b, data t b -> b < 8
  | Two lo hi => holds lo t 0 /\ holds hi t 8 /\ size t <= 16
  | Memory => True
  end.
(** There is no more padding before a scalar than its own alignment needs. *)
Definition no_spare (t : ty) : Prop :=
  forall s, In s (scalars t 0) -> s_off s = 0 \/ exists p, In p (scalars t 0) /\ s_off p < s_off s < s_off p + s_size p + s_size s.
(** There are no unions, and no struct inside of another is followed by padding. *)
Fixpoint plain (t : ty) : Prop :=
  match t with
  | TAgg u s _ ms =>
      u = false /\
      (fix go (ms : list (Z * ty)) : Prop :=
         match ms with
         | [] => True
         | (mo, m) :: r => plain m /\ (match m with TAgg _ _ _ _ => mo + size m = match r with (next, _) :: _ => next | [] => s end | _ => True end) /\ go r
         end) ms
  | TArray b _ => plain b
  | _ => True
  end.
(** No part of the type goes into a vector register. *)
Definition integral (t : ty) : Prop := forall s, In s (scalars t 0) -> s_kind s = KInt.

(** The registers an argument asks for, of each kind: none at all if it goes in memory. *)
Definition demand (g : target) (t : ty) : option (Z * Z) :=
  if (16 <? size t) || in_memory g t 0 then None else
  let '(lo, hi) := classes (scalars t 0) in
  let count c := (if ceq lo c then 1 else 0) + (if ceq hi c then 1 else 0) in Some (count Integer, count Sse).
(** Arguments from left to right: one that asks for more than is left goes in memory, and takes nothing. *)
Fixpoint assign (l : list (option (Z * Z))) (ints sses : Z) : list bool :=
  match l with
  | [] => []
  | None :: r => false :: assign r ints sses
  | Some (i, s) :: r => if (i <=? ints) && (s <=? sses) then true :: assign r (ints - i) (sses - s) else false :: assign r ints sses
  end.
Definition in_registers (a : arg) : bool := match a with Memory => false | _ => true end.
(** The registers that some arguments use. *)
Definition uses (k : class) (a : abity) : Z :=
  match a with AInt _ | AOdd _ => if ceq k Integer then 1 else 0 | _ => if ceq k Sse then 1 else 0 end.
Definition used (k : class) (a : arg) : Z := match a with One x => uses k x | Two x y => uses k x + uses k y | _ => 0 end.
Definition total (k : class) (l : list arg) : Z := fold_right (fun a n => used k a + n) 0 l.
