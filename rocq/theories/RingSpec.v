(** What a ring buffer of [n] elements is: the list of the elements in it, oldest first. *)
From Coq Require Import ZArith List.
From Verif Require Import Mach RingModel.
Import ListNotations.
Open Scope Z_scope.

(** The last [n] elements. *)
Definition lastn {A} (n : nat) (l : list A) : list A := skipn (length l - n) l.

Inductive op (A : Type) := Push (x : A) | Write (xs : list A) | Pop | Get (i : Z) | Read (i : Z) (into : list A).
Arguments Push {A} x.
Arguments Write {A} xs.
Arguments Pop {A}.
Arguments Get {A} i.
Arguments Read {A} i into.
Inductive out (A : Type) := Done | Val (x : A) | Empty | Copied (k : Z) (b : list A).
Arguments Done {A}.
Arguments Val {A} x.
Arguments Empty {A}.
Arguments Copied {A} k b.

(** One operation on the sequence of a ring of size [n]; [None] where the theorem makes no claim:
    Pop and Read on a full ring, Get outside the sequence. *)
Definition ideal {A} (n : nat) (l : list A) (o : op A) : option (out A * list A) :=
  match o with
  | Push x => Some (Done, lastn n (l ++ [x]))
  | Write xs => Some (Done, lastn n (l ++ xs))
  | Pop => if Nat.ltb (length l) n then Some (match rev l with [] => Empty | x :: _ => Val x end, removelast l) else None
  | Get i => if i <? 0 then None else match nth_error l (Z.to_nat i) with Some x => Some (Val x, l) | None => None end
  | Read i b => if Nat.ltb (length l) n then
      if (0 <=? i) && (i <? Z.of_nat n) then
        let s := firstn (length b) (skipn (Z.to_nat i) l) in Some (Copied (zlen s) (s ++ skipn (length s) b), l)
      else None else None
  end%bool.
Fixpoint ideals {A} (n : nat) (l : list A) (os : list (op A)) : option (list (out A) * list A) :=
  match os with
  | [] => Some ([], l)
  | o :: t => match ideal n l o with
              | Some (v, l) => match ideals n l t with Some (vs, l) => Some (v :: vs, l) | None => None end
              | None => None
              end
  end.
(** The same history on the ring buffer. *)
Definition real {A} (r : ring A) (o : op A) : Res (out A * ring A) :=
  match o with
  | Push x => r <- r_push r x ;; Ok (Done, r)
  | Write xs => r <- r_write r xs ;; Ok (Done, r)
  | Pop => '(v, r) <- r_pop r ;; Ok (match v with Some x => Val x | None => Empty end, r)
  | Get i => v <- r_get r i ;; Ok (Val v, r)
  | Read i b => '(k, b) <- r_read r i b ;; Ok (Copied k b, r)
  end.
Fixpoint reals {A} (r : ring A) (os : list (op A)) : Res (list (out A) * ring A) :=
  match os with
  | [] => Ok ([], r)
  | o :: t => '(v, r) <- real r o ;; '(vs, r) <- reals r t ;; Ok (v :: vs, r)
  end.
(** A full ring: the elements of [l], oldest first, starting at [r_head]. *)
Definition full_as {A} (r : ring A) (l : list A) : Prop :=
  exists a b, r_buf r = a ++ b /\ r_head r = zlen a /\ l = b ++ a /\ b <> [] /\ r_written r = zlen (r_buf r) /\ zlen l < 2 ^ 63.
