(** Model of Formatter.print (lib/std/io/formatter.c3) and of its use by the to_format functions of EnumSet, EnumMap and Path.
    The output function takes [room] more bytes and then fails.
    Simplification: the texts that printf makes of enum values and of the values of a map are given; printf writes them and returns how many bytes it has written (C108, C109 and C111 are about printf). *)
From Coq Require Import ZArith Bool List.
From Verif Require Import Mach.
Import ListNotations.
Local Open Scope Z_scope.

(** formatter.c3:63-75 Formatter; [written] is what the output function has taken. *)
Record formatter := Formatter { written : list Z; room : Z; idx : Z }.
(** formatter.c3:89-92 Formatter.init. *)
Definition init (room : Z) : formatter := Formatter [] room 0.
(** A function that prints: a result or a fault, and the formatter after it; "!" ends the caller on a fault. *)
Definition printer (A : Type) : Type := formatter -> option A * formatter.
Definition ret {A} (x : A) : printer A := fun f => (Some x, f).
Definition andthen {A B} (m : printer A) (k : A -> printer B) : printer B :=
  fun f => match m f with (Some x, f) => k x f | (None, f) => (None, f) end.
Notation "x <~ m ;; k" := (andthen m (fun x => k)) (at level 61, m at next level, right associativity).
(** formatter.c3:93-102 Formatter.out. *)
Definition out (c : Z) : printer Z :=
  fun f => if room f <=? 0 then (None, f) else (Some 1, Formatter (written f ++ [c]) (room f - 1) (idx f)).
Fixpoint out_each (t : list Z) : printer unit := match t with [] => ret tt | c :: r => _ <~ out c ;; out_each r end.
(** formatter.c3:552-561 Formatter.print. *)
Definition print (t : list Z) : printer Z := _ <~ out_each t ;; fun f => (Some (idx f), f).
(** formatter.c3:350-549 printf of something with the text [t]: the calls of out are counted. *)
Fixpoint printf (t : list Z) : printer Z := match t with [] => ret 0 | c :: r => a <~ out c ;; b <~ printf r ;; ret (a + b) end.
(** path.c3:629-632 Path.to_format. *)
Definition path_to_format (path : list Z) : printer Z := print path.
(** enumset.c3:128-141 EnumSet.to_format; for each enum value its name and whether the set has it. *)
Fixpoint set_loop (values : list (list Z * bool)) (found : bool) (n : Z) : printer Z :=
  match values with
  | [] => ret n
  | (name, has) :: r =>
    if negb has then set_loop r found n else
    a <~ (if found then print [44; 32] else ret 0) ;;
    b <~ printf name ;;
    set_loop r true (n + a + b)
  end.
Definition set_to_format (values : list (list Z * bool)) : printer Z :=
  a <~ print [91] ;; n <~ set_loop values false a ;; b <~ print [93] ;; ret (n + b).
(** enummap.c3:19-29 EnumMap.to_format; for each enum value its name and the text of its value. *)
Fixpoint map_loop (entries : list (list Z * list Z)) (i : Z) (n : Z) : printer Z :=
  match entries with
  | [] => ret n
  | (name, shown) :: r =>
    _ <~ (if negb (i =? 0) then print [44; 32] else ret 0) ;;
    b <~ printf (name ++ [58; 32] ++ shown) ;;
    map_loop r (i + 1) (n + b)
  end.
Definition map_to_format (entries : list (list Z * list Z)) : printer Z :=
  a <~ print [123; 32] ;; n <~ map_loop entries 0 a ;; b <~ print [32; 125] ;; ret (n + b).
