(** Which values the writer preserves. *)
From Coq Require Import ZArith QArith Qreduction List Bool.
From Verif Require Import JsonModel JsonSpec.
Import ListNotations.
Open Scope Z_scope.

(** Strings without quotes, backslashes, control characters. *)
Definition plain_text (s : list Z) : Prop := Forall (fun c => 32 <= c /\ c <> 34 /\ c <> 92) s.
(** No null anywhere, plain strings, numbers that are not negative and have at most six digits after the point. *)
Fixpoint plain (v : json) : Prop :=
  match v with
  | JNull => False
  | JBool _ => True
  | JNum q => Qred q = q /\ 0 <= Qnum q /\ exists m, q == m # 1000000
  | JStr s => plain_text s
  | JArr l => fold_right (fun x p => plain x /\ p) True l
  | JObj l => fold_right (fun m p => plain_text (fst m) /\ plain (snd m) /\ p) True l
  end.
