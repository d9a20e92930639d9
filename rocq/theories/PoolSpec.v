(** What a user expects of a thread pool, in terms of the calls made and the jobs run. *)
From Coq Require Import Arith List Bool Permutation.
From Verif Require Import PoolModel.
Import ListNotations.

Section Spec.
Variable job : Type.
(** The jobs accepted in a history. *)
Fixpoint jobs (l : list (event job)) : list job := match l with [] => [] | Push _ j :: l => j :: jobs l | _ :: l => jobs l end.
(** The jobs running now. *)
Fixpoint running (l : list (place job)) : list job := match l with [] => [] | Running _ j :: l => j :: running l | _ :: l => running l end.
(** Only steps of workers, or also wake-ups. *)
Definition is_work (e : event job) : Prop := match e with Work _ => True | _ => False end.
Definition is_work_or_wake (e : event job) : Prop := match e with Work _ | Wake _ => True | _ => False end.
(** No call of destroy; no call of destroy or stop_and_destroy; no push. *)
Definition not_now (e : event job) : Prop := match e with Request now => now = false | _ => True end.
Definition no_request (e : event job) : Prop := match e with Request _ => False | _ => True end.
Definition no_push (e : event job) : Prop := match e with Push _ _ => False | _ => True end.
End Spec.
Arguments jobs {job}. Arguments running {job}. Arguments is_work {job}. Arguments is_work_or_wake {job}. Arguments not_now {job}. Arguments no_request {job}. Arguments no_push {job}.
