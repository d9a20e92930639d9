(** C43: PriorityQueue and PriorityQueueMax. *)
From Coq Require Import ZArith Bool List Lia ZifyBool Permutation.
From Verif Require Import Mach PqModel PqSpec PqProofs.
Import ListNotations.
Open Scope Z_scope.

(** Over any history of push, pop, first, and remove_at(0), the queue gives what a bag with its first element gives.
    Missing: remove_at of another index (below). *)
Theorem C43_queue_partial : forall A (before : A -> A -> bool) os fuel, strict_weak before -> zlen os < Z.of_nat fuel -> removes_first 0 os ->
  exists vs l, q_run before fuel [] os = Ok (vs, l) /\ bag_run before [] os vs.
Proof. intros A before os fuel SW Hf R. apply (history before SW fuel os [] []); [constructor| |exact Hf|exact R]. intros k Hk. change (zlen (@nil A)) with 0 in Hk. lia. Qed.
Print Assumptions C43_queue_partial.
(** remove_at of another index spoils the order: 5 is given while 4 is still in the queue. *)
Theorem C43_remove_refuted : exists l,
  q_run Z.ltb 40 [] (map QPush [1; 10; 2; 11; 12; 3; 4; 13; 14; 15; 16; 5; 6; 7; 8] ++ [QRemove 1; QPop; QPop; QPop; QPop]) =
    Ok (repeat None 16 ++ [Some 1; Some 2; Some 3; Some 5], l) /\ In 4 l.
Proof. eexists. split; [vm_compute; reflexivity|]. vm_compute. auto 20. Qed.
Print Assumptions C43_remove_refuted.
Example C43_ex : strict_weak Z.ltb /\ strict_weak Z.gtb /\ removes_first 0 [QPush 3; QPush 1; QRemove 0; QPop] /\
  (exists l, q_run Z.ltb 9 [] [QPush 3; QPush 1; QPush 2; QPop; QPop; QPop; QPop] = Ok ([None; None; None; Some 1; Some 2; Some 3; None], l)).
Proof. split; [|split; [|split; [cbn; lia|eexists; vm_compute; reflexivity]]]; (split; [|split]); intros; lia. Qed.
