(** C39: LinkedList. *)
From Coq Require Import ZArith Bool List Lia.
From Verif Require Import Mach LinkedModel LinkedSpec LinkedProofs.
From Verif Require ListSpec ListProofs.
Import ListSpec.
Import ListNotations.
Open Scope Z_scope.

(** Over any history of operations within their contracts, a LinkedList started empty answers exactly what a sequence answers,
    never touches null or a freed node, reads the sequence forwards along [next] and backwards along [prev], and keeps
    exactly one allocated node for each element. *)
Theorem C39_linked_list : forall A (eqb : A -> A -> bool) (null : A -> bool) os vs l fuel,
  forallb linked_op os = true -> ideal_run eqb null [] os = Some (vs, l) -> grows os <= 2 ^ 60 -> grows os < Z.of_nat fuel -> zlen l < Z.of_nat fuel ->
  exists s, k_run eqb fuel empty os = Ok (vs, s) /\ values next fuel s (first_ s) = Ok l /\ values prev fuel s (last_ s) = Ok (rev l) /\
    size s = zlen l /\ is_empty s = (match l with [] => true | _ => false end) /\ live s (zlen l).
Proof.
  intros A eqb null os vs l fuel Ho I Hb Hf Hl. destruct (history eqb null fuel os empty [] vs l holds_empty Ho I) as (s & E & H); [rewrite zlen_nil; lia|rewrite zlen_nil; lia|].
  exists s. split; [exact E|]. destruct (holds_values eqb null s l fuel H Hl) as (V1 & V2). split; [exact V1|]. split; [exact V2|]. split; [exact (holds_len s l H)|]. split; [exact (holds_is_empty s l H)|exact (holds_live s l H)].
Qed.
Print Assumptions C39_linked_list.
Definition C39_demo : list (lop Z) := [LPush 5; LPushFront 1; LInsertAt 1 9; LPush 9; LInsertAt 4 9; LRemoveLastItem 9; LRemoveFirstItem 9; LGet 2; LSet 0 7; LPush 5; LRemoveItem 5; LLen; LPopFirst; LPop; LPop; LPush 3; LPush 4; LFirst; LLast].
Example C39_ex : forallb linked_op C39_demo = true /\ exists vs, ideal_run Z.eqb (Z.eqb 0) [] C39_demo = Some (vs, [3; 4]) /\ grows C39_demo <= 2 ^ 60.
Proof. split; [reflexivity|]. eexists. split; [vm_compute; reflexivity|]. vm_compute. discriminate. Qed.
