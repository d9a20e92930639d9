(** C171, C172: elastic arrays. *)
From Coq Require Import ZArith Bool List Lia ZifyBool.
From Verif Require Import Mach ListAux ListModel ListSpec ListProofs ElasModel ElasSpec ElasProofs.
Import ListNotations.
Local Open Scope Z_scope.

(** C171: over any history of operations within their contracts, an elastic array that starts empty answers what a sequence of at most
    MAX_SIZE elements answers, also when it is full, and never touches an unwritten cell or one outside of it.
    Missing: an array given to its own add_all_to_limit (refuted below). *)
Theorem C171_elastic_partial : forall A (eqb : A -> A -> bool) (null : A -> bool) max os vs l fuel, 1 <= max <= 2 ^ 60 -> max < Z.of_nat fuel ->
  Forall (arg_fits max) os -> bounded_run eqb null max [] os = Some (vs, l) ->
  exists s, e_run eqb null max fuel (empty max) os = Ok (vs, s) /\ to_array s = Ok l /\ zlen l <= max.
Proof.
  intros A eqb null max os vs l fuel [H1 H2] Hf F I. destruct (e_history eqb null max H1 H2 fuel Hf os _ [] vs l (empty_rep max H1 H2) F I) as (s & E & R).
  exists s. split; [exact E|]. split; [exact (to_array_ok s l (proj1 R))|exact (e_bound max H1 H2 s l R)].
Qed.
Definition C171_demo : list (eop Z) := [EPush 5; EAddArray [1; 2]; EAddSelf; EPushTry 8; EPushTry 9; EInsertTry 0 1; ERemoveAt 0; EAddLimit [3; 4; 4]; ERemoveIf Z.even; EReverse;
  EPushFrontTry 6; EAddAllLimit [7; 7; 7; 7]; ESwap 0 1; EPopFirst; ERemoveItem 7; EGet 0; ELen; EToArray].
Example C171_ex : exists vs l, bounded_run Z.eqb (Z.eqb 0) 7 [] C171_demo = Some (vs, l) /\ Forall (arg_fits 7) C171_demo /\
  In (VBool false) vs /\ In (VNum 2) vs /\ l <> [].
Proof.
  eexists _, _. split; [vm_compute; reflexivity|]. split; [repeat constructor; cbn; vm_compute; discriminate|]. split; [cbn; tauto|]. split; [cbn; tauto|discriminate].
Qed.
Print Assumptions C171_elastic_partial.
(** The array's own elements, added to the limit: the count of those that did not fit is taken from the size that has grown meanwhile.
    Three elements in an array of four: one fits and two do not, but three are reported. *)
Theorem C171_self_limit_refuted : exists s s', e_run Z.eqb (Z.eqb 0) 4 10 (empty 4) [EAddArray [1; 2; 3]] = Ok ([VUnit], s) /\
  add_all_to_limit true s s = Ok (3, s') /\ to_array s' = Ok [1; 2; 3; 1] /\ left_over 4 [1; 2; 3] [1; 2; 3] = 2.
Proof. eexists _, _. split; [vm_compute; reflexivity|]. split; [vm_compute; reflexivity|]. split; vm_compute; reflexivity. Qed.
Print Assumptions C171_self_limit_refuted.

(** C172: after any such history, what does not fit or is not there is refused: push, push_front, insert_at, add_array and add_all of too much,
    and remove_at, pop_first and set_at of what is not there, stop at a check.  Missing: get, set and swap, which have none, and the two functions below. *)
Theorem C172_refuses_partial : forall A (eqb : A -> A -> bool) (null : A -> bool) max os vs l fuel o, 1 <= max <= 2 ^ 60 -> max < Z.of_nat fuel ->
  Forall (arg_fits max) os -> bounded_run eqb null max [] os = Some (vs, l) -> arg_fits max o -> bounded eqb null max o l = None ->
  (forall i x, o <> ESet i x) -> (forall i, o <> EGet i) -> (forall i j, o <> ESwap i j) ->
  exists s, e_run eqb null max fuel (empty max) os = Ok (vs, s) /\ e_step eqb null max fuel s o = Oob.
Proof.
  intros A eqb null max os vs l fuel o [H1 H2] Hf F I Fo No N1 N2 N3. destruct (e_history eqb null max H1 H2 fuel Hf os _ [] vs l (empty_rep max H1 H2) F I) as (s & E & R).
  exists s. split; [exact E|]. pose proof (e_reject eqb null max H1 H2 fuel o s l R Fo No) as X. destruct o; try exact X; exfalso; [eapply N1|eapply N2|eapply N3]; reflexivity.
Qed.
Example C172_ex : exists vs l, bounded_run Z.eqb (Z.eqb 0) 3 [] [EAddArray [1; 2; 3]] = Some (vs, l) /\ bounded Z.eqb (Z.eqb 0) 3 (EPush 4) l = None /\
  bounded Z.eqb (Z.eqb 0) 3 (ERemoveAt 3) l = None.
Proof. eexists _, _. split; [vm_compute; reflexivity|]. split; vm_compute; reflexivity. Qed.
Print Assumptions C172_refuses_partial.
(** push_front_try of a full array and pop_first of an empty one, which are to report OUT_OF_MEMORY and NO_MORE_ELEMENT as push_try and pop do, stop at their contracts;
    get of an element that was popped still answers. *)
Theorem C172_refuses_refuted : exists s, e_run Z.eqb (Z.eqb 0) 2 10 (empty 2) [EAddArray [1; 2]] = Ok ([VUnit], s) /\
  push_try s 3 = Ok (false, s) /\ push_front_try s 3 = Oob /\
  ElasModel.pop (empty 2) = Ok (@None Z, empty 2) /\ ElasModel.pop_first (@empty Z 2) = Oob /\
  exists s', ElasModel.pop s = Ok (Some 2, s') /\ to_array s' = Ok [1] /\ ElasModel.get_at s' 1 = Ok 2.
Proof. eexists. split; [vm_compute; reflexivity|]. repeat (split; [vm_compute; reflexivity|]). eexists. repeat split; vm_compute; reflexivity. Qed.
Print Assumptions C172_refuses_refuted.
