(** C36, C37: List. *)
From Coq Require Import ZArith Bool List Lia ZifyBool.
From Verif Require Import Mach ListAux ListModel ListSpec ListProofs.
Import ListNotations.
Open Scope Z_scope.

(** Over any history of operations within their contracts, a List started empty (zero-initialised, or after [init] with
    any capacity) answers exactly what a sequence answers, and never touches an unwritten or outside cell.
    Missing: a list given to its own [add_all] (below). *)
Theorem C36_list_partial : forall A (eqb : A -> A -> bool) (null : A -> bool) os vs l fuel c,
  ideal_run eqb null [] os = Some (vs, l) -> 0 <= c -> c <= 2 ^ 60 -> grows os <= 2 ^ 60 -> grows os < Z.of_nat fuel ->
  exists s s', init c = Ok s /\ l_run eqb null fuel s os = Ok (vs, s') /\ to_array s' = Ok l /\
    (exists z, l_run eqb null fuel (mk 0 0 []) os = Ok (vs, z) /\ to_array z = Ok l).
Proof.
  intros A eqb null os vs l fuel c I H0 H1 H2 H3. destruct (reserve_ok (A := A) _ _ c rep_nil H0) as (s & E & R & _). { rewrite zlen_nil. lia. }
  destruct (history null eqb fuel os s [] vs l R I) as (s' & E' & R'); [rewrite zlen_nil; lia|rewrite zlen_nil; lia|].
  destruct (history null eqb fuel os _ [] vs l rep_nil I) as (z & Ez & Rz); [rewrite zlen_nil; lia|rewrite zlen_nil; lia|].
  exists s, s'. split; [exact E|]. split; [exact E'|]. split; [eapply to_array_ok; eauto|]. exists z. split; [exact Ez|eapply to_array_ok; eauto].
Qed.
Print Assumptions C36_list_partial.
(** [a.add_all(&a)]: the loop length is read after the size was doubled, so twice as many elements are written as were reserved. *)
Theorem C36_self_add_refuted : exists s, init_with_array [1; 2; 3; 4; 5; 6; 7; 8] = Ok s /\ to_array s = Ok [1; 2; 3; 4; 5; 6; 7; 8] /\ add_all true s s = Oob.
Proof. eexists. split; [vm_compute; reflexivity|]. split; vm_compute; reflexivity. Qed.
Print Assumptions C36_self_add_refuted.
(** Removing by predicate: the elements kept are those the predicate does not select, in their order, and the count is right. *)
Theorem C37_filter : forall A (p : A -> bool) xs fuel, zlen xs <= 2 ^ 60 -> zlen xs < Z.of_nat fuel ->
  exists s s1 s2, init_with_array xs = Ok s /\
    remove_if fuel p s = Ok (zlen xs - zlen (filter (fun x => negb (p x)) xs), s1) /\ to_array s1 = Ok (filter (fun x => negb (p x)) xs) /\
    retain_if fuel p s = Ok (zlen xs - zlen (filter p xs), s2) /\ to_array s2 = Ok (filter p xs).
Proof.
  intros A p xs fuel H H1. destruct (init_with_array_ok xs H) as (s & E & R).
  destruct (remove_if_ok fuel p s xs R H1) as (s1 & E1 & R1). destruct (remove_if_ok fuel (fun x => negb (p x)) s xs R H1) as (s2 & E2 & R2). rewrite others_neg in *.
  exists s, s1, s2. split; [exact E|]. split; [exact E1|]. split; [exact (to_array_ok _ _ R1)|]. split; [exact E2|exact (to_array_ok _ _ R2)].
Qed.
Print Assumptions C37_filter.
(** Removing by value and compacting. *)
Theorem C37_remove_item : forall A (eqb : A -> A -> bool) (null : A -> bool) v xs, zlen xs <= 2 ^ 60 ->
  exists s s1 s2, init_with_array xs = Ok s /\
    remove_item eqb s v = Ok (zlen xs - zlen (filter (fun x => negb (eqb x v)) xs), s1) /\ to_array s1 = Ok (filter (fun x => negb (eqb x v)) xs) /\
    compact null s = Ok (zlen xs - zlen (filter (fun x => negb (null x)) xs), s2) /\ to_array s2 = Ok (filter (fun x => negb (null x)) xs).
Proof.
  intros A eqb null v xs H. destruct (init_with_array_ok xs H) as (s & E & R). destruct (remove_item_ok null eqb s xs v R) as (s1 & E1 & R1). destruct (compact_ok null s xs R) as (s2 & E2 & R2).
  exists s, s1, s2. split; [exact E|]. split; [exact E1|]. split; [exact (to_array_ok _ _ R1)|]. split; [exact E2|exact (to_array_ok _ _ R2)].
Qed.
Print Assumptions C37_remove_item.
Definition C36_demo : list (lop Z) := [LPush 5; LAddArray [1; 2; 3]; LInsertAt 1 9; LRemoveAt 0; LPushFront 2; LReverse; LIndexOf 2; LRIndexOf 2; LRemoveIf Z.even; LSwap 0 1; LPop; LAddAll [7; 7]; LRemoveItem 7; LLen; LToArray].
Example C36_ex : exists vs, ideal_run Z.eqb (Z.eqb 0) [] C36_demo = Some (vs, [1; 3]) /\ grows C36_demo <= 2 ^ 60.
Proof. eexists. split; [vm_compute; reflexivity|]. vm_compute. discriminate. Qed.
