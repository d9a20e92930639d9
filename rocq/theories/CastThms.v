(** C17: a cast the checker accepts can be carried out. *)
From Coq Require Import List Bool Arith Lia.
From Verif Require Import CastTables CastModel CastSpec CastProofs.
Import ListNotations.

(** The tables: whenever the rule for a pair of groups can say yes, there is a routine for the pair.  Typedefs never
    reach the routines, and the rule "not applicable" is only met by the one pair of types that is equal. *)
Theorem C17_tables_agree : forall f t : Group, f <> GDistinct -> t <> GDistinct ->
  rule f t <> R_NO -> rule f t <> R_NA -> routine f t <> None.
Proof.
  intros f t Hf Ht H1 H2 H3. pose proof (check_all f t) as C. unfold check in C. rewrite H3, !orb_false_r in C.
  destruct f; try congruence; destruct t; try congruence; cbn in *; try discriminate; congruence.
Qed.
Print Assumptions C17_tables_agree.
Theorem C17_not_applicable_is_equal : forall f t : Ty, wf f -> wf t -> rule (group f) (group t) = R_NA -> f = t.
Proof.
  intros f t Hf Ht H. pose proof (dist_rule_all (group f) (group t)) as D. unfold dist_rule in D. rewrite H in D.
  apply andb_true_iff in D. destruct D as [D1 D2]. apply group_eqb_eq in D1. apply lone_eq; auto.
Qed.
Print Assumptions C17_not_applicable_is_equal.

(** The checker answers yes or no for every two types, whatever the value-dependent rules answer. *)
Theorem C17_checker_answers : forall leaf binary konst e from to, wf from -> wf to ->
  forall n, 2 * (size from + size to) + 1 < n ->
  allowed leaf binary n konst e from to = Yes \/ allowed leaf binary n konst e from to = No.
Proof.
  intros leaf binary konst e from to Hf Ht n Hn. apply (answers_all leaf binary n konst e from to Hf Ht).
  unfold weight. destruct (group_eqb _ _); lia.
Qed.
Print Assumptions C17_checker_answers.

(** Without a cast, only a truth value (or what is declared inline from it) becomes a truth value, and neither a truth
    value nor a floating-point number becomes an integer, whatever the value-dependent rules answer. *)
Theorem C17_no_silent_bool : forall leaf binary konst from n i, wf from -> real from ->
  allowed leaf binary n konst false from (Simple GBool i) = Yes -> view from (Simple GBool i).
Proof. intros leaf binary konst from n i Hf Hr H. exact (implicit_bool leaf binary n konst from i Hf Hr H). Qed.
Print Assumptions C17_no_silent_bool.
Theorem C17_no_silent_integer : forall leaf binary konst from n i, wf from -> real from ->
  allowed leaf binary n konst false from (Simple GInt i) = Yes ->
  exists base, view from base /\ group base <> GBool /\ group base <> GFloat.
Proof. intros leaf binary konst from n i Hf Hr H. exact (implicit_int leaf binary n konst from i Hf Hr H). Qed.
Print Assumptions C17_no_silent_integer.
Example C17_silent_cases :
  allowed (fun _ _ _ _ => true) false 9 false false (Dist 3 true (EnmInl 1 (Simple GBool 0))) (Simple GBool 0) = Yes /\
  allowed (fun _ _ _ _ => true) false 9 false false (Dist 3 true (EnmInl 1 (Simple GInt 2))) (Simple GInt 5) = Yes.
Proof. vm_compute. split; reflexivity. Qed.

(** An accepted cast is carried out: the routine is there, and so is the one for every cast it goes on to.  This
    covers all casts except those between lists whose elements are not plain numbers or truth values. *)
Theorem C17_accepted_cast_is_done_partial : forall leaf binary konst e from to n, wf from -> wf to ->
  no_list from \/ not_vector to \/ plain_lists from to ->
  allowed leaf binary n konst e from to = Yes ->
  forall m, size from + size to <= m -> cast m from to = Done.
Proof. intros leaf binary konst e from to n Hf Ht Hc H. exact (goal_all leaf binary n konst e from to Hf Ht Hc H). Qed.
Print Assumptions C17_accepted_cast_is_done_partial.

(** The excluded casts do fail: vectors of an own integer type, and vectors of pointers made from integer vectors. *)
Definition an_int : Ty := Simple GInt 5.
Definition own_int : Ty := Dist 1 false an_int.
Definition int_vector : Ty := Vec 2 an_int.
Definition own_vector : Ty := Vec 2 own_int.
Definition pointer_vector : Ty := Vec 2 (Simple GVoidptr 0).
Definition size_matches (r : Rule) (e : bool) (_ _ : Ty) : bool := match r with RINPT => e | _ => false end.
Theorem C17_accepted_cast_is_done_refuted :
  exists leaf from to n, wf from /\ wf to /\ allowed leaf false n false true from to = Yes /\ forall m, 1 <= m -> cast m from to = Unreachable.
Proof.
  exists (fun _ _ _ _ => false), int_vector, own_vector, 9. split; [cbn; intuition discriminate|]. split; [cbn; intuition discriminate|].
  split; [vm_compute; reflexivity|]. intros m Hm. destruct m; [lia|]. vm_compute. reflexivity.
Qed.
Print Assumptions C17_accepted_cast_is_done_refuted.
Theorem C17_int_vector_to_pointers_refuted :
  wf int_vector /\ wf pointer_vector /\ allowed size_matches false 9 false true int_vector pointer_vector = Yes /\
  forall m, 1 <= m -> cast m int_vector pointer_vector = Unreachable.
Proof.
  split; [cbn; intuition discriminate|]. split; [cbn; intuition|]. split; [vm_compute; reflexivity|].
  intros m Hm. destruct m; [lia|]. vm_compute. reflexivity.
Qed.
Print Assumptions C17_int_vector_to_pointers_refuted.

(** Accepted casts meeting the hypotheses: an own integer to the vector of another own integer, an enum with an own
    integer inline, and a vector of truth values to one of integers. *)
Definition bool_vector : Ty := Vec 2 (Simple GBool 0).
Example C17_hypotheses_met :
  wf own_int /\ wf (Vec 2 (Dist 2 false an_int)) /\ no_list own_int /\
  allowed (fun _ _ _ _ => false) false 20 false true own_int (Vec 2 (Dist 2 false an_int)) = Yes /\
  allowed (fun _ _ _ _ => false) false 20 false false (EnmInl 3 own_int) own_int = Yes /\ no_list (EnmInl 3 own_int) /\
  plain_lists bool_vector int_vector /\ allowed (fun _ _ _ _ => false) false 20 false false bool_vector int_vector = Yes /\
  allowed (fun _ _ _ _ => false) false 20 false false own_int an_int = No.
Proof. vm_compute. intuition discriminate. Qed.
