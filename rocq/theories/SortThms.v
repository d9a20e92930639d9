(** C44, C45, C46, C48: sorting and searching. *)
From Coq Require Import ZArith Bool List Lia Permutation.
From Verif Require Import Word Mach SortModel SortSpec SortProofs SortProofs2.
Import ListNotations.
Open Scope Z_scope.

(** The ordering used by the examples: ascending integers. *)
Definition zcmp3 (a b : Z) : Z := (if b <? a then 1 else 0) - (if a <? b then 1 else 0).
Lemma zcmp3_tp : TotalPreorder zcmp3.
Proof.
  split; intros; unfold zcmp3 in *;
    repeat match goal with |- context [?x <? ?y] => destruct (Z.ltb_spec x y) | H : context [?x <? ?y] |- _ => destruct (Z.ltb_spec x y) end; cbn in *; lia.
Qed.

Theorem C44_quicksort : forall (A : Type) (cmp : A -> A -> Z) (l : list A) (fuel : nat),
  TotalPreorder cmp -> zlen l < 2 ^ 63 -> 4 * zlen l + 2 <= Z.of_nat fuel ->
  exists l', quicksort cmp fuel l = Ok l' /\ Permutation l l' /\ Ascending cmp l'.
Proof.
  intros A cmp l fuel TP Hl Hf. destruct (qsort_correct cmp TP [] l [] fuel ltac:(lia) Hf) as (l' & E & P & S).
  cbn [app] in E. rewrite !app_nil_r, zlen_nil in E. exists l'. split; [exact E|]. split; [exact P|]. apply srt_ascending. exact S.
Qed.
Print Assumptions C44_quicksort.

(** A sub-range sort leaves everything outside the range alone. *)
Theorem C44_quicksort_range : forall (A : Type) (cmp : A -> A -> Z) (pre mid post : list A) (fuel : nat),
  TotalPreorder cmp -> zlen mid < 2 ^ 63 -> 4 * zlen mid + 2 <= Z.of_nat fuel ->
  exists mid', qsort cmp fuel (pre ++ mid ++ post) (zlen pre) (zlen pre + zlen mid - 1) = Ok (pre ++ mid' ++ post)
    /\ Permutation mid mid' /\ Ascending cmp mid'.
Proof.
  intros A cmp pre mid post fuel TP Hl Hf. destruct (qsort_correct cmp TP pre mid post fuel ltac:(lia) Hf) as (l' & E & P & S).
  exists l'. split; [exact E|]. split; [exact P|]. apply srt_ascending. exact S.
Qed.
Print Assumptions C44_quicksort_range.
Example C44_ex : quicksort zcmp3 100 [5; 3; 9; 1; 5; 2; 8; 8; 0] = Ok [0; 1; 2; 3; 5; 5; 8; 8; 9].
Proof. vm_compute. reflexivity. Qed.

(** When quickselect returns a value, it is the one at index k of the sorted list. *)
Theorem C45_quickselect_partial : forall (A : Type) (cmp : A -> A -> Z) (l : list A) (k : Z),
  TotalPreorder cmp -> 0 <= k < zlen l ->
  exists l' r, quickselect cmp l k = Ok (l', r) /\
   (forall e, r = Some e -> In e l /\ forall s x, Permutation l s -> Ascending cmp s -> nth_error s (Z.to_nat k) = Some x -> cmp e x = 0) /\
   (2 <= zlen l <= 64 -> r <> None).
Proof.
  intros A cmp l k TP Hk. unfold quickselect, qselect.
  destruct ((0 <=? 0) && (0 <=? zlen l - 1) && (0 <? zlen l - 1)) eqn:E.
  2:{ exists l, None. split; [reflexivity|]. split; [discriminate|lia]. }
  destruct (qselect_ok cmp TP 64 [] l [] k ltac:(rewrite zlen_nil; lia)) as (l' & r & Eq & Hr).
  cbn [app] in Eq. rewrite app_nil_r, zlen_nil in Eq. exists l', r. split; [exact Eq|]. split.
  - intros e ->. destruct Hr as (L & R & P & HL & FL & FR). split.
    + apply (Permutation_in _ (Permutation_sym P)). apply in_or_app. right. left. reflexivity.
    + intros s x Ps As Hx. eapply (rank_sorted cmp TP l s e L R Ps); [apply srt_ascending; exact As|exact P|exact FL|exact FR|].
      rewrite zlen_nil in HL. replace (Z.to_nat k) with (length L) in Hx by (unfold zlen in HL; lia). exact Hx.
  - intros Hl. destruct r; [discriminate|]. cbn in Hr. lia.
Qed.
Print Assumptions C45_quickselect_partial.
Example C45_ex : exists l', quickselect zcmp3 [5; 3; 9; 1; 5; 2] 3 = Ok (l', Some 5).
Proof. eexists. vm_compute. reflexivity. Qed.

(** The full property fails: a one-element list, and long adversarial lists. *)
Theorem C45_single_refuted : quickselect zcmp3 [7] 0 = Ok ([7], None).
Proof. vm_compute. reflexivity. Qed.
Print Assumptions C45_single_refuted.
Theorem C45_retries_refuted : exists l k l', 0 <= k < zlen l /\ 2 <= zlen l /\ quickselect zcmp3 l k = Ok (l', None).
Proof.
  exists (map Z.of_nat (seq 0 70)), 69. eexists. split; [vm_compute; split; [discriminate|reflexivity]|]. split; [vm_compute; discriminate|].
  vm_compute. reflexivity.
Qed.
Print Assumptions C45_retries_refuted.

Theorem C46_insertionsort : forall (A : Type) (cmp : A -> A -> Z) (l : list A) (fuel : nat),
  TotalPreorder cmp -> (length l < fuel)%nat ->
  exists l', insertionsort cmp fuel l = Ok l' /\ Permutation l l' /\ Ascending cmp l' /\
    forall x, equals_of cmp x l' = equals_of cmp x l.
Proof.
  intros A cmp l fuel TP Hf. destruct (isort_correct cmp TP [] l [] fuel Hf) as (l' & E & P & S & St).
  cbn [app] in E. rewrite !app_nil_r, zlen_nil in E. exists l'. split; [exact E|]. split; [exact P|]. split; [apply srt_ascending; exact S|exact St].
Qed.
Print Assumptions C46_insertionsort.
(** Pairs ordered by their first component keep the order of equal ones. *)
Example C46_ex : insertionsort (fun a b => zcmp3 (fst a) (fst b)) 10 [(2, 0); (1, 1); (2, 2); (1, 3)]
  = Ok [(1, 1); (1, 3); (2, 0); (2, 2)].
Proof. vm_compute. reflexivity. Qed.

Theorem C48_binarysearch : forall (A : Type) (cmp : A -> A -> Z) (l : list A) (x : A) (fuel : nat),
  TotalPreorder cmp -> Ascending cmp l -> (length l < fuel)%nat ->
  exists r, binarysearch cmp fuel l x = Ok r /\ 0 <= r <= zlen l /\
   ((exists e, nth_error l (Z.to_nat r) = Some e /\ cmp e x = 0) \/
    ((forall k e, (k < Z.to_nat r)%nat -> nth_error l k = Some e -> cmp e x < 0) /\
     (forall k e, (Z.to_nat r <= k)%nat -> nth_error l k = Some e -> 0 < cmp e x))).
Proof.
  intros A cmp l x fuel TP As Hf. unfold binarysearch. pose proof (zlen_nonneg l).
  destruct (bsearch_ok cmp TP l x As fuel 0 (zlen l) ltac:(lia) ltac:(lia) ltac:(unfold zlen; lia)) as (r & E & Hr & [(e & G & He)|R]).
  - intros k e Hk. lia.
  - intros k e Hk Hn. assert (nth_error l k <> None) by congruence. apply nth_error_Some in H0. unfold zlen in Hk. lia.
  - exists r. split; [exact E|]. split; [exact Hr|]. left. exists e. apply get_inv in G. tauto.
  - exists r. split; [exact E|]. split; [exact Hr|]. right. exact R.
Qed.
Print Assumptions C48_binarysearch.
Example C48_bs_ex : binarysearch zcmp3 10 [1; 3; 5; 7] 5 = Ok 2 /\ binarysearch zcmp3 10 [1; 3; 5; 7] 4 = Ok 2.
Proof. vm_compute. split; reflexivity. Qed.

(** is_sorted is exact when the comparison results are small enough not to wrap when
    multiplied (in particular for the built-in comparison, which returns -1, 0 or 1). *)
Theorem C48_is_sorted_partial : forall (A : Type) (cmp : A -> A -> Z) (l : list A) (fuel : nat),
  TotalPreorder cmp -> (forall a b, -46340 <= cmp a b <= 46340) -> (length l < fuel)%nat ->
  exists r, is_sorted cmp fuel l = Ok r /\ (r = true <-> Ascending cmp l \/ Descending cmp l).
Proof. intros A cmp l fuel TP SC Hf. apply (is_sorted_ok cmp TP SC l fuel Hf). Qed.
Print Assumptions C48_is_sorted_partial.
Example C48_is_ex : is_sorted zcmp3 10 [5; 5; 3; 3; 1] = Ok true /\ is_sorted zcmp3 10 [5; 5; 3; 4] = Ok false.
Proof. vm_compute. split; reflexivity. Qed.

(** With a comparison that returns the difference, the product of two results can wrap to zero,
    and the list [0; 65536; 0] is reported as sorted. *)
Theorem C48_is_sorted_refuted : exists (cmp : Z -> Z -> Z) l,
  TotalPreorder cmp /\ is_sorted cmp 10 l = Ok true /\ ~ Ascending cmp l /\ ~ Descending cmp l.
Proof.
  exists Z.sub, [0; 65536; 0]. split; [split; intros; [|lia]|].
  - destruct (Z.lt_trichotomy a b) as [H|[H|H]]; [rewrite (Z.sgn_pos (b - a)), (Z.sgn_neg (a - b)) by lia|subst; rewrite Z.sub_diag|rewrite (Z.sgn_neg (b - a)), (Z.sgn_pos (a - b)) by lia]; reflexivity.
  - split; [vm_compute; reflexivity|]. split; intros H.
    + specialize (H 1%nat 2%nat 65536 0 ltac:(lia) eq_refl eq_refl). lia.
    + specialize (H 0%nat 1%nat 0 65536 ltac:(lia) eq_refl eq_refl). lia.
Qed.
Print Assumptions C48_is_sorted_refuted.
