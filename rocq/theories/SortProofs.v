From Coq Require Import ZArith Bool List Lia ZifyBool Permutation Sorting.Sorted.
From Verif Require Import Word Mach SortModel SortSpec.
Import ListNotations.
Open Scope Z_scope.
Ltac Zify.zify_post_hook ::= Z.div_mod_to_equations.

(** ** Sortedness as an inductive predicate *)
Section Ord.
Context {A : Type} (cmp : A -> A -> Z) (TP : TotalPreorder cmp).
Definition le (a b : A) : Prop := cmp a b <= 0.
Notation Srt := (StronglySorted le).

Lemma cmp_refl a : cmp a a = 0.
Proof. pose proof (tp_anti _ TP a a). destruct (cmp a a); cbn in *; lia. Qed.
Lemma cmp_flip a b : cmp a b <= 0 <-> 0 <= cmp b a.
Proof. pose proof (tp_anti _ TP a b). destruct (cmp a b), (cmp b a); cbn in *; lia. Qed.
Lemma cmp_flip_lt a b : cmp a b < 0 <-> 0 < cmp b a.
Proof. pose proof (tp_anti _ TP a b). destruct (cmp a b), (cmp b a); cbn in *; lia. Qed.
Lemma le_trans a b c : le a b -> le b c -> le a c. Proof. apply (tp_trans _ TP). Qed.

Lemma srt_ascending l : Srt l <-> Ascending cmp l.
Proof.
  split.
  - induction 1 as [|a l S IH F]; intros i j x y Hij Hi Hj.
    + destruct i; discriminate.
    + destruct j as [|j]; [lia|]. cbn in Hj. destruct i as [|i]; cbn in Hi.
      * injection Hi as <-. rewrite Forall_forall in F. apply F. eapply nth_error_In; eassumption.
      * apply (IH i j x y); [lia|assumption|assumption].
  - induction l as [|a l IH]; intros H; constructor.
    + apply IH. intros i j x y Hij Hi Hj. apply (H (S i) (S j) x y); [lia|assumption|assumption].
    + apply Forall_forall. intros x Hx. apply In_nth_error in Hx. destruct Hx as [n Hn].
      apply (H 0%nat (S n) a x); [lia|reflexivity|assumption].
Qed.

Lemma srt_app l1 l2 : Srt (l1 ++ l2) <-> Srt l1 /\ Srt l2 /\ (forall a b, In a l1 -> In b l2 -> le a b).
Proof.
  induction l1 as [|x l1 IH]; cbn [app].
  - split; [intros H; repeat split; [constructor|exact H|intros ? ? []]|tauto].
  - split.
    + intros H. inversion H as [|? ? S F]; subst. apply IH in S. destruct S as (S1 & S2 & S3).
      rewrite Forall_app, !Forall_forall in F. destruct F as [F1 F2]. repeat split.
      * constructor; [exact S1|apply Forall_forall; exact F1].
      * exact S2.
      * intros a b [<-|Ha] Hb; [apply F2; exact Hb|apply S3; assumption].
    + intros (S1 & S2 & S3). inversion S1 as [|? ? S F]; subst. constructor.
      * apply IH. repeat split; [assumption|assumption|intros; apply S3; [right|]; assumption].
      * apply Forall_app. split; [exact F|apply Forall_forall; intros b Hb; apply S3; [left; reflexivity|exact Hb]].
Qed.

(** ** Insertion sort *)
(** The pure insertion: [x] goes after the last element not greater than it. *)
Fixpoint ins_rev (x : A) (r : list A) : list A :=   (* r is the sorted part, reversed *)
  match r with
  | [] => [x]
  | y :: t => if 0 <=? cmp x y then x :: r else y :: ins_rev x t
  end.

Lemma isort_inner_spec fuel : forall r pre post x, (length r < fuel)%nat ->
  isort_inner cmp fuel (pre ++ rev r ++ x :: post) (zlen pre) (zlen pre + zlen r) = Ok (pre ++ rev (ins_rev x r) ++ post).
Proof.
  induction fuel as [|f IH]; intros r pre post x Hf; [lia|]. destruct r as [|y t]; cbn [isort_inner].
  - rewrite zlen_nil, Z.add_0_r, Z.ltb_irrefl. reflexivity.
  - rewrite zlen_cons. pose proof (zlen_nonneg t) as Ht.
    replace (zlen pre <? zlen pre + (1 + zlen t)) with true by lia.
    cbn [rev]. assert (Lt : zlen (rev t) = zlen t) by (unfold zlen; rewrite rev_length; reflexivity).
    replace (pre ++ (rev t ++ [y]) ++ x :: post) with ((pre ++ rev t ++ [y]) ++ x :: post) by (rewrite <- !app_assoc; reflexivity).
    rewrite get_app by (rewrite !zlen_app, Lt, zlen_cons, zlen_nil; lia). cbn [bind].
    replace ((pre ++ rev t ++ [y]) ++ x :: post) with ((pre ++ rev t) ++ y :: x :: post) by (rewrite <- !app_assoc; reflexivity).
    rewrite get_app by (rewrite zlen_app, Lt; lia). cbn [bind ins_rev].
    destruct (Z.leb_spec 0 (cmp x y)) as [Hc|Hc].
    + cbn [rev]. rewrite <- !app_assoc. reflexivity.
    + replace ((pre ++ rev t) ++ y :: x :: post) with ((pre ++ rev t ++ [y]) ++ x :: post) by (rewrite <- !app_assoc; reflexivity).
      rewrite set_app by (rewrite !zlen_app, Lt, zlen_cons, zlen_nil; lia). cbn [bind].
      replace ((pre ++ rev t ++ [y]) ++ y :: post) with ((pre ++ rev t) ++ y :: y :: post) by (rewrite <- !app_assoc; reflexivity).
      rewrite set_app by (rewrite zlen_app, Lt; lia). cbn [bind].
      replace ((pre ++ rev t) ++ x :: y :: post) with (pre ++ rev t ++ x :: (y :: post)) by (rewrite <- !app_assoc; reflexivity).
      replace (zlen pre + (1 + zlen t) - 1) with (zlen pre + zlen t) by lia.
      rewrite IH by (cbn in Hf; lia). cbn [rev]. rewrite <- !app_assoc. reflexivity.
Qed.

Fixpoint isort_rev (r todo : list A) : list A :=
  match todo with [] => r | x :: t => isort_rev (ins_rev x r) t end.

Lemma ins_rev_length x r : length (ins_rev x r) = S (length r).
Proof. induction r as [|y t IH]; cbn; [reflexivity|]. destruct (0 <=? cmp x y); cbn; lia. Qed.


Lemma isort_outer_ok inner : forall todo r pre post fuel, (length r + length todo <= inner)%nat -> (length todo < fuel)%nat ->
  isort_outer cmp inner fuel (pre ++ rev r ++ todo ++ post) (zlen pre) (zlen pre + zlen r + zlen todo) (zlen pre + zlen r)
  = Ok (pre ++ rev (isort_rev r todo) ++ post).
Proof.
  induction todo as [|x t IH]; intros r pre post fuel Hi Hf; (destruct fuel as [|f]; [cbn in Hf; lia|]); cbn [isort_outer isort_rev].
  - rewrite zlen_nil, Z.add_0_r, Z.ltb_irrefl. reflexivity.
  - rewrite zlen_cons. pose proof (zlen_nonneg t). replace (zlen pre + zlen r <? zlen pre + zlen r + (1 + zlen t)) with true by lia.
    cbn [app length] in *. rewrite isort_inner_spec by lia. cbn [bind].
    replace (zlen pre + zlen r + (1 + zlen t)) with (zlen pre + zlen (ins_rev x r) + zlen t) by (unfold zlen; rewrite ins_rev_length; lia).
    replace (zlen pre + zlen r + 1) with (zlen pre + zlen (ins_rev x r)) by (unfold zlen; rewrite ins_rev_length; lia).
    apply IH; [rewrite ins_rev_length; lia|lia].
Qed.

Lemma isort_ok pre mid post fuel : (length mid < fuel)%nat ->
  isort cmp fuel (pre ++ mid ++ post) (zlen pre) (zlen pre + zlen mid) = Ok (pre ++ rev (isort_rev [] mid) ++ post).
Proof.
  intros H. unfold isort. pose proof (isort_outer_ok fuel mid [] pre post fuel) as X. cbn [rev app length] in X.
  rewrite zlen_nil, Z.add_0_r in X. apply X; lia.
Qed.

Lemma ins_rev_perm x r : Permutation (ins_rev x r) (x :: r).
Proof.
  induction r as [|y t IH]; cbn [ins_rev]; [reflexivity|]. destruct (0 <=? cmp x y); [reflexivity|].
  rewrite IH. apply perm_swap.
Qed.
Lemma isort_rev_perm todo : forall r, Permutation (isort_rev r todo) (r ++ todo).
Proof.
  induction todo as [|x t IH]; intros r; cbn [isort_rev]; [rewrite app_nil_r; reflexivity|].
  rewrite IH, ins_rev_perm. apply Permutation_middle.
Qed.
Lemma ins_rev_srt x r : Srt (rev r) -> Srt (rev (ins_rev x r)).
Proof.
  induction r as [|y t IH]; cbn [ins_rev rev app]; intros H; [repeat constructor|].
  destruct (Z.leb_spec 0 (cmp x y)) as [Hc|Hc]; cbn [rev].
  - apply srt_app. split; [exact H|]. split; [repeat constructor|]. intros a b Ha [<-|[]].
    assert (Hyx : le y x) by (apply cmp_flip; exact Hc).
    apply in_app_or in Ha. destruct Ha as [Ha|[<-|[]]]; [|exact Hyx].
    apply srt_app in H. destruct H as (_ & _ & H3). apply le_trans with y; [apply H3; [exact Ha|left; reflexivity]|exact Hyx].
  - apply srt_app in H. destruct H as (H1 & H2 & H3). apply srt_app. split; [apply IH; exact H1|]. split; [exact H2|].
    intros a b Ha [<-|[]]. apply in_rev in Ha. apply (Permutation_in _ (ins_rev_perm x t)) in Ha.
    destruct Ha as [<-|Ha]; [unfold le; lia|]. apply H3; [apply in_rev; rewrite rev_involutive; exact Ha|left; reflexivity].
Qed.
Lemma isort_rev_srt todo : forall r, Srt (rev r) -> Srt (rev (isort_rev r todo)).
Proof. induction todo as [|x t IH]; intros r H; cbn [isort_rev]; [exact H|]. apply IH, ins_rev_srt, H. Qed.

Lemma cmp_eq_swap z x y : cmp z x = 0 -> cmp z y = 0 -> cmp x y = 0.
Proof.
  intros H1 H2. pose proof (tp_anti _ TP z x) as Q. rewrite H1 in Q. assert (cmp x z = 0) by (destruct (cmp x z); cbn in *; lia).
  assert (le x y) by (apply le_trans with z; unfold le; lia).
  pose proof (tp_anti _ TP z y) as Q2. rewrite H2 in Q2. assert (cmp y z = 0) by (destruct (cmp y z); cbn in *; lia).
  assert (Hyx : le y x) by (apply le_trans with z; unfold le; lia).
  apply cmp_flip in Hyx. unfold le in *. lia.
Qed.
Lemma ins_rev_stable z x r : equals_of cmp z (ins_rev x r) = equals_of cmp z (x :: r).
Proof.
  induction r as [|y t IH]; cbn [ins_rev]; [reflexivity|]. destruct (Z.leb_spec 0 (cmp x y)) as [Hc|Hc]; [reflexivity|].
  unfold equals_of in *. cbn [filter] in *. rewrite IH.
  destruct (Z.eqb_spec (cmp z x) 0), (Z.eqb_spec (cmp z y) 0); try reflexivity.
  pose proof (cmp_eq_swap z x y ltac:(assumption) ltac:(assumption)). lia.
Qed.
Lemma filter_rev_app (f : A -> bool) l : filter f (rev l) = rev (filter f l).
Proof. induction l as [|x l IH]; [reflexivity|]. cbn [rev filter]. rewrite filter_app, IH. cbn. destruct (f x); cbn; [reflexivity|apply app_nil_r]. Qed.
Lemma isort_rev_stable z todo : forall r, equals_of cmp z (rev (isort_rev r todo)) = equals_of cmp z (rev r ++ todo).
Proof.
  induction todo as [|x t IH]; intros r; cbn [isort_rev]; [rewrite app_nil_r; reflexivity|].
  rewrite IH. unfold equals_of. rewrite !filter_app, !filter_rev_app. rewrite (ins_rev_stable z x r : filter _ _ = filter _ _).
  cbn [filter]. destruct (cmp z x =? 0); cbn [rev]; rewrite <- ?app_assoc; reflexivity.
Qed.

Lemma isort_correct pre mid post fuel : (length mid < fuel)%nat ->
  exists mid', isort cmp fuel (pre ++ mid ++ post) (zlen pre) (zlen pre + zlen mid) = Ok (pre ++ mid' ++ post)
   /\ Permutation mid mid' /\ Srt mid' /\ forall x, equals_of cmp x mid' = equals_of cmp x mid.
Proof.
  intros H. eexists. split; [apply isort_ok; exact H|]. split.
  - rewrite <- Permutation_rev. rewrite isort_rev_perm. reflexivity.
  - split; [apply isort_rev_srt; constructor|]. intros x. rewrite isort_rev_stable. reflexivity.
Qed.

(** ** is_sorted *)
Definition Steps (P : A -> A -> Prop) (l : list A) : Prop :=
  forall i a b, nth_error l i = Some a -> nth_error l (S i) = Some b -> P a b.

Lemma steps_sorted (P : A -> A -> Prop) (trans : forall a b c, P a b -> P b c -> P a c) l :
  Steps P l -> forall i j a b, (i < j)%nat -> nth_error l i = Some a -> nth_error l j = Some b -> P a b.
Proof.
  intros H i j a b Hij Ha. revert b. induction Hij as [|j Hij IH]; intros b Hb; [eapply H; eassumption|].
  destruct (nth_error l j) as [c|] eqn:Ec.
  - apply trans with c; [apply IH; reflexivity|eapply H; eassumption].
  - apply nth_error_None in Ec. assert (nth_error l (S j) <> None) by congruence. apply nth_error_Some in H0. lia.
Qed.

Definition small_cmp : Prop := forall a b, -46340 <= cmp a b <= 46340.

Lemma get_pair (l : list A) i : 0 <= i < zlen l - 1 -> exists a b, get l i = Ok a /\ get l (i + 1) = Ok b /\
   nth_error l (Z.to_nat i) = Some a /\ nth_error l (S (Z.to_nat i)) = Some b.
Proof.
  intros H. destruct (get_ok l i ltac:(lia)) as [a Ha]. destruct (get_ok l (i + 1) ltac:(lia)) as [b Hb].
  exists a, b. split; [exact Ha|]. split; [exact Hb|]. apply get_inv in Ha. apply get_inv in Hb.
  replace (Z.to_nat (i + 1)) with (S (Z.to_nat i)) in Hb by lia. tauto.
Qed.

Definition StepsIn (P : A -> A -> Prop) (l : list A) (s e : Z) : Prop :=
  forall i a b, s <= i < e -> nth_error l (Z.to_nat i) = Some a -> nth_error l (S (Z.to_nat i)) = Some b -> P a b.

Lemma find_order_ok l fuel : forall i order, 0 <= i <= zlen l - 1 -> zlen l - 1 - i < Z.of_nat fuel ->
  (order = 0 -> StepsIn (fun a b => cmp a b = 0) l 0 i) ->
  (order <> 0 -> exists a b, 0 < i /\ StepsIn (fun a b => cmp a b = 0) l 0 (i - 1) /\
       nth_error l (Z.to_nat (i - 1)) = Some a /\ nth_error l (S (Z.to_nat (i - 1))) = Some b /\ order = cmp a b) ->
  exists i' o', find_order cmp fuel l i (zlen l - 1) order = Ok (i', o') /\ 0 <= i' <= zlen l - 1 /\
  (o' = 0 -> StepsIn (fun a b => cmp a b = 0) l 0 (zlen l - 1)) /\
  (o' <> 0 -> exists a b, 0 < i' /\ StepsIn (fun a b => cmp a b = 0) l 0 (i' - 1) /\
       nth_error l (Z.to_nat (i' - 1)) = Some a /\ nth_error l (S (Z.to_nat (i' - 1))) = Some b /\ o' = cmp a b).
Proof.
  induction fuel as [|f IH]; intros i order Hi Hf H0 H1; [lia|]. cbn [find_order].
  destruct (Z.eqb_spec order 0) as [E|E].
  - destruct (Z.ltb_spec i (zlen l - 1)) as [Hlt|Hge]; cbn [andb].
    + destruct (get_pair l i ltac:(lia)) as (a & b & -> & -> & Na & Nb). cbn [bind].
      apply IH; [lia|lia| |].
      * intros Hc k x y Hk Hx Hy. destruct (Z.eq_dec k i) as [->|Hne]; [congruence|]. apply (H0 E k x y); [lia|assumption|assumption].
      * intros Hc. exists a, b. replace (i + 1 - 1) with i by lia. split; [lia|]. split; [exact (H0 E)|]. auto.
    + exists i, order. split; [reflexivity|]. split; [lia|]. split; [|exact H1]. intros _. replace (zlen l - 1) with i by lia. exact (H0 E).
  - rewrite andb_false_r. exists i, order. split; [reflexivity|]. split; [lia|]. split; [congruence|exact H1].
Qed.

Lemma swrap32_small z : - 2 ^ 31 <= z < 2 ^ 31 -> swrap 32 z = z.
Proof.
  intros H. unfold swrap. change (32 - 1) with 31. change (2 ^ 32) with 4294967296. change (2 ^ 31) with 2147483648 in *. cbv zeta.
  destruct (Z.ltb_spec (z mod 4294967296) 2147483648); lia.
Qed.

Lemma check_order_ok (SC : small_cmp) l fuel order : (exists a b, order = cmp a b) ->
  forall i, 0 <= i <= zlen l - 1 -> zlen l - 1 - i < Z.of_nat fuel ->
  exists r, check_order cmp fuel l i (zlen l - 1) order = Ok r /\
  (r = true <-> StepsIn (fun a b => 0 <= order * cmp a b) l i (zlen l - 1)).
Proof.
  intros (oa & ob & Ho). pose proof (SC oa ob) as So. rewrite <- Ho in So.
  induction fuel as [|f IH]; intros i Hi Hf; [lia|]. cbn [check_order].
  destruct (Z.ltb_spec i (zlen l - 1)) as [Hlt|Hge].
  - destruct (get_pair l i ltac:(lia)) as (a & b & -> & -> & Na & Nb). cbn [bind].
    pose proof (SC a b) as Sab.
    assert (Hb : - 2 ^ 31 <= order * cmp a b < 2 ^ 31) by (change (2 ^ 31) with 2147483648; nia).
    rewrite swrap32_small by exact Hb. destruct (Z.ltb_spec (order * cmp a b) 0) as [Hn|Hn].
    + exists false. split; [reflexivity|]. split; [discriminate|]. intros H. specialize (H i a b ltac:(lia) Na Nb). cbn in H. lia.
    + destruct (IH (i + 1) ltac:(lia) ltac:(lia)) as (r & E & Hr). exists r. split; [exact E|]. rewrite Hr. split.
      * intros H k x y Hk Hx Hy. destruct (Z.eq_dec k i) as [->|Hne]; [congruence|]. apply (H k x y); [lia|assumption|assumption].
      * intros H k x y Hk Hx Hy. apply (H k x y); [lia|assumption|assumption].
  - exists true. split; [reflexivity|]. split; [|reflexivity]. intros _ k x y Hk. lia.
Qed.

Lemma ge_trans a b c : 0 <= cmp a b -> 0 <= cmp b c -> 0 <= cmp a c.
Proof. intros H1 H2. apply cmp_flip. apply cmp_flip in H1, H2. eapply (tp_trans _ TP); eassumption. Qed.

Lemma stepsin_asc l : StepsIn (fun a b => cmp a b <= 0) l 0 (zlen l - 1) <-> Ascending cmp l.
Proof.
  split; intros H.
  - unfold Ascending. apply (steps_sorted (fun a b => cmp a b <= 0)); [apply (tp_trans _ TP)|].
    intros i a b Ha Hb. apply (H (Z.of_nat i) a b); [|rewrite Nat2Z.id; assumption|rewrite Nat2Z.id; assumption].
    assert (nth_error l (S i) <> None) by congruence. apply nth_error_Some in H0. unfold zlen. lia.
  - intros i a b Hi Ha Hb. apply (H (Z.to_nat i) (S (Z.to_nat i)) a b); [lia|assumption|assumption].
Qed.
Lemma stepsin_desc l : StepsIn (fun a b => 0 <= cmp a b) l 0 (zlen l - 1) <-> Descending cmp l.
Proof.
  split; intros H.
  - unfold Descending. apply (steps_sorted (fun a b => 0 <= cmp a b)); [apply ge_trans|].
    intros i a b Ha Hb. apply (H (Z.of_nat i) a b); [|rewrite Nat2Z.id; assumption|rewrite Nat2Z.id; assumption].
    assert (nth_error l (S i) <> None) by congruence. apply nth_error_Some in H0. unfold zlen. lia.
  - intros i a b Hi Ha Hb. apply (H (Z.to_nat i) (S (Z.to_nat i)) a b); [lia|assumption|assumption].
Qed.

Lemma is_sorted_ok (SC : small_cmp) l fuel : (length l < fuel)%nat ->
  exists r, is_sorted cmp fuel l = Ok r /\ (r = true <-> Ascending cmp l \/ Descending cmp l).
Proof.
  intros Hf. unfold is_sorted. pose proof (zlen_nonneg l).
  destruct (Z.leb_spec (zlen l) 1) as [H1|H1].
  { exists true. split; [reflexivity|]. split; [|reflexivity]. intros _. left. intros i j a b Hij Ha Hb.
    assert (nth_error l j <> None) by congruence. apply nth_error_Some in H0. unfold zlen in *. lia. }
  destruct (find_order_ok l fuel 0 0 ltac:(lia) ltac:(unfold zlen; lia)) as (i' & o' & E & Hi & H0 & Hn);
    [intros _ k x y Hk; lia|congruence|]. rewrite E. cbn [bind].
  destruct (Z.eqb_spec o' 0) as [Eo|Eo].
  - exists true. split; [reflexivity|]. split; [|reflexivity]. intros _. left. apply stepsin_asc.
    intros k x y Hk Hx Hy. rewrite (H0 Eo k x y Hk Hx Hy). lia.
  - destruct (Hn Eo) as (a & b & Hpos & Hz & Na & Nb & Ho).
    destruct (check_order_ok SC l fuel o' ltac:(eauto) i' ltac:(lia) ltac:(unfold zlen in *; lia)) as (r & Er & Hr).
    exists r. split; [exact Er|]. rewrite Hr, <- stepsin_asc, <- stepsin_desc. split.
    + intros Hs. destruct (Z.lt_ge_cases o' 0) as [Hneg|Hge]; [left|right]; intros k x y Hk Hx Hy.
      * destruct (Z_lt_ge_dec k i') as [Hki|Hki]; [|specialize (Hs k x y ltac:(lia) Hx Hy); cbn in Hs; nia].
        destruct (Z.eq_dec k (i' - 1)) as [->|Hne]; [rewrite Hx in Na; rewrite Hy in Nb; injection Na as <-; injection Nb as <-; lia|].
        rewrite (Hz k x y ltac:(lia) Hx Hy). lia.
      * destruct (Z_lt_ge_dec k i') as [Hki|Hki]; [|specialize (Hs k x y ltac:(lia) Hx Hy); cbn in Hs; nia].
        destruct (Z.eq_dec k (i' - 1)) as [->|Hne]; [rewrite Hx in Na; rewrite Hy in Nb; injection Na as <-; injection Nb as <-; lia|].
        rewrite (Hz k x y ltac:(lia) Hx Hy). lia.
    + intros [Hs|Hs] k x y Hk Hx Hy.
      * pose proof (Hs (i' - 1) a b ltac:(lia) Na Nb) as Q1. pose proof (Hs k x y ltac:(lia) Hx Hy) as Q2. cbn in Q1, Q2. nia.
      * pose proof (Hs (i' - 1) a b ltac:(lia) Na Nb) as Q1. pose proof (Hs k x y ltac:(lia) Hx Hy) as Q2. cbn in Q1, Q2. nia.
Qed.

(** ** Binary search *)
Lemma bsearch_ok l x : Ascending cmp l -> forall fuel i j, 0 <= i <= j -> j <= zlen l -> j - i < Z.of_nat fuel ->
  (forall k e, (k < Z.to_nat i)%nat -> nth_error l k = Some e -> cmp e x < 0) ->
  (forall k e, (Z.to_nat j <= k)%nat -> nth_error l k = Some e -> 0 < cmp e x) ->
  exists r, bsearch_loop cmp fuel l x i j = Ok r /\ 0 <= r <= zlen l /\
   ((exists e, get l r = Ok e /\ cmp e x = 0) \/
    ((forall k e, (k < Z.to_nat r)%nat -> nth_error l k = Some e -> cmp e x < 0) /\
     (forall k e, (Z.to_nat r <= k)%nat -> nth_error l k = Some e -> 0 < cmp e x))).
Proof.
  intros As. induction fuel as [|f IH]; intros i j Hij Hj Hf Hl Hr; [lia|]. cbn [bsearch_loop].
  destruct (Z.ltb_spec i j) as [Hlt|Hge].
  - set (half := i + (j - i) / 2). assert (Hh : i <= half < j) by (subst half; lia). clearbody half.
    destruct (get_ok l half ltac:(lia)) as [e He]. rewrite He. cbn [bind]. destruct (get_inv _ _ _ He) as [_ Ne].
    destruct (Z.ltb_spec 0 (cmp e x)) as [Hc|Hc].
    + apply IH; [lia|lia|lia|exact Hl|]. intros k e' Hk Hn. destruct (Nat.eq_dec k (Z.to_nat half)) as [->|Hne]; [congruence|].
      assert (Hle : cmp e e' <= 0) by (apply (As (Z.to_nat half) k); [lia|assumption|assumption]).
      apply cmp_flip_lt. apply cmp_flip_lt in Hc. destruct (Z.lt_ge_cases (cmp x e') 0) as [Q|Q]; [exact Q|].
      apply cmp_flip in Q. pose proof (tp_trans _ TP _ _ _ Hle Q). apply cmp_flip in H. lia.
    + destruct (Z.ltb_spec (cmp e x) 0) as [Hc2|Hc2].
      * apply IH; [lia|lia|lia| |exact Hr]. intros k e' Hk Hn. destruct (Nat.eq_dec k (Z.to_nat half)) as [->|Hne]; [congruence|].
        assert (Hle : cmp e' e <= 0) by (apply (As k (Z.to_nat half)); [lia|assumption|assumption]).
        destruct (Z.lt_ge_cases (cmp e' x) 0) as [Q|Q]; [exact Q|]. apply cmp_flip in Q.
        pose proof (tp_trans _ TP _ _ _ Q Hle). apply cmp_flip in H. lia.
      * exists half. split; [reflexivity|]. split; [lia|]. left. exists e. split; [exact He|lia].
  - exists i. split; [reflexivity|]. split; [lia|]. right. split; [exact Hl|]. intros k e Hk. apply Hr. lia.
Qed.
End Ord.
