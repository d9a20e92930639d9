(** Facts about the backing allocator. *)
From Coq Require Import ZArith Bool List Lia ZifyBool.
From Verif Require Import Word AlcSpec AlcMem AlcBack AlcProofs.
Import ListNotations.
Open Scope Z_scope.

Fixpoint rapart (l : list (Z * Z)) : Prop :=
  match l with [] => True | (p, n) :: r => Forall (fun q => apart p n (fst q) (snd q)) r /\ rapart r end.
Definition rok (l : list (Z * Z)) : Prop := Forall (fun r => 0 < fst r /\ 0 < snd r /\ fst r + snd r <= 2 ^ 62) l /\ rapart l.
Definition live_at (l : list (Z * Z)) (x : Z) : Prop := exists p n, In (p, n) l /\ p <= x < p + n.

Lemma rapart_in l : rapart l -> forall p n q k, In (p, n) l -> In (q, k) l -> (p, n) = (q, k) \/ apart p n q k.
Proof.
  induction l as [|[r f] l IH]; intros A p d q e P Q; [destruct P|]. destruct A as [A1 A2]. rewrite Forall_forall in A1.
  destruct P as [P|P], Q as [Q|Q].
  - left. congruence.
  - right. injection P as <- <-. exact (A1 _ Q).
  - right. injection Q as <- <-. specialize (A1 _ P). unfold apart in *. cbn [fst snd] in A1. lia.
  - apply IH; assumption.
Qed.
Lemma rok_in l p n : rok l -> In (p, n) l -> 0 < p /\ 0 < n /\ p + n <= 2 ^ 62.
Proof. intros [H _] I. rewrite Forall_forall in H. exact (H _ I). Qed.
Lemma rok_apart l p n q k : rok l -> In (p, n) l -> In (q, k) l -> p <> q -> apart p n q k.
Proof. intros [_ H] I J N. destruct (rapart_in l H p n q k I J) as [E|E]; [congruence|exact E]. Qed.
Lemma rok_uniq l p n k : rok l -> In (p, n) l -> In (p, k) l -> n = k.
Proof.
  intros R I J. pose proof (rok_in l p n R I) as X. pose proof (rok_in l p k R J) as Y. destruct R as [_ H].
  destruct (rapart_in l H p n p k I J) as [E|E]; [congruence|]. unfold apart in E. lia.
Qed.
Lemma rok_drop l p : rok l -> rok (drop_region p l).
Proof.
  intros [H1 H2]. split.
  - apply Forall_forall. intros r R. apply filter_In in R. rewrite Forall_forall in H1. apply H1. tauto.
  - clear H1. induction l as [|[q n] l IH]; [exact I|]. destruct H2 as [A1 A2]. cbn [drop_region filter fst]. destruct (negb (q =? p)); [|exact (IH A2)].
    cbn [rapart]. split; [|exact (IH A2)]. apply Forall_forall. intros r R. apply filter_In in R. rewrite Forall_forall in A1. apply A1. tauto.
Qed.
Lemma drop_in p l q n : In (q, n) (drop_region p l) <-> In (q, n) l /\ q <> p.
Proof. unfold drop_region. rewrite filter_In. cbn [fst]. intuition lia. Qed.
Lemma rok_cons l p n : rok l -> 0 < p -> 0 < n -> p + n <= 2 ^ 62 -> region_free p n l = true -> rok ((p, n) :: l).
Proof.
  intros [H1 H2] P N T F. split.
  - constructor; [cbn [fst snd]; lia|exact H1].
  - cbn [rapart]. split; [|exact H2]. unfold region_free in F. rewrite forallb_forall in F. apply Forall_forall. intros r R. specialize (F r R).
    unfold disjointb in F. unfold apart. lia.
Qed.
Lemma in_region_live l x : in_region x l = true <-> live_at l x.
Proof.
  unfold in_region, live_at. rewrite existsb_exists. split.
  - intros ([p n] & I & E). exists p, n. cbn [fst snd] in E. split; [exact I|lia].
  - intros (p & n & I & E). exists (p, n). cbn [fst snd]. split; [exact I|lia].
Qed.
Lemma stir_live b l m x : live_at l x -> stir b l m x = m x.
Proof. intros H. unfold stir. apply in_region_live in H. rewrite H. reflexivity. Qed.

Lemma bk_acquire_spec b m n z al : rok (bk_live b) -> 0 < n ->
  exists r b' m', bk_acquire b m n z al = (r, b', m') /\ (forall x, live_at (bk_live b) x -> m' x = m x) /\
    match r with
    | None => bk_live b' = bk_live b
    | Some p => bk_live b' = (p, n) :: bk_live b /\ rok ((p, n) :: bk_live b) /\ p mod alignment_for al = 0 /\
                (z = true -> forall x, p <= x < p + n -> m' x = 0)
    end.
Proof.
  intros R N. unfold bk_acquire. cbv zeta.
  assert (KEEP : forall x, live_at (bk_live b) x -> stir b (bk_live b) m x = m x) by (intros x; apply stir_live).
  destruct (bk_answer b (bk_count b)) as [p|].
  2:{ eexists _, _, _. split; [reflexivity|]. split; [exact KEEP|reflexivity]. }
  destruct (bk_ok b p n al (bk_live b)) eqn:OK.
  2:{ eexists _, _, _. split; [reflexivity|]. split; [exact KEEP|reflexivity]. }
  unfold bk_ok in OK. apply andb_true_iff in OK. destruct OK as [OK FR].
  assert (R' : rok ((p, n) :: bk_live b)) by (apply rok_cons; [exact R|lia|lia|lia|exact FR]).
  eexists _, _, _. split; [reflexivity|]. split.
  - intros x L. destruct z; [|apply KEEP; exact L]. rewrite mclear_out; [apply KEEP; exact L|]. destruct L as (q & k & I & Q).
    destruct R' as [_ [A _]]. rewrite Forall_forall in A. specialize (A _ I). unfold apart in A. cbn [fst snd] in A. lia.
  - split; [reflexivity|]. split; [exact R'|]. split; [lia|]. intros Z x Hx. rewrite Z. apply mclear_in. exact Hx.
Qed.
Lemma bk_release_spec b m p n : In (p, n) (bk_live b) ->
  exists b' m', bk_release b m p = Some (b', m') /\ bk_live b' = drop_region p (bk_live b) /\ (forall x, live_at (bk_live b) x -> m' x = m x).
Proof.
  intros I. unfold bk_release. replace (existsb (fun r => fst r =? p) (bk_live b)) with true.
  - eexists _, _. split; [reflexivity|]. split; [reflexivity|]. intros x. apply stir_live.
  - symmetry. apply existsb_exists. exists (p, n). split; [exact I|]. cbn [fst]. lia.
Qed.
Lemma bk_resize_spec b m p old n al : rok (bk_live b) -> 0 < n -> In (p, old) (bk_live b) ->
  exists r b' m', bk_resize b m p n al = Some (r, b', m') /\
    match r with
    | None => bk_live b' = bk_live b /\ (forall x, live_at (bk_live b) x -> m' x = m x)
    | Some q => bk_live b' = (q, n) :: drop_region p (bk_live b) /\ rok ((q, n) :: drop_region p (bk_live b)) /\ q mod alignment_for al = 0 /\
                (forall x, live_at (drop_region p (bk_live b)) x -> m' x = m x) /\
                (forall i, 0 <= i < Z.min old n -> m' (q + i) = m (p + i))
    end.
Proof.
  intros R N I. unfold bk_resize.
  destruct (find (fun r => fst r =? p) (bk_live b)) as [[p' old']|] eqn:F.
  2:{ pose proof (find_none _ _ F _ I) as X. cbn [fst] in X. lia. }
  apply find_some in F. destruct F as [F1 F2]. cbn [fst] in F2. assert (p' = p) by lia. subst p'.
  assert (old' = old) by (apply (rok_uniq (bk_live b) p); assumption). subst old'. cbv zeta.
  assert (KEEP : forall x, live_at (bk_live b) x -> stir b (bk_live b) m x = m x) by (intros x; apply stir_live).
  destruct (bk_answer b (bk_count b)) as [q|].
  2:{ eexists _, _, _. split; [reflexivity|]. split; [reflexivity|exact KEEP]. }
  destruct (bk_ok b q n al (drop_region p (bk_live b))) eqn:OK.
  2:{ eexists _, _, _. split; [reflexivity|]. split; [reflexivity|exact KEEP]. }
  unfold bk_ok in OK. apply andb_true_iff in OK. destruct OK as [OK FR].
  assert (R' : rok ((q, n) :: drop_region p (bk_live b))) by (apply rok_cons; [apply rok_drop; exact R|lia|lia|lia|exact FR]).
  pose proof (rok_in _ _ _ R I) as RI.
  eexists _, _, _. split; [reflexivity|]. split; [reflexivity|]. split; [exact R'|]. split; [lia|]. split.
  - intros x (r & k & J & X). pose proof J as J'. apply drop_in in J'. destruct J' as [J1 J2].
    rewrite mcopy_out; [apply KEEP; exists r, k; split; assumption|].
    destruct R' as [_ [A _]]. rewrite Forall_forall in A. specialize (A _ J). unfold apart in A. cbn [fst snd] in A. lia.
  - intros i Hi. rewrite mcopy_in by lia. replace (p + (q + i - q)) with (p + i) by lia. apply KEEP. exists p, old. split; [exact I|lia].
Qed.
