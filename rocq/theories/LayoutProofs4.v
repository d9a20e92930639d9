From Coq Require Import ZArith List Bool Lia ZifyBool.
From Verif Require Import LayoutModel LayoutSpec LayoutProofs LayoutProofs2 LayoutProofs3.
Import ListNotations.
Open Scope Z_scope.

(** Unions. *)
Lemma union_step_eq st i m : union_step st i m =
  let ma := umember_align m in
  let st1 := if max_align st <? ma then mkU (max_size st) i ma else st in
  if max_size st1 <? size (ty m)
  then mkU (size (ty m)) (if negb (Nat.eqb (max_elt st1) i) && (max_align st1 =? ma) then i else max_elt st1) (max_align st1)
  else st1.
Proof.
  unfold union_step, umember_align. replace (if align (ty m) <? given m then given m else align (ty m)) with (Z.max (align (ty m)) (given m))
    by (destruct (align (ty m) <? given m) eqn:?; lia). reflexivity.
Qed.
Definition uok (all : list Member) (i : nat) (st : UState) : Prop :=
  (i = 0%nat /\ max_align st = 0) \/ (exists m, nth_error all (max_elt st) = Some m /\ (max_elt st < i)%nat /\ umember_align m = max_align st).
Lemma union_step_ok all i st m : nth_error all i = Some m -> uok all i st -> 1 <= umember_align m ->
  uok all (S i) (union_step st i m) /\ max_size (union_step st i m) = Z.max (max_size st) (size (ty m)) /\
  max_align (union_step st i m) = Z.max (max_align st) (umember_align m).
Proof.
  intros Hm U P. rewrite union_step_eq. cbv zeta.
  assert (E : exists m', nth_error all i = Some m' /\ (i < S i)%nat /\ umember_align m' = umember_align m) by (exists m; repeat split; auto).
  destruct (max_align st <? umember_align m) eqn:A; cbn [max_size max_elt max_align].
  - destruct (max_size st <? size (ty m)) eqn:B; cbn [max_size max_elt max_align].
    + rewrite Nat.eqb_refl. cbn [negb andb]. split; [right; exact E|]. lia.
    + split; [right; exact E|]. lia.
  - destruct U as [[-> U]|(m' & U1 & U2 & U3)]; [lia|].
    destruct (max_size st <? size (ty m)) eqn:B; cbn [max_size max_elt max_align].
    + destruct (negb (Nat.eqb (max_elt st) i) && (max_align st =? umember_align m)) eqn:C.
      * split; [right; exists m; cbn; repeat split; auto; lia|]. lia.
      * split; [right; exists m'; cbn; repeat split; auto|]. lia.
    + split; [right; exists m'; repeat split; auto|]. lia.
Qed.
Lemma union_scan_ok all : forall ms pre st, all = pre ++ ms -> uok all (length pre) st -> (forall m, In m ms -> 1 <= umember_align m) ->
  let st' := union_scan st (length pre) ms in
  uok all (length all) st' /\ max_size st' = max_of (map (fun m => size (ty m)) ms) (max_size st) /\
  max_align st' = max_of (map umember_align ms) (max_align st).
Proof.
  induction ms as [|m r IH]; intros pre st E U P; cbn [union_scan].
  - cbv zeta. rewrite app_nil_r in E. subst. auto.
  - assert (Hm : nth_error all (length pre) = Some m) by (subst; rewrite nth_error_app2, Nat.sub_diag by lia; reflexivity).
    destruct (union_step_ok all (length pre) st m Hm U (P m (or_introl eq_refl))) as (A & B & C).
    specialize (IH (pre ++ [m]) (union_step st (length pre) m)). rewrite app_length, Nat.add_1_r in IH. cbn [length] in IH.
    rewrite <- app_assoc in IH. cbn [app] in IH. rewrite B, C in IH. rewrite Nat.add_1_r in IH || idtac.
    cbn [map]. rewrite !max_of_cons. apply IH; auto. intros; apply P; right; auto.
Qed.
Lemma umember_pos m : wf_member m -> 1 <= umember_align m.
Proof. intros [(_ & P & _) _]. apply pow2_pos in P. unfold umember_align. lia. Qed.
Lemma umember_pow2 m : wf_member m -> pow2 (umember_align m).
Proof.
  intros [(_ & P & _) G]. unfold umember_align. pose proof (pow2_pos _ P). destruct G as [->|G]; [rewrite Z.max_l by lia; auto|].
  destruct (Z.max_spec (align (ty m)) (given m)) as [[_ ->]|[_ ->]]; auto.
Qed.
Lemma union_align_pow2 packed g ms : ms <> [] -> Forall wf_member ms -> wf_given g -> pow2 (union_align packed g ms).
Proof.
  intros Hn HF HG. unfold union_align. destruct packed.
  - destruct (g =? 0) eqn:E; [apply pow2_1|]. destruct HG; [lia|auto].
  - destruct ms as [|m r]; [congruence|]. inversion HF as [|? ? W F]; subst. cbn [map]. rewrite max_of_cons.
    rewrite Forall_forall in F. apply (max_of_either _ _ pow2).
    + pose proof (umember_pow2 m W) as P. pose proof (pow2_pos _ P). destruct HG as [->|G]; [rewrite Z.max_r by lia; auto|].
      destruct (Z.max_spec g (umember_align m)) as [[_ ->]|[_ ->]]; auto.
    + intros x Hx. apply in_map_iff in Hx. destruct Hx as (y & <- & Hy). apply umember_pow2; auto.
Qed.
Lemma union_good packed g ms u : ms <> [] -> Forall wf_member ms -> wf_given g -> largest ms + union_align packed g ms < 2 ^ 32 ->
  union_layout packed g ms = Good u ->
  u_align u = union_align packed g ms /\ u_size u = round_up (largest ms) (union_align packed g ms) /\ 0 < largest ms /\
  u_packed u = (packed && (1 <? max_of (map umember_align ms) 0)) /\
  exists rep, nth_error ms (u_rep u) = Some rep /\ umember_align rep = max_of (map umember_align ms) 0 /\ size (ty rep) + u_pad u = u_size u /\ 0 <= u_pad u.
Proof.
  intros Hn HF HG HS H. unfold union_layout in H. rewrite Forall_forall in HF.
  destruct (union_scan_ok ms ms [] (mkU 0 0%nat 0) eq_refl) as (A & B & C); [left; split; reflexivity|intros; apply umember_pos; auto|].
  cbn [length max_size max_align] in *. set (st := union_scan (mkU 0 0%nat 0) 0%nat ms) in *.
  fold (largest ms) in B.
  assert (D : (if negb packed && ((if packed && (g =? 0) then 1 else g) <? max_align st) then max_align st else if packed && (g =? 0) then 1 else g)
              = union_align packed g ms).
  { unfold union_align. rewrite C. destruct packed; cbn [negb andb]; [reflexivity|].
    assert (0 <= g) by (destruct HG as [->|P]; [lia|apply pow2_pos in P; lia]).
    pose proof (max_of_max (map umember_align ms) g 0) as X. rewrite Z.max_l in X by lia. rewrite X.
    destruct (g <? max_of (map umember_align ms) 0) eqn:?; lia. }
  rewrite D, B in H. clear D.
  assert (P : 1 <= union_align packed g ms) by (apply pow2_pos, union_align_pow2; auto; apply Forall_forall; auto).
  assert (L0 : 0 <= largest ms) by apply max_of_ge.
  destruct (largest ms =? 0) eqn:E0; [discriminate H|]. rewrite aligned_round in H by lia. injection H as <-.
  cbn [u_align u_size u_packed u_rep u_pad]. split; [reflexivity|]. split; [reflexivity|]. split; [lia|]. split; [rewrite C; reflexivity|].
  destruct A as [[A _]|(rep & R1 & R2 & R3)]; [destruct ms; [congruence|discriminate A]|].
  exists rep. rewrite R1. split; [reflexivity|]. split; [lia|].
  pose proof (round_up_ge (largest ms) _ P).
  assert (size (ty rep) <= largest ms).
  { apply max_of_in. apply (in_map (fun m => size (ty m))). eapply nth_error_In; eauto. }
  destruct (size (ty rep) <? round_up (largest ms) (union_align packed g ms)) eqn:?; lia.
Qed.
Lemma union_ll_size u ms rep : nth_error ms (u_rep u) = Some rep -> ll_size (ty rep) = size (ty rep) ->
  ll_struct_size (u_packed u) (union_elems u ms) =
  round_up (ll_end (u_packed u) 0 [Element (size (ty rep)) (ll_align (ty rep))] + u_pad u) (ll_struct_align (u_packed u) (union_elems u ms)).
Proof.
  intros R L. unfold ll_struct_size, union_elems. rewrite R, L. f_equal.
  change (Element (size (ty rep)) (ll_align (ty rep)) :: end_elems (u_pad u)) with ([Element (size (ty rep)) (ll_align (ty rep))] ++ end_elems (u_pad u)).
  cbn [app ll_end]. rewrite ll_end_end. reflexivity.
Qed.
Lemma union_ll_align u ms rep : nth_error ms (u_rep u) = Some rep -> 1 <= ll_align (ty rep) ->
  ll_struct_align (u_packed u) (union_elems u ms) = if u_packed u then 1 else ll_align (ty rep).
Proof.
  intros R L. unfold ll_struct_align, union_elems. rewrite R. destruct (u_packed u); [reflexivity|]. cbn [map elem_align].
  rewrite max_of_cons, Z.max_r, end_aligns by lia. reflexivity.
Qed.
Lemma place_0 pk a s : 1 <= a -> ll_place pk 0 (Element s a) = 0.
Proof. intros. unfold ll_place. cbn [elem_align]. destruct pk; [reflexivity|]. apply round_up_id; auto. Qed.
Lemma union_agrees_ok packed g ms u : ms <> [] -> Forall wf_member ms -> wf_given g -> largest ms + union_align packed g ms < 2 ^ 32 ->
  union_layout packed g ms = Good u ->
  (forall m, In m ms -> ll_size (ty m) = size (ty m) /\ ll_align (ty m) <= align (ty m)) -> union_agrees u ms.
Proof.
  intros Hn HF HG HS H M. destruct (union_good packed g ms u Hn HF HG HS H) as (A & B & _ & D & rep & R1 & R2 & R3 & R4).
  pose proof (nth_error_In _ _ R1) as Hin. destruct (M rep Hin) as [M1 M2]. assert (W : wf_member rep) by (rewrite Forall_forall in HF; auto).
  pose proof W as [(_ & _ & _ & PL) _]. pose proof (pow2_pos _ PL) as PL1.
  unfold union_agrees. rewrite (union_ll_size u ms rep R1 M1), (union_ll_align u ms rep R1 PL1). cbn [ll_end elem_size].
  rewrite place_0 by auto. rewrite Z.add_0_l, R3. destruct (u_packed u); [apply round_up_1|].
  apply round_up_id; auto. pose proof (union_align_pow2 packed g ms Hn HF HG) as PU. pose proof (pow2_pos _ PU).
  assert (LE : ll_align (ty rep) <= umember_align rep) by (unfold umember_align; lia).
  destruct packed; cbn [andb] in D.
  - assert (ll_align (ty rep) = 1) by lia. rewrite H1. apply Z.mod_1_r.
  - rewrite B. eapply mod_divide_trans with (b := union_align false g ms); auto; [|apply round_up_mod; auto].
    apply pow2_divide; auto. unfold union_align.
    assert (0 <= g) by (destruct HG as [->|P]; [lia|apply pow2_pos in P; lia]).
    pose proof (max_of_max (map umember_align ms) g 0) as X. rewrite Z.max_l in X by lia. lia.
Qed.
