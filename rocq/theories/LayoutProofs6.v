From Coq Require Import ZArith List Bool Lia ZifyBool.
From Verif Require Import LayoutModel LayoutSpec LayoutProofs LayoutProofs2 LayoutProofs3 LayoutProofs4 LayoutProofs5.
Import ListNotations.
Open Scope Z_scope.

Lemma gapless_ext : forall ps qs lo hi, map off ps = map off qs -> map info ps = map info qs -> gapless lo ps hi -> gapless lo qs hi.
Proof.
  induction ps as [|p r IH]; intros [|q s] lo hi H1 H2 G; try discriminate; [exact G|]. cbn [map] in *. injection H1 as A B.
  injection H2 as C D. cbn [gapless] in *. rewrite <- A, <- C. destruct G as [G1 G2]. split; auto.
Qed.
Lemma gapless_walk packed : forall ms lo hi, Forall wf_member ms -> gapless lo (map (put packed) (walk packed lo ms)) hi ->
  existsb (refuse_at true) (walk packed lo ms) = false /\ hi = wend packed lo ms.
Proof.
  induction ms as [|m r IH]; intros lo hi F H; cbn [walk map put gapless wend existsb] in *; [auto|]. inversion F as [|? ? W F']; subst.
  cbn [off info] in H. destruct H as [H1 H2]. rewrite H1 in *. apply IH in H2; auto. destruct H2 as [A B]. split; [|auto].
  rewrite A, orb_false_r. cbn [refuse_at]. rewrite Z.sub_diag. reflexivity.
Qed.
Lemma walk_gapless packed : forall ms lo, existsb (refuse_at true) (walk packed lo ms) = false ->
  gapless lo (map (put packed) (walk packed lo ms)) (wend packed lo ms).
Proof.
  induction ms as [|m r IH]; intros lo H; cbn [walk map put gapless wend existsb] in *; [reflexivity|].
  apply orb_false_iff in H. destruct H as [H1 H2]. cbn [refuse_at off info] in *. rewrite andb_true_r in H1.
  assert (E : round_up lo (member_align packed m) = lo) by lia. split; [exact E|]. rewrite E in *. apply IH; auto.
Qed.
Lemma walk_in packed : forall ms lo x, In x (walk packed lo ms) -> In (snd x) ms.
Proof. induction ms as [|m r IH]; intros lo x H; [contradiction|]. destruct H as [<-|H]; [left; reflexivity|right; eauto]. Qed.
Lemma refuse_none packed ms lo : Forall (fun m => nopad m = false) ms -> existsb (refuse_at false) (walk packed lo ms) = false.
Proof.
  intros F. rewrite Forall_forall in F. destruct (existsb _ _) eqn:E; [|reflexivity]. apply existsb_exists in E. destruct E as (((l & o) & m) & H & R).
  apply walk_in in H. cbn [snd] in H. cbn [refuse_at] in R. rewrite (F m H), andb_false_r in R. discriminate.
Qed.
Lemma nopadding_iff packed galign a ms : Forall wf_member ms -> wf_given galign -> small a galign ms -> Forall (fun m => nopad m = false) ms ->
  (exists s, struct_layout packed true false galign ms = Good s) <->
  (exists s, struct_layout packed false false galign ms = Good s /\ gapless 0 (members s) (s_size s)).
Proof.
  intros HF HG HS HN. pose proof (layout_eq packed true false galign a ms HF HG HS) as L1. pose proof (layout_eq packed false false galign a ms HF HG HS) as L2.
  rewrite refuse_none in L2 by auto. cbn [andb] in L1, L2. rewrite andb_false_r in L2. rewrite andb_true_r in L1. split.
  - intros [s H]. rewrite H in L1. destruct (existsb (refuse_at true) _) eqn:R; [discriminate|].
    destruct (_ && (_ <? _) && _); [discriminate|]. destruct (negb _) eqn:N; [discriminate|].
    eexists; split; [exact L2|]. apply gapless_ext with (map (put packed) (walk packed 0 ms)); cbn [members s_size].
    + destruct (_ && _); rewrite ?off_strip; reflexivity.
    + destruct (_ && _); rewrite ?info_strip; reflexivity.
    + replace (round_up _ _) with (wend packed 0 ms) by lia. apply walk_gapless; auto.
  - intros (s & H & G). pose proof (layout_good packed false false galign a ms s HF HG HS H) as X. cbv zeta in X.
    destruct X as (G1 & _ & _ & G4 & G5 & _).
    apply (gapless_ext _ (map (put packed) (walk packed 0 ms))) in G; [|exact G4|rewrite G5, info_put; reflexivity].
    apply gapless_walk in G; auto. destruct G as [A B]. rewrite A in L1. rewrite L2 in H.
    destruct (_ && (_ <? _) && _); [discriminate|]. destruct (negb _) eqn:N; [|eexists; exact L1]. lia.
Qed.
Lemma member_nopadding packed nop bare galign a ms s : Forall wf_member ms -> wf_given galign -> small a galign ms ->
  struct_layout packed nop bare galign ms = Good s -> forall i m p, nth_error ms i = Some m -> nth_error (members s) i = Some p -> nopad m = true ->
  off p = (match i with O => 0 | S j => match nth_error (members s) j with Some q => off q + size (info q) | None => -1 end end).
Proof.
  intros HF HG HS H. pose proof (layout_good packed nop bare galign a ms s HF HG HS H) as X. cbv zeta in X. destruct X as (_ & _ & _ & G4 & G5 & _).
  rewrite (layout_eq packed nop bare galign a ms HF HG HS) in H. destruct (existsb (refuse_at nop) _) eqn:R; [discriminate|]. clear H.
  revert G4 G5 R. generalize (members s) as ps.
  assert (K : forall ms lo ps, map off ps = map off (map (put packed) (walk packed lo ms)) -> map info ps = map ty ms ->
    existsb (refuse_at nop) (walk packed lo ms) = false -> forall i m p, nth_error ms i = Some m -> nth_error ps i = Some p -> nopad m = true ->
    off p = match i with O => lo | S j => match nth_error ps j with Some q => off q + size (info q) | None => -1 end end).
  { clear. induction ms as [|m r IH]; intros lo ps E1 E2 R i m' p H1 H2 N; [destruct i; discriminate|].
    destruct ps as [|q ps]; [discriminate|]. cbn [walk map put off] in E1. injection E1 as A B. cbn [map] in E2. injection E2 as C D.
    cbn [walk existsb] in R. apply orb_false_iff in R. destruct R as [R1 R2]. destruct i as [|i]; cbn [nth_error] in *.
    - injection H1 as <-. injection H2 as <-. cbn [refuse_at] in R1. rewrite N, orb_true_r, andb_true_r in R1. lia.
    - specialize (IH _ ps B D R2 i m' p H1 H2 N). rewrite IH. destruct i; cbn [nth_error]; [rewrite A, C; reflexivity|reflexivity]. }
  intros ps G4 G5 R i m p. apply (K ms 0 ps); auto.
Qed.
Lemma laid_disjoint packed : forall ms offs lo hi, Forall wf_member ms -> laid packed lo ms offs hi ->
  forall j, (j < length ms)%nat -> lo <= nth j offs 0 /\ nth j offs 0 + nth j (map (fun m => size (ty m)) ms) 0 <= hi /\
    forall i, (i < j)%nat -> nth i offs 0 + nth i (map (fun m => size (ty m)) ms) 0 <= nth j offs 0.
Proof.
  induction ms as [|m r IH]; intros [|o s] lo hi F L j Hj; try contradiction; [cbn in Hj; lia|]. cbn [laid] in L. destruct L as [(_ & L1 & _) L2].
  inversion F as [|? ? W F']; subst. pose proof W as [((W0 & _) & _) _].
  assert (X : forall ms offs lo hi, Forall wf_member ms -> laid packed lo ms offs hi -> lo <= hi).
  { clear. induction ms as [|m r IH]; intros [|o s] lo hi F L; try contradiction; [cbn in L; lia|]. cbn [laid] in L. destruct L as [(_ & L1 & _) L2].
    inversion F as [|? ? W F']; subst. apply IH in L2; auto. destruct W as [((W0 & _) & _) _]. lia. }
  destruct j as [|j]; cbn [nth map].
  - split; [lia|]. split; [apply X in L2; auto|]. intros; lia.
  - cbn [length] in Hj. destruct (IH s _ hi F' L2 j ltac:(lia)) as (A & B & C). split; [lia|]. split; [exact B|].
    intros [|i] Hi; cbn [nth]; [lia|]. apply C. lia.
Qed.
Lemma no_assert packed nop bare galign a ms : Forall wf_member ms -> wf_given galign -> small a galign ms ->
  (packed = true -> galign = 0 /\ forall m, In m ms -> given m = 0) ->
  (packed = false -> forall m, In m ms -> nat_align (ty m) <= member_align false m) ->
  struct_layout packed nop bare galign ms <> Violated.
Proof.
  intros HF HG HS H1 H2. rewrite (layout_eq packed nop bare galign a ms HF HG HS). destruct (existsb (refuse_at nop) _); [discriminate|].
  match goal with |- (if ?c then _ else _) <> _ => assert (E : c = false) end.
  - destruct packed.
    + destruct (H1 eq_refl) as [-> G]. assert (EA : struct_align true 0 ms = 1).
      { unfold struct_align. rewrite (map_ext_in given (fun _ => 0) ms G). cbv zeta.
        assert (Z0 : max_of (map (fun _ : Member => 0) ms) 0 = 0) by (clear; induction ms; [reflexivity|cbn [map]; rewrite max_of_cons; exact IHms]).
        rewrite Z0. reflexivity. }
      rewrite EA, round_up_1. rewrite Z.ltb_irrefl, andb_false_r. reflexivity.
    + assert (U : existsb (under_at false) (walk false 0 ms) = false).
      { destruct (existsb _ _) eqn:E; [|reflexivity]. apply existsb_exists in E. destruct E as (x & Hx & E). apply walk_in in Hx.
        specialize (H2 eq_refl _ Hx). unfold under_at in E. apply andb_true_iff in E. destruct E as [_ E]. lia. }
      rewrite U. cbn [orb]. destruct (_ <? _) eqn:E; [|reflexivity]. destruct (round_up _ _ <? round_up _ _) eqn:E2 in |- *; [lia|apply andb_false_r].
  - rewrite E. destruct (nop && bare); [discriminate|]. destruct (_ && nop); discriminate.
Qed.
