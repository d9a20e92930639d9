From Coq Require Import ZArith List Bool Lia ZifyBool.
From Verif Require Import LayoutModel LayoutSpec LayoutProofs.
Import ListNotations.
Open Scope Z_scope.

Lemma max_of_max l : forall a b, max_of l (Z.max a b) = Z.max a (max_of l b).
Proof. induction l as [|x l IH]; intros a b; [reflexivity|]. rewrite !max_of_cons, <- Z.max_assoc. apply IH. Qed.
Lemma max_of_ge l lo : lo <= max_of l lo.
Proof. pose proof (max_of_max l lo lo). rewrite Z.max_id in H. lia. Qed.
Lemma max_of_in l : forall lo x, In x l -> x <= max_of l lo.
Proof.
  induction l as [|y l IH]; intros lo x H; [destruct H|]. rewrite max_of_cons. destruct H as [->|H]; [|apply IH; auto].
  pose proof (max_of_ge l (Z.max lo x)). lia.
Qed.
Lemma max_of_le l : forall lo a, lo <= a -> (forall x, In x l -> x <= a) -> max_of l lo <= a.
Proof.
  induction l as [|y l IH]; intros lo a Hl H; [exact Hl|]. rewrite max_of_cons.
  apply IH; [pose proof (H y (or_introl eq_refl)); lia|intros; apply H; right; auto].
Qed.
Lemma max_of_either l : forall lo (P : Z -> Prop), P lo -> (forall x, In x l -> P x) -> P (max_of l lo).
Proof.
  induction l as [|y l IH]; intros lo P Hl H; [exact Hl|]. rewrite max_of_cons. apply IH; [|intros; apply H; right; auto].
  destruct (Z.max_spec lo y) as [[_ ->]|[_ ->]]; auto. apply H; left; auto.
Qed.
Lemma given_le_align m : wf_member m -> given m <= member_align false m.
Proof.
  intros W. pose proof (pow2_pos _ (member_align_pow2 false m W)). unfold member_align in *.
  destruct (given m =? 0) eqn:E; cbn [negb] in *; lia.
Qed.
Lemma pow2_1 : pow2 1. Proof. exists 0. split; [lia|reflexivity]. Qed.
Lemma wf_given_max l g : wf_given g -> (forall x, In x l -> wf_given x) -> wf_given (max_of l g).
Proof. intros. apply (max_of_either l g wf_given); auto. Qed.

Section Whole.
Variables (packed nop bare : bool) (galign a : Z) (ms : list Member).
Hypothesis (HF : Forall wf_member ms) (HG : wf_given galign) (HS : small a galign ms).
Let w := walk packed 0 ms.
Let hi := wend packed 0 ms.
Let da := struct_align packed galign ms.
Let nat_ := max_of (map (fun m => nat_align (ty m)) ms) 1.
Let sz := round_up hi da.
Let nsz := round_up hi nat_.
Let un := existsb (under_at packed) w || (sz <? nsz).
Let natl := negb packed && negb (existsb differ_at w).

Lemma room_end : forall l lo, Forall wf_member l -> room a lo l -> room a (wend packed lo l) [].
Proof.
  induction l as [|m r IH]; intros lo F R; [exact R|]. cbn [wend]. apply IH; [inversion F; auto|]. apply room_step; auto.
Qed.
Lemma galign_nonneg : 0 <= galign. Proof. destruct HG as [->|P]; [lia|]. apply pow2_pos in P. lia. Qed.
Lemma room_all : room a 0 ms.
Proof. destruct HS as (_ & Ha & HI & H). split; [lia|]. split; [auto|]. split; [auto|]. lia. Qed.
Lemma hi_room : 0 <= hi /\ hi + a < 2 ^ 32.
Proof. destruct (room_end ms 0 HF room_all) as (A & _ & _ & B). cbn [sum_sizes fold_right length] in B. unfold hi. lia. Qed.
Lemma da_props : pow2 da /\ da <= a.
Proof.
  unfold da, struct_align. destruct HS as (Hg & Ha & HI & _). rewrite Forall_forall in HF. destruct packed.
  - assert (W : wf_given (max_of (map given ms) galign)).
    { apply wf_given_max; auto. intros x Hx. apply in_map_iff in Hx. destruct Hx as (m & <- & Hm). apply (HF m Hm). }
    assert (L : max_of (map given ms) galign <= a).
    { apply max_of_le; auto. intros x Hx. apply in_map_iff in Hx. destruct Hx as (m & <- & Hm). apply HI; auto. }
    cbv zeta. destruct (max_of _ _ =? 0) eqn:E; [split; [apply pow2_1|lia]|]. destruct W as [W|W]; [lia|auto].
  - rewrite <- max_of_max.
    split.
    + apply (max_of_either _ _ pow2).
      * destruct HG as [->|P]; [rewrite Z.max_l by lia; apply pow2_1|]. pose proof (pow2_pos _ P). rewrite Z.max_r by lia. auto.
      * intros x Hx. apply in_map_iff in Hx. destruct Hx as (m & <- & Hm). apply member_align_pow2; auto.
    + apply max_of_le; [lia|]. intros x Hx. apply in_map_iff in Hx. destruct Hx as (m & <- & Hm). apply member_align_le; auto.
Qed.
Lemma nat_props : pow2 nat_ /\ nat_ <= a.
Proof.
  unfold nat_. destruct HS as (Hg & Ha & HI & _). rewrite Forall_forall in HF. split.
  - apply (max_of_either _ _ pow2); [apply pow2_1|]. intros x Hx. apply in_map_iff in Hx. destruct Hx as (m & <- & Hm). apply (HF m Hm).
  - apply max_of_le; [lia|]. intros x Hx. apply in_map_iff in Hx. destruct Hx as (m & <- & Hm). apply HI; auto.
Qed.
Lemma da_code : (let d := max_of (map given ms) galign in
                 let d := if packed && (d =? 0) then 1 else d in
                 if negb packed && (d <? max_of (map (member_align packed) ms) 1) then max_of (map (member_align packed) ms) 1 else d) = da.
Proof.
  unfold da, struct_align. cbv zeta. destruct packed; cbn [andb negb]; [reflexivity|].
  rewrite Forall_forall in HF.
  assert (E : Z.max (max_of (map given ms) galign) (max_of (map (member_align false) ms) 1) = Z.max 1 (max_of (map (member_align false) ms) galign)).
  { pose proof (max_of_max (map (member_align false) ms) 1 galign) as X.
    assert (Y : max_of (map (member_align false) ms) (Z.max 1 galign) = Z.max galign (max_of (map (member_align false) ms) 1))
      by (rewrite Z.max_comm; apply max_of_max).
    assert (max_of (map given ms) galign <= max_of (map (member_align false) ms) (Z.max 1 galign)).
    { apply max_of_le; [pose proof (max_of_ge (map (member_align false) ms) (Z.max 1 galign)); lia|].
      intros x Hx. apply in_map_iff in Hx. destruct Hx as (m & <- & Hm).
      pose proof (given_le_align m (HF m Hm)). pose proof (max_of_in (map (member_align false) ms) (Z.max 1 galign) _ (in_map _ _ _ Hm)). lia. }
    pose proof (max_of_ge (map given ms) galign). lia. }
  rewrite <- E. destruct (max_of (map given ms) galign <? max_of (map (member_align false) ms) 1) eqn:Q; lia.
Qed.
Lemma bounds : hi <= sz < hi + a /\ hi <= nsz < hi + a.
Proof.
  destruct da_props as [P1 L1], nat_props as [P2 L2]. pose proof (round_up_ge hi da (pow2_pos _ P1)).
  pose proof (round_up_ge hi nat_ (pow2_pos _ P2)). unfold sz, nsz. lia.
Qed.
Lemma layout_eq : struct_layout packed nop bare galign ms =
  if existsb (refuse_at nop) w then Refused
  else if un && (hi <? sz) && (nsz <? sz) then Violated
  else if nop && bare then Refused
  else if negb (sz =? hi) && nop then Refused
  else Good (mkStruct (if negb un && natl then map strip (map (put packed) w) else map (put packed) w) sz da un
                      (if un || (nsz <? sz) then sz - hi else 0) nat_).
Proof.
  unfold struct_layout. rewrite (place_walk packed nop a ms (mkState 0 1 1 galign false (negb packed)) HF room_all galign_nonneg).
  cbn [offset]. fold w. destruct (existsb (refuse_at nop) w); [reflexivity|]. cbn [bindo fst snd].
  unfold state_after. cbn [offset natural actual dalign unaligned naturally]. fold w hi nat_.
  pose proof da_code as D. cbv zeta in D. rewrite D. clear D.
  destruct hi_room as [R1 R2]. destruct da_props as [P1 L1], nat_props as [P2 L2].
  apply pow2_pos in P1, P2. rewrite !aligned_round by lia. fold sz nsz natl. cbn [orb]. fold un.
  destruct bounds as [B1 B2]. assert (2 ^ 32 > a) by lia. rewrite (u32_id (sz - hi)) by lia.
  destruct (nsz <? sz) eqn:E1; destruct un eqn:E2; destruct (hi <? sz) eqn:E3; cbn [andb orb negb];
    destruct (sz - hi =? 0) eqn:E4; cbn [negb]; try lia; try reflexivity; (destruct (nop && bare); [reflexivity|]);
    (destruct (negb (sz =? hi) && nop); [reflexivity|]); repeat f_equal; lia.
Qed.
End Whole.

Lemma laid_walk packed : forall ms lo, Forall wf_member ms -> laid packed lo ms (map off (map (put packed) (walk packed lo ms))) (wend packed lo ms).
Proof.
  induction ms as [|m r IH]; intros lo F; [reflexivity|]. inversion F as [|? ? W F']; subst. cbn [walk wend map put off laid].
  split; [|apply IH; auto]. apply least_round. apply pow2_pos, member_align_pow2; auto.
Qed.
Lemma off_strip l : map off (map strip l) = map off l.
Proof. rewrite map_map. reflexivity. Qed.
Lemma info_strip l : map info (map strip l) = map info l.
Proof. rewrite map_map. reflexivity. Qed.
Lemma info_put packed : forall ms lo, map info (map (put packed) (walk packed lo ms)) = map ty ms.
Proof. induction ms as [|m r IH]; intros lo; [reflexivity|]. cbn [walk map put info]. rewrite IH. reflexivity. Qed.
