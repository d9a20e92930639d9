From Coq Require Import ZArith List Bool Lia ZifyBool.
From Verif Require Import LayoutModel LayoutSpec LayoutProofs LayoutProofs2 LayoutProofs3 LayoutProofs4.
Import ListNotations.
Open Scope Z_scope.

Section TInd.
Variable P : T -> Prop.
Hypothesis HL : forall s a, P (Leaf s a).
Hypothesis HA : forall n t, P t -> P (Array n t).
Hypothesis HS : forall p q b g ms, Forall (fun m => P (snd m)) ms -> P (StructT p q b g ms).
Hypothesis HU : forall p g ms, Forall (fun m => P (snd m)) ms -> P (UnionT p g ms).
Fixpoint T_ind' (t : T) : P t :=
  match t with
  | Leaf s a => HL s a
  | Array n t => HA n t (T_ind' t)
  | StructT p q b g ms => HS p q b g ms ((fix go l : Forall (fun m => P (snd m)) l :=
      match l with [] => Forall_nil _ | m :: r => Forall_cons m (T_ind' (snd m)) (go r) end) ms)
  | UnionT p g ms => HU p g ms ((fix go l : Forall (fun m => P (snd m)) l :=
      match l with [] => Forall_nil _ | m :: r => Forall_cons m (T_ind' (snd m)) (go r) end) ms)
  end.
End TInd.

Lemma bindo_good {A B} (x : Out A) (f : A -> Out B) b : bindo x f = Good b -> exists a, x = Good a /\ f a = Good b.
Proof. destruct x; cbn; intros H; try discriminate. eauto. Qed.
Lemma omap_good {A B} (f : A -> Out B) : forall l r, omap f l = Good r -> Forall2 (fun x y => f x = Good y) l r.
Proof.
  induction l as [|x l IH]; intros r H; cbn [omap] in H.
  - injection H as <-. constructor.
  - apply bindo_good in H. destruct H as (y & H1 & H). apply bindo_good in H. destruct H as (z & H2 & H). injection H as <-.
    constructor; auto.
Qed.
(** What holds of the types in which nothing is packed or under-aligned. *)
Definition sound (i : Info) : Prop := wf_info i /\ ll_size i = size i /\ ll_align i = nat_align i /\ nat_align i <= align i.
Definition smember_ok (m : Z * bool * T) : Prop :=
  plain (snd m) /\ wf_given (fst (fst m)) /\ forall i, info_of (snd m) = Good i -> fst (fst m) = 0 \/ nat_align i <= fst (fst m).
Definition umember_ok (m : Z * T) : Prop := plain (snd m) /\ fst m = 0 /\ forall i, info_of (snd m) = Good i -> nat_align i = align i.
Lemma plain_struct p q b g ms : plain (StructT p q b g ms) <->
  p = false /\ wf_given g /\ Forall smember_ok ms /\ exists a, forall l, struct_members ms = Good l -> small a g l.
Proof.
  cbn [plain]. set (F := fix all (l : list (Z * bool * T)) : Prop := _). assert (E : forall l, F l <-> Forall smember_ok l).
  { induction l as [|m r IH]; split; intros H; [constructor|exact I| |].
    - destruct H as [H1 H2]. constructor; [exact H1|]. apply IH; auto.
    - inversion H; subst. split; [assumption|]. apply IH; auto. }
  rewrite E. tauto.
Qed.
Lemma plain_union p g ms : plain (UnionT p g ms) <->
  p = false /\ wf_given g /\ Forall umember_ok ms /\ forall l, union_members ms = Good l -> largest l + union_align p g l < 2 ^ 32.
Proof.
  cbn [plain]. set (F := fix all (l : list (Z * T)) : Prop := _). assert (E : forall l, F l <-> Forall umember_ok l).
  { induction l as [|m r IH]; split; intros H; [constructor|exact I| |].
    - destruct H as [H1 H2]. constructor; [exact H1|]. apply IH; auto.
    - inversion H; subst. split; [assumption|]. apply IH; auto. }
  rewrite E. tauto.
Qed.
Definition good_member (m : Member) : Prop := wf_member m /\ sound (ty m) /\ (given m = 0 \/ nat_align (ty m) <= given m).
Lemma struct_members_good ms : Forall (fun m => plain (snd m) -> forall i, info_of (snd m) = Good i -> sound i) ms ->
  Forall smember_ok ms -> forall l, struct_members ms = Good l -> Forall good_member l.
Proof.
  intros IH OK l H. apply omap_good in H. revert IH OK. induction H as [|m x ms l Hm H IHH]; intros IH OK; [constructor|].
  inversion IH as [|? ? IH1 IH2]; subst. inversion OK as [|? ? OK1 OK2]; subst. constructor; [|apply IHH; auto].
  apply bindo_good in Hm. destruct Hm as (i & Hi & Hm). injection Hm as <-. destruct OK1 as (O1 & O2 & O3).
  pose proof (IH1 O1 i Hi) as S. split; [split; [apply S|exact O2]|]. split; [exact S|]. cbn [given ty]. apply O3; auto.
Qed.
Lemma union_members_good ms : Forall (fun m => plain (snd m) -> forall i, info_of (snd m) = Good i -> sound i) ms ->
  Forall umember_ok ms -> forall l, union_members ms = Good l ->
  Forall (fun m => wf_member m /\ sound (ty m) /\ given m = 0 /\ nat_align (ty m) = align (ty m)) l.
Proof.
  intros IH OK l H. apply omap_good in H. revert IH OK. induction H as [|m x ms l Hm H IHH]; intros IH OK; [constructor|].
  inversion IH as [|? ? IH1 IH2]; subst. inversion OK as [|? ? OK1 OK2]; subst. constructor; [|apply IHH; auto].
  apply bindo_good in Hm. destruct Hm as (i & Hi & Hm). injection Hm as <-. destruct OK1 as (O1 & O2 & O3).
  pose proof (IH1 O1 i Hi) as S. split; [split; [apply S|left; exact O2]|]. split; [exact S|]. cbn [given ty]. split; [exact O2|]. apply O3; auto.
Qed.
Lemma no_under ms : Forall good_member ms -> forall lo, existsb (under_at false) (walk false lo ms) = false.
Proof.
  induction 1 as [|m r (W & (S1 & S2 & S3 & S4) & G) F IH]; intros lo; [reflexivity|]. cbn [walk existsb]. rewrite IH, orb_false_r.
  unfold under_at. cbn [snd]. apply andb_false_iff. right. unfold member_align. destruct (given m =? 0) eqn:E; cbn [negb]; lia.
Qed.
Lemma sound_struct nop bare g a l s : Forall good_member l -> wf_given g -> small a g l ->
  struct_layout false nop bare g l = Good s -> sound (struct_info s) /\ struct_agrees s.
Proof.
  intros HM HG HS H. assert (HF : Forall wf_member l) by (eapply Forall_impl; [|exact HM]; intros m Hm; apply Hm).
  assert (HM' : forall m, In m l -> matches m).
  { rewrite Forall_forall in HM. intros m Hm. destruct (HM m Hm) as (_ & (_ & A & B & _) & _). split; auto. }
  pose proof (layout_good false nop bare g a l s HF HG HS H) as L. cbv zeta in L.
  destruct (bounds false g a l HF HG HS) as [B1 B2]. destruct (hi_room false g a l HF HS) as [R1 R2].
  destruct (da_props false g a l HF HG HS) as [P1 Q1]. destruct (nat_props false g a l HF HS) as [P2 Q2].
  assert (LE : max_of (map (fun m => nat_align (ty m)) l) 1 <= struct_align false g l).
  { unfold struct_align. apply max_of_le; [lia|]. intros x Hx. apply in_map_iff in Hx. destruct Hx as (m & <- & Hm).
    pose proof (max_of_in (map (member_align false) l) g _ (in_map _ _ _ Hm)) as I. set (M := max_of (map (member_align false) l) g) in *.
    rewrite Forall_forall in HM. destruct (HM m Hm) as (_ & (_ & _ & _ & S4) & G). unfold member_align in I.
    destruct (given m =? 0) eqn:E; cbn [negb] in I; lia. }
  assert (AG : struct_agrees s).
  { eapply struct_agrees_ok; eauto; [intros; apply HM'; auto|]. intros; apply HM'; auto. }
  split; [|exact AG]. destruct L as (G1 & G2 & G3 & _ & G5 & G6 & _ & _).
  assert (E : s_packed s = false).
  { rewrite G6, (no_under l HM). cbn [orb]. apply Z.ltb_ge. apply round_up_mono; auto. }
  unfold sound, wf_info, struct_info. cbn [size align nat_align ll_size ll_align].
  assert (AL : ll_struct_align (s_packed s) (struct_elems s) = s_nat s).
  { rewrite struct_ll_align, E, G3. f_equal. apply aligns_of_infos; auto. }
  rewrite AL, G1, G2, G3. split; [split; [lia|]; split; [auto|]; split; auto|].
  split; [rewrite <- G1; apply AG|]. split; [reflexivity|exact LE].
Qed.
Lemma sound_union g l u : l <> [] -> Forall (fun m => wf_member m /\ sound (ty m) /\ given m = 0 /\ nat_align (ty m) = align (ty m)) l ->
  wf_given g -> largest l + union_align false g l < 2 ^ 32 -> union_layout false g l = Good u -> sound (union_info u l) /\ union_agrees u l.
Proof.
  intros Hn HM HG HS H. assert (HF : Forall wf_member l) by (eapply Forall_impl; [|exact HM]; intros m Hm; apply Hm).
  rewrite Forall_forall in HM.
  assert (AG : union_agrees u l).
  { eapply union_agrees_ok; eauto. intros m Hm. destruct (HM m Hm) as (_ & (_ & A & B & C) & _). lia. }
  split; [|exact AG]. destruct (union_good false g l u Hn HF HG HS H) as (A & B & C & D & rep & R1 & R2 & R3 & R4).
  pose proof (nth_error_In _ _ R1) as Hin. destruct (HM rep Hin) as (W & (S1 & S2 & S3 & S4) & Z0 & NA).
  pose proof S1 as (_ & PA & PN & PL). pose proof (pow2_pos _ PL).
  unfold sound, wf_info, union_info. cbn [size align nat_align ll_size ll_align].
  rewrite (union_ll_align u l rep R1) by auto. cbn [andb] in D. rewrite D.
  assert (EN : max_of (map (fun m => nat_align (ty m)) l) 0 = ll_align (ty rep)).
  { assert (EQ : map (fun m => nat_align (ty m)) l = map umember_align l).
    { apply map_ext_in. intros m Hm. destruct (HM m Hm) as (W' & (S1' & _) & Z' & N'). unfold umember_align.
      pose proof S1' as (_ & PA' & _). apply pow2_pos in PA'. lia. }
    rewrite EQ, <- R2. unfold umember_align. apply pow2_pos in PA. lia. }
  rewrite EN, A. pose proof (union_align_pow2 false g l Hn HF HG) as PU. pose proof (pow2_pos _ PU).
  pose proof (round_up_ge (largest l) _ ltac:(eassumption)).
  split; [split; [rewrite B; lia|]; auto|].
  split; [unfold union_agrees in AG; cbn [andb] in D; rewrite D in AG; exact AG|].
  split; [reflexivity|]. rewrite S3, NA. unfold union_align.
  pose proof (max_of_in (map umember_align l) g _ (in_map _ _ _ Hin)) as I. assert (align (ty rep) <= umember_align rep) by (unfold umember_align; lia). lia.
Qed.
Lemma sound_tree t : plain t -> forall i, info_of t = Good i -> sound i.
Proof.
  induction t as [s a|n t IH|p q b g ms IH|p g ms IH] using T_ind'; intros HP i H.
  - cbn in H. injection H as <-. destruct HP as [H1 H2]. unfold sound, wf_info; cbn [size align nat_align ll_size ll_align].
    split; [split; [exact H1|auto]|]. split; [reflexivity|]. split; [reflexivity|lia].
  - cbn [info_of] in H. apply bindo_good in H. destruct H as (j & Hj & H). injection H as <-. cbn [plain] in HP. destruct HP as (P1 & P2 & P3).
    destruct (IH P1 j Hj) as ((W1 & W2 & W3 & W4) & S2 & S3 & S4). specialize (P3 j Hj).
    unfold sound, wf_info; cbn [size align nat_align ll_size ll_align]. rewrite u32_id by nia.
    split; [split; [nia|auto]|]. split; [rewrite S2; reflexivity|]. split; auto.
  - apply plain_struct in HP. destruct HP as (-> & HG & OK & a & HS). cbn [info_of] in H. apply bindo_good in H. destruct H as (l & Hl & H).
    apply bindo_good in H. destruct H as (s & Hs & H). injection H as <-.
    apply (sound_struct q b g a l s); auto. eapply struct_members_good; eauto.
  - apply plain_union in HP. destruct HP as (-> & HG & OK & HS). cbn [info_of] in H. apply bindo_good in H. destruct H as (l & Hl & H).
    apply bindo_good in H. destruct H as (u & Hu & H). injection H as <-.
    assert (Hn : l <> []) by (intros ->; discriminate Hu).
    apply (sound_union g l u); auto. eapply union_members_good; eauto.
Qed.

(** Bitstructs. *)
Lemma bit_range_in bits c m s e : 0 <= b_start m -> bit_range bits c m = Some (s, e) -> in_container bits (s, e).
Proof.
  unfold bit_range, in_container. cbn [fst snd]. intros H0 H. destruct c.
  - destruct (negb (b_bool m)); [discriminate|]. destruct (bits <=? b_start m) eqn:?; [discriminate|]. injection H as <- <-. lia.
  - destruct (b_start m <? 0); [discriminate|]. destruct (bits <=? b_start m) eqn:?; [discriminate|].
    destruct (match b_end m with Some _ => _ | None => _ end) as [e'|] eqn:E; [|discriminate].
    destruct (e' <? b_start m) eqn:?; [discriminate|]. destruct (b_width m <? _); [discriminate|]. injection H as <- <-.
    destruct (b_end m) as [e2|].
    + destruct (e2 <? 0); [discriminate|]. destruct (bits <=? e2) eqn:?; [discriminate|]. injection E as <-. lia.
    + destruct (b_bool m); [|discriminate]. injection E as <-. lia.
Qed.
Lemma overlap_apart s e o : s <= e -> fst o <= snd o -> bits_overlap s e (fst o) (snd o) = false <-> apart o (s, e).
Proof.
  intros H1 H2. unfold bits_overlap, apart. cbn [fst snd]. split.
  - intros H i Hi Hj. lia.
  - intros H. destruct (_ && _) eqn:E; [|reflexivity]. exfalso. apply (H (Z.max s (fst o))); lia.
Qed.
Lemma bitstruct_sound bits c ov : forall ms earlier r, (forall m, In m ms -> 0 <= b_start m) ->
  bitstruct bits c ov earlier ms = Some r -> Forall (in_container bits) earlier ->
  (ov = false -> ForallOrdPairs apart earlier) ->
  Forall (in_container bits) r /\ (ov = false -> ForallOrdPairs apart r) /\ length r = (length earlier + length ms)%nat.
Proof.
  induction ms as [|m ms IH]; intros earlier r HP H HE HA; cbn [bitstruct] in H.
  - injection H as <-. rewrite Nat.add_0_r. auto.
  - destruct (4096 <? bits); [discriminate|]. destruct (bit_member bits c ov earlier m) as [[s e]|] eqn:B; [|discriminate].
    unfold bit_member in B. destruct (bit_range bits c m) as [[s' e']|] eqn:R; [|discriminate].
    destruct (negb ov && existsb _ earlier) eqn:O; [discriminate|]. injection B as <- <-.
    pose proof (bit_range_in bits c m s' e' (HP m (or_introl eq_refl)) R) as IN.
    apply IH in H; [rewrite app_length in H; cbn [length] in *; rewrite <- Nat.add_assoc in H; exact H|intros; apply HP; right; auto|apply Forall_app; split; auto|].
    intros Hov. specialize (HA Hov). rewrite Hov in O. cbn [negb andb] in O. clear IH H R.
    rewrite Forall_forall in HE.
    assert (X : Forall (fun o => apart o (s', e')) earlier).
    { apply Forall_forall. intros o Ho. apply overlap_apart; [apply IN|apply (HE o Ho)|].
      destruct (bits_overlap s' e' (fst o) (snd o)) eqn:Q; [|reflexivity].
      assert (existsb (fun o => bits_overlap s' e' (fst o) (snd o)) earlier = true) by (apply existsb_exists; eauto). congruence. }
    clear HE O. induction HA as [|x l Hx HA IHl]; cbn [app]; [repeat constructor|].
    inversion X; subst. constructor; [apply Forall_app; split; auto|]. apply IHl; auto.
Qed.
