From Coq Require Import List Bool Arith Lia.
From Verif Require Import CastTables CastModel CastSpec.
Import ListNotations.

Lemma group_eqb_eq a b : group_eqb a b = true <-> a = b.
Proof. destruct a, b; cbn; split; intros; try reflexivity; discriminate. Qed.
Lemma ty_eqb_eq a : forall b, ty_eqb a b = true <-> a = b.
Proof.
  induction a; destruct b; cbn [ty_eqb]; try (split; intros; discriminate);
    rewrite ?andb_true_iff, ?Nat.eqb_eq, ?group_eqb_eq, ?eqb_true_iff; try (rewrite IHa); split;
    first [ intros ?; repeat match goal with H : _ /\ _ |- _ => destruct H end; congruence
          | intros E; injection E; intros; subst; auto ].
Qed.
Lemma ty_eqb_refl a : ty_eqb a a = true. Proof. apply ty_eqb_eq; reflexivity. Qed.

Lemma flatten_idem t : flatten (flatten t) = flatten t.
Proof. induction t; cbn [flatten]; auto. Qed.
Lemma flatten_inline t : flatten (flat_inline t) = flatten t.
Proof. induction t; cbn [flatten flat_inline]; auto. destruct inl; cbn [flatten]; auto. Qed.
Lemma flatten_not_dist t i u b : flatten t <> Dist i u b.
Proof. induction t; cbn [flatten]; try discriminate; auto. Qed.
Lemma wf_flatten t : wf t -> wf (flatten t).
Proof. induction t; cbn [flatten wf]; auto. intros [H _]; auto. Qed.
Lemma real_flatten t : wf t -> real t -> real (flatten t).
Proof. induction t; cbn [flatten wf real]; auto. intros [H ?] _; auto. Qed.
Lemma wf_inline t : wf t -> wf (flat_inline t).
Proof. induction t; cbn [flat_inline wf]; auto. destruct inl; cbn [wf]; tauto. Qed.
Lemma size_flatten t : size (flatten t) <= size t.
Proof. induction t; cbn [flatten size]; lia. Qed.
Lemma size_pos t : 1 <= size t. Proof. induction t; cbn [size]; lia. Qed.
Lemma nolist_flatten t : no_list t -> no_list (flatten t).
Proof. induction t; cbn [flatten no_list]; auto. Qed.
Lemma nolist_inline t : no_list t -> no_list (flat_inline t).
Proof. induction t; cbn [flat_inline no_list]; auto. destruct inl; cbn [no_list]; auto. Qed.

Lemma cast_flat m f t : cast m (flatten f) (flatten t) = cast m f t.
Proof. destruct m; [reflexivity|]. cbn [cast]. rewrite !flatten_idem. reflexivity. Qed.
Lemma cast_flat_l m f t : cast m (flatten f) t = cast m f t.
Proof. destruct m; [reflexivity|]. cbn [cast]. rewrite !flatten_idem. reflexivity. Qed.
Lemma cast_flat_r m f t : cast m f (flatten t) = cast m f t.
Proof. destruct m; [reflexivity|]. cbn [cast]. rewrite !flatten_idem. reflexivity. Qed.
Lemma cast_inline m f t : cast m (flat_inline f) t = cast m f t.
Proof. destruct m; [reflexivity|]. cbn [cast]. rewrite !flatten_inline. reflexivity. Qed.

Definition castok (f t : Ty) : Prop := forall m, size f + size t <= m -> cast m f t = Done.
Lemma castok_flat f t : castok (flatten f) (flatten t) -> castok f t.
Proof. intros H m Hm. rewrite <- cast_flat. apply H. pose proof (size_flatten f); pose proof (size_flatten t); lia. Qed.
Lemma castok_l f t : castok (flatten f) t -> castok f t.
Proof. intros H m Hm. rewrite <- cast_flat_l. apply H. pose proof (size_flatten f); lia. Qed.
Lemma castok_r f t : castok f (flatten t) -> castok f t.
Proof. intros H m Hm. rewrite <- cast_flat_r. apply H. pose proof (size_flatten t); lia. Qed.
Lemma size_inline t : size (flat_inline t) <= size t.
Proof. induction t; cbn [flat_inline size]; try lia. destruct inl; cbn [size]; lia. Qed.
Lemma castok_inline f t : castok (flat_inline f) t -> castok f t.
Proof. intros H m Hm. rewrite <- cast_inline. apply H. pose proof (size_inline f); lia. Qed.
Lemma castok_refl f : castok f f.
Proof. intros m Hm. pose proof (size_pos f). destruct m; [lia|]. cbn [cast]. rewrite ty_eqb_refl. reflexivity. Qed.

(** The sweep over the tables. *)
Definition rule_no (r : Rule) : bool := match r with R_NO | R_NA => true | _ => false end.
Definition is_dist (g : Group) : bool := match g with GDistinct => true | _ => false end.
Definition check (f t : Group) : bool :=
  is_dist f || is_dist t || rule_no (rule f t) ||
  match routine f t with
  | None => false
  | Some EN2XX => group_eqb f GEnum && match rule f t with RENXX => true | _ => false end
  | Some EX2VC => group_eqb t GVector && match rule f t with REXVC => true | _ => false end
  | Some VC2VC => group_eqb f GVector && group_eqb t GVector && match rule f t with RVCVC => true | _ => false end
  | Some AR2VC => group_eqb f GArray && group_eqb t GVector && match rule f t with RARVC => true | _ => false end
  | Some _ => match rule f t with RENXX | REXVC | RVCVC | RARVC | RDIXX | RXXDI | RDIDI | RSTDI => false | _ => true end
  end.
Lemma group_in g : In g groups. Proof. destruct g; cbn; tauto. Qed.
Lemma check_all f t : check f t = true.
Proof.
  assert (H : forallb (fun f => forallb (check f) groups) groups = true) by (vm_compute; reflexivity).
  rewrite forallb_forall in H. specialize (H f (group_in f)). rewrite forallb_forall in H. exact (H t (group_in t)).
Qed.
Definition real_g (g : Group) : bool := match g with GVoid | GWildcard | GInferred | GUntypedList => false | _ => true end.
Lemma real_group t : wf t -> real t -> real_g (group t) = true.
Proof. destruct t; cbn [wf real group]; auto; destruct g; cbn; tauto. Qed.
Lemma void_routine g : real_g g = true -> is_dist g = false -> routine g GVoid = Some XX2VO.
Proof. destruct g; cbn; intros; try discriminate; reflexivity. Qed.
Lemma wild_routine g : real_g g = true -> is_dist g = false -> routine GWildcard g = Some XX2XX.
Proof. destruct g; cbn; intros; try discriminate; reflexivity. Qed.
Lemma struct_routine g : real_g g = true -> is_dist g = false -> routine GStruct g = Some ST2LN.
Proof. destruct g; cbn; intros; try discriminate; reflexivity. Qed.
Lemma flat_group t : wf t -> is_dist (group (flatten t)) = false.
Proof.
  intros H. apply wf_flatten in H. destruct (flatten t) eqn:E; cbn; auto; [destruct g; cbn in *; auto; tauto|].
  exfalso. eapply flatten_not_dist; eauto.
Qed.
Lemma castok_routine f t r : routine (group (flatten f)) (group (flatten t)) = Some r ->
  match r with EX2VC | EN2XX | VC2VC | AR2VC => False | _ => True end -> castok f t.
Proof.
  intros H Hr m Hm. pose proof (size_pos f). destruct m; [lia|]. cbn [cast].
  destruct (ty_eqb (flatten f) (flatten t)); [reflexivity|]. rewrite H. destruct r; tauto || reflexivity.
Qed.
Lemma castok_eqflat f t : flatten f = flatten t -> castok f t.
Proof. intros H. apply castok_flat. rewrite H. apply castok_refl. Qed.

Lemma subtype_cases t s : wf s -> is_subtype t s = true ->
  t = s \/ (wf t /\ real t /\ (flatten t = flatten s \/ group (flatten s) = GStruct)).
Proof.
  revert t; induction s; intros t Hs H; cbn [is_subtype] in H.
  - destruct (ty_eqb t (Simple g id)) eqn:E; [apply ty_eqb_eq in E; auto|discriminate].
  - destruct (ty_eqb t (Dist id inl s)) eqn:E; [apply ty_eqb_eq in E; auto|]. destruct inl; [|discriminate].
    cbn [wf] in Hs. destruct Hs as [Hs Hr]. destruct (IHs t Hs H) as [->|(A & B & C)]; right; cbn [flatten]; auto.
  - destruct (ty_eqb t (Strukt id)) eqn:E; [apply ty_eqb_eq in E; auto|discriminate].
  - destruct (ty_eqb t (StruktInl id s)) eqn:E; [apply ty_eqb_eq in E; auto|].
    cbn [wf] in Hs. destruct Hs as [Hs Hr]. destruct (IHs t Hs H) as [->|(A & B & C)]; right; cbn [flatten]; auto.
  - destruct (ty_eqb t (Enm id)) eqn:E; [apply ty_eqb_eq in E; auto|discriminate].
  - destruct (ty_eqb t (EnmInl id s)) eqn:E; [apply ty_eqb_eq in E; auto|discriminate].
  - destruct (ty_eqb t (Vec len s)) eqn:E; [apply ty_eqb_eq in E; auto|discriminate].
  - destruct (ty_eqb t (Arr len s)) eqn:E; [apply ty_eqb_eq in E; auto|discriminate].
Qed.
Lemma castok_subtype f t : wf f -> is_subtype t f = true -> castok f t.
Proof.
  intros Hf H. destruct (subtype_cases _ _ Hf H) as [->|(A & B & [C|C])].
  - apply castok_refl.
  - apply castok_eqflat. auto.
  - eapply castok_routine; [rewrite C; apply struct_routine|exact I].
    + apply real_group; [apply wf_flatten|apply real_flatten]; auto.
    + apply flat_group; auto.
Qed.

Definition cond (f t : Ty) : Prop := no_list f \/ not_vector t \/ plain_lists f t.
Lemma cond_flat_l f t : cond f t -> cond (flatten f) t.
Proof. unfold cond, plain_lists. rewrite flatten_idem. intros [H|H]; auto using nolist_flatten. Qed.
Lemma cond_inline f t : cond f t -> cond (flat_inline f) t.
Proof. unfold cond, plain_lists. rewrite flatten_inline. intros [H|H]; auto using nolist_inline. Qed.
Lemma cond_flat_r f t : cond f t -> cond f (flatten t).
Proof. unfold cond, plain_lists, not_vector. rewrite !flatten_idem. auto. Qed.

Lemma vec_plain a b : plain_element a -> plain_element b -> wf a -> wf b -> a = b \/ vec_to_vec a b = Done.
Proof.
  destruct a as [g i| | | | | | |], b as [h j| | | | | | |]; cbn [plain_element]; try tauto.
  destruct g; try tauto; destruct h; try tauto; cbn; auto.
  intros _ _ H1 H2. left. rewrite H1, H2; auto.
Qed.

Lemma enum_routine g : real_g g = true -> is_dist g = false -> routine GEnum g = Some EN2XX.
Proof. destruct g; cbn; intros; try discriminate; reflexivity. Qed.
Lemma castok_enum j b t : castok b t -> routine GEnum (group (flatten t)) = Some EN2XX -> castok (EnmInl j b) t.
Proof.
  intros K R m Hm. cbn [size] in Hm. destruct m; [lia|]. cbn [cast]. cbn [flatten group]. rewrite R.
  destruct (ty_eqb (EnmInl j b) (flatten t)); [reflexivity|]. rewrite cast_flat_r. apply K. lia.
Qed.
Lemma refuse_no r : refuse r <> Yes. Proof. destruct r; discriminate. Qed.
Section Sound.
Variable leaf : Rule -> bool -> Ty -> Ty -> bool.
Variable binary : bool.
Definition goal (n : nat) : Prop := forall k e f t, wf f -> wf t -> cond f t -> allowed leaf binary n k e f t = Yes -> castok f t.
Lemma todist_ok n (IH : goal n) k e f t : wf f -> wf t -> cond f t ->
  (if (k:bool) then (if (e:bool) then allowed leaf binary n k true f (flatten t)
              else match allowed leaf binary n k false f (flatten t) with No => refuse (allowed leaf binary n k true f (flatten t)) | r => r end)
   else match allowed leaf binary n k true f (flatten t) with Yes => of_bool e | r => r end) = Yes -> castok f t.
Proof.
  intros Hf Ht Hc H. apply castok_r. pose proof (wf_flatten _ Ht) as Ht'. pose proof (cond_flat_r _ _ Hc) as Hc'.
  destruct k.
  - destruct e.
    + eapply IH; eauto.
    + destruct (allowed leaf binary n true false f (flatten t)) eqn:E; try discriminate.
      * eapply IH; eauto.
      * exfalso. eapply refuse_no; eauto.
  - destruct (allowed leaf binary n false true f (flatten t)) eqn:E; try discriminate. eapply IH; eauto.
Qed.
Lemma goal_all n : goal n.
Proof.
  induction n as [|n IH]; [intros ? ? ? ? _ _ _ H; discriminate H|].
  intros k e f t Hf Ht Hc H. cbn [allowed] in H.
  destruct (ty_eqb f t) eqn:E; [apply ty_eqb_eq in E; subst; apply castok_refl|]. clear E.
  destruct (is_dist (group f)) eqn:Df.
  { destruct f as [g i|i u b| | | | | |]; try discriminate Df.
    { destruct g; try discriminate Df. cbn in Hf; tauto. }
    assert (Hd : group (Dist i u b) = GDistinct) by reflexivity. rewrite Hd in H.
    set (f := Dist i u b) in *.
    assert (RDIXXcase : (if e then allowed leaf binary n k e (flatten f) t else if negb (is_inline f) then refuse (allowed leaf binary n k true (flatten f) t) else allowed leaf binary n k e (flat_inline f) t) = Yes -> castok f t).
    { intros H1. destruct e.
      - apply castok_l. eapply IH; [apply wf_flatten| |apply cond_flat_l|]; eauto.
      - destruct (negb (is_inline f)); [exfalso; eapply refuse_no; eauto|].
        apply castok_inline. eapply IH; [apply wf_inline| |apply cond_inline|]; eauto. }
    destruct (group t) eqn:Gt; cbn [rule] in H; try (exact (RDIXXcase H)); try discriminate H.
    - (* void *) apply (castok_routine _ _ XX2VO); [|exact I].
      assert (Et : group (flatten t) = GVoid) by (destruct t; try discriminate Gt; cbn in *; auto).
      rewrite Et. apply void_routine; [|apply flat_group; auto]. cbn [wf] in Hf.
      destruct Hf as [W R]. apply real_group; [apply (wf_flatten b W)|apply (real_flatten b W R)].
    - (* distinct *)
      change (rule GDistinct GDistinct) with RDIDI in H. cbv iota in H.
      destruct e.
      + apply castok_l. eapply (todist_ok n IH k true (flatten f) t); [apply wf_flatten| |apply cond_flat_l|]; eauto.
      + destruct (is_subtype t f) eqn:S; [apply castok_subtype; auto|].
        destruct (negb (is_inline f)); [exfalso; eapply refuse_no; eauto|].
        apply castok_inline. eapply IH; [apply wf_inline| |apply cond_inline|]; eauto. }
  destruct (is_dist (group t)) eqn:Dt.
  { assert (Gt : group t = GDistinct) by (destruct (group t); try discriminate Dt; reflexivity). rewrite Gt in H.
    assert (Hft : flatten f = f) by (destruct f; try reflexivity; discriminate Df).
    destruct t as [g i|i u b| | | | | |]; try discriminate Gt; [cbn in Gt; subst g; cbn in Ht; tauto|].
    set (t := Dist i u b) in *.
    destruct (group f) eqn:Gf; try discriminate Df; cbn [rule] in H; try discriminate H; try (exact (todist_ok n IH k e f t Hf Ht Hc H)).
    - (* wildcard *) apply (castok_routine _ _ XX2XX); [|exact I]. rewrite Hft, Gf.
      apply wild_routine; [|apply flat_group; auto]. cbn [wf] in Ht. destruct Ht as [W R].
      apply real_group; [apply (wf_flatten b W)|apply (real_flatten b W R)].
    - (* struct *) change (rule GStruct GDistinct) with RSTDI in H. cbv iota in H.
      destruct (is_subtype t f) eqn:S; [apply castok_subtype; auto|]. exact (todist_ok n IH k e f t Hf Ht Hc H).
    - (* enum *) change (rule GEnum GDistinct) with RENXX in H. cbv iota in H.
      destruct f as [g j| | | | |j bb| |]; try discriminate H. cbn [wf] in Hf. destruct Hf as [W R].
      assert (K : castok bb t).
      { destruct e.
        - apply castok_l. eapply IH; [apply wf_flatten; exact W|exact Ht| |exact H].
          apply cond_flat_l. destruct Hc as [C|[C|C]]; [left; exact C|right; left; exact C|].
          unfold plain_lists in C. cbn [flatten] in C. destruct C.
        - eapply IH; [exact W|exact Ht| |exact H].
          destruct Hc as [C|[C|C]]; [left; exact C|right; left; exact C|].
          unfold plain_lists in C. cbn [flatten] in C. destruct C. }
      apply castok_enum; [exact K|]. apply enum_routine; [|apply flat_group; auto].
      cbn [wf] in Ht. destruct Ht as [W' R']. apply real_group; [apply (wf_flatten b W')|apply (real_flatten b W' R')]. }
  (* neither is distinct *)
  assert (Hft : flatten f = f) by (destruct f; try reflexivity; discriminate Df).
  assert (Htt : flatten t = t) by (destruct t; try reflexivity; discriminate Dt).
  pose proof (check_all (group f) (group t)) as C. unfold check in C. rewrite Df, Dt in C. cbn [orb] in C.
  destruct (rule_no (rule (group f) (group t))) eqn:NR.
  { destruct (rule (group f) (group t)); discriminate. }
  cbn [orb] in C. destruct (routine (group f) (group t)) as [r|] eqn:R; [|discriminate C].
  assert (Hr : match r with EX2VC | EN2XX | VC2VC | AR2VC => True | _ => castok f t end).
  { destruct r; try exact I; (eapply castok_routine; [rewrite Hft, Htt; exact R|exact I]). }
  destruct r; try exact Hr; clear Hr.
  - (* AR2VC *) apply andb_true_iff in C. destruct C as [C C3]. apply andb_true_iff in C. destruct C as [C1 C2].
    apply group_eqb_eq in C1, C2. rewrite C1, C2 in *. change (rule GArray GVector) with RARVC in *. cbv iota in H.
    destruct f as [g i| | | | | | |i a]; try discriminate C1; [cbn in C1; subst g; cbn in Hf; tauto|].
    destruct t as [g j| | | | | |j b|]; try discriminate C2; [cbn in C2; subst g; cbn in Ht; tauto|].
    cbn [wf] in Hf, Ht. destruct Hf as [Wa Ra], Ht as [Wb Rb].
    destruct Hc as [Q|[Q|Q]]; [cbn in Q; tauto|cbn in Q; tauto|]. cbn in Q. destruct Q as [Pa Pb].
    assert (Fa : flatten a = a) by (destruct a; cbn in Pa; tauto || reflexivity).
    assert (Fb : flatten b = b) by (destruct b; cbn in Pb; tauto || reflexivity).
    intros m Hm. cbn [size] in Hm. destruct m; [lia|]. cbn [cast flatten group ty_eqb]. rewrite R, Fa, Fb.
    destruct (vec_plain a b Pa Pb Wa Wb) as [->|V]; [rewrite ty_eqb_refl; reflexivity|].
    destruct (ty_eqb a b); auto.
  - (* EN2XX *) apply andb_true_iff in C. destruct C as [C1 C3]. apply group_eqb_eq in C1.
    assert (HR : rule (group f) (group t) = RENXX) by (destruct (rule (group f) (group t)); try discriminate C3; reflexivity).
    rewrite HR in H. destruct f as [g j| | | | |j bb| |]; try discriminate H.
    apply castok_enum; [|rewrite Htt; exact R]. cbn [wf] in Hf. destruct Hf as [W Rr].
    assert (Hc' : cond bb t).
    { destruct Hc as [Q|[Q|Q]]; [left; exact Q|right; left; exact Q|]. unfold plain_lists in Q. cbn [flatten] in Q. destruct Q. }
    destruct e.
    + apply castok_l. eapply IH; [apply wf_flatten; exact W|exact Ht| |exact H]. apply cond_flat_l; auto.
    + eapply IH; eauto.
  - (* EX2VC *) apply andb_true_iff in C. destruct C as [C1 C3]. apply group_eqb_eq in C1.
    assert (HR : rule (group f) (group t) = REXVC) by (destruct (rule (group f) (group t)); try discriminate C3; reflexivity).
    rewrite HR in H. destruct t as [g j| | | | | |j b|]; try discriminate H.
    cbn [wf] in Ht. destruct Ht as [Wb Rb].
    assert (K : castok f b).
    { assert (Hc' : cond f b).
      { destruct Hc as [Q|[Q|Q]]; [left; exact Q|cbn in Q; tauto|]. unfold plain_lists in Q. rewrite Hft in Q.
        destruct f; cbn [flatten] in Q; try tauto; cbn in HR; discriminate. }
      destruct (negb e && negb binary); [exfalso; eapply refuse_no; eauto|]. eapply IH; eauto. }
    intros m Hm. cbn [size] in Hm. destruct m; [lia|]. cbn [cast]. rewrite Hft. cbn [flatten].
    destruct (ty_eqb f (Vec j b)); [reflexivity|]. rewrite R. apply K. lia.
  - (* VC2VC *) apply andb_true_iff in C. destruct C as [C C3]. apply andb_true_iff in C. destruct C as [C1 C2].
    apply group_eqb_eq in C1, C2. rewrite C1, C2 in *. change (rule GVector GVector) with RVCVC in *. cbv iota in H.
    destruct f as [g i| | | | | |i a|]; try discriminate C1; [cbn in C1; subst g; cbn in Hf; tauto|].
    destruct t as [g j| | | | | |j b|]; try discriminate C2; [cbn in C2; subst g; cbn in Ht; tauto|].
    cbn [wf] in Hf, Ht. destruct Hf as [Wa Ra], Ht as [Wb Rb].
    destruct Hc as [Q|[Q|Q]]; [cbn in Q; tauto|cbn in Q; tauto|]. cbn in Q. destruct Q as [Pa Pb].
    destruct (Nat.eqb i j) eqn:Eij; [|discriminate H]. apply Nat.eqb_eq in Eij. subst j.
    intros m Hm. cbn [size] in Hm. destruct m; [lia|]. cbn [cast flatten group ty_eqb]. rewrite R, Nat.eqb_refl.
    destruct (vec_plain a b Pa Pb Wa Wb) as [->|V]; [rewrite ty_eqb_refl; reflexivity|].
    destruct (true && ty_eqb a b); auto.
Qed.
End Sound.

(** The checker always answers. *)
Definition settled (r : Ans) : Prop := r = Yes \/ r = No.
Definition weight (f t : Ty) : nat := 2 * (size f + size t) + (if group_eqb (group f) (group t) then 0 else 1).
Lemma settled_bool b : settled (of_bool b). Proof. destruct b; [left|right]; reflexivity. Qed.
Lemma settled_refuse r : settled r -> settled (refuse r). Proof. intros [->| ->]; right; reflexivity. Qed.
Lemma weight_lt f t f' t' : size f' + size t' < size f + size t -> weight f' t' < weight f t.
Proof. unfold weight. destruct (group_eqb _ _), (group_eqb (group f) (group t)); lia. Qed.
Lemma dist_shape t : wf t -> group t = GDistinct -> exists i u b, t = Dist i u b.
Proof. destruct t as [g j|i u b| | | | | |]; cbn; intros W H; try discriminate; [subst g; tauto|eauto]. Qed.
Lemma size_flatten_dist t : wf t -> group t = GDistinct -> size (flatten t) < size t.
Proof. intros W H. destruct (dist_shape t W H) as (i & u & b & ->). cbn [flatten size]. pose proof (size_flatten b). lia. Qed.
Definition dist_rule (f t : Group) : bool :=
  match rule f t with
  | RDIXX => is_dist f | RXXDI => is_dist t | RDIDI => is_dist f && is_dist t | RSTDI => is_dist t
  | R_NA => group_eqb f t && lone f
  | RARVC => group_eqb f GArray && group_eqb t GVector | RVCAR => group_eqb f GVector && group_eqb t GArray
  | _ => true
  end.
Lemma dist_rule_all f t : dist_rule f t = true.
Proof.
  assert (H : forallb (fun f => forallb (dist_rule f) groups) groups = true) by (vm_compute; reflexivity).
  rewrite forallb_forall in H. specialize (H f (group_in f)). rewrite forallb_forall in H. exact (H t (group_in t)).
Qed.
Lemma is_dist_eq g : is_dist g = true -> g = GDistinct. Proof. destruct g; try discriminate; reflexivity. Qed.
Lemma lone_eq f t : wf f -> wf t -> group f = group t -> lone (group f) = true -> f = t.
Proof.
  destruct f as [g i| | | | | | |]; cbn [group lone]; try discriminate. intros Hf Ht E L. rewrite E in L.
  destruct t as [h j| | | | | | |]; cbn [group lone] in *; try discriminate. subst h.
  cbn [wf] in *. destruct g; try discriminate L; rewrite Hf, Ht; auto.
Qed.
Section Answers.
Variable leaf : Rule -> bool -> Ty -> Ty -> bool.
Variable binary : bool.
Definition answers (n : nat) : Prop := forall k e f t, wf f -> wf t -> weight f t < n -> settled (allowed leaf binary n k e f t).
Lemma todist_settled n (IH : answers n) k e f t : wf f -> wf t -> weight f (flatten t) < n ->
  settled (if (k:bool) then (if (e:bool) then allowed leaf binary n k true f (flatten t)
              else match allowed leaf binary n k false f (flatten t) with No => refuse (allowed leaf binary n k true f (flatten t)) | r => r end)
   else match allowed leaf binary n k true f (flatten t) with Yes => of_bool e | r => r end).
Proof.
  intros Hf Ht Hw. apply wf_flatten in Ht. destruct k.
  - destruct e; [apply IH; auto|]. destruct (IH true false f (flatten t) Hf Ht Hw) as [E|E]; rewrite E; [left; reflexivity|].
    apply settled_refuse, IH; auto.
  - destruct (IH false true f (flatten t) Hf Ht Hw) as [E|E]; rewrite E; [apply settled_bool|right; reflexivity].
Qed.
Lemma answers_all n : answers n.
Proof.
  induction n as [|n IH]; intros k e f t Hf Ht Hw; [lia|]. cbn [allowed].
  destruct (ty_eqb f t) eqn:E; [left; reflexivity|].
  pose proof (dist_rule_all (group f) (group t)) as D. unfold dist_rule in D.
  pose proof (wf_flatten _ Hf) as Hff. pose proof (wf_inline _ Hf) as Hfi. pose proof (wf_flatten _ Ht) as Htf.
  destruct (rule (group f) (group t)) eqn:R; try apply settled_bool; try (left; reflexivity); try (right; reflexivity).
  - (* RARVC *) destruct f as [| | | | | | |i a]; try (right; reflexivity). destruct t as [| | | | | |j b|]; try (right; reflexivity).
    destruct (Nat.eqb i j && _); [|right; reflexivity]. apply IH; auto. unfold weight in *. cbn in *. lia.
  - (* RDIDI *) apply andb_true_iff in D. destruct D as [D1 D2]. apply is_dist_eq in D1, D2.
    pose proof (size_flatten_dist f Hf D1). pose proof (size_flatten_dist t Ht D2).
    assert (W : weight (flatten f) (flatten t) < n) by (pose proof (weight_lt f t (flatten f) (flatten t)); lia).
    destruct e; [apply (todist_settled n IH k true); auto|]. destruct (is_subtype t f); [left; reflexivity|].
    destruct (is_inline f) eqn:I; cbn [negb].
    + apply IH; auto. apply (Nat.lt_le_trans _ (weight f t)); [|lia]. apply weight_lt.
      destruct (dist_shape f Hf D1) as (i & u & b & ->). cbn in I. subst u. cbn [flat_inline size]. pose proof (size_inline b). lia.
    + apply settled_refuse. apply (todist_settled n IH k true); auto.
  - (* RDIXX *) apply is_dist_eq in D. pose proof (size_flatten_dist f Hf D).
    assert (W : weight (flatten f) t < n) by (pose proof (weight_lt f t (flatten f) t); lia).
    destruct e; [apply IH; auto|]. destruct (is_inline f) eqn:I; cbn [negb].
    + apply IH; auto. apply (Nat.lt_le_trans _ (weight f t)); [|lia]. apply weight_lt.
      destruct (dist_shape f Hf D) as (i & u & b & ->). cbn in I. subst u. cbn [flat_inline size]. pose proof (size_inline b). lia.
    + apply settled_refuse, IH; auto.
  - (* RENXX *) destruct f as [| | | | |i b| |]; try (right; reflexivity). cbn [wf] in Hf. destruct Hf as [W Rr].
    assert (W1 : weight b t < n) by (pose proof (weight_lt (EnmInl i b) t b t); cbn [size] in *; lia).
    assert (W2 : weight (flatten b) t < n).
    { pose proof (weight_lt (EnmInl i b) t (flatten b) t); pose proof (size_flatten b); cbn [size] in *; lia. }
    destruct e; apply IH; auto using wf_flatten.
  - (* REXVC *) destruct t as [| | | | | |j b|]; try (right; reflexivity). cbn [wf] in Ht. destruct Ht as [W Rr].
    assert (W1 : weight f b < n) by (pose proof (weight_lt f (Vec j b) f b); cbn [size] in *; lia).
    destruct (negb e && negb binary); [apply settled_refuse|]; apply IH; auto.
  - (* RSTDI *) apply is_dist_eq in D. pose proof (size_flatten_dist t Ht D).
    assert (W : weight f (flatten t) < n) by (pose proof (weight_lt f t f (flatten t)); lia).
    destruct (is_subtype t f); [left; reflexivity|]. apply todist_settled; auto.
  - (* RVCAR *) destruct f as [| | | | | |i a|]; try (right; reflexivity). destruct t as [| | | | | | |j b]; try (right; reflexivity).
    destruct (Nat.eqb i j); [|right; reflexivity]. apply IH; auto. unfold weight in *. cbn in *. lia.
  - (* RVCVC *) destruct f as [| | | | | |i a|]; try (right; reflexivity). destruct t as [| | | | | |j b|]; try (right; reflexivity).
    destruct (negb (Nat.eqb i j)); [right; reflexivity|]. destruct (_ && _); [left; reflexivity|].
    cbn [wf] in Hf, Ht. destruct Hf as [Wa _], Ht as [Wb _].
    assert (W : weight a b < n) by (pose proof (weight_lt (Vec i a) (Vec j b) a b); cbn [size] in *; lia).
    destruct (IH false e a b Wa Wb W) as [Q|Q]; rewrite Q; [left; reflexivity|]. destruct e; [right; reflexivity|].
    apply settled_refuse, IH; auto.
  - (* RXXDI *) apply is_dist_eq in D. pose proof (size_flatten_dist t Ht D).
    assert (W : weight f (flatten t) < n) by (pose proof (weight_lt f t f (flatten t)); lia).
    apply todist_settled; auto.
  - (* R_NA *) exfalso. apply andb_true_iff in D. destruct D as [D1 D2]. apply group_eqb_eq in D1.
    rewrite (lone_eq f t Hf Ht D1 D2), ty_eqb_refl in E. discriminate E.
Qed.
End Answers.

(** ** What becomes a truth value or an integer without a cast *)
Lemma view_trans a b c : view a b -> view b c -> view a c.
Proof. intros H. induction H; intros; auto using view. Qed.
Lemma view_inline t : view t (flat_inline t).
Proof. induction t; cbn [flat_inline]; try constructor. destruct inl; constructor; assumption. Qed.
Lemma view_subtype g i t : is_subtype (Simple g i) t = true -> view t (Simple g i).
Proof.
  induction t; cbn [is_subtype]; intros H.
  - destruct (ty_eqb _ _) eqn:E; [apply ty_eqb_eq in E; rewrite <- E; constructor|discriminate].
  - destruct (ty_eqb _ _) eqn:E; [apply ty_eqb_eq in E; discriminate|]. destruct inl; [|discriminate]. constructor; auto.
  - discriminate.
  - constructor; apply IHt. exact H.
  - discriminate.
  - discriminate.
  - discriminate.
  - discriminate.
Qed.
Lemma refuse_not_yes r : refuse r <> Yes. Proof. destruct r; discriminate. Qed.

Lemma implicit_bool leaf binary n : forall k f i, wf f -> real f ->
  allowed leaf binary n k false f (Simple GBool i) = Yes -> view f (Simple GBool i).
Proof.
  induction n as [|n IH]; intros k f i Hf Hr H; [discriminate|]. cbn [allowed] in H.
  destruct (ty_eqb f (Simple GBool i)) eqn:E. { apply ty_eqb_eq in E. subst. constructor. }
  destruct f as [g id|id inl b|id|id b|id|id b|len b|len b].
  - destruct g; cbn in Hf, Hr, H; try contradiction; discriminate.
  - cbn in H. destruct inl; cbn [negb] in H; [|exfalso; exact (refuse_not_yes _ H)].
    eapply view_trans; [apply view_inline|]. apply (IH k); [apply (wf_inline (Dist id true b)), Hf| |exact H].
    cbn [flat_inline wf] in *. clear - Hf. destruct Hf as [Hf Hr]. revert Hf Hr. induction b; cbn [flat_inline wf real]; auto.
    destruct inl; cbn; tauto.
  - cbn in H. discriminate.
  - cbn -[is_subtype] in H. destruct (is_subtype _ _) eqn:Es; [|discriminate]. apply view_subtype. exact Es.
  - cbn in H. discriminate.
  - cbn in H. destruct Hf as [Hf Hb]. constructor. exact (IH k b i Hf Hb H).
  - cbn in H. discriminate.
  - cbn in H. discriminate.
Qed.
Lemma implicit_int leaf binary n : forall k f i, wf f -> real f ->
  allowed leaf binary n k false f (Simple GInt i) = Yes ->
  exists b, view f b /\ group b <> GBool /\ group b <> GFloat.
Proof.
  induction n as [|n IH]; intros k f i Hf Hr H; [discriminate|]. cbn [allowed] in H.
  destruct (ty_eqb f (Simple GInt i)) eqn:E. { apply ty_eqb_eq in E. subst. eexists. split; [constructor|split; discriminate]. }
  destruct f as [g id|id inl b|id|id b|id|id b|len b|len b].
  - exists (Simple g id). split; [constructor|].
    destruct g; cbn in Hf, Hr, H; try contradiction; try discriminate; split; discriminate.
  - cbn in H. destruct inl; cbn [negb] in H; [|exfalso; exact (refuse_not_yes _ H)].
    destruct (IH k (flat_inline b) i) as (b' & Hv & Hg).
    + apply (wf_inline (Dist id true b)), Hf.
    + cbn [flat_inline wf] in *. clear - Hf. destruct Hf as [Hf Hr]. revert Hf Hr. induction b; cbn [flat_inline wf real]; auto.
      destruct inl; cbn; tauto.
    + exact H.
    + exists b'. split; [|exact Hg]. eapply view_trans; [apply (view_inline (Dist id true b))|exact Hv].
  - cbn in H. discriminate.
  - cbn -[is_subtype] in H. destruct (is_subtype _ _) eqn:Es; [|discriminate].
    exists (Simple GInt i). split; [apply view_subtype; exact Es|split; discriminate].
  - cbn in H. discriminate.
  - cbn in H. destruct Hf as [Hf Hb]. destruct (IH k b i Hf Hb H) as (b' & Hv & Hg). exists b'. split; [constructor; exact Hv|exact Hg].
  - cbn in H. discriminate.
  - cbn in H. discriminate.
Qed.
