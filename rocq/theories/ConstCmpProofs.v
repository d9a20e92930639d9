(** Lemmas about the comparison of constants and about $switch. *)
From Coq Require Import ZArith List Bool Lia ZifyBool SpecFloat.
From Verif Require Import Word Int128Model Int128Spec Int128Proofs2 ConstArrModel ConstArrSpec ConstArrProofs ConstCmpModel ConstCmpSpec.
Import ListNotations.
Open Scope Z_scope.

Lemma sfeqb_same : forall x y, SFeqb x y = true <-> float_same x y.
Proof.
  intros x y. unfold SFeqb, float_same. destruct x as [s|s| |s m e], y as [t|t| |t n f]; cbn [SFcompare];
    try solve [repeat match goal with b : bool |- _ => destruct b end; (split; intros H; first [reflexivity|exact I|contradiction|discriminate])].
  - destruct s, t; try (split; discriminate).
    + destruct (Z.compare e f) eqn:E; try (split; [discriminate|intros H; injection H as -> ->; rewrite Z.compare_refl in E; discriminate]).
      apply Z.compare_eq in E. subst f. destruct (Pos.compare_cont Eq m n) eqn:Q; cbn [CompOpp].
      * apply Pos.compare_eq in Q. subst n. split; reflexivity.
      * split; [discriminate|]. intros H. injection H as ->. change (Pos.compare n n = Lt) in Q. rewrite Pos.compare_refl in Q. discriminate.
      * split; [discriminate|]. intros H. injection H as ->. change (Pos.compare n n = Gt) in Q. rewrite Pos.compare_refl in Q. discriminate.
    + destruct (Z.compare e f) eqn:E; try (split; [discriminate|intros H; injection H as -> ->; rewrite Z.compare_refl in E; discriminate]).
      apply Z.compare_eq in E. subst f. destruct (Pos.compare_cont Eq m n) eqn:Q.
      * apply Pos.compare_eq in Q. subst n. split; reflexivity.
      * split; [discriminate|]. intros H. injection H as ->. change (Pos.compare n n = Lt) in Q. rewrite Pos.compare_refl in Q. discriminate.
      * split; [discriminate|]. intros H. injection H as ->. change (Pos.compare n n = Gt) in Q. rewrite Pos.compare_refl in Q. discriminate.
Qed.
Lemma memcmp_ok : forall a b, length a = length b -> (memcmp_eq a b = true <-> a = b).
Proof.
  induction a as [|x a IH]; intros [|y b] L; try discriminate; [split; auto|]. cbn [memcmp_eq]. injection L as L. rewrite andb_true_iff, (IH b L), Z.eqb_eq. split; [intros [-> ->]; auto|intros H; injection H; auto].
Qed.
Lemma strncmp_ok : forall a b, length a = length b -> ~ In 0 a \/ ~ In 0 b -> (strncmp_eq a b = true <-> a = b).
Proof.
  induction a as [|x a IH]; intros [|y b] L N; try discriminate; [split; auto|]. cbn [strncmp_eq]. injection L as L. destruct (x =? y) eqn:E; [|split; [discriminate|intros H; injection H; lia]].
  destruct (x =? 0) eqn:Z.
  - exfalso. destruct N as [N|N]; apply N; left; lia.
  - rewrite (IH b L) by (destruct N as [N|N]; [left|right]; intros Q; apply N; right; auto). split; [intros ->; f_equal; lia|intros H; injection H; auto].
Qed.
Lemma bytes_eq : forall f a b, (length a = length b -> (f = true <-> a = b)) -> exists x, (if negb (len_eq a b) then equality false OpEQ else equality f OpEQ) = Ok x /\ (x = true <-> a = b).
Proof.
  intros f a b H. unfold len_eq. destruct (Z.of_nat (length a) =? Z.of_nat (length b)) eqn:E; cbn [negb equality].
  - eexists. split; [reflexivity|]. apply H. lia.
  - eexists. split; [reflexivity|]. split; [discriminate|]. intros ->. lia.
Qed.
Lemma bytes_ne : forall f a b, (if negb (len_eq a b) then equality false OpNE else equality f OpNE) = obind (if negb (len_eq a b) then equality false OpEQ else equality f OpEQ) (fun x => Ok (negb x)).
Proof. intros. destruct (negb _); reflexivity. Qed.
Lemma wf_pointer : forall p, 0 <= p < 2 ^ 64 -> wf128 (mk128 0 p) /\ value (mkInt (mk128 0 p) U64) = p.
Proof. intros p H. unfold wf128, word, W, value, uval. cbn. split; [split; lia|lia]. Qed.
Lemma bytes_list_items : forall c, bytes_list c -> exists l, items c = Some l /\ contract_const c = Some (map byte_of l).
Proof.
  intros c [W S]. assert (E : exists l, items c = Some l) by (destruct c as [| [a|] | a | | |]; cbn [scalars] in S; try contradiction; eexists; reflexivity).
  destruct E as [l E]. exists l. split; [exact E|]. apply contract_const_ok; auto.
Qed.
Lemma compare_eq_ok : forall l r, comparable l r -> no_nul l -> no_nul r -> exists b, const_compare l r OpEQ = Ok b /\ (b = true <-> same l r).
Proof.
  intros l r (P1 & P2 & C) N1 N2. unfold const_compare.
  destruct l as [a|a|a|t a|a|a|a|a|a|a|a|a], r as [b|b|b|u b|b|b|b|b|b|b|b|b]; try contradiction; cbn [contracted obind same proper no_nul] in *.
  - eexists. split; [reflexivity|]. cbn [compare_bool]. apply Bool.eqb_true_iff.
  - eexists. split; [reflexivity|]. rewrite int_comp_spec by auto. cbn [zcmp]. apply Z.eqb_eq.
  - eexists. split; [reflexivity|]. apply sfeqb_same.
  - destruct (u =? t) eqn:E; cbn [negb]; (eexists; split; [reflexivity|]); [rewrite Z.eqb_eq|split; [discriminate|]]; lia.
  - eexists. split; [reflexivity|]. rewrite Z.eqb_eq. split; auto.
  - eexists. split; [reflexivity|]. destruct (wf_pointer a P1) as [W1 V1], (wf_pointer b P2) as [W2 V2]. rewrite int_comp_spec by auto. rewrite V1, V2. apply Z.eqb_eq.
  - apply bytes_eq. intros L. apply strncmp_ok; auto.
  - apply bytes_eq. intros L. apply strncmp_ok; auto.
  - destruct (bytes_list_items _ C) as (x & I & E). rewrite E. cbn [obind]. destruct (bytes_eq (strncmp_eq a (map byte_of x)) a (map byte_of x)) as (z & Z1 & Z2); [intros L; apply strncmp_ok; auto|]. exists z. split; [exact Z1|]. rewrite Z2. split; [intros H; exists x; auto|intros (x' & I' & H); congruence].
  - apply bytes_eq. intros L. apply memcmp_ok; auto.
  - apply bytes_eq. intros L. apply memcmp_ok; auto.
  - destruct (bytes_list_items _ C) as (x & I & E). rewrite E. cbn [obind]. destruct (bytes_eq (memcmp_eq a (map byte_of x)) a (map byte_of x)) as (z & Z1 & Z2); [intros L; apply memcmp_ok; auto|]. exists z. split; [exact Z1|]. rewrite Z2. split; [intros H; exists x; auto|intros (x' & I' & H); congruence].
  - eexists. split; [reflexivity|]. apply Z.eqb_eq.
  - eexists. split; [reflexivity|]. apply Z.eqb_eq.
  - destruct (bytes_list_items _ C) as (x & I & E). rewrite E. cbn [obind]. destruct (bytes_eq (strncmp_eq (map byte_of x) b) (map byte_of x) b) as (z & Z1 & Z2); [intros L; apply strncmp_ok; auto|]. exists z. split; [exact Z1|]. rewrite Z2. split; [intros H; exists x; auto|intros (x' & I' & H); congruence].
  - destruct (bytes_list_items _ C) as (x & I & E). rewrite E. cbn [obind]. destruct (bytes_eq (memcmp_eq (map byte_of x) b) (map byte_of x) b) as (z & Z1 & Z2); [intros L; apply memcmp_ok; auto|]. exists z. split; [exact Z1|]. rewrite Z2. split; [intros H; exists x; auto|intros (x' & I' & H); congruence].
Qed.
Lemma compare_ne_ok : forall l r, comparable l r -> match l, r with VFault _, _ => False | VEnum t _, VEnum u _ => t = u | _, _ => True end ->
  const_compare l r OpNE = obind (const_compare l r OpEQ) (fun b => Ok (negb b)).
Proof.
  intros l r (P1 & P2 & C) D. unfold const_compare.
  destruct l as [a|a|a|t a|a|a|a|a|a|a|a|a], r as [b|b|b|u b|b|b|b|b|b|b|b|b]; try contradiction; cbn [contracted obind proper] in *; rewrite ?bytes_ne; auto.
  - destruct a, b; reflexivity.
  - rewrite !int_comp_spec by auto. reflexivity.
  - subst u. rewrite Z.eqb_refl. reflexivity.
  - destruct (wf_pointer a P1) as [W1 V1], (wf_pointer b P2) as [W2 V2]. rewrite !int_comp_spec by auto. reflexivity.
  - destruct (bytes_list_items _ C) as (x & I & E). rewrite E. cbn [obind]. apply bytes_ne.
  - destruct (bytes_list_items _ C) as (x & I & E). rewrite E. cbn [obind]. apply bytes_ne.
  - destruct (bytes_list_items _ C) as (x & I & E). rewrite E. cbn [obind]. apply bytes_ne.
  - destruct (bytes_list_items _ C) as (x & I & E). rewrite E. cbn [obind]. apply bytes_ne.
Qed.
Lemma compare_order : forall l r, comparable l r -> match l, r with VBool _, _ | VInt _, _ | VPointer _, _ => True | VEnum t _, VEnum u _ => t = u | _, _ => False end ->
  exists lt eq, const_compare l r OpLT = Ok lt /\ const_compare l r OpEQ = Ok eq /\ const_compare r l OpLT = Ok (negb lt && negb eq) /\ (lt && eq = false) /\
    const_compare l r OpLE = Ok (lt || eq) /\ const_compare l r OpGE = Ok (negb lt) /\ const_compare l r OpGT = Ok (negb (lt || eq)).
Proof.
  intros l r (P1 & P2 & C) D. unfold const_compare.
  destruct l as [a|a|a|t a|a|a|a|a|a|a|a|a], r as [b|b|b|u b|b|b|b|b|b|b|b|b]; try contradiction; cbn [contracted obind proper] in *.
  - destruct a, b; eexists _, _; (split; [reflexivity|]); (split; [reflexivity|]); cbn; auto 10.
  - rewrite !int_comp_spec by auto. eexists _, _; (split; [reflexivity|]); (split; [reflexivity|]). cbn [zcmp]. generalize (value a) (value b). intros x y. assert (E : (x =? y) = negb (x <? y) && negb (y <? x)) by lia.
    repeat split; try f_equal; lia.
  - subst u. rewrite Z.eqb_refl. cbn [negb]. eexists _, _; (split; [reflexivity|]); (split; [reflexivity|]). repeat split; try f_equal; lia.
  - destruct (wf_pointer a P1) as [W1 V1], (wf_pointer b P2) as [W2 V2]. rewrite !int_comp_spec by auto. rewrite V1, V2. eexists _, _; (split; [reflexivity|]); (split; [reflexivity|]). cbn [zcmp]. repeat split; try f_equal; lia.
Qed.

Lemma sfcompare_swap x y : SFcompare y x = match SFcompare x y with Some c => Some (CompOpp c) | None => None end.
Proof.
  destruct x as [s|s| |s m e], y as [t|t| |t n f]; cbn; try (destruct s); try (destruct t); try reflexivity;
    rewrite (Z.compare_antisym e f); destruct (Z.compare e f); cbn; try reflexivity;
    change (Pos.compare_cont Eq n m) with (Pos.compare n m); change (Pos.compare_cont Eq m n) with (Pos.compare m n);
    rewrite (Pos.compare_antisym m n); destruct (Pos.compare m n); reflexivity.
Qed.
Lemma sfcompare_nan x y : SFcompare x y = None <-> x = S754_nan \/ y = S754_nan.
Proof.
  destruct x as [s|s| |s m e], y as [t|t| |t n f]; cbn; try (destruct s); try (destruct t);
    try (split; [discriminate|intros [H|H]; discriminate]); try (split; auto);
    (destruct (Z.compare e f); split; [discriminate|intros [H|H]; discriminate|discriminate|intros [H|H]; discriminate|discriminate|intros [H|H]; discriminate]).
Qed.
Lemma compare_float a b :
  (a = S754_nan \/ b = S754_nan -> forall op, const_compare (VFloat a) (VFloat b) op = Ok match op with OpNE => true | _ => false end) /\
  (a <> S754_nan -> b <> S754_nan ->
   exists lt eq, const_compare (VFloat a) (VFloat b) OpLT = Ok lt /\ const_compare (VFloat a) (VFloat b) OpEQ = Ok eq /\
     const_compare (VFloat b) (VFloat a) OpLT = Ok (negb lt && negb eq) /\ (lt && eq = false) /\ lt = SFltb a b /\
     const_compare (VFloat a) (VFloat b) OpLE = Ok (lt || eq) /\ const_compare (VFloat a) (VFloat b) OpGE = Ok (negb lt) /\
     const_compare (VFloat a) (VFloat b) OpGT = Ok (negb (lt || eq)) /\ const_compare (VFloat a) (VFloat b) OpNE = Ok (negb eq)).
Proof.
  unfold const_compare, compare_fps. cbn [contracted obind]. unfold SFeqb, SFltb, SFleb. rewrite !(sfcompare_swap a b). split.
  - intros H. apply sfcompare_nan in H. rewrite H. intros []; reflexivity.
  - intros Ha Hb. assert (H : SFcompare a b <> None) by (rewrite sfcompare_nan; intros [H|H]; contradiction).
    destruct (SFcompare a b) as [[]|]; [| | |contradiction]; eexists _, _; cbn; repeat split; reflexivity.
Qed.

(** ** Ranges. *)
Lemma in_range_ok : forall v c, case_for v c -> exists b, in_range v (from c) (to c) = Ok b /\ (b = true <-> covers v c).
Proof.
  intros v c (C & N1 & N2 & S & T). unfold in_range, covers. destruct (to c) as [t|]; [|apply compare_eq_ok; auto].
  destruct T as [I (P1 & P2 & T)]. destruct C as (_ & P3 & C). destruct v as [|x|x|x|x|x|x|x|x|x|x|x]; try discriminate. destruct (from c) as [|a|a|a|a|a|a|a|a|a|a|a]; try contradiction. destruct t as [|b|b|b|b|b|b|b|b|b|b|b]; try contradiction.
  cbn [proper] in *. unfold const_compare. cbn [contracted obind]. rewrite !int_comp_spec by auto. cbn [zcmp]. destruct (value a <=? value x) eqn:E1; cbn [obind].
  - eexists. split; [reflexivity|]. lia.
  - eexists. split; [reflexivity|]. split; [discriminate|]. lia.
Qed.
Lemma same_sym : forall l r, switchable l -> switchable r -> same l r -> same r l.
Proof.
  intros l r S1 S2 H. destruct l as [a|a|a|t a|a|a|a|a|a|a|a|a], r as [b|b|b|u b|b|b|b|b|b|b|b|b]; try contradiction; cbn [same] in *; auto.
  - unfold float_same in *. destruct a, b; auto; try discriminate; congruence.
  - destruct H; auto.
Qed.
Lemma same_trans : forall l m r, switchable l -> switchable m -> switchable r -> same l m -> same m r -> same l r.
Proof.
  intros l m r S1 S2 S3 H1 H2. destruct l as [a|a|a|t a|a|a|a|a|a|a|a|a], m as [b|b|b|u b|b|b|b|b|b|b|b|b]; try contradiction; destruct r as [c|c|c|w c|c|c|c|c|c|c|c|c]; try contradiction; cbn [same] in *; try congruence.
  - unfold float_same in *. destruct a, b, c; auto; try discriminate; try contradiction; congruence.
  - destruct H1, H2; split; congruence.
Qed.
Lemma comparable_sym : forall l r, comparable l r -> comparable r l.
Proof. intros l r (A & B & C). split; [auto|]. split; [auto|]. destruct l, r; auto. Qed.
Lemma comparable_via : forall l m r, switchable l -> switchable m -> switchable r -> comparable m l -> comparable m r -> comparable l r.
Proof. intros l m r S1 S2 S3 (A & B & C) (D & E & F). split; [auto|]. split; [auto|]. destruct l, m; try contradiction; destruct r; try contradiction; exact I. Qed.
Lemma case_for_other : forall v c d, switchable v -> case_for v c -> case_for v d -> case_for (from d) c.
Proof.
  intros v c d S (A1 & A2 & A3 & A4 & A5) (B1 & B2 & B3 & B4 & B5). split; [apply (comparable_via _ v); auto|]. split; [auto|]. split; [auto|]. split; [auto|].
  destruct (to c) as [t|]; [|auto]. destruct A5 as [I T]. destruct v; try discriminate. destruct B1 as (_ & P & B1). destruct (from d); try contradiction. split; [reflexivity|]. destruct T as (T1 & T2 & T3). split; [auto|]. split; [auto|]. destruct t; try contradiction; exact I0 || auto.
Qed.
Lemma covers_transfer : forall v w c, switchable v -> switchable w -> switchable (from c) -> same v w -> covers v c -> covers w c.
Proof.
  intros v w c S1 S2 S3 E H. unfold covers in *. destruct (to c) as [t|].
  - destruct v; try contradiction. destruct w; try contradiction. cbn [same] in E. destruct (from c); auto. destruct t; auto. lia.
  - apply (same_trans _ v); auto. apply same_sym; auto.
Qed.
Definition seen_case (p : Value * option Value) : Case := mkCase true (fst p) (snd p) true.
Lemma repeated_ok : forall v seen, Forall (fun p => case_for v (seen_case p)) seen -> exists b, repeated v seen = Ok b /\ (b = true <-> Exists (fun p => covers v (seen_case p)) seen).
Proof.
  intros v. induction seen as [|[f t] seen IH]; intros F; cbn [repeated]; [exists false; split; [reflexivity|]; split; [discriminate|intros H; inversion H]|].
  inversion F as [|? ? F1 F2]; subst. destruct (in_range_ok v _ F1) as (b & E & B). cbn [seen_case from to fst snd] in E. rewrite E. cbn [obind]. destruct b.
  - exists true. split; [reflexivity|]. split; auto. intros _. left. apply B. reflexivity.
  - destruct (IH F2) as (b & E2 & B2). exists b. split; [exact E2|]. rewrite B2. split; [intros H; right; auto|]. intros H. inversion H as [? ? H1|? ? H1]; subst; auto. apply B in H1. discriminate.
Qed.

(** ** $switch. *)
Definition seen_for (v : Value) (p : Value * option Value) : Prop := case_for v (seen_case p).
Lemma seen_for_of_case : forall v c, case_for v c -> seen_for v (from c, to c).
Proof. intros v c H. exact H. Qed.
Lemma repeated_case : forall v seen c, switchable v -> Forall (seen_for v) seen -> case_for v c ->
  exists b, repeated (from c) seen = Ok b /\ (b = true <-> Exists (fun p => covers (from c) (seen_case p)) seen).
Proof. intros v seen c S F C. apply repeated_ok. eapply Forall_impl; [|exact F]. intros p H. apply (case_for_other v); auto. Qed.
Lemma switchable_case : forall v c, case_for v c -> switchable (from c).
Proof. intros v c (_ & _ & _ & H & _). auto. Qed.
Lemma bad_range : forall v c, case_for v c -> exists bad, match to c with Some t => const_compare (from c) t OpGT | None => Ok false end = Ok bad /\ (bad = true <-> match to c, from c with Some (VInt b), VInt a => value b < value a | _, _ => False end).
Proof.
  intros v c (C & N1 & N2 & S & T). destruct (to c) as [t|]; [|exists false; split; [reflexivity|split; [discriminate|contradiction]]].
  destruct T as [I (P1 & P2 & T)]. destruct C as (_ & P3 & C). destruct v; try discriminate. destruct (from c) as [|a|a|a|a|a|a|a|a|a|a|a]; try contradiction. destruct t as [|b|b|b|b|b|b|b|b|b|b|b]; try contradiction.
  unfold const_compare. cbn [contracted obind proper] in *. rewrite int_comp_spec by auto. cbn [zcmp]. eexists. split; [reflexivity|]. lia.
Qed.
Lemma range_int : forall v c, case_for v c -> match to c with Some _ => negb (is_integer v) | None => false end = false.
Proof. intros v c (_ & _ & _ & _ & T). destruct (to c); auto. destruct T as [T _]. rewrite T. reflexivity. Qed.

Lemma after_match : forall v its i seen k m d, switchable v -> Forall (item_for v) its -> Forall (seen_for v) seen -> Exists (fun p => covers v (seen_case p)) seen ->
  (forall j c, is_case its j c -> covers v c -> known c = true -> to c = None) ->
  ct_cases v its i seen (Some k) = Ok (m, d) -> m = Some k.
Proof.
  intros v. induction its as [|[c|b] its IH]; intros i seen k m d S F FS X N H; cbn [ct_cases] in H.
  - congruence.
  - inversion F as [|? ? F1 F2]; subst. cbn [item_for] in F1. rewrite (range_int v c F1) in H.
    assert (N' : forall j c, is_case its j c -> covers v c -> known c = true -> to c = None) by (intros j c' H1; apply (N (Datatypes.S j)); exact H1).
    destruct (known c) eqn:K; cbn [negb] in H; [|eapply IH; eauto].
    destruct (bad_range v c F1) as (bad & E1 & B1). rewrite E1 in H. cbn [obind] in H. destruct bad; [discriminate|].
    destruct (repeated_case v seen c S FS F1) as (dup & E2 & B2). rewrite E2 in H. cbn [obind] in H. destruct dup; [discriminate|].
    destruct (in_range_ok v c F1) as (hit & E3 & B3). rewrite E3 in H. cbn [obind] in H.
    assert (FS' : Forall (seen_for v) (seen ++ [(from c, to c)])) by (apply Forall_app; split; [auto|constructor; [exact F1|constructor]]).
    destruct hit.
    + exfalso. assert (CV : covers v c) by (apply B3; reflexivity). assert (T : to c = None) by (apply (N 0%nat); auto; reflexivity).
      assert (SM : same v (from c)) by (unfold covers in CV; rewrite T in CV; exact CV). assert (Q : false = true); [|discriminate Q]. apply B2.
      apply Exists_exists in X. destruct X as (p & P1 & P2). apply Exists_exists. exists p. split; [auto|]. rewrite Forall_forall in FS. specialize (FS p P1).
      apply (covers_transfer v); auto; [apply (switchable_case v); auto|apply (switchable_case v); exact FS].
    + apply (IH (Datatypes.S i) _ k m d S F2 FS'); auto. apply Exists_app. left. auto.
  - destruct its; [congruence|discriminate].
Qed.
Lemma no_match_default : forall v its i seen m0 m d, ct_cases v its i seen m0 = Ok (m, d) ->
  match d with Some j => (i <= j)%nat /\ (exists b, nth_error its (j - i) = Some (IDefault b)) /\ S (j - i) = length its | None => forall j b, nth_error its j <> Some (IDefault b) end.
Proof.
  intros v. induction its as [|[c|b] its IH]; intros i seen m0 m d H; cbn [ct_cases] in H.
  - injection H as <- <-. intros [|j] b; discriminate.
  - assert (R : forall seen m0, ct_cases v its (S i) seen m0 = Ok (m, d) -> match d with Some j => (i <= j)%nat /\ (exists b, nth_error (ICase c :: its) (j - i) = Some (IDefault b)) /\ S (j - i) = length (ICase c :: its) | None => forall j b, nth_error (ICase c :: its) j <> Some (IDefault b) end).
    { intros s m1 Q. apply IH in Q. destruct d as [j|].
      - destruct Q as (Q1 & Q2 & Q3). split; [lia|]. replace (j - i)%nat with (S (j - S i)) by lia. split; [exact Q2|]. cbn [length]. lia.
      - intros [|j] b; [discriminate|]. apply Q. }
    destruct (match to c with Some _ => _ | None => _ end) in H; [discriminate|].
    destruct (match m0 with Some _ => _ | None => _ end) in H; [eapply R; eauto|].
    destruct (match to c with Some _ => _ | None => _ end) as [bad| |] in H; cbn [obind] in H; try discriminate. destruct bad; [discriminate|].
    destruct (repeated (from c) seen) as [dup| |] in H; cbn [obind] in H; try discriminate. destruct dup; [discriminate|].
    destruct (in_range v (from c) (to c)) as [hit| |] in H; cbn [obind] in H; try discriminate. eapply R; eauto.
  - destruct its; [|discriminate]. injection H as <- <-. split; [lia|]. rewrite Nat.sub_diag. split; [eexists; reflexivity|reflexivity].
Qed.
Lemma before_match : forall v its i seen m d, switchable v -> Forall (item_for v) its -> Forall (seen_for v) seen ->
  (forall j k c c', (j < k)%nat -> is_case its j c -> is_case its k c' -> covers v c -> covers v c' -> known c' = true -> to c' = None) ->
  ct_cases v its i seen None = Ok (m, d) ->
  match m with
  | Some k => (i <= k)%nat /\ exists c, is_case its (k - i) c /\ covers v c /\ forall j c', (j < k - i)%nat -> is_case its j c' -> ~ covers v c'
  | None => forall j c, is_case its j c -> ~ covers v c
  end.
Proof.
  intros v. induction its as [|[c|b] its IH]; intros i seen m d S F FS N H; cbn [ct_cases] in H.
  - injection H as <- <-. intros [|j] c; discriminate.
  - inversion F as [|? ? F1 F2]; subst. cbn [item_for] in F1. rewrite (range_int v c F1) in H.
    assert (N' : forall j k c c', (j < k)%nat -> is_case its j c -> is_case its k c' -> covers v c -> covers v c' -> known c' = true -> to c' = None).
    { intros j k c1 c2 L H1 H2. apply (N (Datatypes.S j) (Datatypes.S k) c1 c2); auto. lia. }
    destruct (bad_range v c F1) as (bad & E1 & B1). rewrite E1 in H. cbn [obind] in H. destruct bad; [discriminate|].
    destruct (repeated_case v seen c S FS F1) as (dup & E2 & B2). rewrite E2 in H. cbn [obind] in H. destruct dup; [discriminate|].
    destruct (in_range_ok v c F1) as (hit & E3 & B3). rewrite E3 in H. cbn [obind] in H.
    assert (FS' : Forall (seen_for v) (seen ++ [(from c, to c)])) by (apply Forall_app; split; [auto|constructor; [exact F1|constructor]]).
    destruct hit.
    + assert (CV : covers v c) by (apply B3; reflexivity).
      assert (m = Some i).
      { eapply (after_match v its); eauto; [apply Exists_app; right; left; exact CV|]. intros j c' H1. apply (N 0%nat (Datatypes.S j) c c'); auto; [lia|reflexivity]. }
      subst m. split; [lia|]. exists c. rewrite Nat.sub_diag. split; [reflexivity|]. split; [exact CV|]. intros j c' L. lia.
    + assert (NC : ~ covers v c) by (intros Q; apply B3 in Q; discriminate).
      specialize (IH (Datatypes.S i) _ m d S F2 FS' N' H). destruct m as [k|].
      * destruct IH as (L & c' & I1 & I2 & I3). split; [lia|]. exists c'. replace (k - i)%nat with (Datatypes.S (k - Datatypes.S i)) by lia. split; [exact I1|]. split; [exact I2|].
        intros [|j] c2 L2 I4; [injection I4 as <-; exact NC|]. apply (I3 j); auto. lia.
      * intros [|j] c2 I4; [injection I4 as <-; exact NC|]. apply (IH j); auto.
  - destruct its; [|discriminate]. injection H as <- <-. intros [|[|j]] c; discriminate.
Qed.
Lemma first_body_ok : forall its i, match first_body its i with
  | Some j => (i <= j)%nat /\ (exists it, nth_error its (j - i) = Some it /\ has_body it = true) /\ forall k it, (k < j - i)%nat -> nth_error its k = Some it -> has_body it = false
  | None => forall k it, nth_error its k = Some it -> has_body it = false
  end.
Proof.
  induction its as [|it its IH]; intros i; cbn [first_body]; [intros [|k] it; discriminate|]. destruct (has_body it) eqn:E.
  - split; [lia|]. rewrite Nat.sub_diag. split; [exists it; auto|]. intros k x L. lia.
  - specialize (IH (S i)). destruct (first_body its (S i)) as [j|].
    + destruct IH as (L & X & Y). split; [lia|]. replace (j - i)%nat with (S (j - S i)) by lia. split; [exact X|]. intros [|k] x L2 Q; [injection Q as <-; exact E|]. apply (Y k); auto. lia.
    + intros [|k] x Q; [injection Q as <-; exact E|]. apply (IH k); auto.
Qed.
Lemma nth_error_skipn : forall A (l : list A) i k, nth_error (skipn i l) k = nth_error l (i + k).
Proof. induction l as [|x l IH]; intros [|i] k; cbn; auto. destruct k; reflexivity. Qed.
Lemma chosen_runs : forall hits its i, selects hits its i -> runs hits its (first_body (skipn i its) i).
Proof.
  intros hits its i H. exists i. split; [exact H|]. pose proof (first_body_ok (skipn i its) i) as B. destruct (first_body (skipn i its) i) as [j|].
  - destruct B as (L & (it & X1 & X2) & Y). split; [auto|]. split.
    + exists it. split; [|auto]. rewrite nth_error_skipn in X1. replace (i + (j - i))%nat with j in X1 by lia. exact X1.
    + intros k x L2 Q. apply (Y (k - i)%nat); [lia|]. rewrite nth_error_skipn. replace (i + (k - i))%nat with k by lia. exact Q.
  - intros k x L Q. apply (B (k - i)%nat). rewrite nth_error_skipn. replace (i + (k - i))%nat with k by lia. exact Q.
Qed.
Lemma ct_switch_ok : forall v its o, switchable v -> Forall (item_for v) its -> no_late_range v its -> ct_switch v its = Ok o -> runs (covers v) its o.
Proof.
  intros v its o S F N H. unfold ct_switch in H. assert (E : (match v with VTypeid _ => Error | _ => ct_cases v its 0 [] None end) = ct_cases v its 0 [] None) by (destruct v; try contradiction; reflexivity).
  rewrite E in H. clear E. destruct (ct_cases v its 0 [] None) as [[m d]| |] eqn:E; cbn [obind fst snd] in H; try discriminate. injection H as <-. apply chosen_runs.
  pose proof (before_match v its 0 [] m d S F (Forall_nil _) N E) as B. pose proof (no_match_default _ _ _ _ _ _ _ E) as D. unfold selects, chosen. destruct m as [k|].
  - left. rewrite Nat.sub_0_r in B. destruct B as (_ & B). exact B.
  - right. split; [exact B|]. destruct d as [j|].
    + left. rewrite Nat.sub_0_r in D. destruct D as (_ & D & _). exact D.
    + right. split; [reflexivity|]. exact D.
Qed.
(** Accepted, when no start of a case lies in an earlier case. *)
Lemma ct_cases_accepts : forall v its i seen m, switchable v -> Forall (item_for v) its -> Forall (seen_for v) seen -> default_last its ->
  (forall j c, is_case its j c -> match to c, from c with Some (VInt b), VInt a => value a <= value b | _, _ => True end) ->
  (forall j k c c', (j < k)%nat -> is_case its j c -> is_case its k c' -> ~ covers (from c') c) ->
  (forall k c', is_case its k c' -> Forall (fun p => ~ covers (from c') (seen_case p)) seen) ->
  exists p, ct_cases v its i seen m = Ok p.
Proof.
  intros v. induction its as [|[c|b] its IH]; intros i seen m S F FS DL R N1 N2; cbn [ct_cases].
  - eexists. reflexivity.
  - inversion F as [|? ? F1 F2]; subst. cbn [item_for] in F1. rewrite (range_int v c F1).
    assert (DL' : default_last its) by (intros j b H; specialize (DL (Datatypes.S j) b H); cbn [length] in DL; lia).
    assert (R' : forall j c, is_case its j c -> match to c, from c with Some (VInt b), VInt a => value a <= value b | _, _ => True end) by (intros j c' H; apply (R (Datatypes.S j)); exact H).
    assert (N1' : forall j k c c', (j < k)%nat -> is_case its j c -> is_case its k c' -> ~ covers (from c') c) by (intros j k c1 c2 L H1 H2; apply (N1 (Datatypes.S j) (Datatypes.S k)); auto; lia).
    assert (N2' : forall k c', is_case its k c' -> Forall (fun p => ~ covers (from c') (seen_case p)) seen) by (intros k c' H; apply (N2 (Datatypes.S k)); exact H).
    destruct (match m with Some _ => _ | None => _ end); [apply IH; auto|].
    destruct (bad_range v c F1) as (bad & E1 & B1). rewrite E1. cbn [obind]. destruct bad.
    { exfalso. pose proof (proj1 B1 eq_refl) as Q. specialize (R 0%nat c eq_refl). destruct (to c) as [[]|]; try contradiction. destruct (from c); try contradiction. lia. }
    destruct (repeated_case v seen c S FS F1) as (dup & E2 & B2). rewrite E2. cbn [obind]. destruct dup.
    { exfalso. pose proof (proj1 B2 eq_refl) as Q. specialize (N2 0%nat c eq_refl). apply Exists_exists in Q. destruct Q as (p & P1 & P2). rewrite Forall_forall in N2. apply (N2 p P1 P2). }
    destruct (in_range_ok v c F1) as (hit & E3 & B3). rewrite E3. cbn [obind]. apply IH; auto.
    + apply Forall_app; split; [auto|constructor; [exact F1|constructor]].
    + intros k c' H. apply Forall_app. split; [apply (N2' k); auto|]. constructor; [|constructor]. intros Q. apply (N1 0%nat (Datatypes.S k) c c'); auto; [lia|reflexivity].
  - specialize (DL 0%nat b eq_refl). destruct its; [|discriminate]. eexists. reflexivity.
Qed.
(** Rejected, when the start of a literal case lies in an earlier literal case. *)
Lemma ct_cases_repeated : forall v its i seen m k c', switchable v -> Forall (item_for v) its -> Forall (seen_for v) seen -> is_case its k c' -> known c' = true ->
  (Exists (fun p => covers (from c') (seen_case p)) seen \/ exists j c, (j < k)%nat /\ is_case its j c /\ known c = true /\ covers (from c') c) ->
  ct_cases v its i seen m = Error.
Proof.
  intros v. induction its as [|[c|b] its IH]; intros i seen m k c' S F FS C K X; cbn [ct_cases].
  - destruct k; discriminate.
  - inversion F as [|? ? F1 F2]; subst. cbn [item_for] in F1. rewrite (range_int v c F1).
    destruct (match m with Some _ => negb (known c) | None => false end) eqn:Q.
    { destruct m; [|discriminate]. destruct k as [|k]; [injection C as <-; rewrite K in Q; discriminate|]. apply (IH _ _ _ k c'); auto. destruct X as [X|(j & c2 & J1 & J2 & J3 & J4)]; [left; auto|].
      destruct j as [|j]; [injection J2 as <-; rewrite J3 in Q; discriminate|]. right. exists j, c2. split; [lia|auto]. }
    destruct (bad_range v c F1) as (bad & E1 & B1). rewrite E1. cbn [obind]. destruct bad; [reflexivity|].
    destruct (repeated_case v seen c S FS F1) as (dup & E2 & B2). rewrite E2. cbn [obind]. destruct dup; [reflexivity|].
    destruct (in_range_ok v c F1) as (hit & E3 & B3). rewrite E3. cbn [obind].
    assert (FS' : Forall (seen_for v) (seen ++ [(from c, to c)])) by (apply Forall_app; split; [auto|constructor; [exact F1|constructor]]).
    destruct k as [|k].
    + injection C as <-. exfalso. destruct X as [X|(j & c2 & J1 & _)]; [|lia]. apply B2 in X. discriminate.
    + apply (IH _ _ _ k c'); auto. destruct X as [X|(j & c2 & J1 & J2 & J3 & J4)]; [left; apply Exists_app; left; auto|]. destruct j as [|j].
      * injection J2 as <-. left. apply Exists_app. right. left. exact J4.
      * right. exists j, c2. split; [lia|auto].
  - destruct its; [|reflexivity]. destruct k as [|[|k]]; discriminate.
Qed.
(** ** Types. *)
Lemma ct_type_default : forall sub v its i seen m0 m d, ct_type_cases sub v its i seen m0 = Ok (m, d) ->
  match d with Some j => (i <= j)%nat /\ (exists b, nth_error its (j - i) = Some (IDefault b)) | None => forall j b, nth_error its j <> Some (IDefault b) end.
Proof.
  intros sub v. induction its as [|[c|b] its IH]; intros i seen m0 m d H; cbn [ct_type_cases] in H.
  - injection H as <- <-. intros [|j] b; discriminate.
  - assert (R : forall seen m0, ct_type_cases sub v its (S i) seen m0 = Ok (m, d) -> match d with Some j => (i <= j)%nat /\ (exists b, nth_error (ICase c :: its) (j - i) = Some (IDefault b)) | None => forall j b, nth_error (ICase c :: its) j <> Some (IDefault b) end).
    { intros s m1 Q. apply IH in Q. destruct d as [j|].
      - destruct Q as (Q1 & Q2). split; [lia|]. replace (j - i)%nat with (S (j - S i)) by lia. exact Q2.
      - intros [|j] b; [discriminate|]. apply Q. }
    destruct (to c); [discriminate|]. destruct (from c) eqn:FC; try discriminate.
    destruct (match m0 with Some _ => _ | None => _ end) in H; [eapply R; eauto|].
    destruct (repeated _ seen) as [dup| |] in H; cbn [obind] in H; try discriminate. destruct dup; [discriminate|]. eapply R; eauto.
  - destruct its; [|discriminate]. injection H as <- <-. split; [lia|]. rewrite Nat.sub_diag. eexists. reflexivity.
Qed.
Lemma ct_type_after : forall sub v its i seen k m d, ct_type_cases sub v its i seen (Some k) = Ok (m, d) -> m = Some k.
Proof.
  intros sub v. induction its as [|[c|b] its IH]; intros i seen k m d H; cbn [ct_type_cases] in H; [congruence| |destruct its; [congruence|discriminate]].
  destruct (to c); [discriminate|]. destruct (from c); try discriminate. destruct (negb (known c)); [eapply IH; eauto|].
  destruct (repeated _ seen) as [dup| |] in H; cbn [obind] in H; try discriminate. destruct dup; [discriminate|]. eapply IH; eauto.
Qed.
Lemma ct_type_before : forall sub v its i seen m d, ct_type_cases sub v its i seen None = Ok (m, d) ->
  match m with
  | Some k => (i <= k)%nat /\ exists c, is_case its (k - i) c /\ type_hit sub v c /\ forall j c', (j < k - i)%nat -> is_case its j c' -> ~ type_hit sub v c'
  | None => forall j c, is_case its j c -> ~ type_hit sub v c
  end.
Proof.
  intros sub v. induction its as [|[c|b] its IH]; intros i seen m d H; cbn [ct_type_cases] in H.
  - injection H as <- <-. intros [|j] c; discriminate.
  - destruct (to c) eqn:TC; [discriminate|]. destruct (from c) eqn:FC; try discriminate. destruct (repeated _ seen) as [dup| |] in H; cbn [obind] in H; try discriminate. destruct dup; [discriminate|].
    destruct (sub t v) eqn:SB.
    + assert (m = Some i) by (eapply ct_type_after; eauto). subst m. split; [lia|]. exists c. rewrite Nat.sub_diag. split; [reflexivity|]. split; [exists t; auto|]. intros j c' L. lia.
    + assert (NC : ~ type_hit sub v c) by (intros (t' & Q1 & Q2); congruence). specialize (IH _ _ _ _ H). destruct m as [k|].
      * destruct IH as (L & c' & I1 & I2 & I3). split; [lia|]. exists c'. replace (k - i)%nat with (S (k - S i)) by lia. split; [exact I1|]. split; [exact I2|].
        intros [|j] c2 L2 I4; [injection I4 as <-; exact NC|]. apply (I3 j); auto. lia.
      * intros [|j] c2 I4; [injection I4 as <-; exact NC|]. apply (IH j); auto.
  - destruct its; [|discriminate]. injection H as <- <-. intros [|[|j]] c; discriminate.
Qed.
Lemma ct_switch_type_ok : forall sub v its o, ct_switch_type sub v its = Ok o -> runs (type_hit sub v) its o.
Proof.
  intros sub v its o H. unfold ct_switch_type in H. destruct (ct_type_cases sub v its 0 [] None) as [[m d]| |] eqn:E; cbn [obind fst snd] in H; try discriminate. injection H as <-. apply chosen_runs.
  pose proof (ct_type_before _ _ _ _ _ _ _ E) as B. pose proof (ct_type_default _ _ _ _ _ _ _ _ E) as D. unfold selects, chosen. destruct m as [k|].
  - left. rewrite Nat.sub_0_r in B. destruct B as (_ & B). exact B.
  - right. split; [exact B|]. destruct d as [j|].
    + left. rewrite Nat.sub_0_r in D. destruct D as (_ & D). exact D.
    + right. split; [reflexivity|]. exact D.
Qed.
(** ** nextcase. *)
Lemma nextcase_ok : forall v cs i k, Forall (fun c => match c with RConst f t => case_for v (mkCase true f t true) | _ => True end) cs -> nextcase v cs i = Ok (Some k) -> (i <= k)%nat /\ first_target v cs (k - i).
Proof.
  intros v. induction cs as [|c cs IH]; intros i k F H; cbn [nextcase] in H; [discriminate|]. inversion F as [|? ? F1 F2]; subst.
  assert (R : match c with RConst f t => ~ covers v (mkCase true f t true) | _ => True end -> nextcase v cs (S i) = Ok (Some k) -> (i <= k)%nat /\ first_target v (c :: cs) (k - i)).
  { intros NC Q. destruct (IH _ _ F2 Q) as (L & X & Y). split; [lia|]. unfold first_target. replace (k - i)%nat with (S (k - S i)) by lia. split; [exact X|]. intros [|j] f t L2 Q2.
    - injection Q2 as ->. exact NC.
    - apply (Y j); auto. lia. }
  destruct c as [f t| |]; [|discriminate|apply R; auto].
  destruct (in_range_ok v _ F1) as (b & E & B). cbn [from to] in E. rewrite E in H. cbn [obind] in H. destruct b.
  - injection H as <-. split; [lia|]. rewrite Nat.sub_diag. split; [exists f, t; split; [reflexivity|apply B; reflexivity]|]. intros j f' t' L. lia.
  - apply R; auto. intros Q. apply B in Q. discriminate.
Qed.
Lemma nextcase_error : forall v cs i, Forall (fun c => match c with RConst f t => case_for v (mkCase true f t true) | RComputed => False | _ => True end) cs ->
  nextcase v cs i = Error <-> forall j f t, nth_error cs j = Some (RConst f t) -> ~ covers v (mkCase true f t true).
Proof.
  intros v. induction cs as [|c cs IH]; intros i F; cbn [nextcase]; [split; auto; intros _ [|j] f t; discriminate|]. inversion F as [|? ? F1 F2]; subst. specialize (IH (S i) F2).
  destruct c as [f t| |]; [|contradiction|].
  - destruct (in_range_ok v _ F1) as (b & E & B). cbn [from to] in E. rewrite E. cbn [obind]. destruct b.
    + split; [discriminate|]. intros H. exfalso. apply (H 0%nat f t eq_refl). apply B. reflexivity.
    + rewrite IH. split; [|intros H j f' t' Q; apply (H (S j)); exact Q]. intros H [|j] f' t' Q; [injection Q as <- <-; intros Z; apply B in Z; discriminate|apply (H j); auto].
  - rewrite IH. split; [intros H [|j] f' t' Q; [discriminate|apply (H j); auto]|intros H j f' t' Q; apply (H (S j)); exact Q].
Qed.
