(** Proofs about numeric result types and implicit integer conversions. *)
From Coq Require Import ZArith Bool List Lia.
From Coq Require Import ZifyBool.
From Verif Require Import Word Int128Model Int128Spec Int128Thms CmpModel CmpSpec CmpProofs NumModel NumSpec.
Import ListNotations.
Open Scope Z_scope.

(** * Result types *)
Lemma num_eqb_eq a b : num_eqb a b = true <-> a = b.
Proof. split; [|intros ->; unfold num_eqb; apply Z.eqb_refl]. destruct a as [[]|[]], b as [[]|[]]; intros H; vm_compute in H; congruence. Qed.
Lemma max_builtin_comm a b : max_builtin a b = max_builtin b a.
Proof. destruct a as [[]|[]], b as [[]|[]]; reflexivity. Qed.
Lemma max_builtin_assoc a b c : max_builtin a (max_builtin b c) = max_builtin (max_builtin a b) c.
Proof. destruct a as [[]|[]], b as [[]|[]]; destruct c as [[]|[]]; vm_compute; reflexivity. Qed.
Lemma max_builtin_ints a b : exists k, max_builtin (NI a) (NI b) = NI k /\ kbits k = Z.max (kbits a) (kbits b) /\ ksigned k = ksigned a || ksigned b.
Proof. destruct a, b; vm_compute; eexists; split; try reflexivity; auto. Qed.
Lemma max_builtin_floats a b : exists f, max_builtin (NF a) (NF b) = NF f /\ fbits f = Z.max (fbits a) (fbits b).
Proof. destruct a, b; vm_compute; eexists; split; try reflexivity; auto. Qed.
Lemma max_builtin_mixed k f : max_builtin (NI k) (NF f) = NF f.
Proof. destruct k, f; vm_compute; reflexivity. Qed.

Lemma ty_eqb_eq a b : ty_eqb a b = true <-> a = b.
Proof.
  revert b; induction a as [n|i u x IH]; intros [m|j v y]; cbn [ty_eqb].
  - rewrite num_eqb_eq. split; congruence.
  - split; congruence.
  - split; congruence.
  - rewrite !andb_true_iff, Nat.eqb_eq, eqb_true_iff, IH. split; [intros [[-> ->] ->]; reflexivity|intros E; injection E; auto].
Qed.
Lemma ty_eqb_refl a : ty_eqb a a = true. Proof. apply ty_eqb_eq; reflexivity. Qed.
Lemma ty_eqb_neq a b : ty_eqb a b = false <-> a <> b.
Proof. rewrite <- ty_eqb_eq. destruct (ty_eqb a b); split; congruence. Qed.

Lemma left_types_spec right : forall left d, (typedefs left < d - 1)%nat -> left <> right ->
  match left_types d left right with
  | Exceeded => False
  | Found => In right (ancestors left)
  | Chain ts => ts = ancestors left /\ ~ In right ts
  end.
Proof.
  induction left as [n|i [] b IH]; intros d Hd Hn; destruct d as [|d]; [lia| |lia| |lia|]; cbn [left_types ancestors typedefs] in *.
  - destruct d; [lia|]. split; [reflexivity|]. intros [E|[]]; congruence.
  - destruct (ty_eqb b right) eqn:E.
    + apply ty_eqb_eq in E. subst. right. destruct right; cbn [ancestors]; left; reflexivity.
    + apply ty_eqb_neq in E. specialize (IH d ltac:(lia) E). destruct (left_types d b right); [|right; exact IH|exact IH].
      destruct IH as [-> H]. split; [reflexivity|]. intros [F|F]; [congruence|auto].
  - destruct d; [lia|]. split; [reflexivity|]. intros [E|[]]; congruence.
Qed.
Lemma existsb_ty t ts : existsb (ty_eqb t) ts = true <-> In t ts.
Proof.
  rewrite existsb_exists. split; [intros (x & Hi & E); apply ty_eqb_eq in E; subst; auto|].
  intros H; exists t; split; [auto|apply ty_eqb_refl].
Qed.
(** The first ancestor of the right type among the given ones. *)
Lemma right_search_spec ts : forall r, right_search ts r = match find (fun x => existsb (ty_eqb x) ts) (ancestors r) with Some t => Max t | None => NoMax end.
Proof.
  induction r as [n|i [] b IH]; cbn [right_search ancestors find].
  - destruct (existsb _ ts); reflexivity.
  - destruct (existsb (ty_eqb (Distinct i true b)) ts); [reflexivity|apply IH].
  - destruct (existsb _ ts); reflexivity.
Qed.
Definition common (l r : NumTy) : option NumTy := find (fun x => existsb (ty_eqb x) (ancestors l)) (ancestors r).
Lemma in_self t : In t (ancestors t). Proof. destruct t; left; reflexivity. Qed.
Lemma max_distinct_spec l r : (typedefs l < 511)%nat -> l <> r ->
  max_distinct l r = match common l r with Some t => Max t | None => NoMax end.
Proof.
  intros Hd Hn. unfold max_distinct, common. pose proof (left_types_spec r l 512 ltac:(lia) Hn) as H.
  destruct (left_types 512 l r) as [ts| |]; [|assert (E : existsb (ty_eqb r) (ancestors l) = true) by (apply existsb_ty; auto)|destruct H].
  - destruct H as [-> _]. apply right_search_spec.
  - destruct r as [|i [] b]; cbn [ancestors find]; rewrite E; reflexivity.
Qed.
Lemma ancestors_suffix : forall t x, In x (ancestors t) -> exists p, ancestors t = p ++ ancestors x.
Proof.
  induction t as [n|i [] b IH]; intros x H; cbn [ancestors] in H.
  - destruct H as [<-|[]]. exists []. reflexivity.
  - destruct H as [<-|H]; [exists []; reflexivity|]. destruct (IH x H) as (p & E). exists (Distinct i true b :: p). cbn [ancestors]. rewrite E. reflexivity.
  - destruct H as [<-|[]]. exists []. reflexivity.
Qed.
Lemma find_first {A} (f : A -> bool) l x : find f l = Some x -> exists p q, l = p ++ x :: q /\ f x = true /\ forall y, In y p -> f y = false.
Proof.
  induction l as [|a l IH]; cbn [find]; [discriminate|]. destruct (f a) eqn:E.
  - intros [= ->]. exists [], l. split; [reflexivity|]. split; [auto|intros y []].
  - intros H. destruct (IH H) as (p & q & -> & Hx & Hp). exists (a :: p), q. split; [reflexivity|]. split; [auto|]. intros y [<-|Hy]; auto.
Qed.
Lemma ancestors_len t x : In x (ancestors t) -> (length (ancestors x) <= length (ancestors t))%nat.
Proof. intros H. destruct (ancestors_suffix t x H) as (p & ->). rewrite app_length. lia. Qed.
Lemma ancestors_nodup_tail t x : In x (tl (ancestors t)) -> (length (ancestors x) < length (ancestors t))%nat.
Proof.
  destruct t as [n|i [] b]; cbn [ancestors tl]; intros H; [destruct H| |destruct H].
  pose proof (ancestors_len b x H). cbn [length]. lia.
Qed.
(** Of two common ancestors found first from either side, each is an ancestor of the other: they are the same. *)
Lemma common_comm l r : common l r = common r l.
Proof.
  unfold common. destruct (find _ (ancestors r)) as [x|] eqn:Ex; destruct (find _ (ancestors l)) as [y|] eqn:Ey.
  - pose proof (find_first _ _ _ Ex) as (p & q & Er & Hx & Hp). pose proof (find_first _ _ _ Ey) as (p' & q' & El & Hy & Hp').
    apply existsb_ty in Hx, Hy. f_equal.
    destruct (ty_eqb x y) eqn:E; [apply ty_eqb_eq; auto|]. exfalso. apply ty_eqb_neq in E.
    (* y is among r's ancestors, not before x; so in x's tail; likewise x in y's tail *)
    assert (T : forall a b u v s, ancestors b = u ++ a :: v -> (forall z, In z u -> existsb (ty_eqb z) (ancestors s) = false) -> In b (ancestors b) ->
              forall c, In c (ancestors b) -> In c (ancestors s) -> c <> a -> (length (ancestors c) < length (ancestors a))%nat).
    { intros a b u v s Eb Hu _ c Hc Hs Hne. rewrite Eb in Hc. apply in_app_or in Hc. destruct Hc as [Hc|[Hc|Hc]].
      - apply Hu in Hc. rewrite (proj2 (existsb_ty c _) Hs) in Hc. discriminate.
      - congruence.
      - assert (Ha : In a (ancestors b)) by (rewrite Eb; apply in_or_app; right; left; reflexivity).
        destruct (ancestors_suffix b a Ha) as (w & Ew).
        assert (Hlen : (length v < length (ancestors a))%nat -> (length (ancestors c) < length (ancestors a))%nat -> (length (ancestors c) < length (ancestors a))%nat) by auto.
        (* compare the two decompositions *)
        destruct (Nat.lt_trichotomy (length w) (length u)) as [L|[L|L]].
        + (* then a is in u *)
          assert (In a u).
          { rewrite Eb in Ew. apply (f_equal (fun l => nth (length w) l a)) in Ew. rewrite app_nth1 in Ew by auto. rewrite app_nth2, Nat.sub_diag in Ew by lia.
            assert (nth 0 (ancestors a) a = a) by (destruct a as [|? [] ?]; reflexivity). rewrite H in Ew. rewrite <- Ew. apply nth_In. auto. }
          apply ancestors_nodup_tail. clear Hlen.
          assert (Hs' : skipn (length w) (u ++ a :: v) = ancestors a) by (rewrite <- Eb, Ew, skipn_app, skipn_all, Nat.sub_diag; reflexivity).
          rewrite skipn_app in Hs'. assert (Hv : In c (tl (skipn (length w) u ++ skipn (length w - length u) (a :: v)))).
          { replace (length w - length u)%nat with 0%nat by lia. cbn [skipn]. destruct (skipn (length w) u) as [|z zs] eqn:Ez.
            - apply (f_equal (@length _)) in Ez. rewrite skipn_length in Ez. cbn in Ez. lia.
            - cbn [app tl]. apply in_or_app. right. right. auto. }
          rewrite Hs' in Hv. auto.
        + apply ancestors_nodup_tail. assert (Hs' : skipn (length u) (u ++ a :: v) = ancestors a) by (rewrite <- Eb, Ew, <- L, skipn_app, skipn_all, Nat.sub_diag; reflexivity).
          rewrite skipn_app, skipn_all, Nat.sub_diag in Hs'. cbn [app skipn] in Hs'. rewrite <- Hs'. cbn [tl]. auto.
        + (* a occurs earlier than its own chain: then its chain is longer than itself *)
          exfalso. assert (Hw : In a w).
          { rewrite Eb in Ew. apply (f_equal (fun l => nth (length u) l a)) in Ew. rewrite app_nth2, Nat.sub_diag in Ew by lia. rewrite app_nth1 in Ew by auto. cbn [nth] in Ew. rewrite Ew. apply nth_In. auto. }
          apply in_split in Hw. destruct Hw as (w1 & w2 & ->).
          assert (forall t a w1 w2, ancestors t = (w1 ++ a :: w2) ++ ancestors a -> False).
          { clear. induction t as [n|i [] b IH]; intros a w1 w2 H; cbn [ancestors] in H.
            - apply (f_equal (@length _)) in H. rewrite !app_length in H. cbn [length] in H. pose proof (in_self a) as Hin. destruct (ancestors a); [destruct Hin|cbn [length] in H; lia].
            - destruct w1 as [|z w1]; cbn [app] in H.
              + injection H as <- H. assert (L : (length (ancestors b) < length (ancestors (Distinct i true b)))%nat) by (cbn [ancestors length]; lia).
                rewrite H, app_length in L. lia.
              + injection H as _ H. eapply IH. exact H.
            - apply (f_equal (@length _)) in H. rewrite !app_length in H. cbn [length] in H. pose proof (in_self a) as Hin. destruct (ancestors a); [destruct Hin|cbn [length] in H; lia]. }
          eapply H. exact Ew. }
    pose proof (T x r p q l Er Hp (in_self r) y Hy ltac:(rewrite El; apply in_or_app; right; left; reflexivity) ltac:(congruence)).
    pose proof (T y l p' q' r El Hp' (in_self l) x Hx ltac:(rewrite Er; apply in_or_app; right; left; reflexivity) ltac:(congruence)).
    lia.
  - exfalso. pose proof (find_some _ _ Ex) as [H1 H2]. apply existsb_ty in H2. pose proof (find_none _ _ Ey x H2) as H3. cbn beta in H3. apply existsb_ty in H1. congruence.
  - exfalso. pose proof (find_some _ _ Ey) as [H1 H2]. apply existsb_ty in H2. pose proof (find_none _ _ Ex y H2) as H3. cbn beta in H3. apply existsb_ty in H1. congruence.
  - reflexivity.
Qed.
Lemma max_type_comm a b : (typedefs a < 511)%nat -> (typedefs b < 511)%nat -> max_type a b = max_type b a.
Proof.
  intros Ha Hb. unfold max_type. destruct (ty_eqb a b) eqn:E.
  - apply ty_eqb_eq in E. subst. rewrite ty_eqb_refl. reflexivity.
  - assert (E' : ty_eqb b a = false) by (apply ty_eqb_neq; apply ty_eqb_neq in E; congruence). rewrite E'.
    apply ty_eqb_neq in E. destruct a, b; try reflexivity.
    + rewrite max_builtin_comm. reflexivity.
    + rewrite !max_distinct_spec by (auto; congruence). rewrite common_comm. reflexivity.
Qed.

Definition all_nums : list Num := [NI I8; NI I16; NI I32; NI I64; NI I128; NI U8; NI U16; NI U32; NI U64; NI U128; NF F16; NF BF16; NF F32; NF F64; NF F128].
Definition res_eqb (a b : MaxRes) : bool := match a, b with Max x, Max y => ty_eqb x y | NoMax, NoMax | TooDeep, TooDeep => true | _, _ => false end.
Definition assoc_check (w : Z) (a b c : Num) : bool :=
  match arith_type w (Builtin a) (Builtin b), arith_type w (Builtin b) (Builtin c) with
  | Max ab, Max bc => res_eqb (arith_type w (Builtin a) bc) (arith_type w ab (Builtin c))
  | _, _ => true
  end.
Lemma res_eqb_eq a b : res_eqb a b = true -> a = b.
Proof. destruct a, b; cbn [res_eqb]; try discriminate; try reflexivity. rewrite ty_eqb_eq. congruence. Qed.
Lemma assoc_all w : w = 16 \/ w = 32 -> forall a b c, assoc_check w a b c = true.
Proof.
  intros Hw a b c. assert (A : forall n, In n all_nums) by (intros [[]|[]]; cbn; tauto).
  assert (F : forallb (fun a => forallb (fun b => forallb (assoc_check w a b) all_nums) all_nums) all_nums = true) by (destruct Hw as [-> | ->]; vm_compute; reflexivity).
  rewrite forallb_forall in F. specialize (F a (A a)). cbn beta in F. rewrite forallb_forall in F. specialize (F b (A b)). rewrite forallb_forall in F. exact (F c (A c)).
Qed.
Lemma arith_assoc w a b c ab bc : w = 16 \/ w = 32 -> arith_type w (Builtin a) (Builtin b) = Max ab -> arith_type w (Builtin b) (Builtin c) = Max bc ->
  arith_type w (Builtin a) bc = arith_type w ab (Builtin c).
Proof. intros Hw H1 H2. pose proof (assoc_all w Hw a b c) as H. unfold assoc_check in H. rewrite H1, H2 in H. apply res_eqb_eq. exact H. Qed.
