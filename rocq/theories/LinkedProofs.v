(** Lemmas about the linked list model. *)
From Coq Require Import ZArith Bool List Lia ZifyBool Permutation.
From Verif Require Import Mach ListAux LinkedModel LinkedSpec.
From Verif Require ListSpec ListProofs.
Import ListSpec.
Import ListNotations.
Open Scope Z_scope.

Section P.
Context {A : Type}.
Implicit Types (s : ll A) (l a b : list (Z * A)) (h : Z -> option (node A)) (p q pr nx : Z).

Definition first_or l nx := match l with [] => nx | (p, _) :: _ => p end.
Definition last_or l pr := match rev l with [] => pr | (p, _) :: _ => p end.
Fixpoint chain h pr l nx : Prop :=
  match l with [] => True | (p, v) :: t => h p = Some (nd (first_or t nx) pr v) /\ chain h p t nx end.
Definition addrs l := map fst l.
Definition rep s l : Prop :=
  chain (heap s) 0 l 0 /\ NoDup (addrs l) /\ (forall p, In p (addrs l) -> 0 < p < fresh s) /\ first_ s = first_or l 0 /\ last_ s = last_or l 0 /\
  size s = zlen l /\ (forall p, heap s p <> None -> In p (addrs l)) /\ 0 < fresh s.

Lemma last_or_app a p v pr : last_or (a ++ [(p, v)]) pr = p.
Proof. unfold last_or. rewrite rev_unit. reflexivity. Qed.
Lemma last_or_cons a p v pr : last_or ((p, v) :: a) pr = last_or a p.
Proof. unfold last_or. cbn [rev]. destruct (rev a) as [|(q, w) r]; reflexivity. Qed.
Lemma first_or_app a b nx : first_or (a ++ b) nx = first_or a (first_or b nx).
Proof. destruct a as [|(q, w) a]; reflexivity. Qed.
Lemma last_or_app2 a b pr : last_or (a ++ b) pr = last_or b (last_or a pr).
Proof. unfold last_or. rewrite rev_app_distr. destruct (rev b) as [|(q, w) r]; reflexivity. Qed.
Lemma chain_app h : forall a b pr nx, chain h pr (a ++ b) nx <-> chain h pr a (first_or b nx) /\ chain h (last_or a pr) b nx.
Proof.
  induction a as [|(p, v) a IH]; intros b pr nx; [cbn; tauto|]. cbn [app chain]. rewrite IH, first_or_app, last_or_cons. tauto.
Qed.
Lemma chain_ext h h' : forall l pr nx, (forall p, In p (addrs l) -> h' p = h p) -> chain h pr l nx -> chain h' pr l nx.
Proof.
  induction l as [|(p, v) l IH]; intros pr nx H C; [exact C|]. cbn [chain addrs map fst] in *. destruct C as (C1 & C2). split; [rewrite H by (left; reflexivity); exact C1|].
  apply IH; [|exact C2]. intros q I. apply H. right. exact I.
Qed.
Lemma upd_same h p o : upd_heap h p o p = o. Proof. unfold upd_heap. rewrite Z.eqb_refl. reflexivity. Qed.
Lemma upd_other h p o q : q <> p -> upd_heap h p o q = h q. Proof. intros H. unfold upd_heap. destruct (Z.eqb_spec q p); [congruence|reflexivity]. Qed.
Lemma chain_upd h p o l pr nx : ~ In p (addrs l) -> chain h pr l nx -> chain (upd_heap h p o) pr l nx.
Proof. intros H. apply chain_ext. intros q I. apply upd_other. intros ->. contradiction. Qed.
Lemma chain_mid h pr a p v b nx : chain h pr (a ++ (p, v) :: b) nx -> h p = Some (nd (first_or b nx) (last_or a pr) v).
Proof. intros C. apply chain_app in C. destruct C as (_ & C). apply C. Qed.
(** Changing the successor of the last node. *)
Lemma chain_next h pr a q w nx nx' : chain h pr (a ++ [(q, w)]) nx -> ~ In q (addrs a) -> chain (upd_heap h q (Some (nd nx' (last_or a pr) w))) pr (a ++ [(q, w)]) nx'.
Proof.
  intros C N. apply chain_app in C. destruct C as (C1 & _). apply chain_app. split; [apply chain_upd; [exact N|exact C1]|]. cbn [chain]. split; [apply upd_same|exact I].
Qed.
(** Changing the predecessor of the first node. *)
Lemma chain_prev h pr pr' q w b nx : chain h pr ((q, w) :: b) nx -> ~ In q (addrs b) -> chain (upd_heap h q (Some (nd (first_or b nx) pr' w))) pr' ((q, w) :: b) nx.
Proof. intros (C1 & C2) N. cbn [chain]. split; [apply upd_same|]. apply chain_upd; assumption. Qed.

Lemma addrs_app a b : addrs (a ++ b) = addrs a ++ addrs b. Proof. apply map_app. Qed.
Lemma nodup_mid {B} (a b : list B) x : NoDup (a ++ x :: b) -> ~ In x a /\ ~ In x b /\ NoDup (a ++ b).
Proof. intros N. assert (M := NoDup_remove_2 _ _ _ N). apply NoDup_remove_1 in N. rewrite in_app_iff in M. tauto. Qed.
Lemma nodup_app_dis {B} (a b : list B) x : NoDup (a ++ b) -> In x a -> In x b -> False.
Proof. induction a as [|y a IH]; cbn; intros N I J; [contradiction|]. inversion N; subst. destruct I as [<-|I]; [apply H1, in_or_app; right; exact J|apply IH; assumption]. Qed.
Lemma load_ok s p n : p <> 0 -> heap s p = Some n -> load s p = Ok n.
Proof. intros H E. unfold load. destruct (Z.eqb_spec p 0); [contradiction|]. rewrite E. reflexivity. Qed.
Lemma load_mid s a p v b : rep s (a ++ (p, v) :: b) -> load s p = Ok (nd (first_or b 0) (last_or a 0) v) /\ p <> 0.
Proof.
  intros (C & N & F & _). assert (P : 0 < p) by (apply F; rewrite addrs_app; apply in_or_app; right; left; reflexivity). split; [|lia]. apply load_ok; [lia|]. apply (chain_mid _ _ _ _ _ _ _ C).
Qed.
Lemma first_zero s l : rep s l -> first_or l 0 = 0 -> l = [].
Proof. intros (_ & _ & F & _) H. destruct l as [|(p, v) l]; [reflexivity|]. cbn in H. assert (0 < p) by (apply F; left; reflexivity). lia. Qed.
Lemma last_split l pr : (l = [] /\ last_or l pr = pr) \/ exists a q w, l = a ++ [(q, w)] /\ last_or l pr = q.
Proof. destruct (exists_last_or l) as [->|(u & (q, w) & ->)]; [left; split; reflexivity|right]. exists u, q, w. rewrite last_or_app. auto. Qed.

(** *** What an insertion and a removal do to the heap. *)
(** A node [p] put between [a] and [b]. *)
Definition join_heap h a p v b : Z -> option (node A) :=
  fun x => if x =? p then Some (nd (first_or b 0) (last_or a 0) v)
           else if x =? last_or a 0 then (match h x with Some n => Some (nd p (prev n) (value n)) | None => None end)
           else if x =? first_or b 0 then (match h x with Some n => Some (nd (next n) p (value n)) | None => None end)
           else h x.
Lemma join_ok h a p v b : chain h 0 (a ++ b) 0 -> NoDup (addrs (a ++ b)) -> ~ In p (addrs (a ++ b)) -> ~ In 0 (addrs (a ++ b)) ->
  chain (join_heap h a p v b) 0 (a ++ (p, v) :: b) 0.
Proof.
  intros C N Np N0. apply chain_app in C. destruct C as (C1 & C2). rewrite addrs_app in *. rewrite in_app_iff in Np, N0.
  apply chain_app. cbn [first_or]. split.
  - destruct (last_split a 0) as [(-> & _)|(a' & q & w & -> & E)]; [exact I|].
    assert (E2 := C1). apply chain_mid in E2. cbn [first_or] in E2. rewrite addrs_app in *. cbn [addrs map fst] in *.
    assert (M := nodup_mid (addrs a') (addrs b) q). rewrite <- app_assoc in N. cbn [app] in N. specialize (M N). destruct M as (M1 & M2 & M3).
    assert (X := chain_next _ _ _ _ _ _ p C1 M1). eapply chain_ext; [|exact X]. intros x Ix. rewrite addrs_app in Ix. cbn [addrs map fst] in Ix.
    assert (Ia : In x (addrs a' ++ [q])) by exact Ix.
    unfold join_heap. rewrite E. destruct (Z.eqb_spec x p); [subst; tauto|]. destruct (Z.eqb_spec x q).
    + subst x. rewrite E2, upd_same. reflexivity.
    + rewrite upd_other by exact n0. destruct (Z.eqb_spec x (first_or b 0)); [|reflexivity]. exfalso. destruct b as [|(r, z) b]; cbn in e.
      * subst x. tauto.
      * subst x. eapply (nodup_app_dis (addrs a' ++ [q]) (addrs ((r, z) :: b)) r); [rewrite <- app_assoc; exact N|exact Ia|left; reflexivity].
  - cbn [chain]. split. { unfold join_heap. rewrite Z.eqb_refl. reflexivity. }
    destruct b as [|(q, w) b]; [exact I|]. cbn [addrs map fst] in *. assert (Eq := proj1 C2).
    assert (M := nodup_mid (addrs a) (addrs b) q N). destruct M as (M1 & M2 & M3).
    assert (X := chain_prev _ _ p _ _ _ _ C2 M2). eapply chain_ext; [|exact X]. intros x Ix. cbn [addrs map fst] in Ix.
    unfold join_heap. cbn [first_or]. destruct (Z.eqb_spec x p); [subst; tauto|].
    destruct (Z.eqb_spec x (last_or a 0)).
    { exfalso. destruct (last_split a 0) as [(-> & E)|(a' & r & z & -> & E)]; rewrite E in *; subst x; [tauto|].
      eapply (nodup_app_dis (addrs (a' ++ [(r, z)])) (addrs ((q, w) :: b)) r); [exact N|rewrite addrs_app; apply in_or_app; right; left; reflexivity|exact Ix]. }
    destruct (Z.eqb_spec x q); [subst x; rewrite Eq, upd_same; reflexivity|]. rewrite upd_other by assumption. reflexivity.
Qed.
Lemma addrs_mid a p (v : A) b x : In x (addrs (a ++ (p, v) :: b)) <-> x = p \/ In x (addrs (a ++ b)).
Proof. rewrite !addrs_app, !in_app_iff. cbn [addrs map fst In]. intuition congruence. Qed.
Lemma NoDup_mid_intro {B} (a b : list B) x : NoDup (a ++ b) -> ~ In x (a ++ b) -> NoDup (a ++ x :: b).
Proof. intros N M. apply (Permutation_NoDup (l := x :: a ++ b)); [apply Permutation_middle|constructor; assumption]. Qed.
(** A state whose heap is the joined heap represents the longer list. *)
Lemma rep_join s a b v s' : rep s (a ++ b) -> zlen (a ++ b) + 1 < 2 ^ 64 ->
  (forall x, heap s' x = join_heap (heap s) a (fresh s) v b x) -> fresh s' = fresh s + 1 -> size s' = w64 (size s + 1) ->
  first_ s' = first_or (a ++ (fresh s, v) :: b) 0 -> last_ s' = last_or (a ++ (fresh s, v) :: b) 0 -> rep s' (a ++ (fresh s, v) :: b).
Proof.
  intros (C & N & F & R1 & R2 & R3 & R4 & R5) Hb H1 H2 H3 H4 H5.
  assert (Nf : ~ In (fresh s) (addrs (a ++ b))) by (intros I; apply F in I; lia). assert (N0 : ~ In 0 (addrs (a ++ b))) by (intros I; apply F in I; lia).
  split; [|split; [|split; [|split; [exact H4|split; [exact H5|split; [|split; [|lia]]]]]]].
  - eapply chain_ext; [|apply (join_ok (heap s) a (fresh s) v b C N Nf N0)]. intros x _. apply H1.
  - rewrite addrs_app. cbn [addrs map fst]. rewrite addrs_app in N, Nf. apply NoDup_mid_intro; assumption.
  - intros x I. apply addrs_mid in I. destruct I as [->|I]; [lia|]. apply F in I. lia.
  - rewrite H3, R3. unfold w64. rewrite ?zlen_app, ?zlen_cons in *. pose proof (zlen_nonneg a). pose proof (zlen_nonneg b). rewrite Z.mod_small by lia. lia.
  - intros x Hx. apply addrs_mid. rewrite H1 in Hx. unfold join_heap in Hx. destruct (Z.eqb_spec x (fresh s)); [left; assumption|right]. apply R4.
    destruct (x =? last_or a 0); [destruct (heap s x); [discriminate|congruence]|]. destruct (x =? first_or b 0); [destruct (heap s x); [discriminate|congruence]|exact Hx].
Qed.
(** A node [p] taken out from between [a] and [b]. *)
Definition cut_heap h a p b : Z -> option (node A) :=
  fun x => if x =? p then None
           else if x =? last_or a 0 then (match h x with Some n => Some (nd (first_or b 0) (prev n) (value n)) | None => None end)
           else if x =? first_or b 0 then (match h x with Some n => Some (nd (next n) (last_or a 0) (value n)) | None => None end)
           else h x.
Lemma cut_ok h a p v b : chain h 0 (a ++ (p, v) :: b) 0 -> NoDup (addrs (a ++ (p, v) :: b)) -> ~ In 0 (addrs (a ++ (p, v) :: b)) ->
  chain (cut_heap h a p b) 0 (a ++ b) 0.
Proof.
  intros C N N0. apply chain_app in C. destruct C as (C1 & C2). cbn [chain] in C2. destruct C2 as (_ & C2). rewrite addrs_app in *. cbn [addrs map fst] in *.
  assert (Mp := nodup_mid (addrs a) (addrs b) p N). destruct Mp as (Np1 & Np2 & Nab). rewrite in_app_iff in N0. cbn [In] in N0.
  apply chain_app. split.
  - destruct (last_split a 0) as [(-> & _)|(a' & q & w & -> & E)]; [exact I|].
    assert (E2 := C1). apply chain_mid in E2. cbn [first_or] in E2. rewrite addrs_app in *. cbn [addrs map fst] in *. rewrite <- app_assoc in Nab. cbn [app] in Nab.
    assert (M := nodup_mid (addrs a') (addrs b) q Nab). destruct M as (M1 & M2 & M3).
    assert (X := chain_next _ _ _ _ _ _ (first_or b 0) C1 M1). eapply chain_ext; [|exact X]. intros x Ix. rewrite addrs_app in Ix. cbn [addrs map fst] in Ix.
    unfold cut_heap. rewrite E. destruct (Z.eqb_spec x p); [subst; tauto|]. destruct (Z.eqb_spec x q).
    + subst x. rewrite E2, upd_same. reflexivity.
    + rewrite upd_other by exact n0. destruct (Z.eqb_spec x (first_or b 0)); [|reflexivity]. exfalso. destruct b as [|(r, z) b]; cbn in e.
      * subst x. tauto.
      * subst x. eapply (nodup_app_dis (addrs a' ++ [q]) (addrs ((r, z) :: b)) r); [rewrite <- app_assoc; exact Nab|exact Ix|left; reflexivity].
  - destruct b as [|(q, w) b]; [exact I|]. cbn [addrs map fst] in *. assert (Eq := proj1 C2).
    assert (M := nodup_mid (addrs a) (addrs b) q Nab). destruct M as (M1 & M2 & M3).
    assert (X := chain_prev _ _ (last_or a 0) _ _ _ _ C2 M2). eapply chain_ext; [|exact X]. intros x Ix. cbn [addrs map fst] in Ix.
    unfold cut_heap. cbn [first_or]. destruct (Z.eqb_spec x p); [subst; tauto|].
    destruct (Z.eqb_spec x (last_or a 0)).
    { exfalso. destruct (last_split a 0) as [(-> & E)|(a' & r & z & -> & E)]; rewrite E in *; subst x; [cbn in N0; tauto|].
      eapply (nodup_app_dis (addrs (a' ++ [(r, z)])) (addrs ((q, w) :: b)) r); [exact Nab|rewrite addrs_app; apply in_or_app; right; left; reflexivity|exact Ix]. }
    destruct (Z.eqb_spec x q); [subst x; rewrite Eq, upd_same; reflexivity|]. rewrite upd_other by assumption. reflexivity.
Qed.
Lemma rep_cut s a p v b s' : rep s (a ++ (p, v) :: b) -> zlen (a ++ (p, v) :: b) < 2 ^ 64 ->
  (forall x, heap s' x = cut_heap (heap s) a p b x) -> fresh s' = fresh s -> size s' = w64 (size s - 1) ->
  first_ s' = first_or (a ++ b) 0 -> last_ s' = last_or (a ++ b) 0 -> rep s' (a ++ b).
Proof.
  intros (C & N & F & R1 & R2 & R3 & R4 & R5) Hb H1 H2 H3 H4 H5.
  assert (N0 : ~ In 0 (addrs (a ++ (p, v) :: b))) by (intros I; apply F in I; lia).
  split; [|split; [|split; [|split; [exact H4|split; [exact H5|split; [|split; [|lia]]]]]]].
  - eapply chain_ext; [|apply (cut_ok (heap s) a p v b C N N0)]. intros x _. apply H1.
  - rewrite addrs_app in *. cbn [addrs map fst] in N. apply nodup_mid in N. apply N.
  - intros x I. rewrite H2. apply F. apply addrs_mid. right. exact I.
  - rewrite H3, R3. unfold w64. rewrite ?zlen_app, ?zlen_cons in *. pose proof (zlen_nonneg a). pose proof (zlen_nonneg b). rewrite Z.mod_small by lia. lia.
  - intros x Hx. rewrite H1 in Hx. unfold cut_heap in Hx. destruct (Z.eqb_spec x p); [congruence|].
    assert (I : In x (addrs (a ++ (p, v) :: b))).
    { apply R4. destruct (x =? last_or a 0); [destruct (heap s x); [discriminate|congruence]|]. destruct (x =? first_or b 0); [destruct (heap s x); [discriminate|congruence]|exact Hx]. }
    apply addrs_mid in I. destruct I; [contradiction|assumption].
Qed.

Lemma last_in a : last_or a 0 = 0 \/ In (last_or a 0) (addrs a).
Proof. destruct (last_split a 0) as [(_ & ->)|(a' & q & w & -> & ->)]; [left; reflexivity|right]. rewrite addrs_app. apply in_or_app. right. left. reflexivity. Qed.
Lemma first_in a : first_or a 0 = 0 \/ In (first_or a 0) (addrs a).
Proof. destruct a as [|(q, w) a]; [left; reflexivity|right]. left. reflexivity. Qed.
Lemma neq_last_first a p (v : A) b s : rep s (a ++ (p, v) :: b) -> last_or a 0 <> p /\ first_or b 0 <> p /\ (last_or a 0 = first_or b 0 -> last_or a 0 = 0).
Proof.
  intros (C & N & F & _). assert (N0 : ~ In 0 (addrs (a ++ (p, v) :: b))) by (intros I; apply F in I; lia). rewrite addrs_app in *. cbn [addrs map fst] in *.
  assert (M := nodup_mid (addrs a) (addrs b) p N). destruct M as (M1 & M2 & M3). rewrite in_app_iff in N0. cbn [In] in N0.
  destruct (last_in a) as [E|E], (first_in b) as [G|G]; repeat split; intros H; try congruence; try tauto;
    try (rewrite H in E; tauto); try (rewrite H in G; tauto).
  exfalso. rewrite H in E. exact (nodup_app_dis _ _ _ M3 E G).
Qed.
Lemma fresh_neq s a b : rep s (a ++ b) -> last_or a 0 <> fresh s /\ first_or b 0 <> fresh s /\ (last_or a 0 = first_or b 0 -> last_or a 0 = 0).
Proof.
  intros (C & N & F & _ & _ & _ & _ & R5). assert (Nf : ~ In (fresh s) (addrs (a ++ b))) by (intros I; apply F in I; lia).
  rewrite addrs_app, in_app_iff in *.
  destruct (last_in a) as [E|E], (first_in b) as [G|G]; repeat split; intros H; try lia; try (rewrite H in E; tauto); try (rewrite H in G; tauto).
  exfalso. rewrite H in E. exact (nodup_app_dis _ _ _ N E G).
Qed.
Lemma heap_last s a b : rep s (a ++ b) -> last_or a 0 <> 0 -> exists n, heap s (last_or a 0) = Some n /\ next n = first_or b 0.
Proof.
  intros (C & _) H. destruct (last_split a 0) as [(-> & E)|(a' & q & w & -> & E)]; [congruence|]. rewrite E. rewrite <- app_assoc in C. cbn [app] in C. apply chain_mid in C. rewrite C. eexists. split; reflexivity.
Qed.
Lemma heap_first s a b : rep s (a ++ b) -> first_or b 0 <> 0 -> exists n, heap s (first_or b 0) = Some n /\ prev n = last_or a 0.
Proof.
  intros (C & _) H. destruct b as [|(q, w) b]; [contradiction H; reflexivity|]. cbn [first_or]. apply chain_mid in C. rewrite C. eexists. split; reflexivity.
Qed.

Lemma heap_zero s l : rep s l -> heap s 0 = None.
Proof. intros (C & N & F & R1 & R2 & R3 & R4 & R5). destruct (heap s 0) eqn:G; [exfalso; assert (I : In 0 (addrs l)) by (apply R4; congruence); apply F in I; lia|reflexivity]. Qed.
Ltac hx :=
  intros y; cbn [heap set_size set_last set_first with_heap]; unfold upd_heap, join_heap, cut_heap; cbn [first_or];
  repeat (match goal with |- context [Z.eqb ?u ?v] => destruct (Z.eqb_spec u v) end); subst;
  repeat (match goal with H : ?a = ?b |- _ => progress (rewrite H in * ) end); try reflexivity; try congruence; try lia; try tauto.
Ltac ld p n := match goal with |- context [load ?st p] => let E := fresh in assert (E : load st p = Ok n); [apply load_ok; [try assumption|cbn [heap with_heap set_size set_last set_first]]|rewrite !E; clear E] end.
Lemma push_front_ok s l x : rep s l -> zlen l + 1 < 2 ^ 64 -> exists s', push_front s x = Ok s' /\ rep s' ((fresh s, x) :: l).
Proof.
  intros R Hb. assert (Q := fresh_neq s [] l R). change (last_or [] 0) with 0 in Q. destruct Q as (Q1 & Q2 & _). assert (Hz := heap_zero s l R). assert (R' := R). destruct R' as (C & N & F & R1 & R2 & R3 & R4 & R5).
  unfold push_front, new_node. rewrite R1. destruct (Z.eqb_spec (first_or l 0) 0) as [E|E].
  - assert (Z0 := first_zero s l R E). subst l. eexists. split; [reflexivity|]. apply (rep_join s [] [] x); try reflexivity; [exact R|].
    change (last_or [] 0) with 0. clear - Hz. intros y. cbn. unfold upd_heap, join_heap. cbn. destruct (y =? fresh s); [reflexivity|]. destruct (Z.eqb_spec y 0) as [->|]; [rewrite Hz|]; reflexivity.
  - destruct (heap_first s [] l R E) as (n & H1 & H2). unfold set_prev, store.
    assert (L : load (set_first (mkll (upd_heap (heap s) (fresh s) (Some (nd (first_or l 0) 0 x))) (fresh s + 1) (size s) (first_or l 0) (last_ s)) (fresh s)) (first_or l 0) = Ok n).
    { apply load_ok; [exact E|]. cbn. rewrite upd_other by exact Q2. exact H1. }
    rewrite L. cbn [bind]. eexists. split; [reflexivity|]. apply (rep_join s [] l x); try reflexivity; [exact R|exact Hb| |].
    + intros y. cbn. unfold upd_heap, join_heap. cbn. destruct (Z.eqb_spec y (fresh s)) as [->|Y1].
      * destruct (Z.eqb_spec (fresh s) (first_or l 0)); [congruence|reflexivity].
      * destruct (Z.eqb_spec y (first_or l 0)) as [->|Y2]; [|destruct (Z.eqb_spec y 0) as [->|]; [rewrite Hz|]; reflexivity].
        destruct (Z.eqb_spec (first_or l 0) 0); [congruence|]. rewrite H1. reflexivity.
    + cbn [last_ set_size set_first with_heap]. rewrite R2. cbn [app]. rewrite last_or_cons. destruct (last_split l 0) as [(-> & G)|(a' & r & z & -> & G)]; [contradiction E; reflexivity|]. rewrite !last_or_app. reflexivity.
Qed.
Lemma first_or_nz l x : first_or l 0 <> 0 -> first_or l x = first_or l 0.
Proof. destruct l as [|(p, v) l]; [intros H; contradiction H|]; reflexivity. Qed.
Lemma last_or_nz l x : last_or l 0 <> 0 -> last_or l x = last_or l 0.
Proof. unfold last_or. destruct (rev l) as [|(p, v) r]; [intros H; contradiction H|]; reflexivity. Qed.
Lemma last_zero s l : rep s l -> last_or l 0 = 0 -> l = [].
Proof.
  intros (_ & _ & F & _) H. destruct (last_split l 0) as [(-> & _)|(a' & r & z & -> & G)]; [reflexivity|]. assert (I : In r (addrs (a' ++ [(r, z)]))) by (rewrite addrs_app; apply in_or_app; right; left; reflexivity). apply F in I. lia.
Qed.
Lemma push_ok s l x : rep s l -> zlen l + 1 < 2 ^ 64 -> exists s', push s x = Ok s' /\ rep s' (l ++ [(fresh s, x)]).
Proof.
  intros R Hb. assert (Rl : rep s (l ++ [])) by (rewrite app_nil_r; exact R). assert (Q := fresh_neq s l [] Rl). change (first_or [] 0) with 0 in Q. destruct Q as (Q1 & Q2 & _). assert (Hz := heap_zero s l R). assert (R' := R). destruct R' as (C & N & F & R1 & R2 & R3 & R4 & R5).
  unfold push, new_node. rewrite R2. destruct (Z.eqb_spec (last_or l 0) 0) as [E|E].
  - assert (Z0 := last_zero s l R E). subst l. eexists. split; [reflexivity|]. apply (rep_join s [] [] x); try reflexivity; [exact R|].
    change (last_or [] 0) with 0. clear - Hz. intros y. cbn. unfold upd_heap, join_heap. cbn. destruct (y =? fresh s); [reflexivity|]. destruct (Z.eqb_spec y 0) as [->|]; [rewrite Hz|]; reflexivity.
  - destruct (heap_last s l [] Rl E) as (n & H1 & H2). unfold set_next, store.
    assert (L : load (set_last (mkll (upd_heap (heap s) (fresh s) (Some (nd 0 (last_or l 0) x))) (fresh s + 1) (size s) (first_ s) (last_or l 0)) (fresh s)) (last_or l 0) = Ok n).
    { apply load_ok; [exact E|]. cbn. rewrite upd_other by exact Q1. exact H1. }
    rewrite L. cbn [bind]. eexists. split; [reflexivity|]. apply (rep_join s l [] x); try reflexivity; [exact Rl|rewrite app_nil_r; exact Hb| | |].
    + intros y. cbn. unfold upd_heap, join_heap. cbn. destruct (Z.eqb_spec y (fresh s)) as [->|Y1].
      * destruct (Z.eqb_spec (fresh s) (last_or l 0)); [congruence|reflexivity].
      * destruct (Z.eqb_spec y (last_or l 0)) as [->|Y2]; [rewrite H1; reflexivity|]. destruct (Z.eqb_spec y 0) as [->|]; [rewrite Hz|]; reflexivity.
    + cbn [first_ set_size set_last with_heap]. rewrite R1, first_or_app. symmetry. apply first_or_nz. intros G. apply (first_zero s l R) in G. subst l. apply E. reflexivity.
    + cbn [last_ set_size set_last with_heap]. rewrite last_or_app. reflexivity.
Qed.
Lemma link_before_ok s a q w b x : rep s (a ++ (q, w) :: b) -> zlen (a ++ (q, w) :: b) + 1 < 2 ^ 64 ->
  exists s', link_before s q x = Ok s' /\ rep s' (a ++ (fresh s, x) :: (q, w) :: b).
Proof.
  intros R Hb. destruct (fresh_neq s a ((q, w) :: b) R) as (Q1 & Q2 & Q3). cbn [first_or] in *. assert (Hz := heap_zero _ _ R). destruct (load_mid _ _ _ _ _ R) as (L & Lz).
  assert (Hq : heap s q = Some (nd (first_or b 0) (last_or a 0) w)) by (apply (chain_mid _ _ _ _ _ _ _ (proj1 R))).
  unfold link_before. rewrite L. cbn [bind prev new_node]. unfold set_prev at 1. unfold store at 1. ld q (nd (first_or b 0) (last_or a 0) w); [rewrite upd_other by exact Q2; exact Hq|]. cbn [bind next value].
  assert (J : forall s', (forall y, heap s' y = join_heap (heap s) a (fresh s) x ((q, w) :: b) y) -> fresh s' = fresh s + 1 -> size s' = w64 (size s + 1) ->
     first_ s' = first_or (a ++ [(fresh s, x)]) 0 -> last_ s' = last_ s -> rep s' (a ++ (fresh s, x) :: (q, w) :: b)).
  { intros s' J1 J2 J3 J4 J5. apply (rep_join s); try assumption.
    - rewrite J4, !first_or_app. reflexivity.
    - rewrite J5. destruct R as (_ & _ & _ & _ & -> & _). rewrite !last_or_app2, !last_or_cons. reflexivity. }
  destruct (Z.eqb_spec (last_or a 0) 0) as [E|E].
  - eexists. split; [reflexivity|]. assert (Za : a = []). { destruct (last_split a 0) as [(-> & _)|(a' & r & z & -> & G)]; [reflexivity|exfalso]. rewrite last_or_app in E. subst r. rewrite <- app_assoc in R. destruct (load_mid _ _ _ _ _ R) as (_ & Y). apply Y. reflexivity. }
    subst a. apply J; try reflexivity. intros y. cbn. unfold upd_heap, join_heap. cbn. destruct (Z.eqb_spec y q) as [->|Y1].
    + destruct (Z.eqb_spec q (fresh s)); [congruence|]. destruct (Z.eqb_spec q 0); [congruence|]. rewrite Hq. reflexivity.
    + destruct (Z.eqb_spec y (fresh s)); [reflexivity|]. destruct (Z.eqb_spec y 0) as [->|]; [rewrite Hz|]; reflexivity.
  - destruct (heap_last s a ((q, w) :: b) R E) as (n & H1 & H2). assert (Eq : last_or a 0 <> q) by (intros Y; apply E, Q3, Y). unfold set_next, store.
    ld (last_or a 0) n; [rewrite upd_other by exact Eq; rewrite upd_other by exact Q1; exact H1|]. cbn [bind].
    eexists. split; [reflexivity|]. apply J; try reflexivity.
    + intros y. cbn. unfold upd_heap, join_heap. cbn. destruct (Z.eqb_spec y (last_or a 0)) as [->|Y1].
      * destruct (Z.eqb_spec (last_or a 0) (fresh s)); [congruence|]. rewrite H1. reflexivity.
      * destruct (Z.eqb_spec y q) as [->|Y2]; [|reflexivity]. destruct (Z.eqb_spec q (fresh s)); [congruence|]. rewrite Hq. reflexivity.
    + cbn [first_ with_heap set_size]. destruct R as (_ & _ & _ & -> & _). rewrite !first_or_app. cbn [first_or].
      destruct a; [contradiction E|]; reflexivity.
Qed.

Lemma a_nil s a b : rep s (a ++ b) -> last_or a 0 = 0 -> a = [].
Proof.
  intros R E. destruct (last_split a 0) as [(-> & _)|(a' & r & z & -> & G)]; [reflexivity|exfalso]. rewrite last_or_app in E. subst r. rewrite <- app_assoc in R. destruct (load_mid _ _ _ _ _ R) as (_ & Y). apply Y. reflexivity.
Qed.
Lemma b_nil s a b : rep s (a ++ b) -> first_or b 0 = 0 -> b = [].
Proof.
  intros R E. destruct b as [|(r, z) b]; [reflexivity|exfalso]. cbn in E. subst r. destruct (load_mid _ _ _ _ _ R) as (_ & Y). apply Y. reflexivity.
Qed.
Lemma cut_intro s a p v b s' : rep s (a ++ (p, v) :: b) -> zlen (a ++ (p, v) :: b) < 2 ^ 64 ->
  (forall x, heap s' x = cut_heap (heap s) a p b x) -> fresh s' = fresh s -> size s' = w64 (size s - 1) ->
  first_ s' = (if last_or a 0 =? 0 then first_or b 0 else first_ s) -> last_ s' = (if first_or b 0 =? 0 then last_or a 0 else last_ s) -> rep s' (a ++ b).
Proof.
  intros R Hb J1 J2 J3 J4 J5. apply (rep_cut s a p v); try assumption.
  - rewrite J4. destruct (Z.eqb_spec (last_or a 0) 0) as [E|E].
    + apply (a_nil _ _ _ R) in E. subst a. reflexivity.
    + destruct R as (_ & _ & _ & -> & _). rewrite !first_or_app. cbn [first_or]. destruct a; [contradiction E|]; reflexivity.
  - rewrite J5. destruct (Z.eqb_spec (first_or b 0) 0) as [E|E].
    + assert (R2 : rep s ((a ++ [(p, v)]) ++ b)) by (rewrite <- app_assoc; exact R). apply (b_nil _ _ _ R2) in E. subst b. rewrite app_nil_r. reflexivity.
    + destruct R as (_ & _ & _ & _ & -> & _). rewrite !last_or_app2, last_or_cons. destruct (last_split b 0) as [(-> & G)|(a' & r & z & -> & G)]; [contradiction E; reflexivity|]. rewrite !last_or_app. reflexivity.
Qed.
Lemma unlink_ok s a p v b : rep s (a ++ (p, v) :: b) -> zlen (a ++ (p, v) :: b) < 2 ^ 64 ->
  exists s', unlink s p = Ok s' /\ rep s' (a ++ b).
Proof.
  intros R Hb. destruct (neq_last_first a p v b s R) as (Q1 & Q2 & Q3). assert (Hz := heap_zero _ _ R). destruct (load_mid _ _ _ _ _ R) as (L & Lz).
  assert (Hp : heap s p = Some (nd (first_or b 0) (last_or a 0) v)) by (apply (chain_mid _ _ _ _ _ _ _ (proj1 R))).
  assert (R2 : rep s ((a ++ [(p, v)]) ++ b)) by (rewrite <- app_assoc; exact R).
  assert (J := fun s' => cut_intro s a p v b s' R Hb).
  unfold unlink. rewrite L. cbn [bind prev next]. destruct (Z.eqb_spec (last_or a 0) 0) as [E|E].
  - cbn [bind]. destruct (Z.eqb_spec (first_or b 0) 0) as [G|G].
    + cbn [bind]. unfold free_node. ld p (nd (first_or b 0) (last_or a 0) v); [exact Hp|]. cbn [bind]. eexists. split; [reflexivity|]. apply J; try reflexivity.
      intros y. cbn. unfold upd_heap, cut_heap. cbn. rewrite E, G. destruct (Z.eqb_spec y p); [reflexivity|]. destruct (Z.eqb_spec y 0) as [->|]; [rewrite Hz|]; reflexivity.
    + destruct (heap_first s _ b R2 G) as (n & H1 & H2). unfold set_prev, store. ld (first_or b 0) n; [exact H1|]. cbn [bind]. unfold free_node.
      ld p (nd (first_or b 0) (last_or a 0) v); [rewrite upd_other by congruence; exact Hp|]. cbn [bind]. eexists. split; [reflexivity|]. apply J; try reflexivity.
      intros y. cbn. unfold upd_heap, cut_heap. cbn. rewrite E. destruct (Z.eqb_spec y p); [reflexivity|]. destruct (Z.eqb_spec y (first_or b 0)) as [->|Y].
      * destruct (Z.eqb_spec (first_or b 0) 0); [congruence|]. rewrite H1. reflexivity.
      * destruct (Z.eqb_spec y 0) as [->|]; [rewrite Hz|]; reflexivity.
  - destruct (heap_last s a _ R E) as (m & M1 & M2). unfold set_next, store at 1. ld (last_or a 0) m; [exact M1|]. cbn [bind]. destruct (Z.eqb_spec (first_or b 0) 0) as [G|G].
    + cbn [bind]. unfold free_node. ld p (nd (first_or b 0) (last_or a 0) v); [rewrite upd_other by congruence; exact Hp|]. cbn [bind]. eexists. split; [reflexivity|]. apply J; try reflexivity.
      intros y. cbn. unfold upd_heap, cut_heap. cbn. rewrite G. destruct (Z.eqb_spec y p); [reflexivity|]. destruct (Z.eqb_spec y (last_or a 0)) as [->|Y].
      * rewrite M1. reflexivity.
      * destruct (Z.eqb_spec y 0) as [->|]; [rewrite Hz|]; reflexivity.
    + destruct (heap_first s _ b R2 G) as (n & H1 & H2). assert (Q4 : first_or b 0 <> last_or a 0) by (intros Y; symmetry in Y; apply E, Q3, Y). unfold set_prev, store.
      ld (first_or b 0) n; [rewrite upd_other by exact Q4; exact H1|]. cbn [bind]. unfold free_node.
      ld p (nd (first_or b 0) (last_or a 0) v); [rewrite !upd_other by congruence; exact Hp|]. cbn [bind]. eexists. split; [reflexivity|]. apply J; try reflexivity.
      intros y. cbn. unfold upd_heap, cut_heap. cbn. destruct (Z.eqb_spec y p); [reflexivity|]. destruct (Z.eqb_spec y (first_or b 0)) as [->|Y].
      * destruct (Z.eqb_spec (first_or b 0) (last_or a 0)); [congruence|]. rewrite H1. reflexivity.
      * destruct (Z.eqb_spec y (last_or a 0)) as [->|]; [rewrite M1|]; reflexivity.
Qed.
Lemma unlink_first_ok s p v b : rep s ((p, v) :: b) -> zlen ((p, v) :: b) < 2 ^ 64 -> exists s', unlink_first s = Ok s' /\ rep s' b.
Proof.
  intros R Hb. destruct (neq_last_first [] p v b s R) as (Q1 & Q2 & Q3). assert (Hz := heap_zero _ _ R). destruct (load_mid s [] _ _ _ R) as (L & Lz).
  assert (Hp : heap s p = Some (nd (first_or b 0) 0 v)) by (apply (chain_mid _ _ [] _ _ _ _ (proj1 R))).
  assert (J := fun s' => cut_intro s [] p v b s' R Hb). assert (Ef : first_ s = p) by apply R.
  unfold unlink_first. rewrite Ef, L. cbn [bind prev next]. unfold free_node. rewrite L. cbn [bind]. destruct (Z.eqb_spec (first_or b 0) 0) as [G|G].
  - cbn [bind]. eexists. split; [reflexivity|]. apply J; try reflexivity.
    intros y. cbn. unfold upd_heap, cut_heap. cbn. rewrite G. destruct (Z.eqb_spec y p); [reflexivity|]. destruct (Z.eqb_spec y 0) as [->|]; [rewrite Hz|]; reflexivity.
  - destruct (heap_first s [(p, v)] b R G) as (n & H1 & H2). unfold set_prev, store. ld (first_or b 0) n; [rewrite upd_other by congruence; exact H1|]. cbn [bind].
    eexists. split; [reflexivity|]. apply J; try reflexivity.
    intros y. cbn. unfold upd_heap, cut_heap. cbn. destruct (Z.eqb_spec y (first_or b 0)) as [->|Y].
    + destruct (Z.eqb_spec (first_or b 0) p); [congruence|]. destruct (Z.eqb_spec (first_or b 0) 0); [congruence|]. rewrite H1. reflexivity.
    + destruct (Z.eqb_spec y p); [reflexivity|]. destruct (Z.eqb_spec y 0) as [->|]; [rewrite Hz|]; reflexivity.
Qed.
Lemma unlink_last_ok s a p v : rep s (a ++ [(p, v)]) -> zlen (a ++ [(p, v)]) < 2 ^ 64 -> exists s', unlink_last s = Ok s' /\ rep s' a.
Proof.
  intros R Hb. destruct (neq_last_first a p v [] s R) as (Q1 & Q2 & Q3). assert (Hz := heap_zero _ _ R). destruct (load_mid s a _ _ _ R) as (L & Lz).
  assert (Hp : heap s p = Some (nd 0 (last_or a 0) v)) by (apply (chain_mid _ _ a _ _ _ _ (proj1 R))).
  assert (J := fun s' => cut_intro s a p v [] s' R Hb). rewrite app_nil_r in J. assert (Ef : last_ s = p) by (destruct R as (_ & _ & _ & _ & -> & _); apply last_or_app).
  unfold unlink_last. rewrite Ef, L. cbn [bind prev next]. unfold free_node. ld p (nd 0 (last_or a 0) v); [exact Hp|]. cbn [bind]. destruct (Z.eqb_spec (last_or a 0) 0) as [G|G].
  - cbn [bind]. eexists. split; [reflexivity|]. apply J; try reflexivity.
    intros y. cbn. unfold upd_heap, cut_heap. cbn. rewrite G. destruct (Z.eqb_spec y p); [reflexivity|]. destruct (Z.eqb_spec y 0) as [->|]; [rewrite Hz|]; reflexivity.
  - destruct (heap_last s a [(p, v)] R G) as (n & H1 & H2). unfold set_next, store. ld (last_or a 0) n; [rewrite upd_other by congruence; exact H1|]. cbn [bind].
    eexists. split; [reflexivity|]. apply J; try reflexivity.
    intros y. cbn. unfold upd_heap, cut_heap. cbn. destruct (Z.eqb_spec y (last_or a 0)) as [->|Y].
    + destruct (Z.eqb_spec (last_or a 0) p); [congruence|]. rewrite H1. reflexivity.
    + destruct (Z.eqb_spec y p); [reflexivity|]. destruct (Z.eqb_spec y 0) as [->|]; [rewrite Hz|]; reflexivity.
Qed.

Lemma rep_empty : rep empty [].
Proof. unfold rep. split; [exact I|]. split; [constructor|]. split; [intros p []|]. repeat split; try reflexivity. intros p H. apply H. reflexivity. Qed.
Lemma clear_loop_ok : forall l s pr fuel, chain (heap s) pr l 0 -> NoDup (addrs l) -> (forall p, In p (addrs l) -> 0 < p) -> zlen l < Z.of_nat fuel ->
  exists s', clear_loop fuel s (first_or l 0) = Ok s' /\ fresh s' = fresh s /\ (forall x, In x (addrs l) -> heap s' x = None) /\ (forall x, ~ In x (addrs l) -> heap s' x = heap s x).
Proof.
  induction l as [|(p, v) l IH]; intros s pr fuel C N F Hf; (destruct fuel as [|f]; [unfold zlen in Hf; lia|]); cbn [clear_loop first_or].
  - exists s. cbn. repeat split; auto. intros x [].
  - cbn [chain addrs map fst] in *. destruct C as (C1 & C2). inversion N as [|? ? N1 N2]; subst. assert (P : p <> 0) by (assert (0 < p) by (apply F; left; reflexivity); lia).
    destruct (Z.eqb_spec p 0); [contradiction|]. unfold free_node. ld p (nd (first_or l 0) pr v); [exact C1|]. cbn [bind next].
    destruct (IH (with_heap s (upd_heap (heap s) p None)) p f) as (s' & E & Ef & E1 & E2).
    + apply chain_upd; assumption.
    + exact N2.
    + intros q I. apply F. right. exact I.
    + rewrite zlen_cons in Hf. lia.
    + exists s'. split; [exact E|]. split; [exact Ef|]. split.
      * intros x [<-|I]; [rewrite E2 by exact N1; apply upd_same|apply E1, I].
      * intros x I. cbn [In] in I. rewrite E2 by tauto. apply upd_other. intros ->. tauto.
Qed.
Lemma clear_ok s l fuel : rep s l -> zlen l < Z.of_nat fuel -> exists s', clear fuel s = Ok s' /\ rep s' [].
Proof.
  intros (C & N & F & R1 & R2 & R3 & R4 & R5) Hf. destruct (clear_loop_ok l s 0 fuel C N) as (s' & E & Ef & E1 & E2); [intros p I; apply F in I; lia|exact Hf|].
  unfold clear. rewrite R1, E. eexists. split; [reflexivity|]. unfold rep. split; [exact I|]. split; [constructor|]. split; [intros p []|]. split; [reflexivity|]. split; [reflexivity|]. split; [reflexivity|]. split; [|cbn; lia].
  cbn. intros x Hx. destruct (in_dec Z.eq_dec x (addrs l)) as [I|I]; [rewrite E1 in Hx by exact I; congruence|]. rewrite E2 in Hx by exact I. apply I, R4, Hx.
Qed.
Lemma walk_next_ok s p v b : forall m a, rep s (a ++ m ++ (p, v) :: b) -> walk next (length m) s (first_or (m ++ (p, v) :: b) 0) = Ok p.
Proof.
  induction m as [|(q, w) m IH]; intros a R; [reflexivity|]. cbn [length walk first_or app]. destruct (load_mid s a q w (m ++ (p, v) :: b) R) as (L & _). rewrite L. cbn [bind next].
  apply (IH (a ++ [(q, w)])). rewrite <- app_assoc. exact R.
Qed.
Lemma walk_prev_ok s a p v : forall m b, rep s (a ++ (p, v) :: m ++ b) -> walk prev (length m) s (last_or (a ++ (p, v) :: m) 0) = Ok p.
Proof.
  induction m as [|(q, w) m IH] using rev_ind; intros b R; [rewrite last_or_app; reflexivity|].
  rewrite app_length, Nat.add_comm. cbn [length walk Nat.add]. replace (last_or (a ++ (p, v) :: m ++ [(q, w)]) 0) with q by (rewrite app_comm_cons, app_assoc, last_or_app; reflexivity).
  assert (R2 : rep s ((a ++ (p, v) :: m) ++ (q, w) :: b)) by (rewrite <- app_assoc in *; exact R). destruct (load_mid _ _ _ _ _ R2) as (L & _). rewrite L. cbn [bind prev].
  apply (IH ((q, w) :: b)). rewrite <- app_assoc in R. exact R.
Qed.
Lemma node_at_ok s a p v b : rep s (a ++ (p, v) :: b) -> zlen (a ++ (p, v) :: b) <= 2 ^ 62 -> node_at_index s (zlen a) = Ok p.
Proof.
  intros R Hb. assert (R' := R). destruct R' as (C & N & F & R1 & R2 & R3 & R4 & R5). unfold node_at_index. rewrite R3, R1, R2, !zlen_app, !zlen_cons in *. pose proof (zlen_nonneg a). pose proof (zlen_nonneg b).
  replace (negb _) with false by lia. unfold w64. rewrite Z.mod_small by lia. destruct (zlen a + (1 + zlen b) <=? zlen a * 2).
  - replace (Z.to_nat (zlen a + (1 + zlen b) - zlen a - 1)) with (length b) by (unfold zlen; lia). apply (walk_prev_ok s a p v b []). rewrite app_nil_r. exact R.
  - replace (Z.to_nat (zlen a)) with (length a) by (unfold zlen; lia). apply (walk_next_ok s p v b a []). exact R.
Qed.
(** The values a state holds. *)
Definition holds s (xs : list A) : Prop := exists l, rep s l /\ map snd l = xs.
Lemma holds_empty : holds empty []. Proof. exists []. split; [apply rep_empty|reflexivity]. Qed.
Lemma holds_len s xs : holds s xs -> size s = zlen xs.
Proof. intros (l & R & <-). destruct R as (_ & _ & _ & _ & _ & -> & _). unfold zlen. rewrite map_length. reflexivity. Qed.
Lemma zlen_snd l : zlen (map snd l) = zlen l. Proof. unfold zlen. rewrite map_length. reflexivity. Qed.
Lemma holds_split s u x w : holds s (u ++ x :: w) -> exists a p b, rep s (a ++ (p, x) :: b) /\ map snd a = u /\ map snd b = w.
Proof.
  intros (l & R & E). apply map_eq_app in E. destruct E as (a & c & -> & Ea & E). apply map_eq_cons in E. destruct E as ((p, y) & b & -> & Ey & Eb). cbn in Ey. subst y. exists a, p, b. auto.
Qed.
Lemma first_ok s xs : holds s xs -> first s = Ok (hd_error xs).
Proof.
  intros (l & R & <-). unfold first. assert (R' := R). destruct R' as (_ & _ & _ & -> & _). destruct l as [|(p, v) l]; [reflexivity|]. cbn [first_or map snd hd_error].
  destruct (load_mid s [] p v l R) as (L & Z0). destruct (Z.eqb_spec p 0); [contradiction|]. rewrite L. reflexivity.
Qed.
Lemma last_ok s xs : holds s xs -> last s = Ok (hd_error (rev xs)).
Proof.
  intros (l & R & <-). unfold last. assert (R' := R). destruct R' as (_ & _ & _ & _ & -> & _). destruct (last_split l 0) as [(-> & _)|(a & p & v & -> & ->)]; [reflexivity|].
  destruct (load_mid s a p v [] R) as (L & Z0). destruct (Z.eqb_spec p 0); [contradiction|]. rewrite L. rewrite map_app, rev_app_distr. reflexivity.
Qed.
Lemma pop_ok s xs : holds s xs -> zlen xs < 2 ^ 64 -> exists s', pop s = Ok (hd_error (rev xs), s') /\ holds s' (removelast xs).
Proof.
  intros (l & R & <-) Hb. rewrite zlen_snd in Hb. unfold pop. assert (R' := R). destruct R' as (_ & _ & _ & _ & -> & _). destruct (last_split l 0) as [(-> & _)|(a & p & v & -> & ->)].
  - exists s. split; [reflexivity|]. exists []. split; [exact R|reflexivity].
  - destruct (load_mid s a p v [] R) as (L & Z0). destruct (Z.eqb_spec p 0); [contradiction|]. rewrite L. cbn [bind]. destruct (unlink_last_ok s a p v R Hb) as (s' & E & R2). rewrite E. cbn [bind value].
    exists s'. rewrite map_app, rev_app_distr. split; [reflexivity|]. exists a. split; [exact R2|]. cbn [map snd]. rewrite removelast_last. reflexivity.
Qed.
Lemma pop_front_ok s xs : holds s xs -> zlen xs < 2 ^ 64 -> exists s', pop_front s = Ok (hd_error xs, s') /\ holds s' (tl xs).
Proof.
  intros (l & R & <-) Hb. rewrite zlen_snd in Hb. unfold pop_front. assert (R' := R). destruct R' as (_ & _ & _ & -> & _). destruct l as [|(p, v) l].
  - exists s. split; [reflexivity|]. exists []. split; [exact R|reflexivity].
  - cbn [first_or]. destruct (load_mid s [] p v l R) as (L & Z0). destruct (Z.eqb_spec p 0); [contradiction|]. rewrite L. cbn [bind]. destruct (unlink_first_ok s p v l R Hb) as (s' & E & R2). rewrite E. cbn [bind value].
    exists s'. split; [reflexivity|]. exists l. split; [exact R2|]. reflexivity.
Qed.
Lemma remove_last_ok s xs : holds s xs -> zlen xs < 2 ^ 64 -> exists s', remove_last s = Ok (0 <? zlen xs, s') /\ holds s' (removelast xs).
Proof.
  intros (l & R & <-) Hb. rewrite zlen_snd in *. unfold remove_last. assert (R' := R). destruct R' as (_ & _ & _ & -> & _). destruct (last_split l 0) as [(-> & _)|(a & p & v & -> & _)].
  - exists s. split; [reflexivity|]. exists []. split; [exact R|reflexivity].
  - destruct (Z.eqb_spec (first_or (a ++ [(p, v)]) 0) 0) as [Z0|Z0]; [apply (first_zero _ _ R) in Z0; destruct a; discriminate|].
    destruct (unlink_last_ok s a p v R Hb) as (s' & E & R2). rewrite E. cbn [bind]. exists s'. rewrite zlen_app, zlen_cons. pose proof (zlen_nonneg a). split; [|exists a; split; [exact R2|rewrite map_app; cbn [map snd]; rewrite removelast_last; reflexivity]].
    rewrite (proj2 (Z.ltb_lt _ _)); [reflexivity|unfold zlen in *; lia].
Qed.
Lemma remove_first_ok s xs : holds s xs -> zlen xs < 2 ^ 64 -> exists s', remove_first s = Ok (0 <? zlen xs, s') /\ holds s' (tl xs).
Proof.
  intros (l & R & <-) Hb. rewrite zlen_snd in *. unfold remove_first. assert (R' := R). destruct R' as (_ & _ & _ & -> & _). destruct l as [|(p, v) l].
  - exists s. split; [reflexivity|]. exists []. split; [exact R|reflexivity].
  - cbn [first_or]. destruct (load_mid s [] p v l R) as (L & Z0). destruct (Z.eqb_spec p 0); [contradiction|].
    destruct (unlink_first_ok s p v l R Hb) as (s' & E & R2). rewrite E. cbn [bind]. exists s'. rewrite zlen_cons. pose proof (zlen_nonneg l). split; [|exists l; split; [exact R2|reflexivity]].
    rewrite (proj2 (Z.ltb_lt _ _)); [reflexivity|unfold zlen in *; lia].
Qed.
Lemma get_at_ok s u x w : holds s (u ++ x :: w) -> zlen (u ++ x :: w) <= 2 ^ 62 -> get_at s (zlen u) = Ok x.
Proof.
  intros H Hb. apply holds_split in H. destruct H as (a & p & b & R & <- & <-). rewrite zlen_app, zlen_cons, !zlen_snd in *. unfold get_at. rewrite (node_at_ok s a p x b R) by (rewrite zlen_app, zlen_cons; exact Hb).
  cbn [bind]. rewrite (proj1 (load_mid _ _ _ _ _ R)). reflexivity.
Qed.
Lemma rep_value s a p v b x : rep s (a ++ (p, v) :: b) -> rep (with_heap s (upd_heap (heap s) p (Some (nd (first_or b 0) (last_or a 0) x)))) (a ++ (p, x) :: b).
Proof.
  intros (C & N & F & R1 & R2 & R3 & R4 & R5). assert (Ad : addrs (a ++ (p, x) :: b) = addrs (a ++ (p, v) :: b)) by (rewrite !addrs_app; reflexivity).
  assert (N' := N). rewrite addrs_app in N'. cbn [addrs map fst] in N'. apply nodup_mid in N'. destruct N' as (N1 & N2 & _).
  unfold rep. rewrite Ad. cbn [heap fresh first_ last_ size with_heap]. split; [|split; [exact N|split; [exact F|split; [|split; [|split; [|split; [|exact R5]]]]]]].
  - apply chain_app in C. destruct C as (C1 & C2). apply chain_app. split; [apply chain_upd; assumption|]. cbn [chain] in *. split; [apply upd_same|]. apply chain_upd; [exact N2|apply C2].
  - rewrite R1, !first_or_app. reflexivity.
  - rewrite R2, !last_or_app2, !last_or_cons. reflexivity.
  - rewrite R3, !zlen_app, !zlen_cons. reflexivity.
  - intros q Hq. destruct (Z.eq_dec q p) as [->|Q]; [rewrite addrs_app; apply in_or_app; right; left; reflexivity|]. rewrite upd_other in Hq by exact Q. apply R4, Hq.
Qed.
Lemma set_at_ok s u y w x : holds s (u ++ y :: w) -> zlen (u ++ y :: w) <= 2 ^ 62 -> exists s', set_at s (zlen u) x = Ok s' /\ holds s' (u ++ x :: w).
Proof.
  intros H Hb. apply holds_split in H. destruct H as (a & p & b & R & <- & <-). rewrite zlen_app, zlen_cons, !zlen_snd in *. unfold set_at. rewrite (node_at_ok s a p y b R) by (rewrite zlen_app, zlen_cons; exact Hb).
  cbn [bind]. rewrite (proj1 (load_mid _ _ _ _ _ R)). cbn [bind next prev]. unfold store. rewrite (proj1 (load_mid _ _ _ _ _ R)). cbn [bind]. eexists. split; [reflexivity|]. eexists. split; [apply (rep_value _ _ _ _ _ x R)|].
  rewrite map_app. reflexivity.
Qed.
Lemma remove_at_ok s u y w : holds s (u ++ y :: w) -> zlen (u ++ y :: w) <= 2 ^ 62 -> exists s', remove_at s (zlen u) = Ok s' /\ holds s' (u ++ w).
Proof.
  intros H Hb. apply holds_split in H. destruct H as (a & p & b & R & <- & <-). rewrite zlen_app, zlen_cons, !zlen_snd in *. unfold remove_at. rewrite (node_at_ok s a p y b R) by (rewrite zlen_app, zlen_cons; exact Hb).
  cbn [bind]. destruct (unlink_ok s a p y b R) as (s' & E & R'); [rewrite zlen_app, zlen_cons; lia|]. exists s'. split; [exact E|]. exists (a ++ b). split; [exact R'|apply map_app].
Qed.
Lemma insert_at_ok s u w x : holds s (u ++ w) -> zlen (u ++ w) <= 2 ^ 61 -> exists s', insert_at s (zlen u) x = Ok s' /\ holds s' (u ++ x :: w).
Proof.
  intros H Hb. assert (Hs := holds_len _ _ H). unfold insert_at. rewrite Hs. rewrite zlen_app in *. pose proof (zlen_nonneg u). pose proof (zlen_nonneg w). destruct (negb _) eqn:G; [lia|].
  destruct (Z.eqb_spec (zlen u) 0) as [Z0|Z0].
  { assert (Eu : u = []) by (destruct u; [reflexivity|rewrite zlen_cons in Z0; pose proof (zlen_nonneg u); lia]). subst u. destruct H as (l & R & E). cbn [app] in *. destruct (push_front_ok s l x R) as (s' & Es & R'); [rewrite <- zlen_snd, E; lia|].
    exists s'. split; [exact Es|]. eexists. split; [exact R'|]. cbn. congruence. }
  destruct (Z.eqb_spec (zlen u) (zlen u + zlen w)) as [Z1|Z1].
  { assert (Eu : w = []) by (destruct w; [reflexivity|rewrite zlen_cons in Z1; pose proof (zlen_nonneg w); lia]). subst w. rewrite app_nil_r in *. destruct H as (l & R & E). destruct (push_ok s l x R) as (s' & Es & R'); [rewrite <- zlen_snd, E; lia|].
    exists s'. split; [exact Es|]. eexists. split; [exact R'|]. rewrite map_app. cbn. congruence. }
  destruct w as [|y w]; [rewrite zlen_nil in Z1; lia|]. apply holds_split in H. destruct H as (a & p & b & R & <- & <-). rewrite zlen_cons, !zlen_snd in *. rewrite (node_at_ok s a p y b R) by (rewrite zlen_app, zlen_cons; lia).
  cbn [bind]. destruct (link_before_ok s a p y b x R) as (s' & E & R'); [rewrite zlen_app, zlen_cons; lia|]. exists s'. split; [exact E|]. eexists. split; [exact R'|]. rewrite map_app. reflexivity.
Qed.
Variable eqb : A -> A -> bool.
Lemma remove_loop_ok t : forall l kept s fuel, rep s (kept ++ l) -> zlen (kept ++ l) < 2 ^ 64 -> zlen l < Z.of_nat fuel ->
  exists s' l', remove_loop eqb fuel s (first_or l 0) t = Ok s' /\ rep s' (kept ++ l') /\ map snd l' = others (matches eqb t) (map snd l).
Proof.
  induction l as [|(p, v) l IH]; intros kept s fuel R Hb Hf; (destruct fuel as [|f]; [unfold zlen in Hf; lia|]); cbn [remove_loop first_or].
  - exists s, []. split; [reflexivity|]. split; [exact R|reflexivity].
  - destruct (load_mid _ _ _ _ _ R) as (L & Z0). destruct (Z.eqb_spec p 0); [contradiction|]. rewrite L. cbn [bind value next map snd others filter]. unfold matches at 1. rewrite zlen_app, zlen_cons in *. pose proof (zlen_nonneg kept). pose proof (zlen_nonneg l). destruct (eqb v t); cbn [negb].
    + destruct (unlink_ok s kept p v l R) as (s1 & E & R1); [rewrite zlen_app, zlen_cons; lia|]. rewrite E. cbn [bind]. destruct (IH kept s1 f R1) as (s' & l' & E2 & R2 & E3); [rewrite zlen_app; lia|lia|]. exists s', l'. auto.
    + assert (R1 : rep s ((kept ++ [(p, v)]) ++ l)) by (rewrite <- app_assoc; exact R). destruct (IH _ s f R1) as (s' & l' & E2 & R2 & E3); [rewrite !zlen_app, zlen_cons, zlen_nil; lia|lia|].
      exists s', ((p, v) :: l'). split; [exact E2|]. split; [rewrite <- app_assoc in R2; exact R2|]. cbn [map snd]. f_equal. exact E3.
Qed.
Lemma remove_ok t s xs fuel : holds s xs -> zlen xs < 2 ^ 64 -> zlen xs < Z.of_nat fuel -> exists s', remove eqb fuel s t = Ok (zlen xs - zlen (others (matches eqb t) xs), s') /\ holds s' (others (matches eqb t) xs).
Proof.
  intros H Hb Hf. assert (Hs := holds_len _ _ H). destruct H as (l & R & <-). rewrite zlen_snd in Hb, Hf. destruct (remove_loop_ok t l [] s fuel R Hb Hf) as (s' & l' & E & R' & El). unfold remove.
  assert (Ef : first_ s = first_or l 0) by apply R. assert (H' : holds s' (others (matches eqb t) (map snd l))) by (exists l'; split; assumption). rewrite Ef, E. cbn [bind]. exists s'. rewrite Hs, (holds_len _ _ H'). auto.
Qed.
Lemma removed_succ x (l : list A) o : (forall i, o = Some i -> 0 <= i) -> removed_at (x :: l) (option_map Z.succ o) = x :: removed_at l o.
Proof.
  intros H. destruct o as [i|]; [|reflexivity]. cbn [option_map removed_at]. specialize (H i eq_refl). unfold without, before, after. replace (Z.to_nat (Z.succ i)) with (S (Z.to_nat i)) by lia.
  replace (Z.to_nat (Z.succ i + 1)) with (S (Z.to_nat (i + 1))) by lia. reflexivity.
Qed.
Lemma first_match_ok t : forall l pre s fuel, rep s (pre ++ l) -> zlen (pre ++ l) < 2 ^ 64 -> zlen l < Z.of_nat fuel ->
  exists s' l', match_loop eqb next fuel s (first_or l 0) t = Ok (existsb (matches eqb t) (map snd l), s') /\ rep s' (pre ++ l') /\ map snd l' = removed_at (map snd l) (find_first (matches eqb t) (map snd l)).
Proof.
  induction l as [|(p, v) l IH]; intros pre s fuel R Hb Hf; (destruct fuel as [|f]; [unfold zlen in Hf; lia|]); cbn [match_loop first_or].
  - exists s, []. split; [reflexivity|]. split; [exact R|reflexivity].
  - destruct (load_mid _ _ _ _ _ R) as (L & Z0). destruct (Z.eqb_spec p 0); [contradiction|]. rewrite L. cbn [bind value next map snd existsb find_first]. rewrite zlen_app, zlen_cons in *. pose proof (zlen_nonneg pre). pose proof (zlen_nonneg l).
    change (matches eqb t v) with (eqb v t). destruct (eqb v t).
    + destruct (unlink_ok s pre p v l R) as (s1 & E & R1); [rewrite zlen_app, zlen_cons; lia|]. rewrite E. exists s1, l. split; [reflexivity|]. split; [exact R1|reflexivity].
    + assert (R1 : rep s ((pre ++ [(p, v)]) ++ l)) by (rewrite <- app_assoc; exact R). destruct (IH _ s f R1) as (s' & l' & E2 & R2 & E3); [rewrite !zlen_app, zlen_cons, zlen_nil; lia|lia|].
      exists s', ((p, v) :: l'). split; [exact E2|]. split; [rewrite <- app_assoc in R2; exact R2|]. cbn [map snd]. rewrite removed_succ; [f_equal; exact E3|]. intros i Ei. apply (ListProofs.find_first_bound (fun _ => true) eqb) in Ei. lia.
Qed.
Lemma find_last_snoc (p : A -> bool) (l : list A) x : find_last p (l ++ [x]) = if p x then Some (zlen l) else find_last p l.
Proof.
  unfold find_last. rewrite rev_unit. cbn [find_first]. rewrite zlen_app, zlen_cons, zlen_nil. destruct (p x); cbn [option_map]; [f_equal; lia|]. destruct (find_first p (rev l)); cbn [option_map]; [|reflexivity]. f_equal. lia.
Qed.
Lemma last_match_ok t : forall l post s fuel, rep s (l ++ post) -> zlen (l ++ post) < 2 ^ 64 -> zlen l < Z.of_nat fuel ->
  exists s' l', match_loop eqb prev fuel s (last_or l 0) t = Ok (existsb (matches eqb t) (map snd l), s') /\ rep s' (l' ++ post) /\ map snd l' = removed_at (map snd l) (find_last (matches eqb t) (map snd l)).
Proof.
  induction l as [|(p, v) l IH] using rev_ind; intros post s fuel R Hb Hf; (destruct fuel as [|f]; [unfold zlen in Hf; lia|]); cbn [match_loop].
  - exists s, []. split; [reflexivity|]. split; [exact R|reflexivity].
  - rewrite last_or_app. rewrite <- app_assoc in R. cbn [app] in R. destruct (load_mid _ _ _ _ _ R) as (L & Z0). destruct (Z.eqb_spec p 0); [contradiction|]. rewrite L. cbn [bind value prev].
    rewrite map_app, existsb_app. cbn [map snd existsb]. rewrite find_last_snoc. rewrite !zlen_app, zlen_cons, zlen_nil in *. pose proof (zlen_nonneg post). pose proof (zlen_nonneg l).
    change (matches eqb t v) with (eqb v t). destruct (eqb v t).
    + destruct (unlink_ok s l p v post R) as (s1 & E & R1); [rewrite zlen_app, zlen_cons; lia|]. rewrite E. exists s1, l. rewrite orb_true_r. split; [reflexivity|]. split; [exact R1|]. cbn [removed_at]. rewrite ListProofs.without_split, app_nil_r. reflexivity.
    + destruct (IH ((p, v) :: post) s f R) as (s' & l' & E2 & R2 & E3); [rewrite !zlen_app, zlen_cons; lia|lia|].
      exists s', (l' ++ [(p, v)]). rewrite orb_false_r. split; [exact E2|]. split; [rewrite <- app_assoc; exact R2|]. rewrite map_app. cbn [map snd]. rewrite E3.
      destruct (find_last _ (map snd l)) as [i|] eqn:Ei; cbn [removed_at]; [|reflexivity]. apply (ListProofs.find_last_bound (fun _ => true) eqb) in Ei. unfold without, before, after. rewrite firstn_app, skipn_app. unfold zlen in Ei.
      replace (Z.to_nat i - length (map snd l))%nat with 0%nat by lia. replace (Z.to_nat (i + 1) - length (map snd l))%nat with 0%nat by lia. cbn [firstn skipn]. rewrite app_nil_r, app_assoc. reflexivity.
Qed.
Variable null : A -> bool.
Lemma step fuel o s (l : list A) v (l' : list A) : holds s l -> linked_op o = true -> ideal eqb null o l = Some (v, l') -> zlen l + adds o <= 2 ^ 60 -> zlen l < Z.of_nat fuel ->
  exists s', k_step eqb fuel s o = Ok (v, s') /\ holds s' l' /\ zlen l' <= zlen l + adds o.
Proof.
  intros H Ho I Hb Hf. pose proof (zlen_nonneg l) as Hl. destruct o; try discriminate Ho; cbn [ideal] in I; cbn [k_step adds] in *; unfold LinkedSpec.unit_, LinkedSpec.keep.
  - injection I as <- <-. destruct H as (c & R & <-). rewrite zlen_snd in *. destruct (push_ok s c x R ltac:(lia)) as (s' & E & R'). rewrite E. exists s'. split; [reflexivity|]. split; [eexists; split; [exact R'|apply map_app]|rewrite zlen_app, zlen_cons, zlen_nil, zlen_snd; lia].
  - injection I as <- <-. destruct (pop_ok s l H ltac:(lia)) as (s' & E & R'). rewrite E. exists s'. split; [reflexivity|]. split; [exact R'|]. pose proof (ListProofs.zlen_removelast null eqb l). lia.
  - injection I as <- <-. destruct H as (c & R & <-). rewrite zlen_snd in *. destruct (clear_ok s c fuel R Hf) as (s' & E & R'). rewrite E. exists s'. split; [reflexivity|]. split; [exists []; split; [exact R'|reflexivity]|rewrite zlen_nil; lia].
  - injection I as <- <-. destruct (pop_front_ok s l H ltac:(lia)) as (s' & E & R'). rewrite E. exists s'. split; [reflexivity|]. split; [exact R'|]. pose proof (ListProofs.zlen_tl null eqb l). lia.
  - destruct (inside l i) eqn:Hi; [|discriminate]. injection I as <- <-. unfold inside in Hi. destruct (split_at l i) as (a & x & b & -> & <-); [lia|]. destruct (remove_at_ok s a x b H) as (s' & E & R'); [lia|]. rewrite E. exists s'. split; [reflexivity|]. rewrite ListProofs.without_split. split; [exact R'|]. rewrite !zlen_app, zlen_cons. lia.
  - injection I as <- <-. destruct H as (c & R & <-). rewrite zlen_snd in *. destruct (push_front_ok s c x R ltac:(lia)) as (s' & E & R'). rewrite E. exists s'. split; [reflexivity|]. split; [eexists; split; [exact R'|reflexivity]|rewrite zlen_cons, zlen_snd; lia].
  - destruct (_ && _) eqn:Hi; [|discriminate]. injection I as <- <-. destruct (split_len l i) as (a & b & -> & <-); [lia|]. destruct (insert_at_ok s a b x H) as (s' & E & R'); [lia|]. rewrite E. exists s'. split; [reflexivity|].
    unfold before, after. rewrite firstn_app_len, skipn_app_len by (unfold zlen; lia). split; [exact R'|]. rewrite !zlen_app, zlen_cons. lia.
  - destruct (inside l i) eqn:Hi; [|discriminate]. injection I as <- <-. unfold inside in Hi. destruct (split_at l i) as (a & y & b & -> & <-); [lia|]. destruct (set_at_ok s a y b x H) as (s' & E & R'); [lia|]. rewrite E. exists s'. split; [reflexivity|]. rewrite ListProofs.put_at_split. split; [exact R'|]. rewrite !zlen_app, !zlen_cons. lia.
  - destruct (inside l i) eqn:Hi; [|discriminate]. injection I as <- <-. unfold inside in Hi. destruct (split_at l i) as (a & y & b & -> & <-); [lia|]. rewrite (get_at_ok s a y b H) by lia. exists s. rewrite ListProofs.at_app by reflexivity. split; [reflexivity|]. split; [exact H|]. lia.
  - injection I as <- <-. rewrite (first_ok s l H). exists s. split; [reflexivity|]. split; [exact H|lia].
  - injection I as <- <-. rewrite (last_ok s l H). exists s. split; [reflexivity|]. split; [exact H|lia].
  - injection I as <- <-. destruct (remove_last_ok s l H ltac:(lia)) as (s' & E & R'). rewrite E. exists s'. split; [reflexivity|]. split; [exact R'|]. pose proof (ListProofs.zlen_removelast null eqb l). lia.
  - injection I as <- <-. destruct (remove_first_ok s l H ltac:(lia)) as (s' & E & R'). rewrite E. exists s'. split; [reflexivity|]. split; [exact R'|]. pose proof (ListProofs.zlen_tl null eqb l). lia.
  - injection I as <- <-. rewrite (holds_len s l H). exists s. split; [reflexivity|]. split; [exact H|lia].
  - injection I as <- <-. destruct H as (c & R & <-). rewrite zlen_snd in *. destruct (clear_ok s c fuel R Hf) as (s' & E & R'). rewrite E. exists s'. split; [reflexivity|]. split; [exists []; split; [exact R'|reflexivity]|rewrite zlen_nil; lia].
  - injection I as <- <-. destruct (remove_ok x s l fuel H ltac:(lia) Hf) as (s' & E & R'). rewrite E. exists s'. split; [reflexivity|]. split; [exact R'|]. pose proof (ListProofs.zlen_others null eqb (matches eqb x) l). lia.
  - injection I as <- <-. destruct H as (c & R & <-). rewrite zlen_snd in *. destruct (first_match_ok x c [] s fuel R ltac:(cbn [app]; lia) Hf) as (s' & c' & E & R' & Ec). unfold remove_first_match. replace (first_ s) with (first_or c 0) by (symmetry; apply R). rewrite E. exists s'. split; [reflexivity|].
    split; [exists c'; split; assumption|]. assert (Y := ListProofs.removed_len null eqb (map snd c) (find_first (matches eqb x) (map snd c))). rewrite zlen_snd in Y. enough (forall i, find_first (matches eqb x) (map snd c) = Some i -> 0 <= i < zlen c) by (specialize (Y H); lia).
    intros i Ei. apply (ListProofs.find_first_bound (fun _ => true) eqb) in Ei. rewrite zlen_snd in Ei. exact Ei.
  - injection I as <- <-. destruct H as (c & R & <-). rewrite zlen_snd in *. destruct (last_match_ok x c [] s fuel) as (s' & c' & E & R' & Ec); [rewrite app_nil_r; exact R|rewrite app_nil_r; lia|exact Hf|]. rewrite app_nil_r in R'. unfold remove_last_match. replace (last_ s) with (last_or c 0) by (symmetry; apply R). rewrite E. exists s'. split; [reflexivity|].
    split; [exists c'; split; assumption|]. assert (Y := ListProofs.removed_len null eqb (map snd c) (find_last (matches eqb x) (map snd c))). rewrite zlen_snd in Y. enough (forall i, find_last (matches eqb x) (map snd c) = Some i -> 0 <= i < zlen c) by (specialize (Y H); lia).
    intros i Ei. apply (ListProofs.find_last_bound (fun _ => true) eqb) in Ei. rewrite zlen_snd in Ei. exact Ei.
Qed.
Lemma history fuel : forall os s (l : list A) vs (l' : list A), holds s l -> forallb linked_op os = true -> ideal_run eqb null l os = Some (vs, l') -> zlen l + grows os <= 2 ^ 60 -> zlen l + grows os < Z.of_nat fuel ->
  exists s', k_run eqb fuel s os = Ok (vs, s') /\ holds s' l'.
Proof.
  induction os as [|o os IH]; intros s l vs l' H Ho I Hb Hf; cbn [ideal_run k_run] in *.
  - injection I as <- <-. exists s. auto.
  - cbn [forallb] in Ho. apply andb_prop in Ho. destruct Ho as (Ho1 & Ho2). change (grows (o :: os)) with (adds o + grows os) in *. pose proof (ListProofs.adds_nonneg null eqb o). pose proof (ListProofs.grows_nonneg null eqb os).
    destruct (ideal eqb null o l) as [(v, l1)|] eqn:E1; [|discriminate]. destruct (ideal_run eqb null l1 os) as [(ws, l2)|] eqn:E2; [|discriminate]. injection I as <- <-.
    destruct (step fuel o s l v l1 H Ho1 E1) as (s1 & Es & K1 & Hl); [lia|lia|]. rewrite Es. cbn [bind]. destruct (IH s1 l1 ws l2 K1 Ho2 E2) as (s2 & Es2 & K2); [lia|lia|]. rewrite Es2. exists s2. auto.
Qed.
Lemma values_next_ok : forall l s a fuel, rep s (a ++ l) -> zlen l < Z.of_nat fuel -> values next fuel s (first_or l 0) = Ok (map snd l).
Proof.
  induction l as [|(p, v) l IH]; intros s a fuel R Hf; (destruct fuel as [|f]; [unfold zlen in Hf; lia|]); cbn [values first_or]; [reflexivity|].
  destruct (load_mid _ _ _ _ _ R) as (L & Z0). destruct (Z.eqb_spec p 0); [contradiction|]. rewrite L. cbn [bind next value]. rewrite zlen_cons in Hf. rewrite (IH s (a ++ [(p, v)]) f); [reflexivity|rewrite <- app_assoc; exact R|lia].
Qed.
Lemma values_prev_ok : forall l s b fuel, rep s (l ++ b) -> zlen l < Z.of_nat fuel -> values prev fuel s (last_or l 0) = Ok (rev (map snd l)).
Proof.
  induction l as [|(p, v) l IH] using rev_ind; intros s b fuel R Hf; (destruct fuel as [|f]; [unfold zlen in Hf; lia|]); cbn [values]; [reflexivity|].
  rewrite last_or_app. rewrite <- app_assoc in R. cbn [app] in R. destruct (load_mid _ _ _ _ _ R) as (L & Z0). destruct (Z.eqb_spec p 0); [contradiction|]. rewrite L. cbn [bind prev value]. rewrite zlen_app, zlen_cons, zlen_nil in Hf. rewrite (IH s _ f R) by lia.
  cbn [bind]. rewrite map_app, rev_app_distr. reflexivity.
Qed.
Lemma holds_values s (l : list A) fuel : holds s l -> zlen l < Z.of_nat fuel -> values next fuel s (first_ s) = Ok l /\ values prev fuel s (last_ s) = Ok (rev l).
Proof.
  intros (c & R & <-) Hf. rewrite zlen_snd in Hf. split.
  - replace (first_ s) with (first_or c 0) by (symmetry; apply R). apply (values_next_ok c s [] fuel R Hf).
  - replace (last_ s) with (last_or c 0) by (symmetry; apply R). apply (values_prev_ok c s [] fuel); [rewrite app_nil_r; exact R|exact Hf].
Qed.
Lemma holds_live s (l : list A) : holds s l -> live s (zlen l).
Proof.
  intros (c & R & <-). destruct R as (C & N & F & R1 & R2 & R3 & R4 & R5). exists (addrs c). split; [exact N|]. split; [unfold zlen, addrs; rewrite !map_length; reflexivity|]. intros p. split; [apply R4|].
  intros I. unfold addrs in I. apply in_map_iff in I. destruct I as ((q, v) & E & I). cbn in E. subst q. apply in_split in I. destruct I as (a & b & ->). apply chain_mid in C. rewrite C. discriminate.
Qed.
Lemma holds_is_empty s (l : list A) : holds s l -> is_empty s = match l with [] => true | _ => false end.
Proof.
  intros (c & R & <-). unfold is_empty. replace (first_ s) with (first_or c 0) by (symmetry; apply R). destruct c as [|(p, v) c]; [reflexivity|]. cbn. destruct (load_mid s [] p v c R) as (_ & Z0). destruct (Z.eqb_spec p 0); [contradiction|reflexivity].
Qed.
End P.
