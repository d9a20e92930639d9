From Coq Require Import ZArith Bool List Lia ZifyBool.
From Verif Require Import DynModel DynSpec.
Import ListNotations.
Local Open Scope Z_scope.

Definition ind (c : bool) : Z := if c then 1 else 0.
Fixpoint covering (l : list block) (x : Z) : Z := match l with [] => 0 | b :: r => ind ((fst b - 8 <=? x) && (x <? fst b + snd b)) + covering r x end.
Fixpoint cov_used (l : list page) (x : Z) : Z := match l with [] => 0 | p :: r => ind ((memory p <=? x) && (x <? memory p + used p)) + cov_used r x end.
Fixpoint cov_total (l : list page) (x : Z) : Z := match l with [] => 0 | p :: r => ind ((memory p <=? x) && (x <? memory p + total p)) + cov_total r x end.
Definition page_ok (p : page) : Prop := 0 < memory p /\ 0 <= used p <= total p /\ (top_ptr p = 0 \/ memory p + 8 <= top_ptr p).
Definition block_ok (b : block) : Prop := 0 < fst b /\ 0 < snd b /\ fst b mod 16 = 0.
Record inv (a : arena) : Prop := {
  iv_pages : Forall page_ok (pages a); iv_unused : Forall page_ok (unused a); iv_live : Forall block_ok (live a);
  iv_cover : forall x, covering (live a) x <= cov_used (pages a) x;
  iv_total : forall x, cov_total (pages a) x + cov_total (unused a) x <= 1 }.

Ltac inds := unfold ind in *; repeat match goal with |- context [if ?c then _ else _] => let E := fresh "Q" in destruct c eqn:E end.
Lemma covering_nonneg l x : 0 <= covering l x.
Proof. induction l as [|b r IH]; cbn; [lia|]. unfold ind. destruct (_ && _); lia. Qed.
Lemma cov_total_nonneg l x : 0 <= cov_total l x.
Proof. induction l as [|b r IH]; cbn; [lia|]. unfold ind. destruct (_ && _); lia. Qed.
Lemma cov_used_nonneg l x : 0 <= cov_used l x.
Proof. induction l as [|b r IH]; cbn; [lia|]. unfold ind. destruct (_ && _); lia. Qed.
Lemma cov_le l x : Forall page_ok l -> cov_used l x <= cov_total l x.
Proof. intros F. induction F as [|p l P F IH]; cbn; [lia|]. destruct P as (_ & P & _). unfold ind. destruct ((memory p <=? x) && (x <? memory p + used p)) eqn:A, ((memory p <=? x) && (x <? memory p + total p)) eqn:B; lia. Qed.
Lemma covering_in l b x : In b l -> in_span b x -> 1 <= covering l x.
Proof.
  unfold in_span. induction l as [|c r IH]; intros I S; [destruct I|]. cbn. destruct I as [->|I]; [|specialize (IH I S); unfold ind; destruct (_ && _); lia].
  pose proof (covering_nonneg r x). replace ((fst b - 8 <=? x) && (x <? fst b + snd b)) with true by lia. unfold ind. lia.
Qed.
Lemma cov_used_ex l x : 1 <= cov_used l x -> exists p, In p l /\ memory p <= x < memory p + used p.
Proof.
  induction l as [|c r IH]; cbn; [lia|]. unfold ind. destruct ((memory c <=? x) && (x <? memory c + used c)) eqn:E; intros H; [exists c; split; [left; reflexivity|lia]|].
  destruct (IH ltac:(lia)) as (b & I & S). exists b. auto.
Qed.
Lemma cov_total_ex l x : 1 <= cov_total l x -> exists p, In p l /\ memory p <= x < memory p + total p.
Proof.
  induction l as [|c r IH]; cbn; [lia|]. unfold ind. destruct ((memory c <=? x) && (x <? memory c + total c)) eqn:E; intros H; [exists c; split; [left; reflexivity|lia]|].
  destruct (IH ltac:(lia)) as (b & I & S). exists b. auto.
Qed.
Lemma align_up_ok x al : 0 < al -> x <= align_up x al < x + al /\ align_up x al mod al = 0.
Proof.
  intros A. unfold align_up. pose proof (Z.div_mod (x + al - 1) al ltac:(lia)). pose proof (Z.mod_pos_bound (x + al - 1) al A). split; [lia|]. rewrite Z.mul_comm. apply Z.mod_mul. lia.
Qed.
Definition good_al (al : Z) : Prop := 0 < al /\ exists k, al = 16 * k.
Lemma alignment_ok al : al = 0 \/ power_of_two al -> good_al (alignment_for al).
Proof.
  unfold alignment_for, good_al. intros H. destruct (Z.ltb_spec al 16) as [L|L]; [split; [lia|exists 1; lia]|]. destruct H as [->|(k & K & ->)]; [lia|]. split; [lia|]. exists (2 ^ (k - 4)).
  assert (4 <= k). { destruct (Z.le_gt_cases 4 k); [assumption|]. assert (2 ^ k <= 2 ^ 3) by (apply Z.pow_le_mono_r; lia). lia. }
  change 16 with (2 ^ 4). rewrite <- Z.pow_add_r by lia. f_equal. lia.
Qed.
Lemma alignment_idem al : alignment_for (alignment_for al) = alignment_for al.
Proof. unfold alignment_for. destruct (Z.ltb_spec al 16); [reflexivity|]. destruct (Z.ltb_spec al 16); [lia|reflexivity]. Qed.
Lemma aligned16 x al : good_al al -> x mod al = 0 -> x mod 16 = 0.
Proof. intros (A & k & ->) M. apply Z.mod_divide in M; [|lia]. destruct M as (q & ->). replace (q * (16 * k)) with (q * k * 16) by lia. apply Z.mod_mul. lia. Qed.

(** ** Making a block *)
Definition made (provide : provider) (n al : Z) (a : arena) (r : answer * arena) : Prop :=
  match r with
  | (Ptr p, a') => inv a' /\ bytes a' = bytes a /\ live a' = (p, n) :: live a /\ p mod al = 0 /\ forall x, in_span (p, n) x -> cov_used (pages a) x = 0
  | (Refused, a') => inv a' /\ bytes a' = bytes a /\ live a' = live a /\ page_size a' = page_size a /\ provide (Z.max (page_size a) (align_up (n + PREFIX + al) al)) (map extent (pages a' ++ unused a')) = None
  | _ => False
  end.
Lemma alloc_new_ok provide n al a : provides provide -> inv a -> 0 < n -> good_al al -> made provide n al a (alloc_new provide n al a).
Proof.
  intros PV [I1 I2 I3 I4 I5] N G. pose proof G as (A & _). unfold alloc_new, PREFIX. set (size := Z.max (page_size a) (align_up (n + 8 + al) al)).
  assert (S1 : n + 8 + al <= size) by (unfold size; pose proof (align_up_ok (n + 8 + al) al A); lia). destruct (Z.ltb_spec (n + 8) size); [|lia]. cbn [negb].
  destruct (provide size _) as [mem|] eqn:P; [|cbn; split; [constructor; auto|auto]]. destruct (PV _ _ _ P) as (V1 & V2).
  destruct (align_up_ok (mem + 8) al A) as (U1 & U2). set (start := align_up (mem + 8) al) in *. clearbody start size. destruct (Z.ltb_spec (start + n) (mem + size)); [|lia]. cbn [negb made].
  assert (D : forall x, mem <= x < mem + size -> cov_total (pages a) x + cov_total (unused a) x = 0).
  { intros x X. pose proof (cov_total_nonneg (pages a) x). pose proof (cov_total_nonneg (unused a) x).
    assert (K : forall l, (forall p, In p l -> In (extent p) (map extent (pages a ++ unused a))) -> cov_total l x <= 0).
    { intros l L. destruct (Z.le_gt_cases (cov_total l x) 0) as [|G']; [assumption|exfalso]. destruct (cov_total_ex l x ltac:(lia)) as (p & P1 & P2). apply (V2 (extent p) x (L p P1)); unfold in_memory, extent; cbn; lia. }
    pose proof (K (pages a) ltac:(intros p P1; apply in_map, in_or_app; left; exact P1)). pose proof (K (unused a) ltac:(intros p P1; apply in_map, in_or_app; right; exact P1)). lia. }
  split; [|split; [reflexivity|split; [reflexivity|split; [exact U2|]]]].
  - constructor; cbn [pages unused live].
    + constructor; [|exact I1]. unfold page_ok; cbn. lia.
    + exact I2.
    + constructor; [|exact I3]. unfold block_ok; cbn. split; [lia|split; [exact N|exact (aligned16 start al G U2)]].
    + intros x. specialize (I4 x). cbn [covering cov_used fst snd memory used]. inds; lia.
    + intros x. specialize (I5 x). specialize (D x). cbn [cov_total memory total]. unfold ind. destruct ((mem <=? x) && (x <? mem + size)) eqn:Q; lia.
  - intros x X. unfold in_span in X. cbn in X. pose proof (cov_le (pages a) x I1). pose proof (cov_used_nonneg (pages a) x). pose proof (cov_total_nonneg (unused a) x). specialize (D x ltac:(lia)). lia.
Qed.
(** Making a block in a page that has room. *)
Lemma in_page_ok provide n al p ps us ps0 us0 psz lv m : 0 < n -> good_al al -> inv (Arena ps0 us0 psz lv m) -> page_ok p -> Forall page_ok ps -> Forall page_ok us ->
  (forall x, cov_used ps0 x <= ind ((memory p <=? x) && (x <? memory p + used p)) + cov_used ps x) ->
  (forall x, ind ((memory p <=? x) && (x <? memory p + total p)) + cov_total ps x + cov_total us x <= 1) ->
  (forall x, memory p + used p <= x < memory p + total p -> cov_used ps0 x = 0) ->
  start_in p al + n - memory p <= total p ->
  made provide n al (Arena ps0 us0 psz lv m) (Ptr (start_in p al), Arena (with_used p (start_in p al + n - memory p) :: ps) us psz ((start_in p al, n) :: lv) m).
Proof.
  intros N G I P PS US CU CT Z0 R. pose proof G as (A & _). destruct I as [I1 I2 I3 I4 I5]. cbn [pages unused live] in *.
  destruct (align_up_ok (memory p + used p + PREFIX) al A) as (U1 & U2). unfold start_in in *. set (start := align_up (memory p + used p + PREFIX) al) in *. clearbody start. unfold PREFIX in *. destruct P as (P1 & P2 & P3).
  cbn [made]. split; [|split; [reflexivity|split; [reflexivity|split; [exact U2|]]]].
  - constructor; cbn [pages unused live].
    + constructor; [|exact PS]. unfold page_ok, with_used; cbn. lia.
    + exact US.
    + constructor; [|exact I3]. unfold block_ok; cbn. split; [lia|split; [exact N|exact (aligned16 start al G U2)]].
    + intros x. specialize (I4 x). specialize (CU x). cbn [covering cov_used with_used fst snd memory used] in *. unfold ind in *.
      pose proof (Z0 x). destruct ((start - 8 <=? x) && (x <? start + n)) eqn:Q1, ((memory p <=? x) && (x <? memory p + used p)) eqn:Q2, ((memory p <=? x) && (x <? memory p + (start + n - memory p))) eqn:Q3; lia.
    + intros x. specialize (CT x). cbn [cov_total with_used memory total]. lia.
  - intros x X. unfold in_span in X. cbn in X. cbn [pages]. apply Z0. lia.
Qed.
Lemma acquire_ok provide n al a : provides provide -> inv a -> 0 < n -> al = 0 \/ power_of_two al -> made provide n (alignment_for al) a (acquire provide n al a).
Proof.
  intros PV I N AL. apply alignment_ok in AL. unfold acquire. set (al' := alignment_for al) in *. clearbody al'. clear al.
  (* a page from the unused ones first *)
  assert (K : forall a', inv a' -> bytes a' = bytes a -> live a' = live a -> page_size a' = page_size a -> (forall x, cov_used (pages a) x <= cov_used (pages a') x) -> made provide n al' a' 
     match pages a' with
     | [] => alloc_new provide n al' a'
     | p :: ps =>
       let start := start_in p al' in let new_used := start - memory p + n in
       if total p <? new_used then
         match unused a' with
         | u :: us => let start := start_in u al' in let new_used := start + n - memory u in
           if new_used <=? total u then (Ptr start, Arena (with_used u new_used :: p :: ps) us (page_size a') ((start, n) :: live a') (bytes a')) else alloc_new provide n al' a'
         | [] => alloc_new provide n al' a'
         end
       else (Ptr start, Arena (with_used p new_used :: ps) (unused a') (page_size a') ((start, n) :: live a') (bytes a'))
     end).
  { intros a' I' _ _ _ _. destruct (pages a') as [|p ps] eqn:EP; [apply alloc_new_ok; auto|]. cbn zeta. pose proof I' as [J1 J2 J3 J4 J5]. rewrite EP in *.
    assert (Z1 : forall x, memory p + used p <= x < memory p + total p -> cov_used (p :: ps) x = 0).
    { intros x X. specialize (J5 x). pose proof (cov_le ps x (Forall_inv_tail J1)). pose proof (cov_used_nonneg ps x). pose proof (cov_total_nonneg (unused a') x). destruct (Forall_inv J1) as (_ & P2 & _). cbn [cov_total cov_used] in *. unfold ind in *.
      replace ((memory p <=? x) && (x <? memory p + total p)) with true in J5 by lia. replace ((memory p <=? x) && (x <? memory p + used p)) with false by lia. lia. }
    destruct (Z.ltb_spec (total p) (start_in p al' - memory p + n)) as [F|F].
    - destruct (unused a') as [|u us] eqn:EU; [apply alloc_new_ok; auto|]. destruct (Z.leb_spec (start_in u al' + n - memory u) (total u)) as [R|R]; [|apply alloc_new_ok; auto].
      replace a' with (Arena (p :: ps) (u :: us) (page_size a') (live a') (bytes a')) at 1 by (destruct a'; cbn in *; congruence).
      apply in_page_ok; auto.
      + destruct a'; cbn in *; subst; exact I'.
      + exact (Forall_inv J2).
      + exact (Forall_inv_tail J2).
      + intros x. unfold ind. destruct (_ && _); lia.
      + intros x. specialize (J5 x). cbn [cov_total] in *. lia.
      + intros x X. specialize (J5 x). pose proof (cov_le (p :: ps) x J1). pose proof (cov_used_nonneg (p :: ps) x). pose proof (cov_total_nonneg us x).
        destruct (Forall_inv J2) as (_ & P2 & _). cbn [cov_total] in *. unfold ind in *. replace ((memory u <=? x) && (x <? memory u + total u)) with true in J5 by lia. lia.
    - replace a' with (Arena (p :: ps) (unused a') (page_size a') (live a') (bytes a')) at 1 by (destruct a'; cbn in *; congruence).
      replace (start_in p al' - memory p + n) with (start_in p al' + n - memory p) by lia. apply in_page_ok; auto.
      + destruct a'; cbn in *; subst; exact I'.
      + exact (Forall_inv J1).
      + exact (Forall_inv_tail J1).
      + intros x. cbn [cov_used]. lia.
      + lia. }
  destruct (pages a) as [|p ps] eqn:EP; [destruct (unused a) as [|u us] eqn:EU|].
  - apply K; auto. rewrite EP. intros x. lia.
  - set (a' := Arena [u] us (page_size a) (live a) (bytes a)) in *. assert (I' : inv a').
    { destruct I as [I1 I2 I3 I4 I5]. rewrite EP, EU in *. constructor; cbn [pages unused live a']; auto; [constructor; [exact (Forall_inv I2)|constructor]|exact (Forall_inv_tail I2)| |].
      - intros x. specialize (I4 x). cbn [cov_used] in *. unfold ind. destruct (_ && _); lia.
      - intros x. specialize (I5 x). cbn [cov_total] in *. lia. }
    pose proof (K a' I' eq_refl eq_refl eq_refl ltac:(intros x; cbn [cov_used pages a']; unfold ind; destruct (_ && _); lia)) as M. unfold made in *.
    match type of M with match ?r with _ => _ end => destruct r as [[q| | | |] a2] end; auto. destruct M as (M1 & M2 & M3 & M4 & M5). split; [exact M1|]. split; [exact M2|]. split; [exact M3|]. split; [exact M4|]. intros x X. rewrite EP. reflexivity.
  - apply K; auto. rewrite EP. intros x. lia.
Qed.
(** ** The other calls *)
Lemma lookup_ok l p : match lookup l p with
  | Some (s, l') => In (p, s) l /\ (forall x, covering l x = covering ((p, s) :: l') x) /\ (forall b, In b l -> b = (p, s) \/ In b l') /\ (forall b, In b l' -> In b l)
  | None => forall s, ~ In (p, s) l end.
Proof.
  induction l as [|[q s] r IH]; cbn [lookup]; [intros s []|]. destruct (Z.eqb_spec q p) as [->|N].
  - split; [left; reflexivity|]. split; [reflexivity|]. split; [intros b [<-|I]; auto|intros b I; right; exact I].
  - destruct (lookup r p) as [[z r']|].
    + destruct IH as (I1 & I2 & I3 & I4). split; [right; exact I1|]. split; [intros x; specialize (I2 x); cbn [covering] in *; lia|].
      split; [intros b [<-|I]; [right; left; reflexivity|]; destruct (I3 b I) as [->|X]; [left; reflexivity|right; right; exact X]|]. intros b [<-|I]; [left; reflexivity|right; apply I4; exact I].
    + intros z [E|I]; [congruence|exact (IH z I)].
Qed.
Lemma release_ok p a : inv a -> careful a (Release p) -> fst (release p a) <> Misuse -> inv (snd (release p a)).
Proof.
  intros [I1 I2 I3 I4 I5] C M. unfold release in *. unfold careful, remembered, is_last in C. destruct (pages a) as [|c ps] eqn:EP; [cbn in M; congruence|]. pose proof (lookup_ok (live a) p) as L. destruct (lookup (live a) p) as [[s l]|]; [|cbn in M; congruence].
  destruct L as (L1 & L2 & L3 & L4). destruct (Forall_inv I1) as (P1 & P2 & P3). assert (B : block_ok (p, s)) by (rewrite Forall_forall in I3; apply I3, L1). destruct B as (B1 & B2 & B3). cbn [fst snd] in *.
  constructor; cbn [snd pages unused live].
  - constructor; [|exact (Forall_inv_tail I1)]. unfold page_ok, PREFIX; cbn. destruct (Z.eqb_spec p (top_ptr c)) as [E|E]; [|lia]. specialize (C (eq_sym E)). lia.
  - exact I2.
  - rewrite Forall_forall in *. intros b Hb. apply I3, L4, Hb.
  - intros x. specialize (I4 x). specialize (L2 x). cbn [covering cov_used memory used fst snd] in *. unfold ind, PREFIX in *. destruct (Z.eqb_spec p (top_ptr c)) as [E|E].
    + specialize (C (eq_sym E)). destruct ((p - 8 <=? x) && (x <? p + s)) eqn:Q1, ((memory c <=? x) && (x <? memory c + used c)) eqn:Q2, ((memory c <=? x) && (x <? memory c + (p - 8 - memory c))) eqn:Q3; lia.
    + destruct ((p - 8 <=? x) && (x <? p + s)) eqn:Q1; lia.
  - intros x. specialize (I5 x). cbn [cov_total memory total] in *. lia.
Qed.
Lemma reset_total l : forall us x, cov_total (fold_left (fun us p => with_used p 0 :: us) l us) x = cov_total l x + cov_total us x.
Proof. induction l as [|p l IH]; intros us x; cbn [fold_left cov_total]; [lia|]. rewrite IH. cbn [cov_total with_used memory total]. lia. Qed.
Lemma reset_pages l : forall us, Forall page_ok l -> Forall page_ok us -> Forall page_ok (fold_left (fun us p => with_used p 0 :: us) l us).
Proof. induction l as [|p l IH]; intros us F U; cbn [fold_left]; [exact U|]. apply IH; [exact (Forall_inv_tail F)|]. constructor; [|exact U]. destruct (Forall_inv F) as (A & B & C). unfold page_ok; cbn. split; [exact A|split; [lia|exact C]]. Qed.
Lemma reset_ok a : inv a -> inv (snd (reset a)).
Proof.
  intros [I1 I2 I3 I4 I5]. constructor; cbn [reset snd pages unused live]; auto; [apply reset_pages; auto|intros x; cbn; lia|]. intros x. rewrite reset_total. cbn [cov_total]. apply I5.
Qed.
(** Resizing: the new block, and its contents. *)
Definition disjoint_live (l : list block) : Prop := forall x, covering l x <= 1.
Lemma live_disjoint a : inv a -> disjoint_live (live a).
Proof. intros [I1 I2 I3 I4 I5] x. specialize (I4 x). specialize (I5 x). pose proof (cov_le (pages a) x I1). pose proof (cov_total_nonneg (unused a) x). lia. Qed.
Lemma disjoint_nth l : disjoint_live l -> forall i j b c, i <> j -> nth_error l i = Some b -> nth_error l j = Some c -> forall x, in_span b x -> ~ in_span c x.
Proof.
  induction l as [|d r IH]; intros C i j b c N Hi Hj x X Y; [destruct i; discriminate|].
  assert (C' : disjoint_live r) by (intros y; specialize (C y); cbn in C; unfold ind in C; destruct (_ && _); lia).
  destruct i as [|i], j as [|j]; cbn in Hi, Hj; [lia| | |].
  - injection Hi as ->. apply nth_error_In in Hj. pose proof (covering_in r c x Hj Y). specialize (C x). cbn in C. unfold in_span, ind in *. replace ((fst b - 8 <=? x) && (x <? fst b + snd b)) with true in C by lia. lia.
  - injection Hj as ->. apply nth_error_In in Hi. pose proof (covering_in r b x Hi X). specialize (C x). cbn in C. unfold in_span, ind in *. replace ((fst c - 8 <=? x) && (x <? fst c + snd c)) with true in C by lia. lia.
  - exact (IH C' i j b c ltac:(lia) Hi Hj x X Y).
Qed.
Lemma same_size a p s s' : inv a -> In (p, s) (live a) -> In (p, s') (live a) -> s = s'.
Proof.
  intros I A B. destruct (Z.eq_dec s s') as [|N]; [assumption|exfalso]. pose proof (live_disjoint a I) as D. pose proof (iv_live a I) as F. rewrite Forall_forall in F. pose proof (F _ A) as (_ & P1 & _). pose proof (F _ B) as (_ & P2 & _). cbn in *.
  apply In_nth_error in A as (i & A). apply In_nth_error in B as (j & B). apply (disjoint_nth (live a) D i j (p, s) (p, s')) with p; auto; unfold in_span; cbn; try lia. intros ->. congruence.
Qed.
Lemma resize_ok provide p n al a : provides provide -> inv a -> sane (Resize p n al) -> careful a (Resize p n al) -> (exists s, In (p, s) (live a)) ->
  inv (snd (resize provide p n al a)) /\ (fst (resize provide p n al a) = Refused /\ snd (resize provide p n al a) = a \/
  exists q, fst (resize provide p n al a) = Ptr q /\ q mod (alignment_for al) = 0 /\ In (q, n) (live (snd (resize provide p n al a))) /\
    (forall i, 0 <= i < Z.min (size_of a p) n -> bytes (snd (resize provide p n al a)) (q + i) = bytes a (p + i)) /\
    (forall b x, In b (live a) -> fst b <> p -> in_span b x -> bytes (snd (resize provide p n al a)) x = bytes a x) /\
    (forall b, In b (live a) -> fst b <> p -> In b (live (snd (resize provide p n al a))))).
Proof.
  intros PV I (N & AL) (C1 & C2) M. unfold resize in *. unfold remembered, is_last, size_of in *. pose proof I as [I1 I2 I3 I4 I5]. destruct (pages a) as [|c ps] eqn:EP.
  { exfalso. destruct M as (z & M). rewrite Forall_forall in I3. destruct (I3 _ M) as (_ & Z1 & _). cbn in Z1. specialize (I4 (p - 8)). pose proof (covering_in (live a) (p, z) (p - 8) M). unfold in_span in *. cbn [fst snd cov_used] in *. lia. }
  pose proof (lookup_ok (live a) p) as L. destruct (lookup (live a) p) as [[s l]|]; [|exfalso; destruct M as (z & M); exact (L z M)].
  destruct L as (L1 & L2 & L3 & L4). destruct (Forall_inv I1) as (P1 & P2 & P3). assert (B : block_ok (p, s)) by (rewrite Forall_forall in I3; apply I3, L1). destruct B as (B1 & B2 & B3). cbn [fst snd] in B1, B2, B3.
  assert (FL : Forall block_ok l) by (rewrite Forall_forall in *; intros b Hb; apply I3, L4, Hb). pose proof (alignment_ok al AL) as G. set (al' := alignment_for al) in *.
  destruct ((n <=? s) && (p mod al' =? 0)) eqn:Q1; [|destruct ((top_ptr c =? p) && (p mod al' =? 0) && (n - s + used c <=? total c)) eqn:Q2].
  - destruct (Z.eqb_spec (top_ptr c) p) as [E|E]; [specialize (C1 E); lia|]. cbn [fst snd]. split.
    + constructor; cbn [pages unused live]; auto; [constructor; [unfold block_ok; cbn; auto|exact FL]|]. intros x. specialize (I4 x). specialize (L2 x). cbn [covering fst snd] in *. unfold ind in *. destruct ((p - 8 <=? x) && (x <? p + n)) eqn:Q3, ((p - 8 <=? x) && (x <? p + s)) eqn:Q4; lia.
    + right. exists p. split; [reflexivity|]. split; [lia|]. split; [left; reflexivity|]. split; [reflexivity|]. split; [reflexivity|]. intros b Hb Nb. cbn [live]. destruct (L3 b Hb) as [->|X]; [cbn in Nb; lia|right; exact X].
  - destruct (C1 ltac:(lia)) as (C3 & C4). cbn [fst snd]. split.
    + constructor; cbn [pages unused live]; auto.
      * constructor; [|exact (Forall_inv_tail I1)]. unfold page_ok; cbn. lia.
      * constructor; [unfold block_ok; cbn; auto|exact FL].
      * intros x. specialize (I4 x). specialize (L2 x). specialize (I5 x). pose proof (cov_le ps x (Forall_inv_tail I1)). pose proof (cov_used_nonneg ps x). pose proof (cov_total_nonneg (unused a) x). pose proof (covering_nonneg l x). cbn [covering cov_used cov_total with_used memory used fst snd] in *. unfold ind in *.
        destruct ((p - 8 <=? x) && (x <? p + n)) eqn:Q3, ((p - 8 <=? x) && (x <? p + s)) eqn:Q4, ((memory c <=? x) && (x <? memory c + used c)) eqn:Q5, ((memory c <=? x) && (x <? memory c + (used c + (n - s)))) eqn:Q6, ((memory c <=? x) && (x <? memory c + total c)) eqn:Q7; lia.
    + right. exists p. split; [reflexivity|]. split; [lia|]. split; [left; reflexivity|]. split; [reflexivity|]. split; [reflexivity|]. intros b Hb Nb. cbn [live]. destruct (L3 b Hb) as [->|X]; [cbn in Nb; lia|right; exact X].
  - set (a0 := Arena (c :: ps) (unused a) (page_size a) l (bytes a)) in *. assert (I0 : inv a0).
    { constructor; cbn [pages unused live a0]; auto. intros x. specialize (I4 x). specialize (L2 x). cbn [covering] in *. unfold ind in *. destruct ((fst (p, s) - 8 <=? x) && (x <? fst (p, s) + snd (p, s))); lia. }
    pose proof (acquire_ok provide n al' a0 PV I0 N) as K. assert (IDM : alignment_for al' = al') by apply alignment_idem. rewrite IDM in K.
    assert (AL' : al' = 0 \/ power_of_two al'). { unfold al', alignment_for. destruct (Z.ltb_spec al 16); [right; exists 4; split; [lia|reflexivity]|exact AL]. }
    specialize (K AL'). destruct (acquire provide n al' a0) as [[q| | | |] a1]; cbn [fst snd made] in *; try contradiction.
    + destruct K as (K1 & K2 & K3 & K4 & K5). split; [destruct K1; constructor; auto|]. right. exists q. split; [reflexivity|]. split; [exact K4|]. split; [cbn [live]; rewrite K3; left; reflexivity|]. cbn [bytes live]. rewrite K2, K3.
      split; [|split].
      * intros i Hi. unfold copy. replace ((q <=? q + i) && (q + i <? q + s)) with true by lia. cbn [bytes a0]. f_equal. lia.
      * intros b x Hb Nb X. unfold copy. destruct ((q <=? x) && (x <? q + s)) eqn:Q; [|reflexivity]. exfalso.
        assert (NS : s <= n). { destruct (Z.le_gt_cases s n) as [|W]; [assumption|]. specialize (C2 ltac:(lia)). lia. }
        destruct (L3 b Hb) as [->|Y]; [cbn in Nb; lia|]. pose proof (K5 x) as Z0. unfold in_span in Z0. cbn [fst snd pages a0] in Z0. specialize (Z0 ltac:(lia)). pose proof (covering_in (live a) b x Hb X). specialize (I4 x). lia.
      * intros b Hb Nb. cbn [live a0]. destruct (L3 b Hb) as [->|Y]; [cbn in Nb; lia|right; exact Y].
    + split; [exact I|]. left. auto.
Qed.
Lemma step_inv provide o a : provides provide -> inv a -> sane o -> careful a o -> fst (step provide o a) <> Misuse -> inv (snd (step provide o a)).
Proof.
  intros PV I S C M. destruct o as [n al|p|p n al| |x v]; cbn [step] in *.
  - destruct S as (N & AL). pose proof (acquire_ok provide n al a PV I N AL) as G. destruct (acquire provide n al a) as [[q| | | |] a1]; cbn in *; tauto.
  - apply release_ok; auto.
  - apply resize_ok; auto. unfold resize in M. destruct (pages a); [cbn in M; congruence|]. pose proof (lookup_ok (live a) p) as L. destruct (lookup (live a) p) as [[s l']|]; [|cbn in M; congruence]. exists s. exact (proj1 L).
  - apply reset_ok, I.
  - destruct I. constructor; auto.
Qed.
Lemma reach_inv provide size m a : provides provide -> reach provide size m a -> inv a.
Proof. intros PV R. induction R as [|a o R IH S C M]; [constructor; cbn; auto; lia|]. apply step_inv; auto. Qed.
