(** Temporary memory keeps its promises. *)
From Coq Require Import ZArith Bool List Lia ZifyBool.
From Verif Require Import Word AlcSpec AlcMem AlcBack AlcTModel AlcTSpec AlcProofs AlcBProofs.
Import ListNotations.
Open Scope Z_scope.

(** ** Where the allocators are *)
Definition hstart (t : temp) : list Z := if tm_alloc t then [tm_base t - 64] else [].
Definition pstart (t : temp) : list Z := map pg_start (tm_pages t).
Definition hs (ts : list temp) : list Z := flat_map hstart ts.
Definition ps (ts : list temp) : list Z := flat_map pstart ts.
Definition home (t : temp) (r : list (temp * (Z * Z))) : Z * Z :=
  if tm_alloc t then (tm_base t - 64, 64 + tm_orig t) else match r with (_, h) :: _ => h | [] => (0, 0) end.
Fixpoint placed (ts : list temp) : list (temp * (Z * Z)) :=
  match ts with [] => [] | t :: r => (t, home t (placed r)) :: placed r end.
Definition ordered (c t : temp * (Z * Z)) : Prop := snd c = snd t -> tm_base (fst t) + tm_cap (fst t) <= tm_base (fst c) - 64.
Record shape (R : list (Z * Z)) (ts : list temp) : Prop := {
  sh_rok : rok R;
  sh_home : forall t h, In (t, h) (placed ts) ->
    In h R /\ fst h + 64 <= tm_base t /\ tm_base t + tm_orig t <= fst h + snd h /\ 0 <= tm_used t <= tm_cap t /\ tm_cap t <= tm_orig t;
  sh_ord : ForallOrdPairs ordered (placed ts);
  sh_hnd : NoDup (hs ts);
  sh_pnd : NoDup (ps ts);
  sh_hp : forall a, In a (hs ts) -> In a (ps ts) -> False;
  sh_page : forall t g, In t ts -> In g (tm_pages t) ->
    0 < pg_size g <= 2 ^ 62 /\ pg_data g = pg_start g + 32 /\ exists k, In (pg_start g, k) R /\ pg_size g + 32 <= k;
  sh_top : match ts with [] => False | t :: _ => tm_cap t = tm_orig t end }.
(** Where a block is: in the memory of an allocator, or alone in a region. *)
Definition kind (R : list (Z * Z)) (ts : list temp) (m : mem) (p n : Z) : Prop :=
  (exists t h, In (t, h) (placed ts) /\ tm_base t + 8 <= p /\ p + n <= tm_base t + tm_used t /\ ld8 m (p - 8) = n) \/
  (exists k, In (p - 32, k) R /\ n + 32 <= k /\ ld8 m (p - 8) = all_ones /\ ~ In (p - 32) (hs ts) /\
     (~ In (p - 32) (ps ts) \/ exists t g, In t ts /\ In g (tm_pages t) /\ pg_data g = p /\ pg_size g = n)).
Record tinv (R : list (Z * Z)) (ts : list temp) (m : mem) (l : ledger) : Prop := {
  ti_shape : shape R ts;
  ti_blocks : forall p d, In (p, d) l -> 0 < size_of d <= 2 ^ 62 /\ bytes_at m p (size_of d) = d /\ kind R ts m p (size_of d);
  ti_apart : xapart 8 l }.

Lemma placed_in ts t : In t ts -> exists h, In (t, h) (placed ts) /\ (tm_alloc t = true -> h = (tm_base t - 64, 64 + tm_orig t)).
Proof.
  induction ts as [|c ts IH]; [intros []|]. intros [<-|I]; cbn [placed].
  - exists (home c (placed ts)). split; [left; reflexivity|]. intros A. unfold home. rewrite A. reflexivity.
  - destruct (IH I) as (h & H & E). exists h. split; [right; exact H|exact E].
Qed.
Lemma placed_of ts t h : In (t, h) (placed ts) -> In t ts.
Proof.
  induction ts as [|c ts IH]; [intros []|]. cbn [placed]. intros [E|I]; [injection E as <- _; left; reflexivity|right; exact (IH I)].
Qed.
Lemma placed_hs ts t h : In (t, h) (placed ts) -> h = (0, 0) \/ In (fst h) (hs ts).
Proof.
  revert t h. induction ts as [|c ts IH]; [intros t h []|]. intros t h. cbn [placed]. intros [E|I].
  - injection E as <- <-. unfold home. destruct (tm_alloc c) eqn:A.
    + right. cbn [fst]. unfold hs. cbn [flat_map]. apply in_or_app. left. unfold hstart. rewrite A. left. reflexivity.
    + destruct (placed ts) as [|[t' h'] p'] eqn:P; [left; reflexivity|]. destruct (IH t' h' (or_introl eq_refl)) as [E|E]; [left; exact E|right].
      unfold hs. cbn [flat_map]. apply in_or_app. right. exact E.
  - destruct (IH t h I) as [E|E]; [left; exact E|right]. unfold hs. cbn [flat_map]. apply in_or_app. right. exact E.
Qed.
Lemma home_hs R ts t h : shape R ts -> In (t, h) (placed ts) -> In (fst h) (hs ts).
Proof.
  intros S I. destruct (placed_hs ts t h I) as [->|E]; [|exact E]. destruct (sh_home R ts S _ _ I) as (IR & _).
  pose proof (rok_in R 0 0 (sh_rok R ts S) IR). lia.
Qed.
Lemma hs_in ts a : In a (hs ts) -> exists t, In t ts /\ tm_alloc t = true /\ a = tm_base t - 64.
Proof.
  intros H. unfold hs in H. apply in_flat_map in H. destruct H as (t & I & E). exists t. split; [exact I|]. unfold hstart in E.
  destruct (tm_alloc t); [|destruct E]. destruct E as [<-|[]]. split; reflexivity.
Qed.
Lemma hs_region R ts a : shape R ts -> In a (hs ts) -> exists k, In (a, k) R.
Proof.
  intros S H. destruct (hs_in _ _ H) as (t & I & A & ->). destruct (placed_in ts t I) as (h & P & E). rewrite (E A) in P.
  destruct (sh_home R ts S _ _ P) as (IR & _). eexists. exact IR.
Qed.
Lemma ps_in ts a : In a (ps ts) -> exists t g, In t ts /\ In g (tm_pages t) /\ a = pg_start g.
Proof.
  intros H. unfold ps in H. apply in_flat_map in H. destruct H as (t & I & E). unfold pstart in E. apply in_map_iff in E. destruct E as (g & <- & G).
  exists t, g. auto.
Qed.
Lemma ps_region R ts a : shape R ts -> In a (ps ts) -> exists k, In (a, k) R.
Proof.
  intros S H. destruct (ps_in _ _ H) as (t & g & I & G & ->). destruct (sh_page R ts S t g I G) as (_ & _ & k & K & _). exists k. exact K.
Qed.
Lemma in_ps ts t g : In t ts -> In g (tm_pages t) -> In (pg_start g) (ps ts).
Proof. intros I G. unfold ps. apply in_flat_map. exists t. split; [exact I|]. unfold pstart. apply in_map. exact G. Qed.

(** Two regions are the same or apart. *)
Lemma regions R a k b j : rok R -> In (a, k) R -> In (b, j) R -> (a, k) = (b, j) \/ apart a k b j.
Proof. intros [_ A] I J. exact (rapart_in R A a k b j I J). Qed.

Lemma kind_live R ts m p n x : shape R ts -> 0 < n -> kind R ts m p n -> p - 8 <= x < p + n -> live_at R x.
Proof.
  intros S N [(t & h & I & K1 & K2 & K3)|(k & K1 & K2 & _)] Hx.
  - destruct (sh_home R ts S _ _ I) as (IR & A & B & C & D). destruct h as [a j]. cbn [fst snd] in *. exists a, j. split; [exact IR|lia].
  - exists (p - 32), k. split; [exact K1|lia].
Qed.
Lemma kind_covered R ts m p n c : shape R ts -> kind R ts m p n -> c <= n -> covered R p c = true.
Proof.
  intros S K L. unfold covered. apply existsb_exists. destruct K as [(t & h & I & K1 & K2 & K3)|(k & K1 & K2 & _)].
  - destruct (sh_home R ts S _ _ I) as (IR & A & B & C & D). exists h. split; [exact IR|lia].
  - exists (p - 32, k). split; [exact K1|]. cbn [fst snd]. lia.
Qed.
(** What a block takes up is apart from the free part of the current allocator. *)
Lemma kind_free R t r m p n : shape R (t :: r) -> 0 < n -> kind R (t :: r) m p n ->
  p + n <= tm_base t + tm_used t \/ tm_base t + tm_cap t <= p - 8.
Proof.
  intros S N K. pose proof (placed_in (t :: r) t (or_introl eq_refl)) as (h0 & _). clear h0.
  assert (P0 : In (t, home t (placed r)) (placed (t :: r))) by (left; reflexivity).
  set (h := home t (placed r)) in *. destruct (sh_home R _ S _ _ P0) as (HR & A & B & C & D). destruct h as [a j] eqn:EH. cbn [fst snd] in *.
  destruct K as [(t' & h' & I & K1 & K2 & K3)|(k & K1 & K2 & K3 & K4 & K5)].
  - destruct (sh_home R _ S _ _ I) as (HR' & A' & B' & C' & D'). destruct h' as [a' j']. cbn [fst snd] in *.
    destruct (regions R _ _ _ _ (sh_rok R _ S) HR HR') as [E|E]; [|unfold apart in E; lia].
    cbn [placed] in I. fold h in I. rewrite EH in I. destruct I as [I|I]; [injection I as <- _; left; lia|].
    pose proof (sh_ord R _ S) as O. cbn [placed] in O. fold h in O. rewrite EH in O. inversion O as [|? ? O1 O2]; subst. rewrite Forall_forall in O1.
    pose proof (O1 _ I) as X. unfold ordered in X. cbn [fst snd] in X. specialize (X E). lia.
  - assert (NE : p - 32 <> a) by (intros E; apply K4; rewrite E; exact (home_hs R _ _ _ S P0)).
    pose proof (rok_apart R _ _ _ _ (sh_rok R _ S) K1 HR NE) as X. unfold apart in X. lia.
Qed.
Lemma tinv_ptr R ts m l p d e : tinv R ts m l -> In (p, d) l -> In (p, e) l -> d = e.
Proof.
  intros [S K X] I J. destruct (xapart_in _ l X p d p e I J) as [E|E]; [congruence|].
  destruct (K _ _ I) as (P1 & _). destruct (K _ _ J) as (P2 & _). unfold apart in E. lia.
Qed.
Lemma tinv_true s l : tinv (bk_live (pl_bk s)) (pl_temps s) (pl_mem s) l -> true_of (pool_owns s) (pl_mem s) l.
Proof.
  intros [S K X]. split; [|apply (xapart_apart 8); [lia|exact X]]. apply Forall_forall. intros [p d] I.
  destruct (K p d I) as (K1 & K2 & K3). cbn [fst snd]. split; [exact K2|]. unfold pool_owns.
  destruct K3 as [(t & h & J & L1 & L2 & L3)|(k & L1 & L2 & _)].
  - destruct (sh_home _ _ S _ _ J) as (IR & A & B & C & D). destruct h as [a j]. cbn [fst snd] in *. exists a, j. split; [exact IR|lia].
  - exists (p - 32), k. split; [exact L1|lia].
Qed.
Lemma tinv_sub R ts m l l' : tinv R ts m l -> (forall b, In b l' -> In b l) -> xapart 8 l' -> tinv R ts m l'.
Proof. intros [S K X] T Y. constructor; try assumption. intros p d I. apply K. apply T. exact I. Qed.
Lemma tinv_filter R ts m l f : tinv R ts m l -> tinv R ts m (filter f l).
Proof. intros I. apply (tinv_sub R ts m l); [exact I|intros b Q; apply filter_In in Q; tauto|apply xapart_filter; apply I]. Qed.

(** The general frame rule. *)
Lemma tinv_frame R ts m l R' ts' m' : tinv R ts m l -> shape R' ts' ->
  (forall p d x, In (p, d) l -> p - 8 <= x < p + size_of d -> m' x = m x) ->
  (forall p d, In (p, d) l -> kind R ts m p (size_of d) -> kind R' ts' m p (size_of d)) -> tinv R' ts' m' l.
Proof.
  intros [S K X] S' F KK. constructor; [exact S'| |exact X].
  intros p d I. destruct (K p d I) as (K1 & K2 & K3). split; [exact K1|]. split.
  - rewrite <- K2 at 2. apply bytes_at_ext. intros i Hi. apply (F p d); [exact I|lia].
  - assert (E : ld8 m' (p - 8) = ld8 m (p - 8)) by (apply ld8_ext; intros x Hx; apply (F p d); [exact I|lia]).
    specialize (KK p d I K3). unfold kind in *. rewrite E. exact KK.
Qed.
Lemma tinv_mem R ts m l m' : tinv R ts m l -> (forall p d x, In (p, d) l -> p - 8 <= x < p + size_of d -> m' x = m x) -> tinv R ts m' l.
Proof. intros I F. apply (tinv_frame R ts m l); [exact I|apply I|exact F|auto]. Qed.
Lemma tinv_live R ts m l m' : tinv R ts m l -> (forall x, live_at R x -> m' x = m x) -> tinv R ts m' l.
Proof.
  intros I F. apply (tinv_mem R ts m l m' I). intros p d x P Hx. apply F. destruct I as [S K X]. destruct (K p d P) as (K1 & _ & K3).
  apply (kind_live R ts m p (size_of d)); [exact S|lia|exact K3|exact Hx].
Qed.
Lemma tinv_new R ts m l p n : tinv R ts m l -> 0 < n <= 2 ^ 62 -> kind R ts m p n ->
  (forall q e, In (q, e) l -> apart (p - 8) (n + 8) (q - 8) (size_of e + 8)) -> tinv R ts m ((p, bytes_at m p n) :: l).
Proof.
  intros [S K X] N P A. constructor; [exact S| |].
  - intros q d [I|I]; [|apply K; exact I]. injection I as <- <-. rewrite bytes_at_size by lia. split; [exact N|]. split; [reflexivity|exact P].
  - apply xapart_cons; [|exact X]. intros q e I. rewrite bytes_at_size by lia. apply A. exact I.
Qed.
(** The contents of the newest block are rewritten. *)
Lemma tinv_rewrite R ts m l p n v m' : tinv R ts m ((p, v) :: l) -> size_of v = n ->
  (forall x, x < p \/ p + n <= x -> m' x = m x) -> tinv R ts m' ((p, bytes_at m' p n) :: l).
Proof.
  intros [S K X] SZ F. destruct (K p v (or_introl eq_refl)) as (K1 & K2 & K3). rewrite SZ in *. destruct X as [X1 X2].
  assert (E : ld8 m' (p - 8) = ld8 m (p - 8)) by (apply ld8_ext; intros x Hx; apply F; lia).
  apply tinv_new.
  - apply (tinv_frame R ts m l); [constructor; [exact S|intros q d I; apply K; right; exact I|exact X2]|exact S| |auto].
    intros q d x I Hx. apply F. rewrite Forall_forall in X1. specialize (X1 _ I). cbn [fst snd] in X1. unfold apart in X1. rewrite SZ in X1. lia.
  - exact K1.
  - unfold kind in *. rewrite E. exact K3.
  - intros q e I. rewrite Forall_forall in X1. specialize (X1 _ I). cbn [fst snd] in X1. rewrite SZ in X1. exact X1.
Qed.
Lemma fresh_start R st k a j : rok ((st, k) :: R) -> In (a, j) R -> st <> a.
Proof.
  intros S I E. subst a. pose proof (rok_in _ _ _ S (or_intror I)) as X. pose proof (rok_in _ st k S (or_introl eq_refl)) as Y.
  destruct S as [_ [A _]]. rewrite Forall_forall in A. specialize (A _ I). unfold apart in A. cbn [fst snd] in A. lia.
Qed.
Lemma kind_more R ts m p n r : kind R ts m p n -> kind (r :: R) ts m p n.
Proof. intros [K|(k & K & K')]; [left; exact K|right]. exists k. split; [right; exact K|exact K']. Qed.

(** The current allocator changes in [used], [cap] and pages only. *)
Lemma home_same t t' r : tm_base t' = tm_base t -> tm_alloc t' = tm_alloc t -> tm_orig t' = tm_orig t -> home t' r = home t r.
Proof. intros B A O. unfold home. rewrite A, B, O. reflexivity. Qed.
Lemma shape_top R R' t t' r : shape R (t :: r) -> rok R' ->
  (forall a k, In (a, k) R -> In a (hs (t :: r) ++ ps r) -> In (a, k) R') ->
  tm_base t' = tm_base t -> tm_alloc t' = tm_alloc t -> tm_orig t' = tm_orig t -> tm_cap t' = tm_orig t -> 0 <= tm_used t' <= tm_orig t ->
  NoDup (pstart t' ++ ps r) -> (forall a, In a (pstart t') -> In a (hs (t :: r)) -> False) ->
  (forall g, In g (tm_pages t') -> 0 < pg_size g <= 2 ^ 62 /\ pg_data g = pg_start g + 32 /\ exists k, In (pg_start g, k) R' /\ pg_size g + 32 <= k) ->
  shape R' (t' :: r).
Proof.
  intros S RO KEEP B A O C U ND HP PG.
  assert (HS : hs (t' :: r) = hs (t :: r)) by (unfold hs; cbn [flat_map]; unfold hstart; rewrite A, B; reflexivity).
  constructor.
  - exact RO.
  - intros t0 h0 [I|I].
    + injection I as <- <-. rewrite (home_same t t' (placed r) B A O).
      assert (P0 : In (t, home t (placed r)) (placed (t :: r))) by (left; reflexivity).
      destruct (sh_home R _ S _ _ P0) as (HR & X1 & X2 & X3 & X4). rewrite B, O, C. split; [|lia].
      destruct (home t (placed r)) as [a k] eqn:E. apply (KEEP a k HR). apply in_or_app. left. exact (home_hs R _ _ _ S P0).
    + assert (P0 : In (t0, h0) (placed (t :: r))) by (right; exact I).
      destruct (sh_home R _ S _ _ P0) as (HR & X). split; [|exact X]. destruct h0 as [a k]. apply (KEEP a k HR). apply in_or_app. left. exact (home_hs R _ _ _ S P0).
  - pose proof (sh_ord R _ S) as OR. cbn [placed] in *. rewrite (home_same t t' (placed r) B A O). inversion OR as [|? ? O1 O2]; subst.
    constructor; [|exact O2]. rewrite Forall_forall in *. intros x I. specialize (O1 x I). unfold ordered in *. cbn [fst snd] in *. rewrite B. exact O1.
  - rewrite HS. apply S.
  - unfold ps. cbn [flat_map]. exact ND.
  - intros a. rewrite HS. intros I J. unfold ps in J. cbn [flat_map] in J. apply in_app_or in J. destruct J as [J|J]; [exact (HP a J I)|].
    apply (sh_hp R _ S a I). unfold ps. cbn [flat_map]. apply in_or_app. right. exact J.
  - intros t0 g [<-|I] G; [apply PG; exact G|]. destruct (sh_page R _ S t0 g (or_intror I) G) as (Y1 & Y2 & k & Y3 & Y4).
    split; [exact Y1|]. split; [exact Y2|]. exists k. split; [|exact Y4]. apply KEEP; [exact Y3|]. apply in_or_app. right. apply (in_ps r t0 g I G).
  - rewrite C. congruence.
Qed.
(** The same when only [used] changes. *)
Lemma shape_used R t r u : shape R (t :: r) -> 0 <= u <= tm_cap t -> shape R (tm_with t u (tm_pages t) :: r).
Proof.
  intros S U. pose proof (sh_top R _ S) as T. cbv beta iota in T.
  apply (shape_top R R t); cbn [tm_with tm_base tm_alloc tm_used tm_cap tm_orig tm_pages]; auto; try lia.
  - apply S.
  - exact (sh_pnd R _ S).
  - intros a I J. apply (sh_hp R _ S a J). unfold ps. cbn [flat_map]. apply in_or_app. left. exact I.
  - intros g G. exact (sh_page R _ S t g (or_introl eq_refl) G).
Qed.
Lemma kind_used R t r m p n u : shape R (t :: r) -> kind R (t :: r) m p n -> (p + n <= tm_base t + tm_used t -> tm_base t + 8 <= p -> p + n <= tm_base t + u) ->
  kind R (tm_with t u (tm_pages t) :: r) m p n.
Proof.
  intros S K U. destruct K as [(t' & h & I & K1 & K2 & K3)|(k & K1 & K2 & K3 & K4 & K5)].
  - left. cbn [placed] in I. destruct I as [I|I].
    + injection I as <- <-. exists (tm_with t u (tm_pages t)), (home t (placed r)). split; [left; reflexivity|].
      cbn [tm_with tm_base tm_used]. split; [exact K1|]. split; [apply U; assumption|exact K3].
    + exists t', h. split; [right; exact I|]. auto.
  - right. exists k. split; [exact K1|]. split; [exact K2|]. split; [exact K3|]. split; [exact K4|].
    destruct K5 as [K5|(t' & g & I & G & K5)]; [left; exact K5|right]. destruct I as [<-|I].
    + exists (tm_with t u (tm_pages t)), g. split; [left; reflexivity|]. split; [exact G|exact K5].
    + exists t', g. split; [right; exact I|]. auto.
Qed.

(** ** acquire *)
Lemma covered_in R a k p n : In (a, k) R -> a <= p -> p + n <= a + k -> covered R p n = true.
Proof. intros I A B. unfold covered. apply existsb_exists. exists (a, k). split; [exact I|]. cbn [fst snd]. lia. Qed.
Lemma align32 al : align_ok al -> al <= 32 -> alignment_for al = 16 \/ alignment_for al = 32.
Proof.
  intros A L. destruct (alignment_for_cases al A) as (k & K & E). rewrite E.
  assert (k = 4 \/ 5 <= k) as [->|K5] by lia; [left; reflexivity|]. destruct (Z.eq_dec k 5) as [->|N]; [right; reflexivity|].
  assert (2 ^ 6 <= 2 ^ k) by (apply Z.pow_le_mono_r; lia). unfold alignment_for in E. destruct (Z.ltb_spec al 16); lia.
Qed.
Lemma aligned_offset_32 al : al = 16 \/ al = 32 -> aligned_offset 32 al = 32.
Proof. intros [->| ->]; reflexivity. Qed.
Lemma temp_page_spec b t r m l n z al : tinv (bk_live b) (t :: r) m l -> 0 < n <= 2 ^ 62 -> al = 16 \/ al = 32 ->
  exists t' b' m' a, temp_page t b m n z al = Done (t', b', m') a /\
   (forall x, live_at (bk_live b) x -> m' x = m x) /\
   ((a = AFail /\ t' = t /\ tinv (bk_live b') (t :: r) m' l /\ bk_live b' = bk_live b) \/
    exists q k, a = APtr q /\ q mod al = 0 /\ (z = true -> forall x, q <= x < q + n -> m' x = 0) /\
      t' = tm_with t (tm_used t) (Pg (q - 32) q n :: tm_pages t) /\ bk_live b' = (q - 32, k) :: bk_live b /\ n + 32 <= k /\
      tinv (bk_live b') (t' :: r) m' ((q, bytes_at m' q n) :: l)).
Proof.
  intros TI N AL. pose proof TI as [S K X]. assert (WE := W_eq). unfold temp_page. cbv zeta.
  set (total := if 16 <? al then aligned_offset (wadd 32 n) al else wadd (aligned_offset 32 16) n).
  assert (HT : n + 32 <= total).
  { unfold total. rewrite (wadd_small 32 n) by lia. destruct AL as [->| ->]; cbn [Z.ltb Z.compare].
    - change (16 <? 16) with false. cbv iota. change (aligned_offset 32 16) with 32. rewrite wadd_small by lia. lia.
    - change (16 <? 32) with true. cbv iota. destruct (align_up_props (32 + n) 32) as [_ H]; lia. }
  replace (if 16 <? al then aligned_offset 32 al else aligned_offset 32 16) with 32 by (destruct AL as [->| ->]; reflexivity).
  destruct (bk_acquire_spec b m total z (if 16 <? al then al else 0) (sh_rok _ _ S) ltac:(lia)) as (r1 & b1 & m1 & E1 & F1 & G1). rewrite E1.
  destruct r1 as [st|].
  2:{ eexists _, _, _, _. split; [reflexivity|]. split; [exact F1|]. left. split; [reflexivity|]. split; [reflexivity|]. rewrite G1. split; [|reflexivity].
      apply (tinv_live _ _ m); assumption. }
  destruct G1 as (L1 & R1 & M1 & Z1). pose proof (rok_in _ _ _ R1 (or_introl eq_refl)) as (P1 & P2 & P3).
  rewrite (wadd_small st 32) by lia. rewrite (wsub_small (st + 32) 8) by lia.
  rewrite (covered_in (bk_live b1) st total (st + 32 - 8) 8); [|rewrite L1; left; reflexivity|lia|lia].
  set (g := Pg st (st + 32) n). set (t' := tm_with t (tm_used t) (g :: tm_pages t)). set (m2 := st8 m1 (st + 32 - 8) all_ones).
  assert (OUT : forall x, live_at (bk_live b) x -> x < st \/ st + total <= x).
  { intros x (u & v & I & Hx). destruct R1 as [_ [Q _]]. rewrite Forall_forall in Q. specialize (Q _ I). unfold apart in Q. cbn [fst snd] in Q. lia. }
  assert (F2 : forall x, live_at (bk_live b) x -> m2 x = m x).
  { intros x L. unfold m2. pose proof (OUT x L). rewrite st8_out by lia. apply F1. exact L. }
  eexists t', _, _, _. split; [reflexivity|]. split; [exact F2|]. right. exists (st + 32), total. split; [reflexivity|]. replace (st + 32 - 32) with st by lia.
  assert (MA : (st + 32) mod al = 0).
  { assert (Q : st mod al = 0). { destruct AL as [->| ->]; exact M1. } rewrite Z.add_mod by lia. rewrite Q. destruct AL as [->| ->]; reflexivity. }
  split; [exact MA|]. split; [intros ZZ x Hx; unfold m2; rewrite st8_out by lia; apply Z1; [exact ZZ|lia]|].
  split; [reflexivity|]. split; [exact L1|]. split; [lia|].
  assert (FR : forall a k, In (a, k) (bk_live b) -> st <> a) by (intros a k; apply (fresh_start _ _ _ _ _ R1)).
  pose proof (sh_top _ _ S) as T. cbv beta iota in T.
  assert (P0 : In (t, home t (placed r)) (placed (t :: r))) by (left; reflexivity).
  destruct (sh_home _ _ S _ _ P0) as (_ & _ & _ & HU & _).
  assert (S' : shape (bk_live b1) (t' :: r)).
  { rewrite L1. apply (shape_top (bk_live b) _ t); unfold t'; cbn [tm_with tm_base tm_alloc tm_used tm_cap tm_orig tm_pages]; auto; try lia.
    - intros a k I _. right. exact I.
    - unfold pstart. cbn [tm_pages tm_with map pg_start g app]. constructor; [|exact (sh_pnd _ _ S)].
      intros I. destruct (ps_region _ _ st S I) as (k & J). exact (FR _ _ J eq_refl).
    - unfold pstart. cbn [tm_pages tm_with map pg_start g]. intros a [<-|I] J.
      + destruct (hs_region _ _ _ S J) as (k & J'). exact (FR _ _ J' eq_refl).
      + apply (sh_hp _ _ S a J). unfold ps. cbn [flat_map]. apply in_or_app. left. exact I.
    - intros g' [<-|G].
      + cbn [g pg_size pg_data pg_start]. split; [lia|]. split; [reflexivity|]. exists total. split; [left; reflexivity|lia].
      + destruct (sh_page _ _ S t g' (or_introl eq_refl) G) as (Y1 & Y2 & k & Y3 & Y4). split; [exact Y1|]. split; [exact Y2|].
        exists k. split; [right; exact Y3|exact Y4]. }
  assert (HS : hs (t' :: r) = hs (t :: r)) by reflexivity.
  assert (PS : ps (t' :: r) = st :: ps (t :: r)) by reflexivity.
  assert (T1 : tinv (bk_live b1) (t' :: r) m2 l).
  { apply (tinv_frame (bk_live b) (t :: r) m l); [exact TI|exact S'| |].
    - intros p d x I Hx. apply F2. destruct (K p d I) as (K1 & _ & K3). apply (kind_live _ _ m p (size_of d) x S); [lia|exact K3|exact Hx].
    - intros p d I [(t0 & h & J & Q)|(k & Q1 & Q2 & Q3 & Q4 & Q5)].
      + left. cbn [placed] in J. destruct J as [J|J].
        * injection J as <- <-. exists t', (home t (placed r)). split; [left; reflexivity|]. exact Q.
        * exists t0, h. split; [right; exact J|exact Q].
      + right. exists k. rewrite L1. split; [right; exact Q1|]. split; [exact Q2|]. split; [exact Q3|]. rewrite HS, PS. split; [exact Q4|].
        destruct Q5 as [Q5|(t0 & g0 & J & G & Q5)].
        * left. intros [E|E]; [exact (FR _ _ Q1 E)|exact (Q5 E)].
        * right. destruct J as [<-|J].
          -- exists t', g0. split; [left; reflexivity|]. split; [right; exact G|exact Q5].
          -- exists t0, g0. split; [right; exact J|]. split; [exact G|exact Q5]. }
  apply tinv_new; [exact T1|exact N| |].
  - right. exists total. replace (st + 32 - 32) with st by lia. split; [rewrite L1; left; reflexivity|]. split; [lia|]. split.
    + unfold m2. apply ld8_st8. unfold all_ones. lia.
    + split.
      * rewrite HS. intros I. destruct (hs_region _ _ _ S I) as (k & J). exact (FR _ _ J eq_refl).
      * right. exists t', g. split; [left; reflexivity|]. split; [left; reflexivity|]. split; reflexivity.
  - intros q e I. destruct (K q e I) as (K1 & _ & K3).
    destruct K3 as [(t0 & h & J & Q1 & Q2 & Q3)|(k & Q1 & Q2 & _)].
    + destruct (sh_home _ _ S _ _ J) as (IR & Y1 & Y2 & Y3 & Y4). destruct h as [a j]. cbn [fst snd] in *.
      pose proof (rok_apart _ st total a j R1 (or_introl eq_refl) (or_intror IR) (FR _ _ IR)) as Q. unfold apart in *. lia.
    + pose proof (rok_apart _ st total _ k R1 (or_introl eq_refl) (or_intror Q1) (FR _ _ Q1)) as Q. unfold apart in *. lia.
Qed.
Lemma temp_acquire_spec b t r m l n z al : tinv (bk_live b) (t :: r) m l -> 0 < n <= 2 ^ 62 -> align_ok al -> al <= 32 ->
  exists t' b' m' a, temp_acquire t b m n z al = Done (t', b', m') a /\
   (forall x, live_at (bk_live b) x -> ~ (tm_base t + tm_used t <= x < tm_base t + tm_cap t) -> m' x = m x) /\
   ((a = AFail /\ t' = t /\ tinv (bk_live b') (t :: r) m' l /\ bk_live b' = bk_live b) \/
    exists q, a = APtr q /\ q mod alignment_for al = 0 /\ (z = true -> forall x, q <= x < q + n -> m' x = 0) /\
      tinv (bk_live b') (t' :: r) m' ((q, bytes_at m' q n) :: l) /\
      ((exists u, t' = tm_with t u (tm_pages t) /\ bk_live b' = bk_live b /\ tm_base t + tm_used t + 8 <= q /\ q + n = tm_base t + u /\ u <= tm_cap t) \/
       (exists k, t' = tm_with t (tm_used t) (Pg (q - 32) q n :: tm_pages t) /\ bk_live b' = (q - 32, k) :: bk_live b /\ n + 32 <= k))).
Proof.
  intros TI N A L32. pose proof TI as [S K X]. assert (WE := W_eq). unfold temp_acquire. cbv zeta.
  destruct (align32 al A L32) as [E|E].
  all: assert (AL : alignment_for al = 16 \/ alignment_for al = 32) by tauto.
  all: assert (P0 : In (t, home t (placed r)) (placed (t :: r))) by (left; reflexivity).
  all: destruct (sh_home _ _ S _ _ P0) as (HR & H1 & H2 & H3 & H4).
  all: destruct (home t (placed r)) as [ha hk] eqn:EH; cbn [fst snd] in *; pose proof (rok_in _ _ _ (sh_rok _ _ S) HR) as (B0 & B1 & B2).
  all: rewrite (wadd_small (tm_base t) (tm_used t)) by lia.
  all: destruct (align_up_props (tm_base t + tm_used t) 8) as [A1 A2]; [lia|lia|lia|].
  all: set (s0 := aligned_offset (tm_base t + tm_used t) 8) in *; rewrite (wadd_small s0 8) by lia.
  all: destruct (align_up_props (s0 + 8) (alignment_for al)) as [M1 M2]; [lia|lia|lia|].
  all: set (p := aligned_offset (s0 + 8) (alignment_for al)) in *.
  all: rewrite (wsub_small p (tm_base t)) by lia; rewrite (wadd_small (p - tm_base t) n) by lia.
  all: destruct (Z.leb_spec (p - tm_base t + n) (tm_cap t)) as [Y|Y].
  2,4: destruct (temp_page_spec b t r m l n z (alignment_for al) TI N AL) as (t' & b' & m' & a & TP & F & G);
       exists t', b', m', a; (split; [exact TP|]); (split; [intros x LX _; apply F; exact LX|]);
       destruct G as [G|(q & k & G1 & G2 & G3 & G4 & G5 & G6 & G7)]; [left; exact G|right]; exists q;
       (split; [exact G1|]); (split; [exact G2|]); (split; [exact G3|]); (split; [exact G7|]); right; exists k; auto.
  all: rewrite (wsub_small p 8) by lia.
  all: rewrite (covered_in _ ha hk (p - 8) 8 HR) by lia; rewrite (covered_in _ ha hk p n HR) by lia; rewrite orb_true_r; cbn [andb].
  all: set (m1 := st8 m (p - 8) n); set (m2 := if z then mclear m1 p n else m1); set (t' := tm_with t (p - tm_base t + n) (tm_pages t)).
  all: assert (F2 : forall x, x < p - 8 \/ p + n <= x -> m2 x = m x)
         by (intros x Hx; unfold m2, m1; destruct z; [rewrite mclear_out by lia|]; rewrite st8_out by lia; reflexivity).
  all: exists t', b, m2, (APtr p); (split; [reflexivity|]); (split; [intros x LX NX; apply F2; lia|]); right; exists p; (split; [reflexivity|]).
  all: (split; [exact M1|]); (split; [intros ZZ x Hx; unfold m2; rewrite ZZ; apply mclear_in; lia|]).
  all: split; [|left; exists (p - tm_base t + n); split; [reflexivity|]; split; [reflexivity|]; lia].
  all: assert (FREE : forall q e, In (q, e) l -> q + size_of e <= tm_base t + tm_used t \/ tm_base t + tm_cap t <= q - 8)
         by (intros q e I; destruct (K q e I) as (K1 & _ & K3); apply (kind_free (bk_live b) t r m q (size_of e)); [exact S|lia|exact K3]).
  all: assert (S' : shape (bk_live b) (t' :: r)) by (apply shape_used; [exact S|lia]).
  all: apply tinv_new; [|exact N| |intros q e I; destruct (K q e I) as (K1 & _); pose proof (FREE q e I); unfold apart; lia].
  all: try (left; exists t', (ha, hk); split; [cbn [placed]; left; unfold t'; rewrite <- EH; reflexivity|];
            unfold t'; cbn [tm_with tm_base tm_used]; split; [lia|]; split; [lia|];
            rewrite <- (ld8_st8 m (p - 8) n) by lia; apply ld8_ext; intros x Hx; unfold m2, m1; destruct z; [rewrite mclear_out by lia|]; reflexivity).
  all: apply (tinv_frame (bk_live b) (t :: r) m l); [exact TI|exact S'| |].
  all: try (intros q e x I Hx; apply F2; pose proof (FREE q e I); lia).
  all: intros q e I KK; apply (kind_used _ _ _ _ _ _ _ S KK); lia.
Qed.

(** ** release and resize *)
Lemma top_block R t r m p n : shape R (t :: r) -> 0 < n -> kind R (t :: r) m p n -> ld8 m (p - 8) = n -> n < all_ones ->
  p + n = tm_base t + tm_used t -> tm_base t + 8 <= p.
Proof.
  intros S N K LD NA E.
  assert (P0 : In (t, home t (placed r)) (placed (t :: r))) by (left; reflexivity).
  destruct (sh_home R _ S _ _ P0) as (HR & A & B & C & D). destruct (home t (placed r)) as [a j] eqn:EH. cbn [fst snd] in *.
  destruct K as [(t' & h' & I & K1 & K2 & K3)|(k & K1 & K2 & K3 & K4 & K5)]; [|lia].
  destruct (sh_home R _ S _ _ I) as (HR' & A' & B' & C' & D'). destruct h' as [a' j']. cbn [fst snd] in *.
  destruct (regions R _ _ _ _ (sh_rok R _ S) HR HR') as [Q|Q]; [|unfold apart in Q; lia].
  cbn [placed] in I. rewrite EH in I. destruct I as [I|I]; [injection I as <- _; lia|].
  pose proof (sh_ord R _ S) as O. cbn [placed] in O. rewrite EH in O. inversion O as [|? ? O1 O2]; subst. rewrite Forall_forall in O1.
  pose proof (O1 _ I) as Y. unfold ordered in Y. cbn [fst snd] in Y. specialize (Y Q). lia.
Qed.
Lemma kind_ld R ts m p n : kind R ts m p n -> ld8 m (p - 8) = n \/ ld8 m (p - 8) = all_ones.
Proof. intros [(t & h & _ & _ & _ & K)|(k & _ & _ & K & _)]; [left|right]; exact K. Qed.
Lemma kind_pos R ts m p n : shape R ts -> kind R ts m p n -> 0 < n -> 8 < p /\ p + n <= 2 ^ 62.
Proof.
  intros S K N. destruct K as [(t & h & I & K1 & K2 & K3)|(k & K1 & K2 & _)].
  - destruct (sh_home R ts S _ _ I) as (IR & A & B & C & D). destruct h as [a j]. pose proof (rok_in R a j (sh_rok R ts S) IR). cbn [fst snd] in *. lia.
  - pose proof (rok_in R _ _ (sh_rok R ts S) K1). lia.
Qed.
Lemma tinv_used R t r m l u : tinv R (t :: r) m l -> 0 <= u <= tm_cap t ->
  (forall q e, In (q, e) l -> q + size_of e <= tm_base t + tm_used t -> tm_base t + 8 <= q -> q + size_of e <= tm_base t + u) ->
  tinv R (tm_with t u (tm_pages t) :: r) m l.
Proof.
  intros TI U H. pose proof TI as [S K X]. apply (tinv_frame R (t :: r) m l); [exact TI|apply shape_used; assumption|auto|].
  intros p d I KK. apply (kind_used _ _ _ _ _ _ _ S KK). apply (H p d I).
Qed.
Lemma top_bounds R t r : shape R (t :: r) -> 64 < tm_base t /\ 0 <= tm_used t <= tm_cap t /\ tm_base t + tm_cap t <= 2 ^ 62 /\ tm_cap t = tm_orig t.
Proof.
  intros S. assert (P0 : In (t, home t (placed r)) (placed (t :: r))) by (left; reflexivity).
  destruct (sh_home R _ S _ _ P0) as (HR & A & B & C & D). destruct (home t (placed r)) as [a j]. cbn [fst snd] in *.
  pose proof (rok_in R a j (sh_rok R _ S) HR). pose proof (sh_top R _ S) as T. cbv beta iota in T. lia.
Qed.
Lemma page_not_last R t r m p n : shape R (t :: r) -> 0 < n -> kind R (t :: r) m p n -> ld8 m (p - 8) = all_ones -> n < all_ones ->
  p - 1 <> tm_base t + tm_used t.
Proof.
  intros S N K LD NA E. destruct K as [(t' & h' & I & K1 & K2 & K3)|(k & K1 & K2 & K3 & K4 & K5)]; [lia|].
  assert (P0 : In (t, home t (placed r)) (placed (t :: r))) by (left; reflexivity).
  destruct (sh_home R _ S _ _ P0) as (HR & A & B & C & D). destruct (home t (placed r)) as [a j] eqn:EH. cbn [fst snd] in *.
  assert (NE : p - 32 <> a) by (intros Q; apply K4; rewrite Q; exact (home_hs R _ _ _ S P0)).
  pose proof (rok_apart R _ _ _ _ (sh_rok R _ S) K1 HR NE) as Y. unfold apart in Y. lia.
Qed.
Lemma temp_release_spec R t r m l p d : tinv R (t :: r) m l -> In (p, d) l -> tinv R (temp_release t m p :: r) m (forget p l).
Proof.
  intros TI I. pose proof TI as [S K X]. assert (WE := W_eq). destruct (K p d I) as (K1 & K2 & K3).
  destruct (kind_pos R (t :: r) m p (size_of d) S K3 ltac:(lia)) as [Q1 Q2]. destruct (top_bounds _ _ _ S) as (T1 & T2 & T3 & T4).
  unfold temp_release. cbv zeta. rewrite (wsub_small p 8) by lia. rewrite (wadd_small (tm_base t) (tm_used t)) by lia.
  assert (TF : tinv R (t :: r) m (forget p l)) by (apply tinv_filter; exact TI).
  destruct (kind_ld _ _ _ _ _ K3) as [LD|LD]; rewrite LD.
  - rewrite (wadd_small p (size_of d)) by lia. destruct (Z.eqb_spec (p + size_of d) (tm_base t + tm_used t)) as [E|E]; [|exact TF].
    assert (NA : size_of d < all_ones) by (unfold all_ones; lia). assert (N0 : 0 < size_of d) by lia.
    pose proof (top_block _ _ _ _ _ _ S N0 K3 LD NA E) as TB.
    rewrite wsub_small by lia. apply tinv_used; [exact TF|lia|]. intros q e J Y1 Y2. apply forget_in in J. destruct J as [J1 J2].
    destruct (xapart_in _ _ X _ _ _ _ I J1) as [Q|Q]; [congruence|]. destruct (K q e J1) as (L1 & _). unfold apart in Q. lia.
  - replace (wadd p all_ones) with (p - 1).
    + assert (NA : size_of d < all_ones) by (unfold all_ones; lia). assert (N0 : 0 < size_of d) by lia.
      pose proof (page_not_last _ _ _ _ _ _ S N0 K3 LD NA) as NL. destruct (Z.eqb_spec (p - 1) (tm_base t + tm_used t)); [contradiction|exact TF].
    + unfold wadd, w64, all_ones. apply (Z.mod_unique _ _ 1); lia.
Qed.
Lemma new_apart R ts m l q n : 0 <= n -> tinv R ts m ((q, bytes_at m q n) :: l) -> forall q' d, In (q', d) l -> apart q n q' (size_of d).
Proof.
  intros N [_ _ [X _]] q' d I. rewrite Forall_forall in X. specialize (X _ I). cbn [fst snd] in X. rewrite bytes_at_size in X by exact N. unfold apart in *. lia.
Qed.
Lemma resize_fair below R ts m l p d n al q R' ts' m' : tinv R ts m l -> In (p, d) l -> 0 < n -> align_ok al -> q mod alignment_for al = 0 ->
  tinv R' ts' m' ((q, bytes_at m' q n) :: forget p l) -> (forall i, 0 <= i < Z.min n (size_of d) -> m' (q + i) = m (p + i)) ->
  fair below l (Resize p n al) (APtr q) m'.
Proof.
  intros TI I N A Q T' F. cbn [fair]. split; [apply aligned_to_intro; assumption|]. split.
  - apply (new_apart R' ts' m'); [lia|exact T'].
  - intros d' J. assert (d' = d) by (apply (tinv_ptr R ts m l p d' d); assumption). subst d'. destruct TI as [S K X]. destruct (K p d I) as (K1 & K2 & _).
    rewrite <- K2 at 2. rewrite bytes_at_firstn by lia. apply bytes_at_ext. exact F.
Qed.
Lemma tinv_forget_tail R ts m l q v p : tinv R ts m ((q, v) :: l) -> tinv R ts m ((q, v) :: forget p l).
Proof.
  intros TI. apply (tinv_sub R ts m ((q, v) :: l)); [exact TI| |].
  - intros b [E|E]; [left; exact E|right]. apply filter_In in E. tauto.
  - destruct TI as [_ _ [X1 X2]]. cbn [xapart]. split; [|apply xapart_filter; exact X2]. apply Forall_forall. intros b B. apply filter_In in B.
    rewrite Forall_forall in X1. apply X1. tauto.
Qed.
Lemma s64_diff n c : 0 < n <= 2 ^ 62 -> 0 < c <= 2 ^ 62 -> s64 (wsub n c) = n - c.
Proof.
  intros N C. assert (WE := W_eq). unfold s64, wsub, w64. destruct (Z.le_gt_cases c n).
  - rewrite Z.mod_small by lia. replace (n - c <? 2 ^ 63) with true by lia. reflexivity.
  - assert (E : (n - c) mod W = n - c + W) by (symmetry; apply (Z.mod_unique _ _ (-1)); lia). rewrite E.
    replace (n - c + W <? 2 ^ 63) with false by lia. lia.
Qed.
Lemma wadd_neg a d : 0 <= a + d < W -> wadd a d = a + d.
Proof. apply wadd_small. Qed.
(** A region that no allocator and no block uses is given back. *)
Lemma tinv_drop R ts m l a : tinv R ts m l -> ~ In a (hs ts) -> ~ In a (ps ts) -> (forall d, ~ In (a + 32, d) l) -> tinv (drop_region a R) ts m l.
Proof.
  intros TI NH NP NL. pose proof TI as [S K X].
  assert (KEEP : forall b k, In (b, k) R -> In b (hs ts) \/ In b (ps ts) -> In (b, k) (drop_region a R)).
  { intros b k I J. apply drop_in. split; [exact I|]. intros ->. tauto. }
  apply (tinv_frame R ts m l); [exact TI| |auto|].
  - constructor; try apply S.
    + apply rok_drop. apply S.
    + intros t [b k] I. destruct (sh_home R ts S _ _ I) as (HR & Y). split; [|exact Y]. apply KEEP; [exact HR|]. left. exact (home_hs R _ _ _ S I).
    + intros t g I G. destruct (sh_page R ts S t g I G) as (Y1 & Y2 & k & Y3 & Y4). split; [exact Y1|]. split; [exact Y2|]. exists k. split; [|exact Y4].
      apply KEEP; [exact Y3|]. right. exact (in_ps ts t g I G).
  - intros p d I [Q|(k & Q1 & Q2)]; [left; exact Q|right]. exists k. split; [|exact Q2]. apply drop_in. split; [exact Q1|]. intros E. apply (NL d).
    replace (a + 32) with p by lia. exact I.
Qed.
Lemma unlink_some p ps g : In g ps -> pg_data g = p -> exists h r, unlink p ps = Some (h, r).
Proof.
  induction ps as [|c ps IH]; [intros []|]. cbn [unlink]. intros I E. destruct (Z.eqb_spec (pg_data c) p); [eauto|].
  destruct I as [->|I]; [contradiction|]. destruct (IH I E) as (h & r & ->). eauto.
Qed.
Lemma unlink_split p ps g r : unlink p ps = Some (g, r) -> pg_data g = p /\ exists l1 l2, ps = l1 ++ g :: l2 /\ r = l1 ++ l2.
Proof.
  revert g r. induction ps as [|c ps IH]; intros g r; cbn [unlink]; [discriminate|]. destruct (Z.eqb_spec (pg_data c) p) as [E|E].
  - intros H. injection H as <- <-. split; [exact E|]. exists [], ps. split; reflexivity.
  - destruct (unlink p ps) as [[h r']|]; [|discriminate]. intros H. injection H as <- <-. destruct (IH h r' eq_refl) as (E' & l1 & l2 & -> & ->).
    split; [exact E'|]. exists (c :: l1), l2. split; reflexivity.
Qed.
Lemma nodup_map_inj {A B} (f : A -> B) l x y : NoDup (map f l) -> In x l -> In y l -> f x = f y -> x = y.
Proof.
  induction l as [|a l IH]; [intros _ []|]. cbn [map]. intros ND I J E. apply NoDup_cons_iff in ND. destruct ND as [N1 N2].
  destruct I as [->|I], J as [->|J]; [reflexivity| | |apply IH; assumption].
  - exfalso. apply N1. rewrite E. apply in_map. exact J.
  - exfalso. apply N1. rewrite <- E. apply in_map. exact I.
Qed.
Lemma ps_map ts : ps ts = map pg_start (flat_map tm_pages ts).
Proof. induction ts as [|t ts IH]; [reflexivity|]. unfold ps in *. cbn [flat_map]. rewrite map_app, IH. reflexivity. Qed.
Lemma page_uniq R ts t g t' g' : shape R ts -> In t ts -> In g (tm_pages t) -> In t' ts -> In g' (tm_pages t') -> pg_start g = pg_start g' -> g = g'.
Proof.
  intros S I G I' G' E. pose proof (sh_pnd R ts S) as ND. rewrite ps_map in ND. apply (nodup_map_inj _ _ _ _ ND); [| |exact E]; apply in_flat_map; eauto.
Qed.
(** Taking a page out of the list leaves its block alone in its region. *)
Lemma tinv_unlink R t r m l p g ps' : tinv R (t :: r) m l -> unlink p (tm_pages t) = Some (g, ps') ->
  tinv R (tm_with t (tm_used t) ps' :: r) m l /\ pg_data g = p /\ In g (tm_pages t) /\ ~ In (pg_start g) (ps (tm_with t (tm_used t) ps' :: r)).
Proof.
  intros TI U. pose proof TI as [S K X]. destruct (unlink_split _ _ _ _ U) as (DG & l1 & l2 & E1 & E2).
  destruct (top_bounds _ _ _ S) as (T1 & T2 & T3 & T4).
  assert (GI : In g (tm_pages t)) by (rewrite E1; apply in_or_app; right; left; reflexivity).
  assert (SUB : forall x, In x ps' -> In x (tm_pages t)).
  { intros x. rewrite E1, E2. intros I. apply in_app_or in I. apply in_or_app. destruct I; [left|right; right]; assumption. }
  pose proof (sh_pnd _ _ S) as ND. unfold ps in ND. cbn [flat_map] in ND. unfold pstart at 1 in ND. rewrite E1, map_app in ND. cbn [map] in ND.
  rewrite <- app_assoc in ND. cbn [app] in ND. pose proof (NoDup_remove_1 _ _ _ ND) as ND1. pose proof (NoDup_remove_2 _ _ _ ND) as ND2.
  assert (PE : ps (tm_with t (tm_used t) ps' :: r) = map pg_start l1 ++ map pg_start l2 ++ flat_map pstart r).
  { unfold ps. cbn [flat_map]. unfold pstart at 1. cbn [tm_with tm_pages]. rewrite E2, map_app, <- app_assoc. reflexivity. }
  assert (NG : ~ In (pg_start g) (ps (tm_with t (tm_used t) ps' :: r))) by (rewrite PE; exact ND2).
  assert (S' : shape R (tm_with t (tm_used t) ps' :: r)).
  { apply (shape_top R R t); cbn [tm_with tm_base tm_alloc tm_used tm_cap tm_orig tm_pages]; auto; try lia.
    - apply S.
    - unfold pstart. cbn [tm_with tm_pages]. rewrite E2, map_app, <- app_assoc. exact ND1.
    - intros a I J. apply (sh_hp _ _ S a J). unfold ps. cbn [flat_map]. apply in_or_app. left. unfold pstart in *. cbn [tm_with tm_pages] in I.
      apply in_map_iff in I. destruct I as (x & <- & I). apply in_map. apply SUB. exact I.
    - intros x I. apply (sh_page _ _ S t x (or_introl eq_refl)). apply SUB. exact I. }
  split; [|auto]. apply (tinv_frame R (t :: r) m l); [exact TI|exact S'|auto|].
  intros q d I [(t0 & h & J & Q)|(k & Q1 & Q2 & Q3 & Q4 & Q5)].
  - left. cbn [placed] in J. destruct J as [J|J].
    + injection J as <- <-. exists (tm_with t (tm_used t) ps'), (home t (placed r)). split; [left; reflexivity|]. exact Q.
    + exists t0, h. split; [right; exact J|exact Q].
  - right. exists k. split; [exact Q1|]. split; [exact Q2|]. split; [exact Q3|]. split; [exact Q4|].
    destruct Q5 as [Q5|(t0 & g0 & J & G & Q5 & Q6)].
    + left. intros Y. apply Q5. rewrite PE in Y. unfold ps. cbn [flat_map]. unfold pstart at 1. rewrite E1, map_app, <- app_assoc. cbn [map app].
      apply in_app_or in Y. apply in_or_app. destruct Y as [Y|Y]; [left; exact Y|right; right; exact Y].
    + destruct (sh_page _ _ S t0 g0 J G) as (_ & Y2 & _). destruct (Z.eq_dec (pg_start g0) (pg_start g)) as [Y|Y].
      * left. replace (q - 32) with (pg_start g) by lia. exact NG.
      * right. destruct J as [<-|J]; [|exists t0, g0; split; [right; exact J|]; auto].
        exists (tm_with t (tm_used t) ps'), g0. split; [left; reflexivity|]. split; [|auto]. cbn [tm_with tm_pages]. rewrite E1 in G. rewrite E2.
        apply in_app_or in G. apply in_or_app. destruct G as [G|[G|G]]; [left; exact G|subst g0; congruence|right; exact G].
Qed.
Definition resized (below : Z -> Z -> Z -> bool) (r : list temp) (l : ledger) (p n al : Z) (o : outcome tstate) : Prop :=
  exists t' b' m' a, o = Done (t', b', m') a /\ fair below l (Resize p n al) a m' /\
    tinv (bk_live b') (t' :: r) m' (updated below l (Resize p n al) a m').
(** Moving the block [p] to the new block [q]: the copy. *)
Lemma move_copy R ts m1 l p d q n : tinv R ts m1 ((q, bytes_at m1 q n) :: l) -> In (p, d) l -> 0 < n -> size_of d <= 2 ^ 62 ->
  let c := Z.min n (size_of d) in
  tinv R ts (mcopy m1 q p c) ((q, bytes_at (mcopy m1 q p c) q n) :: l) /\ covered R q c = true /\
  (forall i, 0 <= i < c -> mcopy m1 q p c (q + i) = m1 (p + i)) /\ (forall x, x < q \/ q + n <= x -> mcopy m1 q p c x = m1 x).
Proof.
  intros TI I N SD c. pose proof TI as [S K X]. destruct (K q _ (or_introl eq_refl)) as (K1 & K2 & K3). rewrite bytes_at_size in * by lia.
  assert (O : forall x, x < q \/ q + n <= x -> mcopy m1 q p c x = m1 x) by (intros x Hx; apply mcopy_out; lia).
  split; [|split; [|split; [|exact O]]].
  - apply (tinv_rewrite R ts m1 l q n (bytes_at m1 q n)); [exact TI|apply bytes_at_size; lia|exact O].
  - apply (kind_covered R ts m1 q n); [exact S|exact K3|lia].
  - intros i Hi. rewrite mcopy_in by lia. f_equal. lia.
Qed.
Lemma temp_resize_spec below b t r m l p d n al : tinv (bk_live b) (t :: r) m l -> In (p, d) l -> 0 < n <= 2 ^ 62 -> align_ok al -> al <= 32 ->
  ((exists t', In t' (t :: r) /\ tm_base t' <= p < tm_base t' + tm_cap t') \/ exists g, In g (tm_pages t) /\ pg_data g = p) ->
  (p + size_of d = tm_base t + tm_used t -> aligned_to al p) ->
  resized below r l p n al (temp_resize t b m p n al).
Proof.
  intros TI I N A L32 WH AL. pose proof TI as [S K X]. assert (WE := W_eq). destruct (K p d I) as (K1 & K2 & K3).
  destruct (kind_pos (bk_live b) (t :: r) m p (size_of d) S K3 ltac:(lia)) as [Q1 Q2]. destruct (top_bounds _ _ _ S) as (T1 & T2 & T3 & T4).
  assert (N0 : 0 < size_of d) by lia. assert (NA : size_of d < all_ones) by (unfold all_ones; lia).
  assert (XO : forall q e, In (q, e) (forget p l) -> apart (p - 8) (size_of d + 8) (q - 8) (size_of e + 8)).
  { intros q e J. apply forget_in in J. destruct J as [J1 J2]. destruct (xapart_in _ _ X _ _ _ _ I J1) as [Q|Q]; [congruence|exact Q]. }
  unfold temp_resize. cbv zeta. rewrite (wsub_small p 8) by lia. rewrite (wadd_small (tm_base t) (tm_used t)) by lia.
  destruct (kind_ld _ _ _ _ _ K3) as [LD|LD]; rewrite LD.
  - (* in the memory of an allocator *)
    replace (size_of d =? all_ones) with false by lia. rewrite (wadd_small (size_of d) p) by lia. rewrite (s64_diff n (size_of d)) by lia.
    rewrite (wsub_small (tm_cap t) (tm_used t)) by lia.
    set (last := size_of d + p =? tm_base t + tm_used t).
    assert (TB : last = true -> tm_base t + 8 <= p /\ p + size_of d = tm_base t + tm_used t).
    { intros H. unfold last in H. apply Z.eqb_eq in H. split; [|lia]. apply (top_block _ _ _ _ _ _ S N0 K3 LD NA). lia. }
    destruct (last && (n - size_of d =? 0)) eqn:C1.
    + (* the same size *)
      apply andb_true_iff in C1. destruct C1 as [C1 C2]. destruct (TB C1) as [TB1 TB2]. assert (n = size_of d) by lia. subst n.
      assert (T' : tinv (bk_live b) (t :: r) m ((p, bytes_at m p (size_of d)) :: forget p l)).
      { apply tinv_new; [apply tinv_filter; exact TI|lia|exact K3|exact XO]. }
      exists t, b, m, (APtr p). split; [reflexivity|]. split; [|exact T'].
      exact (resize_fair below (bk_live b) (t :: r) m l p d _ al p (bk_live b) (t :: r) m TI I N0 A (aligned_to_mod _ _ (AL TB2) A) T' (fun i _ => eq_refl)).
    + destruct (last && (n - size_of d <? tm_cap t - tm_used t)) eqn:C2.
      * (* in place *)
        apply andb_true_iff in C2. destruct C2 as [C2 C3]. destruct (TB C2) as [TB1 TB2].
        assert (P0 : In (t, home t (placed r)) (placed (t :: r))) by (left; reflexivity).
        destruct (sh_home _ _ S _ _ P0) as (HR & H1 & H2 & H3 & H4). destruct (home t (placed r)) as [ha hk] eqn:EH. cbn [fst snd] in *.
        rewrite (covered_in _ ha hk (p - 8) 8 HR) by lia.
        rewrite (wadd_small (tm_used t)) by lia. rewrite (wadd_small (size_of d)) by lia. replace (size_of d + (n - size_of d)) with n by lia.
        set (u := tm_used t + (n - size_of d)). set (m' := st8 m (p - 8) n).
        assert (F : forall q e x, In (q, e) (forget p l) -> q - 8 <= x < q + size_of e -> m' x = m x).
        { intros q e x J Hx. unfold m'. apply st8_out. pose proof (XO q e J) as Q. unfold apart in Q. lia. }
        assert (T1' : tinv (bk_live b) (tm_with t u (tm_pages t) :: r) m' (forget p l)).
        { apply (tinv_mem _ _ m); [|exact F]. apply tinv_used; [apply tinv_filter; exact TI|unfold u; lia|].
          intros q e J Y1 Y2. pose proof (XO q e J) as Q. apply forget_in in J. destruct J as [J1 _]. destruct (K q e J1) as (L1 & _). unfold apart in Q. unfold u. lia. }
        assert (T' : tinv (bk_live b) (tm_with t u (tm_pages t) :: r) m' ((p, bytes_at m' p n) :: forget p l)).
        { apply tinv_new; [exact T1'|lia| |].
          - left. exists (tm_with t u (tm_pages t)), (ha, hk). split; [cbn [placed]; left; rewrite <- EH; reflexivity|]. cbn [tm_with tm_base tm_used].
            split; [lia|]. split; [unfold u; lia|]. unfold m'. apply ld8_st8. lia.
          - intros q e J. pose proof (XO q e J) as Q. apply forget_in in J. destruct J as [J1 J2]. destruct (K q e J1) as (L1 & _ & L3).
            pose proof (kind_free _ _ _ _ _ _ S (proj1 L1) L3) as FR. unfold apart in *. lia. }
        exists (tm_with t u (tm_pages t)), b, m', (APtr p). split; [reflexivity|]. split; [|exact T'].
        apply (resize_fair below (bk_live b) (t :: r) m l p d n al p (bk_live b) (tm_with t u (tm_pages t) :: r) m' TI I (proj1 N) A (aligned_to_mod _ _ (AL TB2) A) T').
        intros i Hi. unfold m'. apply st8_out. lia.
      * (* a new block *)
        destruct (temp_acquire_spec b t r m l n false al TI N A L32) as (t1 & b1 & m1 & a & E & F & G). rewrite E.
        destruct G as [(-> & -> & G1 & G2)|(q & -> & GA & _ & G1 & G2)].
        { exists t, b1, m1, AFail. split; [reflexivity|]. split; [exact Logic.I|exact G1]. }
        destruct (kind_free _ _ _ _ _ _ S N0 K3) as [FR|FR].
        1,2: assert (F1 : forall x, p - 8 <= x < p + size_of d -> m1 x = m x)
          by (intros x Hx; apply F; [apply (kind_live _ _ m p (size_of d) x S); assumption|lia]).
        1,2: assert (LD1 : ld8 m1 (p - 8) = size_of d) by (rewrite <- LD; apply ld8_ext; intros x Hx; apply F1; lia); rewrite LD1.
        1,2: replace (if n <? size_of d then n else size_of d) with (Z.min n (size_of d)) by (destruct (Z.ltb_spec n (size_of d)); lia).
        1,2: destruct (move_copy _ _ m1 l p d q n G1 I ltac:(lia) ltac:(lia)) as (M1 & M2 & M3 & M4); rewrite M2.
        1,2: set (m2 := mcopy m1 q p (Z.min n (size_of d))) in *.
        1,2: assert (F2 : forall i, 0 <= i < Z.min n (size_of d) -> m2 (q + i) = m (p + i)) by (intros i Hi; rewrite M3 by exact Hi; apply F1; lia).
        1,2: pose proof (tinv_forget_tail _ _ _ _ _ _ p M1) as M5.
        1,2: destruct last eqn:EL.
        -- destruct (TB eq_refl) as [TB1 TB2]. cbn [andb] in C2, C1. rewrite (wsub_small (p - 8)) by lia.
           destruct G2 as [(u & G2 & G3 & G4 & G5 & G6)|(k & G2 & G3 & G4)]; [lia|].
           assert (M6 : tinv (bk_live b1) (tm_with t1 (p - 8 - tm_base t) (tm_pages t1) :: r) m2 ((q, bytes_at m2 q n) :: forget p l)).
           { apply tinv_used; [exact M5|rewrite G2; cbn [tm_with tm_cap]; lia|]. rewrite G2. cbn [tm_with tm_base tm_used]. intros q' e [J|J] Y1 Y2.
             - injection J as <- <-. rewrite bytes_at_size in * by lia. exfalso.
               assert (SR := sh_rok _ _ (ti_shape _ _ _ _ G1)). rewrite G3 in SR.
               assert (P0 : In (t, home t (placed r)) (placed (t :: r))) by (left; reflexivity).
               destruct (sh_home _ _ S _ _ P0) as (HR & H1 & H2 & H3 & H4). destruct (home t (placed r)) as [ha hk] eqn:EH. cbn [fst snd] in *.
               pose proof (rok_apart _ _ _ _ _ SR (or_introl eq_refl) (or_intror HR) (fresh_start _ _ _ _ _ SR HR)) as Q. unfold apart in Q. lia.
             - pose proof (XO q' e J) as Q. apply forget_in in J. destruct J as [J1 _]. destruct (K q' e J1) as (L1 & _). unfold apart in Q. lia. }
           exists (tm_with t1 (p - 8 - tm_base t) (tm_pages t1)), b1, m2, (APtr q). split; [reflexivity|]. split; [|exact M6].
           apply (resize_fair below (bk_live b) (t :: r) m l p d n al q _ _ m2 TI I ltac:(lia) A GA M6 F2).
        -- exists t1, b1, m2, (APtr q). split; [reflexivity|]. split; [|exact M5].
           apply (resize_fair below (bk_live b) (t :: r) m l p d n al q _ _ m2 TI I ltac:(lia) A GA M5 F2).
        -- destruct (TB eq_refl). lia.
        -- exists t1, b1, m2, (APtr q). split; [reflexivity|]. split; [|exact M5].
           apply (resize_fair below (bk_live b) (t :: r) m l p d n al q _ _ m2 TI I ltac:(lia) A GA M5 F2).
  - (* in a page *)
    rewrite Z.eqb_refl. unfold temp_realloc_page.
    destruct K3 as [(t' & h & J & K3a & K3b & K3c)|(k & K4 & K5 & K6 & K7 & K8)]; [lia|].
    assert (WG : exists g, In g (tm_pages t) /\ pg_data g = p).
    { destruct WH as [(t' & J & W1)|W1]; [|exact W1]. exfalso. destruct (placed_in _ _ J) as (h & J' & _).
      destruct (sh_home _ _ S _ _ J') as (HR & H1 & H2 & H3 & H4). destruct h as [ha hk]. cbn [fst snd] in *.
      assert (NE : p - 32 <> ha) by (intros Q; apply K7; rewrite Q; exact (home_hs _ _ _ _ S J')).
      pose proof (rok_apart _ _ _ _ _ (sh_rok _ _ S) K4 HR NE) as Y. unfold apart in Y. lia. }
    destruct WG as (g0 & G0 & D0). destruct (unlink_some p _ g0 G0 D0) as (g & ps' & U). rewrite U.
    destruct (tinv_unlink _ _ _ _ _ _ _ _ TI U) as (TU & DG & GI & NG).
    destruct (sh_page _ _ S t g (or_introl eq_refl) GI) as (Y1 & Y2 & kk & Y3 & Y4).
    assert (SG : pg_start g = p - 32) by lia.
    assert (SZ : pg_size g = size_of d).
    { destruct K8 as [K8|(t' & g' & J & G' & D' & S')].
      - exfalso. apply K8. rewrite <- SG. apply (in_ps (t :: r) t g (or_introl eq_refl) GI).
      - destruct (sh_page _ _ S t' g' J G') as (_ & Z2 & _). rewrite <- S'. f_equal. apply (page_uniq _ (t :: r) t g t' g' S); auto; [left; reflexivity|lia]. }
    destruct (temp_acquire_spec b (tm_with t (tm_used t) ps') r m l n false al TU N A L32) as (t1 & b1 & m1 & a & E & F & G). rewrite E.
    destruct G as [(-> & -> & G1 & G2)|(q & -> & GA & _ & G1 & G2)].
    { exists (tm_with t (tm_used t) ps'), b1, m1, AFail. split; [reflexivity|]. split; [exact Logic.I|exact G1]. }
    destruct (K p d I) as (_ & _ & K3).
    assert (F1 : forall x, p - 8 <= x < p + size_of d -> m1 x = m x).
    { intros x Hx. apply F; [apply (kind_live _ _ m p (size_of d) x S); assumption|]. cbn [tm_with tm_base tm_used tm_cap].
      destruct (kind_free _ _ _ _ _ _ S N0 K3); lia. }
    rewrite SZ. replace (if n <? size_of d then n else size_of d) with (Z.min n (size_of d)) by (destruct (Z.ltb_spec n (size_of d)); lia).
    destruct (move_copy _ _ m1 l p d q n G1 I ltac:(lia) ltac:(lia)) as (M1 & M2 & M3 & M4). rewrite M2.
    set (m2 := mcopy m1 q p (Z.min n (size_of d))) in *.
    assert (F2 : forall i, 0 <= i < Z.min n (size_of d) -> m2 (q + i) = m (p + i)) by (intros i Hi; rewrite M3 by exact Hi; apply F1; lia).
    pose proof (tinv_forget_tail _ _ _ _ _ _ p M1) as M5.
    assert (LV : In (pg_start g, kk) (bk_live b1)).
    { destruct G2 as [(u & _ & -> & _)|(k' & _ & -> & _)]; [exact Y3|right; exact Y3]. }
    destruct (bk_release_spec b1 m2 (pg_start g) kk LV) as (b2 & m3 & RE & RL & RF). rewrite RE.
    assert (NQ : q <> p).
    { intros ->. pose proof (new_apart _ _ _ _ _ n ltac:(lia) G1 p d I) as Q. unfold apart in Q. lia. }
    assert (HS1 : hs (t1 :: r) = hs (t :: r)).
    { destruct G2 as [(u & -> & _)|(k' & -> & _)]; reflexivity. }
    assert (NP1 : ~ In (pg_start g) (ps (t1 :: r))).
    { destruct G2 as [(u & -> & _)|(k' & -> & G3 & _)]; [exact NG|]. unfold ps. cbn [flat_map tm_with tm_pages]. unfold pstart at 1. cbn [tm_with tm_pages map pg_start app].
      intros [Q|Q]; [lia|]. exact (NG Q). }
    assert (M6 : tinv (bk_live b2) (t1 :: r) m2 ((q, bytes_at m2 q n) :: forget p l)).
    { rewrite RL. apply tinv_drop; [exact M5| |exact NP1|].
      - rewrite HS1. rewrite SG. exact K7.
      - intros d' J. rewrite SG in J. replace (p - 32 + 32) with p in J by lia. destruct J as [J|J]; [injection J as J _; exact (NQ J)|]. apply forget_in in J. tauto. }
    assert (LIVE : forall x, q <= x < q + n -> m3 x = m2 x).
    { intros x Hx. apply RF. destruct M1 as [S1 KK1 _]. destruct (KK1 q _ (or_introl eq_refl)) as (Z1 & _ & Z3). rewrite bytes_at_size in * by lia.
      apply (kind_live _ _ _ _ _ x S1 (proj1 Z1) Z3). lia. }
    assert (BE : bytes_at m3 q n = bytes_at m2 q n) by (apply bytes_at_ext; intros i Hi; apply LIVE; lia).
    assert (M7 : tinv (bk_live b2) (t1 :: r) m3 ((q, bytes_at m3 q n) :: forget p l)).
    { rewrite BE. apply (tinv_live _ _ m2); [exact M6|]. intros x LX. apply RF. rewrite RL in LX. destruct LX as (u & v & J & Hx). apply drop_in in J.
      exists u, v. tauto. }
    exists t1, b2, m3, (APtr q). split; [reflexivity|]. split; [|exact M7].
    apply (resize_fair below (bk_live b) (t :: r) m l p d n al q _ _ m3 TI I ltac:(lia) A GA M7). intros i Hi. rewrite LIVE by lia. apply F2. exact Hi.
Qed.

(** ** Entering and leaving a pool *)
Lemma push_inside R t r m l start : tinv R (t :: r) m l -> tm_used t <= start -> start + 64 <= tm_cap t ->
  tinv R (Tm (tm_base t + start + 64) false 0 (tm_cap t - start - 64) (tm_cap t - start - 64) [] ::
          Tm (tm_base t) (tm_alloc t) (tm_used t) start (tm_orig t) (tm_pages t) :: r) m l.
Proof.
  intros TI U C. pose proof TI as [S K X]. destruct (top_bounds _ _ _ S) as (T1 & T2 & T3 & T4).
  set (t1 := Tm (tm_base t) (tm_alloc t) (tm_used t) start (tm_orig t) (tm_pages t)).
  set (c := Tm (tm_base t + start + 64) false 0 (tm_cap t - start - 64) (tm_cap t - start - 64) []).
  assert (P0 : In (t, home t (placed r)) (placed (t :: r))) by (left; reflexivity).
  assert (PL : placed (c :: t1 :: r) = (c, home t (placed r)) :: (t1, home t (placed r)) :: placed r) by reflexivity.
  assert (HS : hs (c :: t1 :: r) = hs (t :: r)) by reflexivity.
  assert (PS : ps (c :: t1 :: r) = ps (t :: r)) by reflexivity.
  destruct (sh_home _ _ S _ _ P0) as (HR & H1 & H2 & H3 & H4).
  pose proof (sh_ord _ _ S) as OR. cbn [placed] in OR. inversion OR as [|? ? O1 O2]; subst. rewrite Forall_forall in O1.
  apply (tinv_frame R (t :: r) m l); [exact TI| |auto|].
  - constructor; rewrite ?HS, ?PS; try apply S.
    + intros t0 h0. rewrite PL. intros [I|[I|I]].
      * injection I as <- <-. unfold c. cbn [tm_base tm_used tm_cap tm_orig]. split; [exact HR|lia].
      * injection I as <- <-. unfold t1. cbn [tm_base tm_used tm_cap tm_orig]. split; [exact HR|lia].
      * apply (sh_home _ _ S). right. exact I.
    + rewrite PL. constructor.
      * constructor.
        -- intros _. unfold c, t1. cbn [fst snd tm_base tm_cap]. lia.
        -- apply Forall_forall. intros y I E. specialize (O1 y I). unfold ordered in O1. cbn [fst snd] in *. specialize (O1 E). unfold c. cbn [tm_base]. lia.
      * constructor; [|exact O2]. apply Forall_forall. intros y I E. specialize (O1 y I). unfold ordered in O1. cbn [fst snd] in *. unfold t1. cbn [tm_base]. exact (O1 E).
    + intros t0 g [<-|[<-|I]] G; [destruct G|exact (sh_page _ _ S t g (or_introl eq_refl) G)|exact (sh_page _ _ S t0 g (or_intror I) G)].
    + reflexivity.
  - intros p d I [(t0 & h & J & Q)|(k & Q1 & Q2 & Q3 & Q4 & Q5)].
    + left. rewrite PL. cbn [placed] in J. destruct J as [J|J].
      * injection J as <- <-. exists t1, (home t (placed r)). split; [right; left; reflexivity|exact Q].
      * exists t0, h. split; [right; right; exact J|exact Q].
    + right. exists k. rewrite HS, PS. split; [exact Q1|]. split; [exact Q2|]. split; [exact Q3|]. split; [exact Q4|].
      destruct Q5 as [Q5|(t0 & g & [<-|J] & G & Q5)]; [left; exact Q5| |]; right.
      * exists t1, g. split; [right; left; reflexivity|]. split; [exact G|exact Q5].
      * exists t0, g. split; [right; right; exact J|]. split; [exact G|exact Q5].
Qed.
Lemma push_fresh R ts m l p size : tinv R ts m l -> rok ((p, 64 + size) :: R) -> 0 <= size ->
  tinv ((p, 64 + size) :: R) (Tm (p + 64) true 0 size size [] :: ts) m l.
Proof.
  intros TI RO SZ. pose proof TI as [S K X]. set (c := Tm (p + 64) true 0 size size []).
  assert (FR : forall a k, In (a, k) R -> p <> a) by (intros a k; apply (fresh_start _ _ _ _ _ RO)).
  assert (PL : placed (c :: ts) = (c, (p, 64 + size)) :: placed ts).
  { cbn [placed]. unfold home, c. cbn [tm_alloc tm_base tm_orig]. replace (p + 64 - 64) with p by lia. reflexivity. }
  assert (HS : hs (c :: ts) = p :: hs ts).
  { unfold hs. cbn [flat_map]. unfold hstart at 1, c. cbn [tm_alloc tm_base app]. replace (p + 64 - 64) with p by lia. reflexivity. }
  assert (PS : ps (c :: ts) = ps ts) by reflexivity.
  apply (tinv_frame R ts m l); [exact TI| |auto|].
  - constructor; rewrite ?HS, ?PS.
    + exact RO.
    + intros t0 h0. rewrite PL. intros [I|I].
      * assert (h0 = (p, 64 + size)) by congruence. assert (t0 = c) by congruence. subst t0 h0. unfold c. cbn [tm_base tm_used tm_cap tm_orig fst snd]. split; [left; reflexivity|lia].
      * destruct (sh_home _ _ S _ _ I) as (HR & Y). split; [right; exact HR|exact Y].
    + rewrite PL. constructor; [|apply S]. apply Forall_forall. intros [t0 h0] I E. cbn [fst snd] in E. exfalso. subst h0.
      destruct (sh_home _ _ S _ _ I) as (HR & _). exact (FR _ _ HR eq_refl).
    + constructor; [|apply S]. intros I. destruct (hs_region _ _ _ S I) as (k & J). exact (FR _ _ J eq_refl).
    + apply S.
    + intros a [<-|I] J; [|exact (sh_hp _ _ S a I J)]. destruct (ps_region _ _ _ S J) as (k & J'). exact (FR _ _ J' eq_refl).
    + intros t0 g [<-|I] G; [destruct G|]. destruct (sh_page _ _ S t0 g I G) as (Y1 & Y2 & k & Y3 & Y4). split; [exact Y1|]. split; [exact Y2|].
      exists k. split; [right; exact Y3|exact Y4].
    + reflexivity.
  - intros q d I [(t0 & h & J & Q)|(k & Q1 & Q2 & Q3 & Q4 & Q5)].
    + left. rewrite PL. exists t0, h. split; [right; exact J|exact Q].
    + right. exists k. rewrite HS, PS. split; [right; exact Q1|]. split; [exact Q2|]. split; [exact Q3|]. split.
      * intros [E|E]; [exact (FR _ _ Q1 E)|exact (Q4 E)].
      * destruct Q5 as [Q5|(t0 & g & J & G & Q5)]; [left; exact Q5|right]. exists t0, g. split; [right; exact J|]. split; [exact G|exact Q5].
Qed.
Lemma pool_push_spec s t r l : pl_temps s = t :: r -> good_config (pl_min s) (pl_buffer s) (pl_mult s) ->
  tinv (bk_live (pl_bk s)) (t :: r) (pl_mem s) l ->
  exists s' a, pool_push s t r = Done s' a /\ fair (pool_below s) l Mark a (pl_mem s') /\ tinv (bk_live (pl_bk s')) (pl_temps s') (pl_mem s') l /\
    pl_min s' = pl_min s /\ pl_buffer s' = pl_buffer s /\ pl_mult s' = pl_mult s.
Proof.
  intros ET (C1 & C2 & C3 & C4 & C5) TI. pose proof TI as [S K X]. assert (WE := W_eq). destruct (top_bounds _ _ _ S) as (T1 & T2 & T3 & T4).
  unfold pool_push, temp_derive. rewrite (wsub_small (tm_cap t) (tm_used t)) by lia. rewrite (wadd_small (pl_min s) (pl_buffer s)) by lia.
  assert (BL : forall q d, In (q, d) l -> pool_below s (Z.of_nat (length r)) q (size_of d) = true).
  { intros q d _. unfold pool_below. rewrite ET. cbn [length]. replace (Datatypes.S (length r) - 1 - Z.to_nat (Z.of_nat (length r)))%nat with 0%nat by lia. reflexivity. }
  assert (FM : forall m', fair (pool_below s) l Mark (AMark (Z.of_nat (length r))) m') by (intros m'; cbn [fair]; split; [lia|exact BL]).
  assert (PM : 0 < pl_min s * pl_mult s) by nia.
  destruct (Z.ltb_spec (tm_cap t - tm_used t) (pl_min s + pl_buffer s)) as [Y|Y].
  - cbv zeta. assert (SZ : wmul (pl_min s) (pl_mult s) = pl_min s * pl_mult s) by (unfold wmul, w64; apply Z.mod_small; lia). rewrite SZ.
    rewrite (wadd_small 64) by lia.
    destruct (bk_acquire_spec (pl_bk s) (pl_mem s) (64 + pl_min s * pl_mult s) false 0 (sh_rok _ _ S) ltac:(lia)) as (r1 & b1 & m1 & E1 & F1 & G1). rewrite E1.
    destruct r1 as [p|].
    + destruct G1 as (L1 & R1 & _ & _). pose proof (rok_in _ _ _ R1 (or_introl eq_refl)) as (P1 & P2 & P3). rewrite (wadd_small p 64) by lia.
      eexists _, _. split; [reflexivity|]. split; [apply FM|]. cbn [pl_with pl_bk pl_temps pl_mem pl_min pl_buffer pl_mult]. split; [|auto].
      rewrite L1. apply push_fresh; [|exact R1|lia]. apply (tinv_live _ _ (pl_mem s)); assumption.
    + eexists _, _. split; [reflexivity|]. split; [exact I|]. cbn [pl_with pl_bk pl_temps pl_mem pl_min pl_buffer pl_mult]. split; [|auto].
      rewrite G1. apply (tinv_live _ _ (pl_mem s)); assumption.
  - cbv zeta. rewrite (wadd_small (tm_used t) (pl_buffer s)) by lia. destruct (align_up_props (tm_used t + pl_buffer s) 16) as [_ A2]; [lia|lia|lia|].
    set (start := aligned_offset (tm_used t + pl_buffer s) 16) in *.
    rewrite (wsub_small (tm_cap t) start) by lia. rewrite (wsub_small (tm_cap t - start) 64) by lia.
    rewrite (wadd_small (tm_base t) start) by lia. rewrite (wadd_small (tm_base t + start) 64) by lia.
    eexists _, _. split; [reflexivity|]. split; [apply FM|]. cbn [pl_with pl_bk pl_temps pl_mem pl_min pl_buffer pl_mult]. split; [|auto].
    apply push_inside; [exact TI|lia|lia].
Qed.

Lemma NoDup_app_r {A} (l1 l2 : list A) : NoDup (l1 ++ l2) -> NoDup l2.
Proof. induction l1 as [|a l1 IH]; intros H; [exact H|]. cbn [app] in H. apply NoDup_cons_iff in H. apply IH. tauto. Qed.
Definition restored (t : temp) : temp := Tm (tm_base t) (tm_alloc t) (tm_used t) (tm_orig t) (tm_orig t) (tm_pages t).
Lemma pop_shape R c t r : shape R (c :: t :: r) -> shape R (restored t :: r).
Proof.
  intros S.
  assert (P0 : In (t, home t (placed r)) (placed (c :: t :: r))) by (right; left; reflexivity).
  assert (PL : placed (restored t :: r) = (restored t, home t (placed r)) :: placed r) by reflexivity.
  assert (HS : hs (c :: t :: r) = hstart c ++ hs (restored t :: r)) by reflexivity.
  assert (PS : ps (c :: t :: r) = pstart c ++ ps (restored t :: r)) by reflexivity.
  destruct (sh_home _ _ S _ _ P0) as (HR & H1 & H2 & H3 & H4).
  constructor.
  - apply S.
  - rewrite PL. intros t0 h0 [I|I].
    + injection I as <- <-. unfold restored. cbn [tm_base tm_used tm_cap tm_orig]. split; [exact HR|lia].
    + apply (sh_home _ _ S). right. right. exact I.
  - rewrite PL. pose proof (sh_ord _ _ S) as OR. cbn [placed] in OR. inversion OR as [|? ? _ O2]; subst. inversion O2 as [|? ? O3 O4]; subst. constructor; [|exact O4].
    exact O3.
  - pose proof (sh_hnd _ _ S) as N. rewrite HS in N. apply NoDup_app_r in N. exact N.
  - pose proof (sh_pnd _ _ S) as N. rewrite PS in N. apply NoDup_app_r in N. exact N.
  - intros a I J. apply (sh_hp _ _ S a); [rewrite HS|rewrite PS]; apply in_or_app; right; assumption.
  - intros t0 g [<-|I] G; [exact (sh_page _ _ S t g (or_intror (or_introl eq_refl)) G)|exact (sh_page _ _ S t0 g (or_intror (or_intror I)) G)].
  - reflexivity.
Qed.
Lemma pop_tinv R c t r m l l' : tinv R (c :: t :: r) m l -> (forall b, In b l' -> In b l) -> xapart 8 l' ->
  (forall p d, In (p, d) l' -> in_temp p c = false) -> tinv R (restored t :: r) m l'.
Proof.
  intros TI SUB X' NT. pose proof TI as [S K X]. apply (tinv_frame R (c :: t :: r) m l'); [apply (tinv_sub R _ m l); assumption|apply (pop_shape R c); exact S|auto|].
  intros p d I KK. destruct (K p d (SUB _ I)) as (K1 & _ & _). specialize (NT p d I). unfold in_temp in NT. apply orb_false_iff in NT. destruct NT as [NT1 NT2].
  destruct KK as [(t0 & h & J & Q1 & Q2 & Q3)|(k & Q1 & Q2 & Q3 & Q4 & Q5)].
  - left. destruct (sh_home _ _ S _ _ J) as (_ & _ & _ & Y1 & Y2). cbn [placed] in J. destruct J as [J|[J|J]].
    + injection J as <- <-. lia.
    + injection J as <- <-. exists (restored t), (home t (placed r)). split; [left; reflexivity|]. auto.
    + exists t0, h. split; [right; exact J|auto].
  - right. exists k. split; [exact Q1|]. split; [exact Q2|]. split; [exact Q3|]. split.
    + intros E. apply Q4. unfold hs. cbn [flat_map]. apply in_or_app. right. exact E.
    + destruct Q5 as [Q5|(t0 & g & J & G & Q5 & Q6)].
      * left. intros E. apply Q5. unfold ps. cbn [flat_map]. apply in_or_app. right. exact E.
      * destruct J as [<-|[<-|J]].
        -- exfalso. assert (E : existsb (fun g0 => pg_data g0 =? p) (tm_pages c) = true) by (apply existsb_exists; exists g; split; [exact G|lia]). congruence.
        -- right. exists (restored t), g. split; [left; reflexivity|]. auto.
        -- right. exists t0, g. split; [right; exact J|]. auto.
Qed.
Lemma free_pages_spec ts l gs : forall b m, tinv (bk_live b) ts m l -> NoDup (map pg_start gs) ->
  (forall g, In g gs -> (exists k, In (pg_start g, k) (bk_live b)) /\ ~ In (pg_start g) (hs ts) /\ ~ In (pg_start g) (ps ts) /\ forall d, ~ In (pg_start g + 32, d) l) ->
  exists b' m', free_pages b m gs = Some (b', m') /\ tinv (bk_live b') ts m' l /\
    (forall a k, In (a, k) (bk_live b) -> ~ In a (map pg_start gs) -> In (a, k) (bk_live b')).
Proof.
  induction gs as [|g gs IH]; intros b m TI ND H; cbn [free_pages].
  - exists b, m. split; [reflexivity|]. split; [exact TI|]. auto.
  - cbn [map] in ND. apply NoDup_cons_iff in ND. destruct ND as [N1 N2]. destruct (H g (or_introl eq_refl)) as ((k & LV) & H1 & H2 & H3).
    destruct (bk_release_spec b m _ k LV) as (b1 & m1 & RE & RL & RF). rewrite RE.
    assert (T1 : tinv (bk_live b1) ts m1 l).
    { rewrite RL. apply (tinv_live _ _ m); [apply tinv_drop; assumption|]. intros x (u & v & J & Hx). apply drop_in in J. apply RF. exists u, v. tauto. }
    destruct (IH b1 m1 T1 N2) as (b2 & m2 & E & T2 & KEEP).
    + intros g' G'. destruct (H g' (or_intror G')) as ((k' & LV') & H'). split; [|exact H']. exists k'. rewrite RL. apply drop_in. split; [exact LV'|].
      intros E. apply N1. rewrite <- E. apply in_map. exact G'.
    + exists b2, m2. split; [exact E|]. split; [exact T2|]. intros a j J NI. apply KEEP.
      * rewrite RL. apply drop_in. split; [exact J|]. intros ->. apply NI. left. reflexivity.
      * intros Q. apply NI. right. exact Q.
Qed.
Lemma NoDup_app_l {A} (l1 l2 : list A) : NoDup (l1 ++ l2) -> NoDup l1.
Proof.
  induction l1 as [|a l1 IH]; intros H; [constructor|]. cbn [app] in H. apply NoDup_cons_iff in H. destruct H as [H1 H2]. constructor; [|exact (IH H2)].
  intros I. apply H1. apply in_or_app. left. exact I.
Qed.
Lemma NoDup_app_disj {A} (l1 l2 : list A) x : NoDup (l1 ++ l2) -> In x l1 -> ~ In x l2.
Proof.
  induction l1 as [|a l1 IH]; intros H; [intros []|]. cbn [app] in H. apply NoDup_cons_iff in H. destruct H as [H1 H2].
  intros [<-|I]; [|exact (IH H2 I)]. intros J. apply H1. apply in_or_app. right. exact J.
Qed.
Lemma pool_pop_spec s c t r l k : pl_temps s = c :: t :: r -> k + 2 = Z.of_nat (length (pl_temps s)) ->
  tinv (bk_live (pl_bk s)) (pl_temps s) (pl_mem s) l ->
  exists s', pool_pop s k = Done s' ADone /\
    tinv (bk_live (pl_bk s')) (pl_temps s') (pl_mem s') (filter (fun b => pool_below s k (fst b) (size_of (snd b))) l) /\
    pl_min s' = pl_min s /\ pl_buffer s' = pl_buffer s /\ pl_mult s' = pl_mult s.
Proof.
  intros ET EK. rewrite ET in *. intros TI. pose proof TI as [S K X]. assert (WE := W_eq). destruct (top_bounds _ _ _ S) as (T1 & T2 & T3 & T4).
  unfold pool_pop. rewrite ET. cbn [length] in *. replace (Datatypes.S (Datatypes.S (length r)) - 1 - Z.to_nat k)%nat with 1%nat by lia. cbn [skipn firstn rev app].
  set (l' := filter (fun b => pool_below s k (fst b) (size_of (snd b))) l).
  assert (NT : forall p d, In (p, d) l' -> in_temp p c = false).
  { intros p d I. apply filter_In in I. destruct I as [_ I]. cbn [fst snd] in I. unfold pool_below in I. rewrite ET in I. cbn [length] in I.
    replace (Datatypes.S (Datatypes.S (length r)) - 1 - Z.to_nat k)%nat with 1%nat in I by lia. cbn [firstn existsb] in I. destruct (in_temp p c); [discriminate|reflexivity]. }
  assert (SUB : forall b, In b l' -> In b l) by (intros b I; apply filter_In in I; tauto).
  assert (TP : tinv (bk_live (pl_bk s)) (restored t :: r) (pl_mem s) l').
  { apply (pop_tinv _ c t r _ l); [exact TI|exact SUB|apply xapart_filter; exact X|exact NT]. }
  assert (HS : hs (c :: t :: r) = hstart c ++ hs (restored t :: r)) by reflexivity.
  assert (PS : ps (c :: t :: r) = pstart c ++ ps (restored t :: r)) by reflexivity.
  assert (P0 : In (c, home c (placed (t :: r))) (placed (c :: t :: r))) by (left; reflexivity).
  destruct (sh_home _ _ S _ _ P0) as (HR & H1 & H2 & H3 & H4). pose proof (home_hs _ _ _ _ S P0) as HH.
  pose proof (sh_hnd _ _ S) as ND1. rewrite HS in ND1. pose proof (sh_pnd _ _ S) as ND2. rewrite PS in ND2.
  cbn [temp_destroys]. unfold temp_destroy. rewrite (wsub_small (tm_base c) 64) by lia.
  rewrite (covered_in _ (fst (home c (placed (t :: r)))) (snd (home c (placed (t :: r)))) (tm_base c - 64) 64);
    [|destruct (home c (placed (t :: r))); exact HR|lia|lia].
  destruct (free_pages_spec (restored t :: r) l' (tm_pages c) (pl_bk s) (pl_mem s) TP) as (b1 & m1 & FP & TF & KEEP).
  { exact (NoDup_app_l _ _ ND2). }
  { intros g G. destruct (sh_page _ _ S c g (or_introl eq_refl) G) as (Y1 & Y2 & kk & Y3 & Y4). split; [exists kk; exact Y3|].
    assert (GI : In (pg_start g) (pstart c)) by (unfold pstart; apply in_map; exact G). split; [|split].
    - intros E. apply (sh_hp _ _ S (pg_start g)); [rewrite HS; apply in_or_app; right; exact E|rewrite PS; apply in_or_app; left; exact GI].
    - apply (NoDup_app_disj _ _ _ ND2). exact GI.
    - intros d E. specialize (NT _ _ E). unfold in_temp in NT. apply orb_false_iff in NT. destruct NT as [_ NT].
      assert (Q : existsb (fun g0 => pg_data g0 =? pg_start g + 32) (tm_pages c) = true) by (apply existsb_exists; exists g; split; [exact G|lia]). congruence. }
  rewrite FP. destruct (tm_alloc c) eqn:AC.
  - (* its own region goes back *)
    assert (EH : home c (placed (t :: r)) = (tm_base c - 64, 64 + tm_orig c)) by (unfold home; rewrite AC; reflexivity).
    rewrite EH in HR, HH. cbn [fst] in HH.
    assert (HI : In (tm_base c - 64) (hstart c)) by (unfold hstart; rewrite AC; left; reflexivity).
    assert (LV : In (tm_base c - 64, 64 + tm_orig c) (bk_live b1)).
    { apply KEEP; [exact HR|]. intros E. apply (sh_hp _ _ S _ HH). rewrite PS. apply in_or_app. left. exact E. }
    destruct (bk_release_spec b1 m1 _ _ LV) as (b2 & m2 & RE & RL & RF). rewrite RE.
    eexists. split; [reflexivity|]. cbn [pl_with pl_bk pl_temps pl_mem pl_min pl_buffer pl_mult]. split; [|auto].
    rewrite RL. apply (tinv_live _ _ m1).
    + apply tinv_drop; [exact TF| | |].
      * apply (NoDup_app_disj _ _ _ ND1). exact HI.
      * intros E. apply (sh_hp _ _ S _ HH). rewrite PS. apply in_or_app. right. exact E.
      * intros d I. destruct (K _ d (SUB _ I)) as (K1 & _ & [(t0 & h & J & Q1 & Q2 & Q3)|(kk & Q1 & Q2 & Q3 & Q4 & Q5)]).
        -- destruct (sh_home _ _ S _ _ J) as (HR' & Y1 & Y2 & Y3 & Y4). destruct h as [a j]. cbn [fst snd] in *.
           destruct (regions _ _ _ _ _ (sh_rok _ _ S) HR HR') as [E|E]; [injection E as <- <-; lia|unfold apart in E; lia].
        -- apply Q4. replace (tm_base c - 64 + 32 - 32) with (tm_base c - 64) by lia. exact HH.
    + intros x (u & v & J & Hx). apply drop_in in J. apply RF. exists u, v. tauto.
  - eexists. split; [reflexivity|]. cbn [pl_with pl_bk pl_temps pl_mem pl_min pl_buffer pl_mult]. split; [|auto].
    destruct (pl_safe s); [|exact TF]. apply (tinv_mem _ _ m1); [exact TF|]. intros p d x I Hx. unfold mfill.
    destruct (K p d (SUB _ I)) as (K1 & _ & K3).
    assert (OUT : x < tm_base c \/ tm_base c + tm_used c <= x).
    { destruct (kind_free _ _ _ _ _ _ S (proj1 K1) K3) as [FR|FR]; [|lia]. pose proof (NT p d I) as N'. unfold in_temp in N'. apply orb_false_iff in N'. destruct N' as [N' _].
      destruct (Z.lt_ge_cases p (tm_base c)) as [Q|Q]; [|lia].
      destruct K3 as [(t0 & h & J & Q1 & Q2 & Q3)|(kk & Q1 & Q2 & Q3 & Q4 & Q5)].
      - destruct (sh_home _ _ S _ _ J) as (HR' & Y1 & Y2 & Y3 & Y4). destruct h as [a j].
        destruct (home c (placed (t :: r))) as [a0 j0] eqn:EH. cbn [fst snd] in *.
        destruct (regions _ _ _ _ _ (sh_rok _ _ S) HR HR') as [E|E]; [|unfold apart in E; lia].
        change (placed (c :: t :: r)) with ((c, home c (placed (t :: r))) :: placed (t :: r)) in J. rewrite EH in J. destruct J as [J|J]; [injection J as <- _; lia|].
        pose proof (sh_ord _ _ S) as O. change (placed (c :: t :: r)) with ((c, home c (placed (t :: r))) :: placed (t :: r)) in O. rewrite EH in O.
        inversion O as [|? ? O1 O2]; subst. rewrite Forall_forall in O1. pose proof (O1 _ J) as Z. unfold ordered in Z. cbn [fst snd] in Z. specialize (Z E). lia.
      - destruct (home c (placed (t :: r))) as [a0 j0] eqn:EH. cbn [fst snd] in *.
        assert (NE : p - 32 <> a0) by (intros E; apply Q4; rewrite E; exact HH).
        pose proof (rok_apart _ _ _ _ _ (sh_rok _ _ S) Q1 HR NE) as Z. unfold apart in Z. lia. }
    replace ((tm_base c <=? x) && (x <? tm_base c + tm_used c)) with false by lia. reflexivity.
Qed.

(** ** Every history *)
Record pinv (l : ledger) (s : pools) : Prop := {
  pi_conf : good_config (pl_min s) (pl_buffer s) (pl_mult s);
  pi_inv : tinv (bk_live (pl_bk s)) (pl_temps s) (pl_mem s) l }.
Lemma pool_step_ok l s o : pinv l s -> legal l o -> pool_allow s l o ->
  exists s' a, pool_step s o = Done s' a /\ fair (pool_below s) l o a (pl_mem s') /\ pinv (updated (pool_below s) l o a (pl_mem s')) s'.
Proof.
  intros [CF TI] L A. pose proof TI as [S K X]. unfold pool_step. destruct (pl_temps s) as [|t r] eqn:ET; [destruct (sh_top _ _ S)|].
  destruct o as [n z al|p n al|p w|p off v| |k]; cbn [legal pool_allow] in L, A.
  - destruct L as [L1 L2], A as [A1 A2].
    destruct (temp_acquire_spec (pl_bk s) t r (pl_mem s) l n z al TI ltac:(lia) L2 A2) as (t' & b' & m' & a & E & F & G). rewrite E. cbn [pool_lift].
    destruct G as [(-> & -> & G1 & _)|(q & -> & GA & GZ & G1 & _)].
    + eexists _, _. split; [reflexivity|]. split; [exact I|]. constructor; [exact CF|exact G1].
    + eexists _, _. split; [reflexivity|]. cbn [pl_with pl_mem]. split.
      * cbn [fair]. split; [apply aligned_to_intro; assumption|]. split; [apply (new_apart (bk_live b') (t' :: r) m'); [lia|exact G1]|].
        intros Z. apply bytes_at_Forall. intros i Hi. apply GZ; [exact Z|lia].
      * constructor; [exact CF|exact G1].
  - destruct L as (L1 & L2 & L3), A as (A1 & A2 & A3). rewrite ET in A3. destruct A3 as [A3 A4]. destruct (in_map_fst l p L1) as (d & I).
    destruct (temp_resize_spec (pool_below s) (pl_bk s) t r (pl_mem s) l p d n al TI I ltac:(lia) L3 A2 A3 (A4 d I)) as (t' & b' & m' & a & E & F & G).
    rewrite E. cbn [pool_lift]. eexists _, _. split; [reflexivity|]. cbn [pl_with pl_mem]. split; [exact F|]. constructor; [exact CF|exact G].
  - destruct (in_map_fst l p L) as (d & I). eexists _, _. split; [reflexivity|]. cbn [pl_with pl_mem]. split; [exact Logic.I|]. cbn [updated].
    constructor; [exact CF|]. cbn [pl_with pl_bk pl_temps pl_mem]. apply (temp_release_spec _ _ _ _ _ _ d); assumption.
  - destruct L as [(d & I & O) V]. eexists _, _. split; [reflexivity|]. cbn [pl_with pl_mem]. split; [exact Logic.I|]. cbn [updated].
    constructor; [exact CF|]. cbn [pl_with pl_bk pl_temps pl_mem]. constructor; [exact S| |apply xapart_scribble; exact X].
    intros q d' J. destruct (scribble_in _ _ _ _ _ _ J) as (e & J1 & J2 & J3 & J4). destruct (K q e J1) as (K1 & K2 & K3). rewrite J2. split; [exact K1|].
    assert (LDE : ld8 (st1 (pl_mem s) (p + off) v) (q - 8) = ld8 (pl_mem s) (q - 8)).
    { apply ld8_ext. intros x Hx. apply st1_out. destruct (xapart_in _ _ X _ _ _ _ I J1) as [E|E]; [injection E as <- <-; lia|unfold apart in E; lia]. }
    split; [|unfold kind in *; rewrite LDE; exact K3].
    destruct (Z.eq_dec q p) as [->|NE].
    + assert (d = e) by (apply (tinv_ptr _ _ _ _ _ _ _ TI I J1)). subst e. rewrite (J4 eq_refl). apply bytes_at_put; [exact O|exact K2].
    + rewrite (J3 NE). rewrite <- K2 at 2. apply bytes_at_ext. intros i Hi. apply st1_out.
      destruct (xapart_in _ _ X _ _ _ _ I J1) as [E|E]; [congruence|unfold apart in E; lia].
  - destruct (pool_push_spec s t r l ET CF TI) as (s' & a & E & F & T' & E1 & E2 & E3). exists s', a. split; [exact E|]. split; [exact F|].
    replace (updated (pool_below s) l Mark a (pl_mem s')) with l by (destruct a; reflexivity). constructor; [rewrite E1, E2, E3; exact CF|exact T'].
  - rewrite ET in A. destruct r as [|t' r]; [cbn [length] in A; lia|].
    destruct (pool_pop_spec s t t' r l k ET ltac:(rewrite ET; exact A) ltac:(rewrite ET; exact TI)) as (s' & E & T' & E1 & E2 & E3).
    exists s', ADone. split; [exact E|]. split; [exact Logic.I|]. cbn [updated]. constructor; [rewrite E1, E2, E3; exact CF|exact T'].
Qed.
Lemma pool_honest ops : forall l s, pinv l s -> honest pool_step pl_mem pool_owns pool_below pool_allow l s ops.
Proof.
  induction ops as [|o ops IH]; intros l s I; [exact Logic.I|]. cbn [honest]. intros L A.
  destruct (pool_step_ok l s o I L A) as (s' & a & ST & F & I'). exists s', a. split; [exact ST|]. split; [exact F|]. cbv zeta.
  split; [apply tinv_true; apply I'|]. apply IH. exact I'.
Qed.
