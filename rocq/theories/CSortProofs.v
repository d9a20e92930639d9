From Coq Require Import ZArith Bool List Lia ZifyBool Permutation Sorting.Sorted.
From Verif Require Import Word Mach SortModel SortSpec SortProofs SortProofs2 CSortModel.
Import ListNotations.
Open Scope Z_scope.

(** ** Arrays described by a function *)
Definition Arr (l : list Z) (n : Z) (f : Z -> Z) : Prop := zlen l = n /\ forall b, 0 <= b < n -> get l b = Ok (f b).
Lemma arr_get l n f b : Arr l n f -> 0 <= b < n -> get l b = Ok (f b). Proof. intros [_ H] Hb. apply H. exact Hb. Qed.
Lemma arr_set l n f i x : Arr l n f -> 0 <= i < n -> exists l', set l i x = Ok l' /\ Arr l' n (fun b => if b =? i then x else f b).
Proof.
  intros [Hl H] Hi. destruct (set_ok l i x ltac:(lia)) as [l' E]. exists l'. split; [exact E|]. split.
  - rewrite (set_zlen _ _ _ _ E). exact Hl.
  - intros b Hb. rewrite (get_set _ _ _ b _ E). destruct (b =? i); [reflexivity|apply H; exact Hb].
Qed.
Lemma arr_ext l n f g : Arr l n f -> (forall b, 0 <= b < n -> f b = g b) -> Arr l n g.
Proof. intros [Hl H] E. split; [exact Hl|]. intros b Hb. rewrite (H b Hb), (E b Hb). reflexivity. Qed.
Lemma arr_repeat n x : Arr (repeat x n) (Z.of_nat n) (fun _ => x).
Proof.
  split; [unfold zlen; rewrite repeat_length; reflexivity|]. intros b Hb.
  destruct (get_ok (repeat x n) b) as [y Hy]; [unfold zlen; rewrite repeat_length; exact Hb|]. rewrite Hy.
  apply get_inv in Hy. destruct Hy as [_ Hy]. apply nth_error_In, repeat_spec in Hy. subst. reflexivity.
Qed.

(** ** Segments *)
Lemma get_mid {A} (pre mid post : list A) s : 0 <= s < zlen mid -> get (pre ++ mid ++ post) (zlen pre + s) = get mid s.
Proof.
  intros H. destruct (split_at mid s H) as (a & x & b & -> & Ha).
  rewrite (get_app a b x s ltac:(lia)).
  replace (pre ++ (a ++ x :: b) ++ post) with ((pre ++ a) ++ x :: b ++ post) by (repeat (rewrite <- app_assoc; cbn [app]); reflexivity).
  apply get_app. rewrite zlen_app. lia.
Qed.
Lemma set_mid {A} (pre mid post : list A) s x m' : set mid s x = Ok m' -> set (pre ++ mid ++ post) (zlen pre + s) x = Ok (pre ++ m' ++ post).
Proof.
  intros H. assert (Hs : 0 <= s < zlen mid) by (unfold set in H; destruct ((0 <=? s) && (s <? zlen mid)) eqn:E; [lia|discriminate]).
  destruct (split_at mid s Hs) as (a & y & b & -> & Ha).
  rewrite (set_app a b y x s ltac:(lia)) in H. injection H as <-.
  replace (pre ++ (a ++ y :: b) ++ post) with ((pre ++ a) ++ y :: b ++ post) by (repeat (rewrite <- app_assoc; cbn [app]); reflexivity).
  rewrite set_app by (rewrite zlen_app; lia). f_equal. repeat (rewrite <- app_assoc; cbn [app]); reflexivity.
Qed.
Lemma swap_perm {A} (l l1 l2 : list A) s t a b : get l s = Ok a -> get l t = Ok b -> set l s b = Ok l1 -> set l1 t a = Ok l2 -> Permutation l l2.
Proof.
  intros Ga Gb S1 S2. destruct (get_inv _ _ _ Ga) as [Hs _]. destruct (get_inv _ _ _ Gb) as [Ht _].
  destruct (Z.lt_trichotomy s t) as [H|[H|H]].
  - destruct (split_at l s Hs) as (u & x & v & -> & Hu).
    rewrite get_app in Ga by lia. injection Ga as ->. rewrite set_app in S1 by lia. injection S1 as <-.
    rewrite zlen_app, zlen_cons in Ht.
    destruct (split_at v (t - s - 1) ltac:(lia)) as (v1 & y & v2 & -> & Hv).
    replace (u ++ a :: v1 ++ y :: v2) with ((u ++ a :: v1) ++ y :: v2) in * by (rewrite <- app_assoc; reflexivity).
    rewrite get_app in Gb by (rewrite zlen_app, zlen_cons; lia). injection Gb as ->.
    replace (u ++ b :: v1 ++ b :: v2) with ((u ++ b :: v1) ++ b :: v2) in S2 by (rewrite <- app_assoc; reflexivity).
    rewrite set_app in S2 by (rewrite zlen_app, zlen_cons; lia). injection S2 as <-.
    rewrite <- !app_assoc. apply Permutation_app_head. cbn [app].
    transitivity (b :: a :: v1 ++ v2); [|constructor; apply Permutation_middle].
    transitivity (a :: b :: v1 ++ v2); [constructor; symmetry; apply Permutation_middle|apply perm_swap].
  - subst t. rewrite Ga in Gb. injection Gb as <-.
    destruct (split_at l s Hs) as (u & x & v & -> & Hu). rewrite get_app in Ga by lia. injection Ga as ->.
    rewrite set_app in S1 by lia. injection S1 as <-. rewrite set_app in S2 by lia. injection S2 as <-. reflexivity.
  - destruct (split_at l t Ht) as (u & x & v & -> & Hu).
    rewrite get_app in Gb by lia. injection Gb as ->.
    rewrite zlen_app, zlen_cons in Hs.
    destruct (split_at v (s - t - 1) ltac:(lia)) as (v1 & y & v2 & -> & Hv).
    replace (u ++ b :: v1 ++ y :: v2) with ((u ++ b :: v1) ++ y :: v2) in * by (rewrite <- app_assoc; reflexivity).
    rewrite get_app in Ga by (rewrite zlen_app, zlen_cons; lia). injection Ga as ->.
    rewrite set_app in S1 by (rewrite zlen_app, zlen_cons; lia). injection S1 as <-.
    replace ((u ++ b :: v1) ++ b :: v2) with (u ++ b :: v1 ++ b :: v2) in S2 by (rewrite <- app_assoc; reflexivity).
    rewrite set_app in S2 by lia. injection S2 as <-.
    rewrite <- !app_assoc. apply Permutation_app_head. cbn [app].
    transitivity (a :: b :: v1 ++ v2); [|constructor; apply Permutation_middle].
    transitivity (b :: a :: v1 ++ v2); [constructor; symmetry; apply Permutation_middle|apply perm_swap].
Qed.

(** ** Sums over buckets *)
Fixpoint sumn (f : Z -> Z) (n : nat) : Z := match n with O => 0 | S m => sumn f m + f (Z.of_nat m) end.
Lemma sumn_ext f g n : (forall b, 0 <= b < Z.of_nat n -> f b = g b) -> sumn f n = sumn g n.
Proof. induction n as [|n IH]; intros H; [reflexivity|]. cbn [sumn]. rewrite IH, (H (Z.of_nat n)); [reflexivity|lia|intros; apply H; lia]. Qed.
Lemma sumn_nonneg f n : (forall b, 0 <= b < Z.of_nat n -> 0 <= f b) -> 0 <= sumn f n.
Proof. induction n as [|n IH]; intros H; cbn [sumn]; [lia|]. pose proof (H (Z.of_nat n) ltac:(lia)). assert (0 <= sumn f n) by (apply IH; intros; apply H; lia). lia. Qed.
Lemma sumn_zero f n : (forall b, 0 <= b < Z.of_nat n -> 0 <= f b) -> sumn f n = 0 -> forall b, 0 <= b < Z.of_nat n -> f b = 0.
Proof.
  induction n as [|n IH]; intros H H0 b Hb; [lia|]. cbn [sumn] in H0.
  assert (0 <= sumn f n) by (apply sumn_nonneg; intros; apply H; lia). pose proof (H (Z.of_nat n) ltac:(lia)).
  destruct (Z.eq_dec b (Z.of_nat n)) as [->|]; [lia|]. apply IH; [intros; apply H; lia|lia|lia].
Qed.
Lemma sumn_upd f k n d : 0 <= k < Z.of_nat n -> sumn (fun b => if b =? k then f b + d else f b) n = sumn f n + d.
Proof.
  induction n as [|n IH]; intros Hk; [lia|]. cbn [sumn]. destruct (Z.eq_dec k (Z.of_nat n)) as [->|Hne].
  - rewrite Z.eqb_refl. rewrite (sumn_ext _ f) by (intros b Hb; destruct (Z.eqb_spec b (Z.of_nat n)); [lia|reflexivity]). lia.
  - rewrite IH by lia. destruct (Z.eqb_spec (Z.of_nat n) k); lia.
Qed.
Lemma sumn_add f g n : sumn (fun b => f b + g b) n = sumn f n + sumn g n.
Proof. induction n; cbn [sumn]; lia. Qed.

Section CS.
Context {A : Type} (key : A -> Z).
Variable bi : Z.
Hypothesis Hbi : 0 <= bi.
Notation byte := (key_byte key bi).
Definition cntb (b : Z) (l : list A) : Z := zlen (filter (fun a => byte a =? b) l).

Lemma byte_range a : 0 <= byte a < 256.
Proof. unfold key_byte. apply Z.mod_pos_bound. lia. Qed.
Lemma cntb_nonneg b l : 0 <= cntb b l. Proof. apply zlen_nonneg. Qed.
Lemma cntb_app b l1 l2 : cntb b (l1 ++ l2) = cntb b l1 + cntb b l2.
Proof. unfold cntb. rewrite filter_app, zlen_app. reflexivity. Qed.
Lemma cntb_cons b a l : cntb b (a :: l) = (if byte a =? b then 1 else 0) + cntb b l.
Proof. unfold cntb. cbn [filter]. destruct (byte a =? b); rewrite ?zlen_cons; lia. Qed.
Lemma cntb_perm b l1 l2 : Permutation l1 l2 -> cntb b l1 = cntb b l2.
Proof. induction 1; rewrite ?cntb_cons; lia. Qed.
Lemma cntb_all b l : Forall (fun a => byte a = b) l -> cntb b l = zlen l.
Proof. induction 1 as [|a l Ha _ IH]; [reflexivity|]. rewrite cntb_cons, zlen_cons, Ha, Z.eqb_refl, IH. reflexivity. Qed.
Lemma cntb_total l : sumn (fun b => cntb b l) 256 = zlen l.
Proof.
  induction l as [|a l IH].
  - rewrite (sumn_ext _ (fun _ => 0)) by reflexivity. reflexivity.
  - rewrite zlen_cons, <- IH. rewrite (sumn_ext _ (fun b => if b =? byte a then cntb b l + 1 else cntb b l)).
    + rewrite (sumn_upd (fun b => cntb b l)); [lia|]. pose proof (byte_range a). lia.
    + intros b Hb. rewrite cntb_cons. rewrite (Z.eqb_sym b). destruct (byte a =? b); lia.
Qed.

(** ** Counting *)
Lemma count_loop_ok : forall todo pre post fuel counts c0 mn mx last ord,
  (length todo < fuel)%nat -> Arr counts 256 c0 ->
  exists counts' mn' mx' ord',
   count_loop key fuel bi (pre ++ todo ++ post) (zlen pre) (zlen pre + zlen todo) counts mn mx last ord = Ok (counts', mn', mx', ord') /\
   Arr counts' 256 (fun b => c0 b + cntb b todo) /\
   mn' <= mn /\ (mn' = mn \/ exists x, In x todo /\ mn' = key x) /\ (forall x, In x todo -> mn' <= key x) /\
   mx <= mx' /\ (mx' = mx \/ exists x, In x todo /\ mx' = key x) /\ (forall x, In x todo -> key x <= mx') /\
   (ord' = true -> ord = true /\ Sorted Z.le (last :: map byte todo)).
Proof.
  induction todo as [|a todo IH]; intros pre post fuel counts c0 mn mx last ord Hf Hc; (destruct fuel as [|f]; [cbn in Hf; lia|]); cbn [count_loop].
  - rewrite zlen_nil, Z.add_0_r, Z.ltb_irrefl. exists counts, mn, mx, ord. split; [reflexivity|].
    split; [eapply arr_ext; [exact Hc|intros; unfold cntb; cbn; lia]|].
    split; [lia|]. split; [auto|]. split; [intros ? []|]. split; [lia|]. split; [auto|]. split; [intros ? []|].
    intros ->. split; [reflexivity|repeat constructor].
  - rewrite zlen_cons. pose proof (zlen_nonneg todo). destruct (Z.ltb_spec (zlen pre) (zlen pre + (1 + zlen todo))); [|lia].
    cbn [app]. rewrite get_app by reflexivity. cbn [bind]. cbv zeta. pose proof (byte_range a) as Hb.
    rewrite (arr_get _ _ _ _ Hc Hb). cbn [bind]. destruct (arr_set _ _ _ (byte a) (c0 (byte a) + 1) Hc Hb) as (c1 & E1 & Hc1).
    rewrite E1. cbn [bind].
    set (mn1 := if key a <? mn then key a else mn). set (mx1 := if mx <? key a then key a else mx).
    destruct (IH (pre ++ [a]) post f c1 _ mn1 mx1 (byte a) (ord && (last <=? byte a)) ltac:(cbn in Hf; lia) Hc1)
      as (c' & mn' & mx' & ord' & E & HA & M1 & M2 & M3 & X1 & X2 & X3 & HO).
    exists c', mn', mx', ord'. split.
    + rewrite <- app_assoc, zlen_app, zlen_cons, zlen_nil in E. cbn [app] in E.
      replace (zlen pre + (1 + 0)) with (zlen pre + 1) in E by lia.
      replace (zlen pre + 1 + zlen todo) with (zlen pre + (1 + zlen todo)) in E by lia. exact E.
    + assert (Bm : mn1 <= mn /\ mn1 <= key a /\ (mn1 = mn \/ mn1 = key a)) by (subst mn1; destruct (Z.ltb_spec (key a) mn); lia).
      assert (Bx : mx <= mx1 /\ key a <= mx1 /\ (mx1 = mx \/ mx1 = key a)) by (subst mx1; destruct (Z.ltb_spec mx (key a)); lia).
      split; [|split; [|split; [|split; [|split; [|split; [|split]]]]]].
      * eapply arr_ext; [exact HA|]. intros b Hb2. cbn beta. rewrite cntb_cons, (Z.eqb_sym b).
        destruct (Z.eqb_spec (byte a) b) as [->|]; lia.
      * lia.
      * destruct M2 as [->|(x & Hx & ->)]; [|right; exists x; split; [right; exact Hx|reflexivity]].
        destruct Bm as (_ & _ & [->| ->]); [left; reflexivity|right; exists a; split; [left; reflexivity|reflexivity]].
      * intros x [<-|Hx]; [lia|apply M3; exact Hx].
      * lia.
      * destruct X2 as [->|(x & Hx & ->)]; [|right; exists x; split; [right; exact Hx|reflexivity]].
        destruct Bx as (_ & _ & [->| ->]); [left; reflexivity|right; exists a; split; [left; reflexivity|reflexivity]].
      * intros x [<-|Hx]; [lia|apply X3; exact Hx].
      * intros Ht. destruct (HO Ht) as [Ho HS]. apply andb_true_iff in Ho. destruct Ho as [-> Ho]. split; [reflexivity|].
        cbn [map]. constructor; [exact HS|]. constructor. lia.
Qed.

(** ** Offsets and the index table *)
Variable c0 : Z -> Z.
Hypothesis c0_nonneg : forall b, 0 <= c0 b.
Definition off (b : Z) : Z := sumn c0 (Z.to_nat b).
Definition cls (P : Z -> bool) (n : nat) : list Z := filter P (map Z.of_nat (seq 0 n)).
Definition p0 (b : Z) : bool := (1 <? c0 b) && (c0 b <=? 32).
Definition p1 (b : Z) : bool := (32 <? c0 b) && (c0 b <=? 128).
Definition p2 (b : Z) : bool := 128 <? c0 b.
Definition IdxAt (indexs : list Z) (pos : Z -> Z) (L : list Z) : Prop :=
  forall p x, nth_error L p = Some x -> get indexs (pos (Z.of_nat p)) = Ok x.

Lemma off_S b : 0 <= b -> off (b + 1) = off b + c0 b.
Proof. intros H. unfold off. replace (Z.to_nat (b + 1)) with (S (Z.to_nat b)) by lia. cbn [sumn]. rewrite Z2Nat.id by lia. reflexivity. Qed.
Lemma off_mono a b : 0 <= a <= b -> off a <= off b.
Proof.
  intros [Ha Hab]. replace b with (a + Z.of_nat (Z.to_nat (b - a))) by lia. induction (Z.to_nat (b - a)) as [|n IH]; [rewrite Z.add_0_r; lia|].
  replace (a + Z.of_nat (S n)) with (a + Z.of_nat n + 1) by lia. rewrite off_S by lia. pose proof (c0_nonneg (a + Z.of_nat n)). lia.
Qed.
Lemma cls_S P n : cls P (S n) = cls P n ++ (if P (Z.of_nat n) then [Z.of_nat n] else []).
Proof. unfold cls. rewrite seq_S, map_app, filter_app. cbn. destruct (P (Z.of_nat n)); reflexivity. Qed.
Lemma cls_in P n b : In b (cls P n) <-> 0 <= b < Z.of_nat n /\ P b = true.
Proof.
  unfold cls. rewrite filter_In, in_map_iff. split.
  - intros [(x & <- & Hx) HP]. apply in_seq in Hx. split; [lia|exact HP].
  - intros [Hb HP]. split; [|exact HP]. exists (Z.to_nat b). split; [lia|]. apply in_seq. lia.
Qed.
Lemma cls3_le n : zlen (cls p0 n) + zlen (cls p1 n) + zlen (cls p2 n) <= Z.of_nat n.
Proof.
  induction n as [|n IH]; [cbn; lia|]. rewrite !cls_S, !zlen_app. unfold p0, p1, p2 in *.
  destruct (Z.ltb_spec 1 (c0 (Z.of_nat n))), (Z.leb_spec (c0 (Z.of_nat n)) 32), (Z.ltb_spec 32 (c0 (Z.of_nat n))), (Z.leb_spec (c0 (Z.of_nat n)) 128), (Z.ltb_spec 128 (c0 (Z.of_nat n)));
    cbn [andb]; rewrite ?zlen_cons, ?zlen_nil; lia.
Qed.
Lemma cls02_le n : zlen (cls p0 n) + zlen (cls p2 n) <= Z.of_nat n.
Proof. pose proof (cls3_le n). pose proof (zlen_nonneg (cls p1 n)). lia. Qed.

Lemma idx_app indexs pos L x : IdxAt indexs pos L -> get indexs (pos (zlen L)) = Ok x -> IdxAt indexs pos (L ++ [x]).
Proof.
  intros H Hx p y Hp. destruct (Nat.lt_ge_cases p (length L)) as [Hlt|Hge].
  - rewrite nth_error_app1 in Hp by exact Hlt. apply H. exact Hp.
  - rewrite nth_error_app2 in Hp by exact Hge. destruct (p - length L)%nat as [|q] eqn:E; cbn in Hp; [|destruct q; discriminate].
    injection Hp as <-. replace (Z.of_nat p) with (zlen L) by (unfold zlen; lia). exact Hx.
Qed.

Lemma offsets_ok : forall n i counts ranges indexs cc rr xx,
  Z.of_nat i + Z.of_nat n = 256 ->
  Arr counts 256 cc -> (forall b, 0 <= b < 256 -> cc b = if b <? Z.of_nat i then off b else c0 b) ->
  Arr ranges 257 rr -> (forall b, 0 <= b < Z.of_nat i -> rr b = off b) ->
  Arr indexs 256 xx -> IdxAt indexs (fun p => p) (cls p0 i) -> IdxAt indexs (fun p => 255 - p) (cls p2 i) ->
  exists counts' ranges' indexs' rr' xx',
   offsets_loop n (Z.of_nat i) counts ranges indexs (zlen (cls p0 i)) (zlen (cls p2 i)) (off (Z.of_nat i))
     = Ok (counts', ranges', indexs', zlen (cls p0 256), zlen (cls p2 256), off 256) /\
   Arr counts' 256 off /\ Arr ranges' 257 rr' /\ (forall b, 0 <= b < 256 -> rr' b = off b) /\
   Arr indexs' 256 xx' /\ IdxAt indexs' (fun p => p) (cls p0 256) /\ IdxAt indexs' (fun p => 255 - p) (cls p2 256).
Proof.
  induction n as [|n IH]; intros i counts ranges indexs cc rr xx Hi Hc Hcc Hr Hrr Hx I0 I2; cbn [offsets_loop].
  - assert (i = 256%nat) by lia. subst i. exists counts, ranges, indexs, rr, xx.
    split; [reflexivity|]. split; [eapply arr_ext; [exact Hc|intros b Hb; rewrite Hcc by exact Hb; destruct (Z.ltb_spec b (Z.of_nat 256)); [reflexivity|lia]]|].
    split; [exact Hr|]. split; [intros b Hb; apply Hrr; lia|]. split; [exact Hx|]. split; assumption.
  - assert (Hi2 : 0 <= Z.of_nat i < 256) by lia.
    rewrite (arr_get _ _ _ _ Hc Hi2). cbn [bind]. rewrite Hcc by exact Hi2. rewrite Z.ltb_irrefl.
    pose proof (cls02_le i) as H02. pose proof (zlen_nonneg (cls p0 i)). pose proof (zlen_nonneg (cls p2 i)).
    destruct (arr_set _ _ _ (zlen (cls p0 i)) (Z.of_nat i) Hx ltac:(lia)) as (x1 & Ex1 & Hx1). rewrite Ex1. cbn [bind].
    destruct (arr_set _ _ _ (255 - zlen (cls p2 i)) (Z.of_nat i) Hx1 ltac:(lia)) as (x2 & Ex2 & Hx2). rewrite Ex2. cbn [bind]. cbv zeta.
    destruct (arr_set _ _ _ (Z.of_nat i) (off (Z.of_nat i)) Hc Hi2) as (k1 & Ek1 & Hk1). rewrite Ek1. cbn [bind].
    destruct (arr_set _ _ _ (Z.of_nat i) (off (Z.of_nat i)) Hr ltac:(lia)) as (r1 & Er1 & Hr1). rewrite Er1. cbn [bind].
    assert (J0 : IdxAt x2 (fun p => p) (cls p0 i)).
    { intros p y Hp. assert (Z.of_nat p < zlen (cls p0 i)) by (assert (nth_error (cls p0 i) p <> None) as Q by congruence; apply nth_error_Some in Q; unfold zlen; lia).
      rewrite (get_set _ _ _ _ _ Ex2), (get_set _ _ _ _ _ Ex1).
      destruct (Z.eqb_spec (Z.of_nat p) (255 - zlen (cls p2 i))); [lia|]. destruct (Z.eqb_spec (Z.of_nat p) (zlen (cls p0 i))); [lia|]. apply (I0 p y Hp). }
    assert (J2 : IdxAt x2 (fun p => 255 - p) (cls p2 i)).
    { intros p y Hp. assert (Z.of_nat p < zlen (cls p2 i)) by (assert (nth_error (cls p2 i) p <> None) as Q by congruence; apply nth_error_Some in Q; unfold zlen; lia).
      rewrite (get_set _ _ _ _ _ Ex2), (get_set _ _ _ _ _ Ex1).
      destruct (Z.eqb_spec (255 - Z.of_nat p) (255 - zlen (cls p2 i))); [lia|]. destruct (Z.eqb_spec (255 - Z.of_nat p) (zlen (cls p0 i))); [lia|]. apply (I2 p y Hp). }
    assert (G0 : get x2 (zlen (cls p0 i)) = Ok (Z.of_nat i)).
    { rewrite (get_set _ _ _ _ _ Ex2), (get_set _ _ _ _ _ Ex1), Z.eqb_refl. destruct (_ =? _); reflexivity. }
    assert (G2 : get x2 (255 - zlen (cls p2 i)) = Ok (Z.of_nat i)) by (rewrite (get_set _ _ _ _ _ Ex2), Z.eqb_refl; reflexivity).
    assert (K0 : IdxAt x2 (fun p => p) (cls p0 (S i))).
    { rewrite cls_S. destruct (p0 (Z.of_nat i)); [apply idx_app; assumption|rewrite app_nil_r; exact J0]. }
    assert (K2 : IdxAt x2 (fun p => 255 - p) (cls p2 (S i))).
    { rewrite cls_S. destruct (p2 (Z.of_nat i)); [apply (idx_app x2 (fun p => 255 - p)); assumption|rewrite app_nil_r; exact J2]. }
    destruct (fun H1 H2 H3 H4 => IH (S i) k1 r1 x2 _ _ _ ltac:(lia) Hk1 H1 Hr1 H2 Hx2 H3 H4) as (c' & r' & x' & rr' & xx' & E & R).
    + intros b Hb. cbn beta. destruct (Z.eqb_spec b (Z.of_nat i)) as [->|Hne].
      * destruct (Z.ltb_spec (Z.of_nat i) (Z.of_nat (S i))); [reflexivity|lia].
      * rewrite Hcc by exact Hb. destruct (Z.ltb_spec b (Z.of_nat i)), (Z.ltb_spec b (Z.of_nat (S i))); try reflexivity; lia.
    + intros b Hb. cbn beta. destruct (Z.eqb_spec b (Z.of_nat i)) as [->|Hne]; [reflexivity|]. apply Hrr. lia.
    + exact K0.
    + exact K2.
    + exists c', r', x', rr', xx'. split; [|exact R]. rewrite <- E.
      replace (Z.of_nat (S i)) with (Z.of_nat i + 1) by lia. rewrite off_S by lia. rewrite !cls_S. fold (p0 (Z.of_nat i)) (p2 (Z.of_nat i)).
      f_equal.
      * rewrite zlen_app. destruct (p0 (Z.of_nat i)); rewrite ?zlen_cons, ?zlen_nil; lia.
      * rewrite zlen_app. destruct (p2 (Z.of_nat i)); rewrite ?zlen_cons, ?zlen_nil; lia.
Qed.

Lemma fallback1_ok ranges : Arr ranges 257 off -> forall n i indexs xx,
  Z.of_nat i + Z.of_nat n = 256 -> Arr indexs 256 xx ->
  IdxAt indexs (fun p => p) (cls p0 256) -> IdxAt indexs (fun p => 255 - p) (cls p2 256) ->
  IdxAt indexs (fun p => zlen (cls p0 256) + p) (cls p1 i) ->
  exists indexs', fallback1_loop n (Z.of_nat i) ranges indexs (zlen (cls p0 256)) (zlen (cls p1 i))
       (256 - (zlen (cls p0 256) + zlen (cls p2 256)) - zlen (cls p1 i)) = Ok (indexs', zlen (cls p1 256)) /\
   IdxAt indexs' (fun p => p) (cls p0 256) /\ IdxAt indexs' (fun p => 255 - p) (cls p2 256) /\
   IdxAt indexs' (fun p => zlen (cls p0 256) + p) (cls p1 256).
Proof.
  intros Hr. pose proof (cls3_le 256) as H3. pose proof (zlen_nonneg (cls p0 256)). pose proof (zlen_nonneg (cls p2 256)).
  assert (Pre : forall m i, exists t, cls p1 (i + m) = cls p1 i ++ t).
  { induction m as [|m IHm]; intros i; [exists []; rewrite Nat.add_0_r, app_nil_r; reflexivity|].
    destruct (IHm i) as [t Ht]. replace (i + S m)%nat with (S (i + m)) by lia. rewrite cls_S, Ht. rewrite <- app_assoc. eauto. }
  induction n as [|n IH]; intros i indexs xx Hi Hx I0 I2 I1; cbn [fallback1_loop].
  - assert (i = 256%nat) by lia. subst i. exists indexs. auto.
  - destruct (Pre (256 - i)%nat i) as [t Ht]. replace (i + (256 - i))%nat with 256%nat in Ht by lia.
    assert (Hle : zlen (cls p1 i) + zlen t = zlen (cls p1 256)) by (rewrite Ht, zlen_app; reflexivity). pose proof (zlen_nonneg t).
    pose proof (zlen_nonneg (cls p1 i)).
    destruct (Z.eqb_spec (256 - (zlen (cls p0 256) + zlen (cls p2 256)) - zlen (cls p1 i)) 0) as [E0|E0].
    + assert (t = []) by (destruct t; [reflexivity|rewrite zlen_cons in *; pose proof (zlen_nonneg t); lia]). subst t. rewrite app_nil_r in Ht.
      exists indexs. rewrite Ht. auto.
    + destruct (arr_set _ _ _ (zlen (cls p0 256) + zlen (cls p1 i)) (Z.of_nat i) Hx ltac:(lia)) as (x1 & Ex1 & Hx1). rewrite Ex1. cbn [bind].
      rewrite (arr_get _ _ _ (Z.of_nat i + 1) Hr ltac:(lia)). cbn [bind]. rewrite (arr_get _ _ _ (Z.of_nat i) Hr ltac:(lia)). cbn [bind]. cbv zeta.
      rewrite off_S by lia. replace (off (Z.of_nat i) + c0 (Z.of_nat i) - off (Z.of_nat i)) with (c0 (Z.of_nat i)) by lia. fold (p1 (Z.of_nat i)).
      assert (J0 : IdxAt x1 (fun p => p) (cls p0 256)).
      { intros p y Hp. assert (Z.of_nat p < zlen (cls p0 256)) by (assert (nth_error (cls p0 256) p <> None) as Q by congruence; apply nth_error_Some in Q; unfold zlen; lia).
        rewrite (get_set _ _ _ _ _ Ex1). destruct (Z.eqb_spec (Z.of_nat p) (zlen (cls p0 256) + zlen (cls p1 i))); [lia|]. apply (I0 p y Hp). }
      assert (J2 : IdxAt x1 (fun p => 255 - p) (cls p2 256)).
      { intros p y Hp. assert (Z.of_nat p < zlen (cls p2 256)) by (assert (nth_error (cls p2 256) p <> None) as Q by congruence; apply nth_error_Some in Q; unfold zlen; lia).
        rewrite (get_set _ _ _ _ _ Ex1). destruct (Z.eqb_spec (255 - Z.of_nat p) (zlen (cls p0 256) + zlen (cls p1 i))); [lia|]. apply (I2 p y Hp). }
      assert (J1 : IdxAt x1 (fun p => zlen (cls p0 256) + p) (cls p1 i)).
      { intros p y Hp. assert (Z.of_nat p < zlen (cls p1 i)) by (assert (nth_error (cls p1 i) p <> None) as Q by congruence; apply nth_error_Some in Q; unfold zlen; lia).
        rewrite (get_set _ _ _ _ _ Ex1). destruct (Z.eqb_spec (zlen (cls p0 256) + Z.of_nat p) (zlen (cls p0 256) + zlen (cls p1 i))); [lia|]. apply (I1 p y Hp). }
      assert (G1 : get x1 (zlen (cls p0 256) + zlen (cls p1 i)) = Ok (Z.of_nat i)) by (rewrite (get_set _ _ _ _ _ Ex1), Z.eqb_refl; reflexivity).
      assert (K1 : IdxAt x1 (fun p => zlen (cls p0 256) + p) (cls p1 (S i))).
      { rewrite (cls_S p1 i). destruct (p1 (Z.of_nat i)); [apply (idx_app x1 (fun p => zlen (cls p0 256) + p)); assumption|rewrite app_nil_r; exact J1]. }
      destruct (IH (S i) x1 _ ltac:(lia) Hx1 J0 J2 K1) as (x' & E & R). exists x'. split; [|exact R].
      rewrite <- E. replace (Z.of_nat (S i)) with (Z.of_nat i + 1) by lia. rewrite (cls_S p1 i), zlen_app.
      assert (Hz : zlen (if p1 (Z.of_nat i) then [Z.of_nat i] else []) = if p1 (Z.of_nat i) then 1 else 0) by (destruct (p1 (Z.of_nat i)); reflexivity).
      rewrite Hz. generalize (if p1 (Z.of_nat i) then 1 else 0). intros v. f_equal. lia.
Qed.

(** ** Placing the elements into their buckets *)
Variable orig : list A.
Hypothesis c0_def : forall b, c0 b = cntb b orig.

Record Inv (mid : list A) (counts : list Z) (cn : Z -> Z) : Prop := {
  inv_arr : Arr counts 256 cn;
  inv_bound : forall b, 0 <= b < 256 -> off b <= cn b <= off (b + 1);
  inv_placed : forall b p a, 0 <= b < 256 -> off b <= p < cn b -> get mid p = Ok a -> byte a = b;
  inv_perm : Permutation orig mid }.
Definition Rem_lock : { f : (Z -> Z) -> Z | forall cn, f cn = sumn (fun b => off (b + 1) - cn b) 256 }.
Proof. eexists. intros cn. reflexivity. Qed.
Definition Rem (cn : Z -> Z) : Z := proj1_sig Rem_lock cn.
Lemma Rem_def cn : Rem cn = sumn (fun b => off (b + 1) - cn b) 256.
Proof. exact (proj2_sig Rem_lock cn). Qed.

Lemma off_total : off 256 = zlen orig.
Proof. unfold off. change (Z.to_nat 256) with 256%nat. rewrite (sumn_ext _ (fun b => cntb b orig)); [apply cntb_total|intros; apply c0_def]. Qed.
Lemma off_0 : off 0 = 0. Proof. reflexivity. Qed.

(** An unplaced element's bucket has room. *)
Lemma room mid counts cn x s a : Inv mid counts cn -> 0 <= x < 256 -> cn x <= s < off (x + 1) -> get mid s = Ok a ->
  off (byte a) <= cn (byte a) < off (byte a + 1).
Proof.
  intros I Hx Hs Ga. pose proof (byte_range a) as Hb. pose proof (inv_bound _ _ _ I _ Hb) as Bk. split; [lia|].
  destruct (Z.lt_ge_cases (cn (byte a)) (off (byte a + 1))) as [|Hge]; [assumption|exfalso].
  set (k := byte a) in *. rewrite off_S in * by lia.
  assert (Hlen : zlen mid = zlen orig) by (unfold zlen; rewrite (Permutation_length (inv_perm _ _ _ I)); reflexivity).
  assert (HT : off k + c0 k <= zlen mid).
  { rewrite Hlen, <- off_total, <- off_S by lia. apply off_mono. lia. }
  assert (0 <= off k) by (rewrite <- off_0; apply off_mono; lia). pose proof (c0_nonneg k).
  destruct (split_len mid (off k) ltac:(lia)) as (m1 & m2 & -> & L1).
  rewrite zlen_app in HT. destruct (split_len m2 (c0 k) ltac:(lia)) as (sg & m3 & -> & L2).
  assert (Fsg : Forall (fun a => byte a = k) sg).
  { apply Forall_forall. intros y Hy. apply In_nth_error in Hy. destruct Hy as [q Hq].
    assert (Hql : (q < length sg)%nat) by (apply nth_error_Some; congruence).
    apply (inv_placed _ _ _ I k (off k + Z.of_nat q) y Hb); [unfold zlen in L2; lia|].
    rewrite <- L1. rewrite get_mid by (unfold zlen; lia). unfold get. destruct (Z.ltb_spec (Z.of_nat q) 0); [lia|]. rewrite Nat2Z.id, Hq. reflexivity. }
  assert (Hin : In a m1 \/ In a m3).
  { destruct (Z.lt_ge_cases s (off k)) as [Hlt|Hge1].
    - left. destruct (split_at m1 s) as (u & y & v & -> & Hu); [destruct (get_inv _ _ _ Ga); lia|].
      rewrite <- app_assoc in Ga. cbn [app] in Ga. rewrite get_app in Ga by lia. injection Ga as ->. apply in_or_app. right. left. reflexivity.
    - right. assert (Hs2 : off k + c0 k <= s).
      { destruct (Z.eq_dec x k) as [->|Hxk]; [lia|]. destruct (Z.lt_ge_cases x k) as [Hxl|Hxl].
        - pose proof (off_mono (x + 1) k ltac:(lia)) as Q0. rewrite off_S in Q0 by lia. lia.
        - rewrite <- off_S by lia. pose proof (off_mono (k + 1) x ltac:(lia)). pose proof (inv_bound _ _ _ I x Hx). lia. }
      destruct (get_inv _ _ _ Ga) as [Hr _]. rewrite !zlen_app in Hr.
      destruct (split_at m3 (s - off k - c0 k) ltac:(lia)) as (u & y & v & -> & Hu).
      replace (m1 ++ sg ++ u ++ y :: v) with ((m1 ++ sg ++ u) ++ y :: v) in Ga by (rewrite <- !app_assoc; reflexivity).
      rewrite get_app in Ga by (rewrite !zlen_app; lia). injection Ga as ->. apply in_or_app. right. left. reflexivity. }
  pose proof (cntb_perm k _ _ (inv_perm _ _ _ I)) as Cp. rewrite <- c0_def, !cntb_app, (cntb_all k sg Fsg) in Cp.
  assert (Cin : forall l, In a l -> 1 <= cntb k l).
  { induction l as [|y l IHl]; [intros []|]. rewrite cntb_cons. pose proof (cntb_nonneg k l). intros [->|Hi]; [rewrite Z.eqb_refl; lia|specialize (IHl Hi); destruct (byte y =? k); lia]. }
  pose proof (cntb_nonneg k m1). pose proof (cntb_nonneg k m3).
  destruct Hin as [Hi|Hi]; apply Cin in Hi; lia.
Qed.

Lemma place_bucket_ok x pre post : 0 <= x < 256 -> forall n mid counts cn s fuel, Inv mid counts cn -> cn x <= s -> s + Z.of_nat n = off (x + 1) -> (n < fuel)%nat ->
  exists mid' counts' cn', place_bucket key fuel bi (zlen pre) (pre ++ mid ++ post) counts s (off (x + 1)) = Ok (pre ++ mid' ++ post, counts') /\
    Inv mid' counts' cn' /\ Rem cn' = Rem cn - Z.of_nat n /\ (n = 0%nat -> cn' = cn).
Proof.
  intros Hx. induction n as [|n IH]; intros mid counts cn s fuel I Hs Hn Hf; (destruct fuel as [|f]; [lia|]); cbn [place_bucket].
  - destruct (Z.ltb_spec s (off (x + 1))); [lia|]. exists mid, counts, cn. split; [reflexivity|]. split; [exact I|]. split; [lia|reflexivity].
  - destruct (Z.ltb_spec s (off (x + 1))); [|lia].
    assert (Hlen : zlen mid = zlen orig) by (unfold zlen; rewrite (Permutation_length (inv_perm _ _ _ I)); reflexivity).
    assert (HT : off (x + 1) <= zlen mid) by (rewrite Hlen, <- off_total; apply off_mono; lia).
    pose proof (inv_bound _ _ _ I x Hx) as Bx.
    assert (0 <= off x) by (rewrite <- off_0; apply off_mono; lia).
    rewrite get_mid by lia. destruct (get_ok mid s ltac:(lia)) as [a Ga]. rewrite Ga. cbn [bind]. cbv zeta.
    pose proof (byte_range a) as Hb. rewrite (arr_get _ _ _ _ (inv_arr _ _ _ I) Hb). cbn [bind].
    pose proof (room mid counts cn x s a I Hx ltac:(lia) Ga) as Rm. set (k := byte a) in *. set (t := cn k) in *.
    assert (HTk : off (k + 1) <= zlen mid) by (rewrite Hlen, <- off_total; apply off_mono; lia).
    assert (0 <= off k) by (rewrite <- off_0; apply off_mono; lia).
    rewrite get_mid by lia. destruct (get_ok mid t ltac:(lia)) as [b Gb]. rewrite Gb. cbn [bind].
    destruct (set_ok mid s b ltac:(lia)) as [m1 S1]. rewrite (set_mid pre mid post s b m1 S1). cbn [bind].
    pose proof (set_zlen _ _ _ _ S1) as Lm1.
    destruct (set_ok m1 t a ltac:(lia)) as [m2 S2]. rewrite (set_mid pre m1 post t a m2 S2). cbn [bind].
    destruct (arr_set _ _ _ k (t + 1) (inv_arr _ _ _ I) Hb) as (c1 & E1 & Hc1). rewrite E1. cbn [bind].
    set (cn1 := fun b0 => if b0 =? k then t + 1 else cn b0) in *.
    assert (G2 : forall p, get m2 p = if p =? t then Ok a else if p =? s then Ok b else get mid p).
    { intros p. rewrite (get_set _ _ _ p _ S2), (get_set _ _ _ p _ S1). reflexivity. }
    assert (I1 : Inv m2 c1 cn1).
    { split.
      - exact Hc1.
      - intros b0 Hb0. unfold cn1. pose proof (inv_bound _ _ _ I b0 Hb0). destruct (Z.eqb_spec b0 k); subst; lia.
      - intros b0 p y Hb0 Hp Gp. rewrite G2 in Gp. destruct (Z.eqb_spec p t) as [->|Hpt].
        + injection Gp as <-. fold k. destruct (Z.eq_dec k b0) as [e|Hne]; [exact e|exfalso].
          unfold cn1 in Hp. destruct (Z.eqb_spec b0 k); [congruence|]. pose proof (inv_bound _ _ _ I b0 Hb0).
          destruct (Z.lt_ge_cases b0 k); [pose proof (off_mono (b0 + 1) k ltac:(lia)); lia|pose proof (off_mono (k + 1) b0 ltac:(lia)); lia].
        + assert (Hp2 : off b0 <= p < cn b0) by (unfold cn1 in Hp; destruct (Z.eqb_spec b0 k); subst; lia).
          destruct (Z.eqb_spec p s) as [->|Hps]; [exfalso|apply (inv_placed _ _ _ I b0 p y Hb0 Hp2 Gp)].
          pose proof (inv_bound _ _ _ I b0 Hb0). destruct (Z.eq_dec b0 x) as [->|Hne]; [lia|].
          destruct (Z.lt_ge_cases b0 x); [pose proof (off_mono (b0 + 1) x ltac:(lia)); lia|pose proof (off_mono (x + 1) b0 ltac:(lia)); lia].
      - etransitivity; [apply (inv_perm _ _ _ I)|]. apply (swap_perm mid m1 m2 s t a b); assumption. }
    assert (R1 : Rem cn1 = Rem cn - 1).
    { rewrite ?Rem_def. rewrite (sumn_ext _ (fun b0 => if b0 =? k then (off (b0 + 1) - cn b0) + (-1) else off (b0 + 1) - cn b0)).
      - rewrite (sumn_upd (fun b0 => off (b0 + 1) - cn b0)); [lia|]. change (Z.of_nat 256) with 256. lia.
      - intros b0 _. unfold cn1. destruct (Z.eqb_spec b0 k); subst; lia. }
    destruct (IH m2 c1 cn1 (s + 1) f I1) as (mid' & counts' & cn' & E & I' & R' & _); [unfold cn1; destruct (Z.eqb_spec x k); subst; lia|lia|lia|].
    exists mid', counts', cn'. split; [exact E|]. split; [exact I'|]. split; [lia|discriminate].
Qed.

Lemma place_pass_ok ranges pre post inner : Arr ranges 257 off -> zlen orig < Z.of_nat inner ->
  forall n x mid counts cn sorted, Z.of_nat x + Z.of_nat n = 256 -> Inv mid counts cn ->
  exists mid' counts' cn' sorted', place_pass key n inner bi (zlen pre) (Z.of_nat x) (pre ++ mid ++ post) counts ranges sorted = Ok (pre ++ mid' ++ post, counts', sorted') /\
    Inv mid' counts' cn' /\ sorted' + Rem cn' = sorted + Rem cn /\ Rem cn' <= Rem cn /\
    (Rem cn' = Rem cn -> forall b, Z.of_nat x <= b < 256 -> cn b = off (b + 1)).
Proof.
  intros Hr Hin. induction n as [|n IH]; intros x mid counts cn sorted Hxn I; cbn [place_pass].
  - exists mid, counts, cn, sorted. split; [reflexivity|]. split; [exact I|]. split; [lia|]. split; [lia|]. intros _ b Hb. lia.
  - assert (Hx : 0 <= Z.of_nat x < 256) by lia.
    rewrite (arr_get _ _ _ _ (inv_arr _ _ _ I) Hx). cbn [bind]. rewrite (arr_get _ _ _ (Z.of_nat x + 1) Hr ltac:(lia)). cbn [bind].
    pose proof (inv_bound _ _ _ I _ Hx) as Bx.
    assert (Hm : off (Z.of_nat x + 1) <= zlen orig) by (rewrite <- off_total; apply off_mono; lia).
    assert (0 <= off (Z.of_nat x)) by (rewrite <- off_0; apply off_mono; lia).
    assert (D0 : 0 <= off (Z.of_nat x + 1) - cn (Z.of_nat x)) by lia.
    set (d := off (Z.of_nat x + 1) - cn (Z.of_nat x)) in *.
    destruct (place_bucket_ok (Z.of_nat x) pre post Hx (Z.to_nat d) mid counts cn (cn (Z.of_nat x)) inner I ltac:(lia) ltac:(lia) ltac:(lia))
      as (m1 & c1 & cn1 & E & I1 & R1 & Z1). rewrite E. cbn [bind].
    destruct (IH (S x) m1 c1 cn1 (sorted + d) ltac:(lia) I1) as (m2 & c2 & cn2 & s2 & E2 & I2 & R2 & Le2 & F2).
    exists m2, c2, cn2, s2. replace (Z.of_nat x + 1) with (Z.of_nat (S x)) by lia.
    split; [exact E2|]. split; [exact I2|]. split; [lia|]. split; [lia|].
    intros Heq. assert (Hd : d = 0).
    { clearbody d. clear - Heq Le2 R1 D0. revert Heq Le2 R1. generalize (Rem cn) (Rem cn1) (Rem cn2). intros; lia. }
    specialize (Z1 ltac:(rewrite Hd; reflexivity)). subst cn1.
    intros b Hb. destruct (Z.eq_dec b (Z.of_nat x)) as [->|Hne]; [lia|]. apply F2; lia.
Qed.

Lemma rem_zero mid counts cn : Inv mid counts cn -> Rem cn <= 0 -> forall b, 0 <= b < 256 -> cn b = off (b + 1).
Proof.
  intros I H b Hb. rewrite Rem_def in H.
  assert (Hn : forall b0, 0 <= b0 < Z.of_nat 256 -> 0 <= off (b0 + 1) - cn b0) by (intros b0 Hb0; pose proof (inv_bound _ _ _ I b0 ltac:(lia)); lia).
  pose proof (sumn_nonneg _ _ Hn). pose proof (sumn_zero _ _ Hn ltac:(lia) b ltac:(lia)) as Q. cbn beta in Q. lia.
Qed.
Lemma rem_nonneg mid counts cn : Inv mid counts cn -> 0 <= Rem cn.
Proof. intros I. rewrite Rem_def. apply sumn_nonneg. intros b0 Hb0. pose proof (inv_bound _ _ _ I b0 ltac:(lia)). lia. Qed.

Lemma place_loop_ok ranges pre post inner : Arr ranges 257 off -> zlen orig < Z.of_nat inner ->
  forall fuel mid counts cn sorted, Inv mid counts cn -> sorted + Rem cn = zlen orig -> Rem cn < Z.of_nat fuel ->
  exists mid', place_loop key fuel inner bi (zlen pre) (pre ++ mid ++ post) counts ranges sorted = Ok (pre ++ mid' ++ post) /\
   Permutation orig mid' /\ forall b p a, 0 <= b < 256 -> off b <= p < off (b + 1) -> get mid' p = Ok a -> byte a = b.
Proof.
  intros Hr Hin. induction fuel as [|f IH]; intros mid counts cn sorted I Hs Hf; [pose proof (rem_nonneg _ _ _ I); lia|]. cbn [place_loop].
  destruct (place_pass_ok ranges pre post inner Hr Hin 256 0 mid counts cn sorted ltac:(lia) I) as (m1 & c1 & cn1 & s1 & E & I1 & R1 & Le1 & F1).
  change (Z.of_nat 0) with 0 in *. rewrite E. cbn [bind]. rewrite (arr_get _ _ _ 256 Hr ltac:(lia)). cbn [bind]. rewrite off_total.
  destruct (Z.ltb_spec s1 (zlen orig)) as [Hlt|Hge].
  - apply (IH m1 c1 cn1 s1 I1); [lia|].
    destruct (Z.eq_dec (Rem cn1) (Rem cn)) as [Heq|]; [|lia]. specialize (F1 Heq).
    assert (Rz : Rem cn = 0); [|pose proof (rem_nonneg _ _ _ I1) as Rp; revert Rz Rp Heq Hs R1 Hlt; generalize (Rem cn) (Rem cn1); intros; lia].
    rewrite ?Rem_def. rewrite (sumn_ext _ (fun _ => 0)) by (intros b Hb; rewrite (F1 b ltac:(lia)); lia). reflexivity.
  - exists m1. split; [reflexivity|]. split; [apply (inv_perm _ _ _ I1)|]. intros b p a Hb Hp Gp.
    apply (inv_placed _ _ _ I1 b p a Hb); [|exact Gp]. rewrite (rem_zero _ _ _ I1 ltac:(lia) b Hb). exact Hp.
Qed.

(** ** Buckets *)
Definition Buckets (bs : list (list A)) (n : nat) : Prop :=
  length bs = n /\ forall b m, nth_error bs b = Some m -> zlen m = c0 (Z.of_nat b) /\ Forall (fun a => byte a = Z.of_nat b) m.

Lemma buckets_concat bs n : Buckets bs n -> forall i, (i <= n)%nat -> zlen (concat (firstn i bs)) = off (Z.of_nat i).
Proof.
  intros [Hl H]. induction i as [|i IH]; intros Hi; [reflexivity|].
  destruct (nth_error bs i) as [m|] eqn:E; [|apply nth_error_None in E; lia].
  assert (firstn (S i) bs = firstn i bs ++ [m]).
  { apply nth_error_split in E. destruct E as (l1 & l2 & -> & <-). rewrite (firstn_app (length l1)), Nat.sub_diag, firstn_all, firstn_O, app_nil_r.
    replace (S (length l1)) with (length l1 + 1)%nat by lia. rewrite firstn_app_2. cbn. reflexivity. }
  rewrite H0, concat_app, zlen_app. cbn [concat]. rewrite app_nil_r, IH by lia.
  replace (Z.of_nat (S i)) with (Z.of_nat i + 1) by lia. rewrite off_S by lia. rewrite (proj1 (H i m E)). reflexivity.
Qed.

Lemma buckets_of_placed n : forall mid, zlen mid = off (Z.of_nat n) ->
  (forall b p a, 0 <= b < Z.of_nat n -> off b <= p < off (b + 1) -> get mid p = Ok a -> byte a = b) ->
  exists bs, Buckets bs n /\ concat bs = mid.
Proof.
  induction n as [|n IH]; intros mid Hl H.
  - exists []. split; [split; [reflexivity|intros [|b] m Hm; discriminate]|]. destruct mid; [reflexivity|]. rewrite zlen_cons in Hl. change (off (Z.of_nat 0)) with 0 in Hl. pose proof (zlen_nonneg mid). lia.
  - replace (Z.of_nat (S n)) with (Z.of_nat n + 1) in * by lia. rewrite off_S in Hl by lia. pose proof (c0_nonneg (Z.of_nat n)).
    assert (0 <= off (Z.of_nat n)) by (rewrite <- off_0; apply off_mono; lia).
    destruct (split_len mid (off (Z.of_nat n)) ltac:(lia)) as (m1 & m2 & -> & L1). rewrite zlen_app in Hl.
    destruct (IH m1 L1) as (bs & [Bl Bb] & <-).
    { intros b p a Hb Hp Gp. apply (H b p a); [lia|exact Hp|].
      pose proof (off_mono (b + 1) (Z.of_nat n) ltac:(lia)). assert (0 <= off b) by (rewrite <- off_0; apply off_mono; lia).
      pose proof (get_mid [] m1 m2 p ltac:(lia)) as Q. rewrite zlen_nil, Z.add_0_l in Q. cbn [app] in Q. rewrite Q. exact Gp. }
    exists (bs ++ [m2]). split; [split|].
    + rewrite app_length. cbn. lia.
    + intros b m Hm. destruct (Nat.lt_ge_cases b (length bs)) as [Hlt|Hge].
      * rewrite nth_error_app1 in Hm by exact Hlt. apply Bb. exact Hm.
      * rewrite nth_error_app2 in Hm by exact Hge. destruct (b - length bs)%nat as [|q] eqn:Eq; cbn in Hm; [|destruct q; discriminate].
        injection Hm as <-. assert (b = n) by lia. subst b. split; [lia|]. apply Forall_forall. intros y Hy.
        apply In_nth_error in Hy. destruct Hy as [q Hq]. assert (Hql : (q < length m2)%nat) by (apply nth_error_Some; congruence).
        apply (H (Z.of_nat n) (off (Z.of_nat n) + Z.of_nat q) y); [lia|rewrite off_S by lia; unfold zlen in Hl, L1; lia|].
        pose proof (get_mid (concat bs) m2 [] (Z.of_nat q) ltac:(unfold zlen; lia)) as Q. rewrite app_nil_r, L1 in Q. rewrite Q.
        unfold get. destruct (Z.ltb_spec (Z.of_nat q) 0); [lia|]. rewrite Nat2Z.id, Hq. reflexivity.
    + rewrite concat_app. cbn. rewrite app_nil_r. reflexivity.
Qed.

Lemma filter_sorted_split (l : list A) n : StronglySorted Z.le (map byte l) ->
  filter (fun a => byte a <? n + 1) l = filter (fun a => byte a <? n) l ++ filter (fun a => byte a =? n) l.
Proof.
  induction l as [|x l IH]; [reflexivity|]. cbn [map filter]. intros H. inversion H as [|? ? S F]; subst. rewrite (IH S).
  rewrite Forall_forall in F.
  destruct (Z.ltb_spec (byte x) (n + 1)), (Z.ltb_spec (byte x) n), (Z.eqb_spec (byte x) n); try lia; try reflexivity.
  assert (filter (fun a => byte a <? n) l = []) as ->; [|reflexivity].
  assert (Hall : forall y, In y l -> n <= byte y) by (intros y Hy; specialize (F (byte y) (in_map _ _ _ Hy)); lia).
  clear - Hall. induction l as [|y l IH]; [reflexivity|]. cbn [filter]. pose proof (Hall y (or_introl eq_refl)).
  destruct (Z.ltb_spec (byte y) n); [lia|]. apply IH. intros; apply Hall; right; assumption.
Qed.

Lemma buckets_of_ordered : Sorted Z.le (map byte orig) -> exists bs, Buckets bs 256 /\ concat bs = orig.
Proof.
  intros HS. apply Sorted_StronglySorted in HS; [|intros a b c; lia].
  assert (G : forall n, exists bs, Buckets bs n /\ concat bs = filter (fun a => byte a <? Z.of_nat n) orig).
  { induction n as [|n (bs & [Bl Bb] & Ec)].
    - exists []. split; [split; [reflexivity|intros [|b] m Hm; discriminate]|]. cbn [concat].
      clear. induction orig as [|a l IH]; [reflexivity|]. cbn [filter]. pose proof (byte_range a). destruct (Z.ltb_spec (byte a) (Z.of_nat 0)); [lia|exact IH].
    - exists (bs ++ [filter (fun a => byte a =? Z.of_nat n) orig]). split; [split|].
      + rewrite app_length. cbn. lia.
      + intros b m Hm. destruct (Nat.lt_ge_cases b (length bs)) as [Hlt|Hge].
        * rewrite nth_error_app1 in Hm by exact Hlt. apply Bb. exact Hm.
        * rewrite nth_error_app2 in Hm by exact Hge. destruct (b - length bs)%nat as [|q] eqn:Eq; cbn in Hm; [|destruct q; discriminate].
          injection Hm as <-. assert (b = n) by lia. subst b. split; [rewrite c0_def; reflexivity|]. apply Forall_forall. intros y Hy. apply filter_In in Hy. lia.
      + rewrite concat_app. cbn [concat]. rewrite app_nil_r, Ec. replace (Z.of_nat (S n)) with (Z.of_nat n + 1) by lia. symmetry. apply filter_sorted_split. exact HS. }
  destruct (G 256%nat) as (bs & B & E). exists bs. split; [exact B|]. rewrite E.
  clear. induction orig as [|a l IH]; [reflexivity|]. cbn [filter]. pose proof (byte_range a). destruct (Z.ltb_spec (byte a) (Z.of_nat 256)); [f_equal; exact IH|lia].
Qed.

(** ** Sorting the buckets *)
Notation cmpk := (compare_keys key).
Notation Srt := (StronglySorted (le cmpk)).
Definition After (bs bs' : list (list A)) (L : list Z) : Prop :=
  length bs' = length bs /\ forall b m m', nth_error bs b = Some m -> nth_error bs' b = Some m' ->
    Permutation m m' /\ (Srt m -> Srt m') /\ (In (Z.of_nat b) L -> Srt m').
Definition SortsWhen (Q : list A -> Prop) (sort : list A -> Z -> Z -> Res (list A)) : Prop :=
  forall pre mid post, Q mid -> exists mid', sort (pre ++ mid ++ post) (zlen pre) (zlen pre + zlen mid) = Ok (pre ++ mid' ++ post) /\ Permutation mid mid' /\ Srt mid'.

Lemma after_refl bs : After bs bs [].
Proof. split; [reflexivity|]. intros b m m' H H'. rewrite H in H'. injection H' as <-. split; [reflexivity|]. split; [auto|intros []]. Qed.
Lemma after_trans bs1 bs2 bs3 L1 L2 : After bs1 bs2 L1 -> After bs2 bs3 L2 -> After bs1 bs3 (L1 ++ L2).
Proof.
  intros [E1 H1] [E2 H2]. split; [congruence|]. intros b m m3 Hm Hm3.
  destruct (nth_error bs2 b) as [m2|] eqn:Hm2.
  - destruct (H1 b m m2 Hm Hm2) as (P1 & S1 & I1). destruct (H2 b m2 m3 Hm2 Hm3) as (P2 & S2 & I2).
    split; [etransitivity; eassumption|]. split; [auto|]. intros Hi. apply in_app_or in Hi. destruct Hi; auto.
  - apply nth_error_None in Hm2. assert (nth_error bs1 b <> None) as Q by congruence. apply nth_error_Some in Q. lia.
Qed.
Lemma after_buckets bs bs' L n : After bs bs' L -> Buckets bs n -> Buckets bs' n.
Proof.
  intros [E H] [Bl Bb]. split; [congruence|]. intros b m' Hm'.
  destruct (nth_error bs b) as [m|] eqn:Hm; [|apply nth_error_None in Hm; assert (nth_error bs' b <> None) as Q by congruence; apply nth_error_Some in Q; lia].
  destruct (H b m m' Hm Hm') as (P & _ & _). destruct (Bb b m Hm) as [Bz Bf]. split.
  - unfold zlen in *. rewrite <- (Permutation_length P). exact Bz.
  - rewrite Forall_forall in *. intros y Hy. apply Bf. apply (Permutation_in _ (Permutation_sym P)). exact Hy.
Qed.

Lemma index_loop_ok indexs ranges pre post pos (Q : Z -> list A -> Prop) sort :
  Arr ranges 257 off ->
  (forall b m m', Q b m -> Permutation m m' -> Q b m') ->
  forall L p bs, (forall b, In b L -> 0 <= b < 256 /\ SortsWhen (Q b) sort) ->
  (forall q x, nth_error L q = Some x -> get indexs (pos (Z.of_nat p + Z.of_nat q)) = Ok x) ->
  Buckets bs 256 -> (forall b m, nth_error bs b = Some m -> Q (Z.of_nat b) m) ->
  exists bs', index_loop (length L) (Z.of_nat p) pos indexs ranges (zlen pre) sort (pre ++ concat bs ++ post) = Ok (pre ++ concat bs' ++ post) /\
    After bs bs' L.
Proof.
  intros Hr HQ. induction L as [|x L IH]; intros p bs HL Hix HB HQb; cbn [length index_loop].
  - exists bs. split; [reflexivity|apply after_refl].
  - pose proof (Hix 0%nat x eq_refl) as G. rewrite Z.add_0_r in G. rewrite G. cbn [bind].
    destruct (HL x (or_introl eq_refl)) as [Hx Hsort].
    rewrite (arr_get _ _ _ x Hr ltac:(lia)). cbn [bind]. rewrite (arr_get _ _ _ (x + 1) Hr ltac:(lia)). cbn [bind].
    destruct (nth_error bs (Z.to_nat x)) as [m|] eqn:Em; [|apply nth_error_None in Em; destruct HB; lia].
    pose proof (buckets_concat bs 256 HB (Z.to_nat x) ltac:(lia)) as HO. rewrite Z2Nat.id in HO by lia.
    destruct HB as [HBl HBb]. pose proof (HBb _ _ Em) as [Hmz Hmf]. rewrite Z2Nat.id in Hmz by lia.
    pose proof (HQb _ _ Em) as HQm. rewrite Z2Nat.id in HQm by lia.
    apply nth_error_split in Em. destruct Em as (b1 & b2 & Ebs & Hl1).
    assert (HO2 : zlen (concat b1) = off x). { rewrite <- HO. f_equal. f_equal. rewrite Ebs, <- Hl1, firstn_app, Nat.sub_diag, firstn_all, app_nil_r. reflexivity. }
    destruct (Hsort (pre ++ concat b1) m (concat b2 ++ post) HQm) as (m' & Es & Pm & Sm).
    assert (Ec : pre ++ concat bs ++ post = (pre ++ concat b1) ++ m ++ concat b2 ++ post).
    { rewrite Ebs, concat_app. cbn [concat]. rewrite <- !app_assoc. reflexivity. }
    rewrite Ec. replace (zlen pre + off x) with (zlen (pre ++ concat b1)) by (rewrite zlen_app; lia).
    replace (zlen pre + off (x + 1)) with (zlen (pre ++ concat b1) + zlen m) by (rewrite zlen_app, off_S by lia; lia).
    rewrite Es. cbn [bind].
    set (bs1 := b1 ++ m' :: b2).
    assert (Ec1 : (pre ++ concat b1) ++ m' ++ concat b2 ++ post = pre ++ concat bs1 ++ post).
    { unfold bs1. rewrite concat_app. cbn [concat]. rewrite <- !app_assoc. reflexivity. }
    rewrite Ec1.
    assert (A1 : After bs bs1 [x]).
    { split; [rewrite Ebs; unfold bs1; rewrite !app_length; reflexivity|]. intros b y y' Hy Hy'. rewrite Ebs in Hy. unfold bs1 in Hy'.
      destruct (lt_eq_lt_dec b (length b1)) as [[Hlt|Heq]|Hgt].
      - rewrite nth_error_app1 in Hy, Hy' by exact Hlt. rewrite Hy in Hy'. injection Hy' as <-. split; [reflexivity|]. split; [auto|]. intros [Hi|[]]. lia.
      - subst b. rewrite nth_error_app2, Nat.sub_diag in Hy, Hy' by lia. injection Hy as <-. injection Hy' as <-. auto.
      - rewrite nth_error_app2 in Hy, Hy' by lia. destruct (b - length b1)%nat eqn:Eb; [lia|]. cbn in Hy, Hy'. rewrite Hy in Hy'. injection Hy' as <-.
        split; [reflexivity|]. split; [auto|]. intros [Hi|[]]. lia. }
    assert (HB1 : Buckets bs1 256) by (eapply after_buckets; [exact A1|split; assumption]).
    destruct (IH (S p) bs1) as (bs' & E & A2).
    + intros b Hb. apply HL. right. exact Hb.
    + intros q y Hq. replace (Z.of_nat (S p) + Z.of_nat q) with (Z.of_nat p + Z.of_nat (S q)) by lia. apply Hix. exact Hq.
    + exact HB1.
    + intros b y Hy. destruct A1 as [A1l A1b]. destruct (nth_error bs b) as [y0|] eqn:Ey0; [|apply nth_error_None in Ey0; assert (nth_error bs1 b <> None) as X by congruence; apply nth_error_Some in X; lia].
      destruct (A1b b y0 y Ey0 Hy) as (P & _). apply (HQ _ y0 y); [apply HQb; exact Ey0|exact P].
    + exists bs'. replace (Z.of_nat (S p)) with (Z.of_nat p + 1) in E by lia. split; [exact E|]. apply (after_trans bs bs1 bs' [x] L A1 A2).
Qed.
End CS.
