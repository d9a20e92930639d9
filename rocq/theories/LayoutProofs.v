From Coq Require Import ZArith List Bool Lia ZifyBool.
From Verif Require Import LayoutModel LayoutSpec.
Import ListNotations.
Open Scope Z_scope.

Lemma pow2_pos a : pow2 a -> 1 <= a.
Proof. intros (k & Hk & ->). pose proof (Z.pow_pos_nonneg 2 k). lia. Qed.
Lemma pow2_divide a b : pow2 a -> pow2 b -> a <= b -> (a | b).
Proof.
  intros (k & Hk & ->) (j & Hj & ->) H. assert (k <= j) by (apply (Z.pow_le_mono_r_iff 2); lia).
  exists (2 ^ (j - k)). rewrite <- Z.pow_add_r by lia. f_equal. lia.
Qed.
Lemma round_up_mod x a : 1 <= a -> round_up x a mod a = 0.
Proof. intros. unfold round_up. apply Z.mod_mul. lia. Qed.
Lemma round_up_ge x a : 1 <= a -> x <= round_up x a < x + a.
Proof. intros. unfold round_up. pose proof (Z.div_mod (x + a - 1) a ltac:(lia)). pose proof (Z.mod_pos_bound (x + a - 1) a ltac:(lia)). nia. Qed.
Lemma round_up_least x a y : 1 <= a -> y mod a = 0 -> x <= y -> round_up x a <= y.
Proof.
  intros Ha Hy Hx. pose proof (round_up_ge x a Ha). pose proof (round_up_mod x a Ha) as Hm.
  apply Z.mod_divide in Hy; [|lia]. apply Z.mod_divide in Hm; [|lia]. destruct Hy as [p ->], Hm as [q Hq]. rewrite Hq in *. assert (q < p + 1) by nia. nia.
Qed.
Lemma least_round x a : 1 <= a -> least_multiple a x (round_up x a).
Proof. intros. split; [apply round_up_mod; auto|]. split; [apply round_up_ge; auto|]. intros; apply round_up_least; auto. Qed.
Lemma round_up_id x a : 1 <= a -> x mod a = 0 -> round_up x a = x.
Proof. intros Ha Hx. pose proof (round_up_ge x a Ha). pose proof (round_up_least x a x Ha Hx). lia. Qed.
Lemma round_up_1 x : round_up x 1 = x.
Proof. apply round_up_id; [lia|]. apply Z.mod_1_r. Qed.
Lemma mod_divide_trans x a b : 1 <= a -> 1 <= b -> (a | b) -> x mod b = 0 -> x mod a = 0.
Proof. intros Ha Hb H Hx. apply Z.mod_divide; [lia|]. apply Z.mod_divide in Hx; [|lia]. eapply Z.divide_trans; eauto. Qed.
Lemma round_up_mono x a b : pow2 a -> pow2 b -> a <= b -> round_up x a <= round_up x b.
Proof.
  intros Pa Pb H. pose proof (pow2_pos a Pa). pose proof (pow2_pos b Pb).
  apply round_up_least; [lia| |apply round_up_ge; lia].
  eapply mod_divide_trans; [lia| |apply pow2_divide; eauto|apply round_up_mod]; lia.
Qed.
Lemma u32_id x : 0 <= x < 2 ^ 32 -> u32 x = x.
Proof. apply Z.mod_small. Qed.
Lemma aligned_round x a : 0 <= x -> 1 <= a -> x + a - 1 < 2 ^ 32 -> aligned_offset x a = round_up x a.
Proof. intros. unfold aligned_offset, round_up. rewrite u32_id by lia. reflexivity. Qed.
Global Opaque round_up aligned_offset.

(** The walk over the members without the machine's limits. *)
Fixpoint walk (packed : bool) (lo : Z) (ms : list Member) : list (Z * Z * Member) :=
  match ms with [] => [] | m :: r => let o := round_up lo (member_align packed m) in (lo, o, m) :: walk packed (o + size (ty m)) r end.
Fixpoint wend (packed : bool) (lo : Z) (ms : list Member) : Z :=
  match ms with [] => lo | m :: r => wend packed (round_up lo (member_align packed m) + size (ty m)) r end.
Definition differ_at (x : Z * Z * Member) : bool := let '(lo, o, m) := x in negb (round_up lo (nat_align (ty m)) =? o).
Definition under_at (packed : bool) (x : Z * Z * Member) : bool := differ_at x && (member_align packed (snd x) <? nat_align (ty (snd x))).
Definition refuse_at (nop : bool) (x : Z * Z * Member) : bool := let '(lo, o, m) := x in negb (o - lo =? 0) && (nop || nopad m).
Definition put (packed : bool) (x : Z * Z * Member) : Placed := let '(lo, o, m) := x in mkPlaced o (o - lo) (member_align packed m) (ty m).

Lemma member_align_pow2 packed m : wf_member m -> pow2 (member_align packed m).
Proof.
  intros [(_ & H & _) [G|G]]; unfold member_align.
  - rewrite G. cbn. destruct packed; auto. exists 0. split; [lia|reflexivity].
  - pose proof (pow2_pos _ G). replace (given m =? 0) with false by lia. auto.
Qed.
Definition room (a lo : Z) (ms : list Member) : Prop :=
  0 <= lo /\ 1 <= a /\ (forall m, In m ms -> given m <= a /\ align (ty m) <= a /\ nat_align (ty m) <= a) /\
  lo + sum_sizes ms + (Z.of_nat (length ms) + 1) * a < 2 ^ 32.
Lemma sum_nonneg ms : Forall wf_member ms -> 0 <= sum_sizes ms.
Proof. induction 1 as [|m r [[[H _] _] _] _ IH]; cbn [sum_sizes fold_right]; [lia|]. fold (sum_sizes r). lia. Qed.
Lemma member_align_le packed m a : 1 <= a -> given m <= a /\ align (ty m) <= a /\ nat_align (ty m) <= a -> member_align packed m <= a.
Proof. intros. unfold member_align. destruct (negb _), packed; lia. Qed.
Lemma room_step a lo packed m r : Forall wf_member (m :: r) -> room a lo (m :: r) ->
  room a (round_up lo (member_align packed m) + size (ty m)) r.
Proof.
  intros HF (H0 & Ha & HI & HS). inversion HF as [|? ? Hm Hr]; subst.
  pose proof (member_align_pow2 packed m Hm) as P. apply pow2_pos in P.
  pose proof (round_up_ge lo _ P). pose proof (member_align_le packed m a Ha (HI m (or_introl eq_refl))).
  destruct Hm as [[[Hs _] _] _]. cbn [sum_sizes fold_right length] in HS. fold (sum_sizes r) in HS.
  split; [lia|]. split; [lia|]. split; [intros; apply HI; right; auto|]. lia.
Qed.

Lemma max_of_cons l : forall x lo, max_of (x :: l) lo = max_of l (Z.max lo x).
Proof. reflexivity. Qed.
Definition state_after (packed : bool) (st : State) (ms : list Member) : State :=
  let w := walk packed (offset st) ms in
  mkState (wend packed (offset st) ms) (max_of (map (fun m => nat_align (ty m)) ms) (natural st))
          (max_of (map (member_align packed) ms) (actual st)) (max_of (map given ms) (dalign st))
          (unaligned st || existsb (under_at packed) w) (naturally st && negb (existsb differ_at w)).
Lemma wf_given_nonneg m : wf_member m -> 0 <= given m.
Proof. intros [_ [->|G]]; [lia|]. apply pow2_pos in G. lia. Qed.
Lemma place_one_walk packed nop a st m r : Forall wf_member (m :: r) -> room a (offset st) (m :: r) -> 0 <= dalign st ->
  let x := (offset st, round_up (offset st) (member_align packed m), m) in
  place_one packed nop st m = if refuse_at nop x then Refused
    else Good (mkState (snd (fst x) + size (ty m)) (Z.max (natural st) (nat_align (ty m))) (Z.max (actual st) (member_align packed m))
                       (Z.max (dalign st) (given m)) (unaligned st || under_at packed x) (naturally st && negb (differ_at x)),
               put packed x).
Proof.
  intros HF HR Hd x. pose proof (room_step a (offset st) packed m r HF HR) as HR'. inversion HF as [|? ? Hm Hr]; subst.
  pose proof (member_align_pow2 packed m Hm) as P. pose proof (pow2_pos _ P) as P1.
  pose proof (wf_given_nonneg m Hm) as Hg. pose proof (sum_nonneg r Hr) as Hsum.
  destruct HR as (H0 & Ha & HI & HS). destruct HR' as (_ & _ & _ & HS').
  specialize (HI m (or_introl eq_refl)). pose proof (member_align_le packed m a Ha HI) as Hma.
  destruct Hm as [[[Hs Hs2] [_ [Pn _]]] _]. pose proof (pow2_pos _ Pn) as Pn1.
  cbn [sum_sizes fold_right length] in HS. fold (sum_sizes r) in HS.
  unfold place_one. fold (member_align packed m).
  pose proof (round_up_ge (offset st) _ P1) as B1. pose proof (round_up_ge (offset st) _ Pn1) as B2.
  rewrite (aligned_round (offset st) (member_align packed m)) by lia.
  rewrite (aligned_round (offset st) (nat_align (ty m))) by lia.
  assert (M1 : member_align packed m <= nat_align (ty m) -> round_up (offset st) (member_align packed m) <= round_up (offset st) (nat_align (ty m))).
  { intros; apply round_up_mono; auto. }
  assert (M2 : nat_align (ty m) <= member_align packed m -> round_up (offset st) (nat_align (ty m)) <= round_up (offset st) (member_align packed m)).
  { intros; apply round_up_mono; auto. }
  subst x. cbn [refuse_at under_at differ_at put fst snd]. unfold under_at, differ_at. cbn [fst snd].
  set (o := round_up (offset st) (member_align packed m)) in *.
  set (q := round_up (offset st) (nat_align (ty m))) in *.
  set (ma := member_align packed m) in *.
  rewrite (u32_id (o - offset st)) by lia. rewrite (u32_id (o + size (ty m))) by lia.
  assert (E1 : negb (q =? o) && (ma <? nat_align (ty m)) && (q <=? o) = false) by lia.
  assert (E2 : negb (q =? o) && negb (negb (q =? o) && (ma <? nat_align (ty m))) && (o <=? q) = false) by lia.
  rewrite E1, E2.
  destruct (negb (o - offset st =? 0) && (nop || nopad m)); [reflexivity|].
  repeat f_equal; try lia.
  - destruct (natural st <? nat_align (ty m)) eqn:?; lia.
  - destruct (actual st <? ma) eqn:?; lia.
  - destruct (negb (given m =? 0) && (dalign st <? given m)) eqn:?; lia.
Qed.
Lemma place_walk packed nop a ms : forall st, Forall wf_member ms -> room a (offset st) ms -> 0 <= dalign st ->
  place packed nop st ms = if existsb (refuse_at nop) (walk packed (offset st) ms) then Refused
                           else Good (state_after packed st ms, map (put packed) (walk packed (offset st) ms)).
Proof.
  induction ms as [|m r IH]; intros st HF HR Hd.
  - cbn. unfold state_after. cbn. rewrite orb_false_r, andb_true_r. destruct st; reflexivity.
  - cbn [place]. rewrite (place_one_walk packed nop a st m r HF HR Hd). cbn [fst snd].
    cbn [walk existsb map]. destruct (refuse_at nop _) eqn:R; [reflexivity|]. cbn [bindo fst snd orb].
    rewrite IH; [|inversion HF; auto|cbn [offset]; apply room_step; auto|cbn [dalign]; pose proof (wf_given_nonneg m); inversion HF; subst; lia].
    cbn [offset]. destruct (existsb (refuse_at nop) _); [reflexivity|]. cbn [bindo fst snd]. f_equal. f_equal.
    unfold state_after. cbn [offset natural actual dalign unaligned naturally walk existsb wend map]. cbn zeta.
    rewrite !max_of_cons. f_equal.
    + rewrite orb_assoc. reflexivity.
    + rewrite negb_orb, andb_assoc. reflexivity.
Qed.
