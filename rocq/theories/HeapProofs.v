From Coq Require Import ZArith Bool List Lia ZifyBool.
From Verif Require Import HeapModel HeapSpec.
Import ListNotations.
Local Open Scope Z_scope.

(** What holds of every block. *)
Definition fine (b : block) : Prop := 0 < fst b /\ fst b mod 16 = 0 /\ 0 <= snd b /\ fst b + 16 + snd b <= 2 ^ 63.
Fixpoint covering_r (l : list block) (x : Z) : Z :=
  match l with [] => 0 | b :: r => (if (fst b <=? x) && (x <? fst b + snd b) then 1 else 0) + covering_r r x end.
Record inv (h : heap) : Prop := {
  iv_free : Forall fine (free h); iv_used : Forall fine (used h);
  iv_cover : forall x, covering (free h) x + covering (used h) x = covering_r (regions h) x;
  iv_reg : forall x, covering_r (regions h) x <= 1;
  iv_apart : apart (free h) }.

Lemma covering_nonneg l x : 0 <= covering l x.
Proof. induction l as [|b r IH]; cbn; [lia|]. destruct (_ && _); lia. Qed.
Lemma covering_in l b x : In b l -> in_span b x -> 1 <= covering l x.
Proof.
  unfold in_span. induction l as [|c r IH]; intros I S; [destruct I|]. cbn. destruct I as [->|I]; [|specialize (IH I S); destruct (_ && _); lia].
  pose proof (covering_nonneg r x). replace ((fst b <=? x) && (x <? fst b + 16 + snd b)) with true by lia. lia.
Qed.
Lemma covering_ex l x : 1 <= covering l x -> exists b, In b l /\ in_span b x.
Proof.
  unfold in_span. induction l as [|c r IH]; cbn; [lia|]. destruct ((fst c <=? x) && (x <? fst c + 16 + snd c)) eqn:E; intros H; [exists c; split; [left; reflexivity|lia]|].
  destruct (IH ltac:(lia)) as (b & I & S). exists b. auto.
Qed.
Lemma covering_app a b x : covering (a ++ b) x = covering a x + covering b x.
Proof. induction a as [|c r IH]; cbn; lia. Qed.

(** ** Inserting *)
Ltac split_ifs := repeat match goal with |- context [if ?c then _ else _] => let E := fresh "Q" in destruct c eqn:E end.
Lemma forward_cover b c r x : fine b -> fine c -> let (b', r') := forward b c r in covering (b' :: r') x = covering (b :: c :: r) x.
Proof.
  intros (_ & _ & B & _) (_ & _ & C & _). unfold forward, HEADER. destruct (Z.eqb_spec (fst c) (fst b + 16 + snd b)) as [E|E]; [|reflexivity]. cbn. split_ifs; lia.
Qed.
Lemma join_cover p b r x : 0 <= snd p -> 0 <= snd b -> covering (join p b r) x = covering (p :: b :: r) x.
Proof. intros P B. unfold join, HEADER. destruct (Z.eqb_spec (fst b) (fst p + 16 + snd p)) as [E|E]; [|reflexivity]. cbn. split_ifs; lia. Qed.
Lemma forward_size b c r : 0 <= snd b -> 0 <= snd c -> snd b <= snd (fst (forward b c r)) /\ fst (fst (forward b c r)) = fst b.
Proof. intros B C. unfold forward, HEADER. destruct (_ =? _); cbn; lia. Qed.
Lemma behind_cover b l : forall p x, fine b -> fine p -> Forall fine l -> covering (insert_behind p b l) x = covering (b :: p :: l) x.
Proof.
  induction l as [|c r IH]; intros p x B P L; cbn [insert_behind].
  - rewrite join_cover by (apply P || apply B). cbn. lia.
  - destruct ((fst b <? fst c) && (fst p <? fst b)).
    + pose proof (forward_cover b c r x B (Forall_inv L)) as F. pose proof (forward_size b c r) as Z. destruct (forward b c r) as [b' r']. cbn [fst] in Z.
      destruct B as (_ & _ & B & _). destruct (Forall_inv L) as (_ & _ & C & _). rewrite join_cover; [|apply P|lia]. cbn [covering] in *. lia.
    + cbn [covering]. rewrite (IH c x B (Forall_inv L) (Forall_inv_tail L)). cbn. lia.
Qed.
Lemma insert_cover b l x : fine b -> Forall fine l -> covering (insert b l) x = covering (b :: l) x.
Proof.
  intros B L. destruct l as [|c r]; cbn [insert]; [reflexivity|]. destruct (fst b <? fst c).
  - pose proof (forward_cover b c r x B (Forall_inv L)) as F. destruct (forward b c r) as [b' r']. exact F.
  - apply behind_cover; [exact B|exact (Forall_inv L)|exact (Forall_inv_tail L)].
Qed.
(** The neighbours have room: spans that are disjoint cannot merge to more than the end of memory. *)
Lemma forward_fine b c r : fine b -> fine c -> Forall fine r -> let (b', r') := forward b c r in fine b' /\ Forall fine r'.
Proof.
  unfold forward, HEADER, fine. intros B C R. destruct (Z.eqb_spec (fst c) (fst b + 16 + snd b)) as [E|E]; cbn; [|auto]. split; [|exact R]. repeat split; try tauto; lia.
Qed.
Lemma join_fine p b r : fine p -> fine b -> Forall fine r -> Forall fine (join p b r).
Proof.
  unfold join, HEADER. intros P B R. destruct (Z.eqb_spec (fst b) (fst p + 16 + snd p)) as [E|E]; [|auto]. constructor; [|exact R]. unfold fine in *; cbn. repeat split; try tauto; lia.
Qed.
Lemma behind_fine b l : forall p, fine b -> fine p -> Forall fine l -> Forall fine (insert_behind p b l).
Proof.
  induction l as [|c r IH]; intros p B P L; cbn [insert_behind]; [apply join_fine; auto|]. destruct ((fst b <? fst c) && (fst p <? fst b)).
  - pose proof (forward_fine b c r B (Forall_inv L) (Forall_inv_tail L)) as F. destruct (forward b c r) as [b' r']. apply join_fine; tauto.
  - constructor; [exact P|]. apply IH; [exact B|exact (Forall_inv L)|exact (Forall_inv_tail L)].
Qed.
Lemma insert_fine b l : fine b -> Forall fine l -> Forall fine (insert b l).
Proof.
  intros B L. destruct l as [|c r]; cbn [insert]; [auto|]. destruct (fst b <? fst c).
  - pose proof (forward_fine b c r B (Forall_inv L) (Forall_inv_tail L)) as F. destruct (forward b c r) as [b' r']. destruct F; auto.
  - apply behind_fine; [exact B|exact (Forall_inv L)|exact (Forall_inv_tail L)].
Qed.
(** The list stays sorted and without neighbours. *)
Definition clear_of (b : block) (l : list block) : Prop := forall c x, In c l -> in_span c x -> ~ in_span b x.
Definition low (a : Z) (l : list block) : Prop := match l with [] => True | b :: _ => a < fst b end.
Lemma apart_cons a l : apart (a :: l) <-> low (fst a + 16 + snd a) l /\ apart l.
Proof. destruct l as [|b l]; cbn; tauto. Qed.
Lemma low_join e p b r : e < fst p -> low e (join p b r).
Proof. intros H. unfold join. destruct (_ =? _); cbn; exact H. Qed.
Lemma spans_apart b c : 0 <= snd b -> 0 <= snd c -> (forall x, in_span c x -> ~ in_span b x) -> fst b + 16 + snd b <= fst c \/ fst c + 16 + snd c <= fst b.
Proof.
  intros B C H. destruct (Z_le_gt_dec (fst b + 16 + snd b) (fst c)) as [L|L]; [left; exact L|]. destruct (Z_le_gt_dec (fst c + 16 + snd c) (fst b)) as [M|M]; [right; exact M|].
  exfalso. apply (H (Z.max (fst b) (fst c))); unfold in_span; lia.
Qed.
Lemma behind_apart b l : forall p, fine b -> fine p -> Forall fine l -> clear_of b (p :: l) -> fst p < fst b -> apart (p :: l) -> apart (insert_behind p b l) /\ forall e, e < fst p -> low e (insert_behind p b l).
Proof.
  induction l as [|c r IH]; intros p B P L D O A; cbn [insert_behind].
  - split; [|intros e E; apply low_join; exact E].
    assert (S : fst p + 16 + snd p <= fst b). { destruct (spans_apart b p) as [S|S]; [apply B|apply P|intros x; apply D; left; reflexivity| |exact S]. destruct B as (_ & _ & B & _). lia. }
    unfold join, HEADER. destruct (Z.eqb_spec (fst b) (fst p + 16 + snd p)); cbn; [exact I|]. split; [lia|exact I].
  - assert (S : fst p + 16 + snd p <= fst b). { destruct (spans_apart b p) as [S|S]; [apply B|apply P|intros x; apply D; left; reflexivity| |exact S]. destruct B as (_ & _ & B & _). lia. }
    apply apart_cons in A as (A1 & A2). cbn [low] in A1. pose proof A2 as A3. apply apart_cons in A3 as (A3 & A4).
    destruct ((fst b <? fst c) && (fst p <? fst b)) eqn:Q.
    + assert (S2 : fst b + 16 + snd b <= fst c). { destruct (spans_apart b c) as [S2|S2]; [apply B|apply (Forall_inv L)|intros x; apply D; right; left; reflexivity|exact S2|]. destruct (Forall_inv L) as (_ & _ & C & _). lia. }
      unfold forward, HEADER. destruct (Z.eqb_spec (fst c) (fst b + 16 + snd b)) as [E|E]; (split; [|intros e H; apply low_join; exact H]).
      * unfold join, HEADER. cbn [fst snd]. destruct (Z.eqb_spec (fst b) (fst p + 16 + snd p)); apply apart_cons; cbn [fst snd].
        -- split; [|exact A4]. replace (fst p + 16 + (snd p + (snd b + snd c + 16) + 16)) with (fst c + 16 + snd c) by lia. exact A3.
        -- split; [cbn; lia|]. apply apart_cons. cbn [fst snd]. replace (fst b + 16 + (snd b + snd c + 16)) with (fst c + 16 + snd c) by lia. auto.
      * unfold join, HEADER. destruct (Z.eqb_spec (fst b) (fst p + 16 + snd p)); apply apart_cons; cbn [fst snd].
        -- split; [cbn; lia|exact A2].
        -- split; [cbn; lia|]. apply apart_cons. split; [cbn; lia|exact A2].
    + assert (O2 : fst c < fst b). { assert (fst c <= fst b) by lia. destruct (Z.eq_dec (fst c) (fst b)) as [X|X]; [|lia]. exfalso. apply (D c (fst c)); [right; left; reflexivity| |]; unfold in_span; destruct B as (_ & _ & B & _); destruct (Forall_inv L) as (_ & _ & C & _); lia. }
      destruct (IH c B (Forall_inv L) (Forall_inv_tail L)) as (I1 & I2); [intros y x H; apply D; right; exact H|exact O2|exact A2|].
      split; [|intros e H; exact H]. apply apart_cons. split; [apply I2; exact A1|exact I1].
Qed.
Lemma insert_apart b l : fine b -> Forall fine l -> clear_of b l -> apart l -> apart (insert b l).
Proof.
  intros B L D A. destruct l as [|c r]; cbn [insert]; [exact I|]. destruct (Z.ltb_spec (fst b) (fst c)) as [O|O].
  - assert (S2 : fst b + 16 + snd b <= fst c). { destruct (spans_apart b c) as [S2|S2]; [apply B|apply (Forall_inv L)|intros x; apply D; left; reflexivity|exact S2|]. destruct (Forall_inv L) as (_ & _ & C & _). lia. }
    pose proof A as A'. apply apart_cons in A' as (A3 & A4).
    unfold forward, HEADER. destruct (Z.eqb_spec (fst c) (fst b + 16 + snd b)) as [E|E]; apply apart_cons; cbn [fst snd].
    + replace (fst b + 16 + (snd b + snd c + 16)) with (fst c + 16 + snd c) by lia. auto.
    + split; [cbn; lia|exact A].
  - assert (O2 : fst c < fst b). { destruct (Z.eq_dec (fst c) (fst b)) as [X|X]; [|lia]. exfalso. apply (D c (fst c)); [left; reflexivity| |]; unfold in_span; destruct B as (_ & _ & B & _); destruct (Forall_inv L) as (_ & _ & C & _); lia. }
    apply behind_apart; auto; [exact (Forall_inv L)|exact (Forall_inv_tail L)].
Qed.
(** A block of at least that size is there afterwards. *)
Lemma behind_size b l : forall p, fine b -> fine p -> Forall fine l -> exists c, In c (insert_behind p b l) /\ snd b <= snd c.
Proof.
  induction l as [|c r IH]; intros p B P L; cbn [insert_behind]; unfold join, HEADER.
  - destruct P as (_ & _ & P & _). destruct (_ =? _); [exists (fst p, snd p + snd b + 16); cbn; split; [auto|lia]|exists b; cbn; split; [auto|lia]].
  - destruct (_ && _).
    + pose proof (forward_size b c r) as F. destruct (forward b c r) as [b' r']. cbn [fst] in F. destruct B as (_ & _ & B & _). destruct (Forall_inv L) as (_ & _ & C & _). specialize (F B C). destruct P as (_ & _ & P & _).
      destruct (_ =? _); [exists (fst p, snd p + snd b' + 16); cbn; split; [auto|lia]|exists b'; cbn; split; [auto|lia]].
    + destruct (IH c B (Forall_inv L) (Forall_inv_tail L)) as (d & I & S). exists d. split; [right; exact I|exact S].
Qed.
Lemma insert_size b l : fine b -> Forall fine l -> exists c, In c (insert b l) /\ snd b <= snd c.
Proof.
  intros B L. destruct l as [|c r]; cbn [insert]; [exists b; split; [left; reflexivity|lia]|]. destruct (_ <? _).
  - pose proof (forward_size b c r) as F. destruct (forward b c r) as [b' r']. cbn [fst] in F. destruct B as (_ & _ & B & _). destruct (Forall_inv L) as (_ & _ & C & _). exists b'. split; [left; reflexivity|]. apply F; auto.
  - apply behind_size; [exact B|exact (Forall_inv L)|exact (Forall_inv_tail L)].
Qed.

(** ** Taking *)
Lemma take_ok l ab : 0 <= ab -> ab mod 16 = 0 -> ab <= 2 ^ 64 - 32 -> Forall fine l -> apart l ->
  match take l ab with
  | Some (b, l') => fine b /\ ab <= snd b /\ Forall fine l' /\ (forall x, covering (b :: l') x = covering l x) /\ apart l' /\ (forall e, low e l -> low e l')
  | None => forall c, In c l -> snd c < ab
  end.
Proof.
  intros A M T. induction l as [|[a s] r IH]; intros L P; cbn [take]; [intros c []|].
  pose proof (Forall_inv L) as F. destruct F as (F1 & F2 & F3 & F4). cbn [fst snd] in *. unfold HEADER.
  pose proof P as P'. apply apart_cons in P' as (P1 & P2). cbn [fst snd] in P1.
  assert (LW : forall e f, e <= f -> low f r -> low e r) by (intros e f H; destruct r; cbn; lia).
  destruct ((ab <=? s) && (s <=? usz (ab + 16 + 64))) eqn:Q.
  - split; [unfold fine; cbn; auto|]. split; [cbn; lia|]. split; [exact (Forall_inv_tail L)|]. split; [reflexivity|]. split; [exact P2|]. intros e H. cbn in H. apply LW with (a + 16 + s); [lia|exact P1].
  - destruct (Z.ltb_spec ab s) as [G|G].
    + (* the block is split *)
      assert (U : s > ab + 80). { unfold usz in Q. destruct (Z.ltb_spec (ab + 80) (2 ^ 64)) as [H|H]; [rewrite Z.mod_small in Q by lia; lia|lia]. }
      assert (E : usz (s - ab - 16) = s - ab - 16) by (unfold usz; apply Z.mod_small; lia). rewrite E.
      split; [unfold fine; cbn; repeat split; auto; lia|]. split; [cbn; lia|]. split.
      { constructor; [|exact (Forall_inv_tail L)]. unfold fine; cbn. repeat split; try lia. rewrite Z.add_mod, (Z.add_mod a ab), F2, M by lia. reflexivity. }
      split. { intros x. cbn. split_ifs; lia. }
      split. { apply apart_cons. cbn [fst snd]. split; [|exact P2]. replace (a + ab + 16 + 16 + (s - ab - 16)) with (a + 16 + s) by lia. exact P1. }
      intros e H. cbn in *. lia.
    + specialize (IH (Forall_inv_tail L) P2). destruct (take r ab) as [[b r']|].
      * destruct IH as (I1 & I2 & I3 & I4 & I5 & I6). split; [exact I1|]. split; [exact I2|]. split; [constructor; [exact (Forall_inv L)|exact I3]|].
        split; [intros x; specialize (I4 x); cbn [covering] in *; lia|]. split; [apply apart_cons; split; [apply I6; exact P1|exact I5]|]. intros e H. exact H.
      * intros c [<-|I]; [|auto]. cbn. unfold usz in Q. destruct (Z.eq_dec s ab) as [->|X]; [|lia]. destruct (Z.ltb_spec (ab + 80) (2 ^ 64)) as [H|H]; [rewrite Z.mod_small in Q by lia; lia|lia].
Qed.

(** ** Operations *)
Lemma region_count l x : 0 <= covering_r l x.
Proof. induction l as [|b r IH]; cbn; [lia|]. destruct (_ && _); lia. Qed.
Lemma region_in l r x : In r l -> in_region r x -> 1 <= covering_r l x.
Proof.
  unfold in_region. induction l as [|c k IH]; intros I S; [destruct I|]. cbn. destruct I as [->|I]; [|specialize (IH I S); destruct (_ && _); lia].
  pose proof (region_count k x). replace ((fst r <=? x) && (x <? fst r + snd r)) with true by lia. lia.
Qed.
Lemma region_ex l x : 1 <= covering_r l x -> exists r, In r l /\ in_region r x.
Proof.
  unfold in_region. induction l as [|c r IH]; cbn; [lia|]. destruct ((fst c <=? x) && (x <? fst c + snd c)) eqn:E; intros H; [exists c; split; [left; reflexivity|lia]|].
  destruct (IH ltac:(lia)) as (b & I & S). exists b. auto.
Qed.
Lemma add_block_ok provide ab h : provides provide -> inv h -> 0 <= ab <= 2 ^ 64 - 32 -> 
  match add_block provide ab h with
  | None => provide (ab + 16) (regions h) = None
  | Some h' => inv h' /\ used h' = used h /\ bytes h' = bytes h /\ (exists c, In c (free h') /\ ab <= snd c) /\ exists r, regions h' = r :: regions h
  end.
Proof.
  intros PV I AB. unfold add_block, HEADER. replace (usz (ab + 16)) with (ab + 16) by (unfold usz; rewrite Z.mod_small; lia).
  destruct (provide (ab + 16) (regions h)) as [[a len]|] eqn:E; [|reflexivity]. destruct (PV _ _ _ _ E) as (V1 & V2 & V3 & V4 & V5 & V6).
  replace (usz (len - 16)) with (len - 16) by (unfold usz; rewrite Z.mod_small; lia).
  assert (B : fine (a, len - 16)) by (unfold fine; cbn; repeat split; auto; lia). destruct I as [I1 I2 I3 I4 I5].
  assert (N : forall x, in_region (a, len) x -> covering_r (regions h) x = 0).
  { intros x X. pose proof (region_count (regions h) x). destruct (Z.eq_dec (covering_r (regions h) x) 0) as [|Z]; [assumption|]. exfalso. destruct (region_ex (regions h) x ltac:(lia)) as (r & R1 & R2). exact (V6 r x R1 R2 X). }
  split; [|split; [reflexivity|split; [reflexivity|]]].
  - constructor; cbn [free used regions].
    + apply insert_fine; assumption.
    + exact I2.
    + intros x. rewrite insert_cover by assumption. specialize (I3 x). cbn [covering covering_r fst snd]. replace (a + 16 + (len - 16)) with (a + len) by lia. lia.
    + intros x. specialize (I4 x). specialize (N x). unfold in_region in N. cbn [covering_r fst snd] in *. destruct ((a <=? x) && (x <? a + len)) eqn:Q; [rewrite N by lia; lia|lia].
    + apply insert_apart; auto. intros c x C1 C2 C3. unfold in_span in C3. cbn [fst snd] in C3. specialize (N x). unfold in_region in N. cbn [fst snd] in N. pose proof (covering_in _ c x C1 C2). pose proof (covering_nonneg (used h) x). specialize (I3 x). rewrite N in I3 by lia. lia.
  - split; [|eexists; reflexivity]. destruct (insert_size (a, len - 16) (free h) B I1) as (c & C1 & C2). exists c. cbn [free]. split; [exact C1|]. cbn in C2. lia.
Qed.
Lemma align16_ok n : 0 < n <= 2 ^ 64 - 32 -> n <= align16 n <= 2 ^ 64 - 32 /\ align16 n mod 16 = 0 /\ align16 (align16 n) = align16 n /\ 0 < align16 n.
Proof.
  intros N. assert (A : forall m, 0 < m <= 2 ^ 64 - 32 -> align16 m = 16 * ((m + 15) / 16)).
  { intros m M. unfold align16, usz. rewrite (Z.mod_small (m + 16 - 1)) by lia. replace (m + 16 - 1) with (m + 15) by lia. rewrite Z.mod_small; [reflexivity|].
    pose proof (Z.div_mod (m + 15) 16 ltac:(lia)). pose proof (Z.mod_pos_bound (m + 15) 16 ltac:(lia)). lia. }
  pose proof (Z.div_mod (n + 15) 16 ltac:(lia)). pose proof (Z.mod_pos_bound (n + 15) 16 ltac:(lia)). set (q := (n + 15) / 16) in *.
  rewrite (A n N). fold q. assert (Q : n <= 16 * q <= 2 ^ 64 - 32) by lia. repeat split; try lia.
  - rewrite Z.mul_comm. apply Z.mod_mul. lia.
  - rewrite A by lia. f_equal. replace (16 * q + 15) with (15 + q * 16) by lia. rewrite Z.div_add by lia. reflexivity.
Qed.
(** A block is taken from the free list. *)
Lemma taken_inv h ab b l : 0 <= ab -> ab mod 16 = 0 -> ab <= 2 ^ 64 - 32 -> inv h -> take (free h) ab = Some (b, l) -> inv (Heap l (b :: used h) (regions h) (bytes h)) /\ ab <= snd b /\ fine b.
Proof.
  intros A M T [I1 I2 I3 I4 I5] E. pose proof (take_ok (free h) ab A M T I1 I5) as K. rewrite E in K. destruct K as (K1 & K2 & K3 & K4 & K5 & _). split; [|auto].
  constructor; cbn [free used regions]; auto. intros x. rewrite <- I3, <- K4. cbn [covering]. lia.
Qed.
Definition good (provide : provider) (n : Z) (h : heap) (r : answer * heap) : Prop :=
  match r with
  | (Ptr p, h') => inv h' /\ bytes h' = bytes h /\ exists s, used h' = (p - 16, s) :: used h /\ n <= s
  | (Refused, h') => inv h' /\ bytes h' = bytes h /\ used h' = used h /\ provide (align16 n + 16) (regions h') = None /\ (forall c, In c (free h') -> snd c < align16 n)
  | _ => False
  end.
Lemma alloc_found fuel provide n h : provides provide -> inv h -> 0 < n <= 2 ^ 64 - 32 -> (exists c, In c (free h) /\ align16 n <= snd c) -> good provide n h (alloc (S fuel) provide n h) /\ fst (alloc (S fuel) provide n h) <> Refused.
Proof.
  intros PV I N (c & C1 & C2). destruct (align16_ok n N) as (A1 & A2 & A3 & A4). cbn [alloc]. destruct (free h) as [|d l] eqn:F; [destruct C1|]. rewrite F.
  pose proof (take_ok (free h) (align16 n) ltac:(lia) A2 ltac:(lia) (iv_free h I) (iv_apart h I)) as K. rewrite F in K. destruct (take (d :: l) (align16 n)) as [[b l']|] eqn:T.
  - rewrite <- F in T. destruct (taken_inv h (align16 n) b l' ltac:(lia) A2 ltac:(lia) I T) as (K1 & K2 & K3). split; [|discriminate]. unfold good. split; [exact K1|]. split; [reflexivity|]. exists (snd b). cbn [used]. split; [|lia]. f_equal. destruct b. cbn. f_equal. unfold HEADER. lia.
  - specialize (K c C1). lia.
Qed.
Lemma alloc_ok provide n h : provides provide -> inv h -> 0 < n <= 2 ^ 64 - 32 -> good provide n h (alloc 3 provide n h).
Proof.
  intros PV I N. destruct (align16_ok n N) as (A1 & A2 & A3 & A4). remember 2%nat as two eqn:TW. cbn [alloc].
  assert (K : forall h1, inv h1 -> bytes h1 = bytes h -> used h1 = used h -> good provide n h
    match take (free h1) (align16 n) with
    | Some (b, l) => (Ptr (fst b + HEADER), Heap l (b :: used h1) (regions h1) (bytes h1))
    | None => match add_block provide (align16 n) h1 with None => (Refused, h1) | Some h => alloc two provide (align16 n) h end
    end).
  { intros h1 I1 B1 U1. destruct (take (free h1) (align16 n)) as [[b l']|] eqn:T.
    - destruct (taken_inv h1 (align16 n) b l' ltac:(lia) A2 ltac:(lia) I1 T) as (K1 & K2 & K3). unfold good. split; [exact K1|]. split; [exact B1|]. exists (snd b). cbn [used]. rewrite U1. split; [|lia]. f_equal. destruct b. cbn. f_equal. unfold HEADER. lia.
    - pose proof (add_block_ok provide (align16 n) h1 PV I1 ltac:(lia)) as K. destruct (add_block provide (align16 n) h1) as [h2|].
      + destruct K as (K1 & K2 & K3 & K4 & _). rewrite TW. pose proof (alloc_found 1 provide (align16 n) h2 PV K1 ltac:(lia)) as G. rewrite A3 in G. specialize (G K4). destruct G as (G & GR).
        unfold good in *. destruct (alloc 2 provide (align16 n) h2) as [[p| | | |] h3]; try contradiction.
        destruct G as (G1 & G2 & s & G3 & G4). split; [exact G1|]. split; [congruence|]. exists s. split; [congruence|lia].
      + unfold good. split; [exact I1|]. split; [exact B1|]. split; [exact U1|]. split; [exact K|]. pose proof (take_ok (free h1) (align16 n) ltac:(lia) A2 ltac:(lia) (iv_free h1 I1) (iv_apart h1 I1)) as TT. rewrite T in TT. exact TT. }
  destruct (free h) as [|d l] eqn:F; [|apply K; auto].
  pose proof (add_block_ok provide (align16 n) h PV I ltac:(lia)) as Q. destruct (add_block provide (align16 n) h) as [h2|]; [|unfold good; split; [exact I|]; split; [reflexivity|]; split; [reflexivity|]; split; [exact Q|]; rewrite F; intros c []].
  destruct Q as (K1 & K2 & K3 & K4 & _). apply K; auto.
Qed.
Lemma header_ok u p : match header u p with
  | Some (s, u') => In (p - 16, s) u /\ (forall x, covering u x = covering ((p - 16, s) :: u') x) /\ (forall b, In b u -> b = (p - 16, s) \/ In b u') /\ (forall b, In b u' -> In b u)
  | None => forall s, ~ In (p - 16, s) u end.
Proof.
  induction u as [|[a s] r IH]; cbn [header]; [intros s []|]. unfold HEADER in *. destruct (Z.eqb_spec a (p - 16)) as [->|N].
  - split; [left; reflexivity|]. split; [reflexivity|]. split; [intros b [<-|I]; auto|intros b I; right; exact I].
  - destruct (header r p) as [[z r']|].
    + destruct IH as (I1 & I2 & I3 & I4). split; [right; exact I1|]. split; [intros x; specialize (I2 x); cbn [covering] in *; lia|].
      split; [intros b [<-|I]; [right; left; reflexivity|]; destruct (I3 b I) as [->|X]; [left; reflexivity|right; right; exact X]|]. intros b [<-|I]; [left; reflexivity|right; apply I4; exact I].
    + intros z [E|I]; [congruence|exact (IH z I)].
Qed.
Lemma release_ok p h s u : inv h -> header (used h) p = Some (s, u) -> release p h = (Done, Heap (insert (p - 16, s) (free h)) u (regions h) (bytes h)) /\ inv (snd (release p h)).
Proof.
  intros [I1 I2 I3 I4 I5] E. unfold release. rewrite E. unfold HEADER. split; [reflexivity|]. pose proof (header_ok (used h) p) as K. rewrite E in K. destruct K as (K1 & K2 & K3 & K4). cbn [snd].
  assert (B : fine (p - 16, s)) by (rewrite Forall_forall in I2; apply I2; exact K1).
  constructor; cbn [free used regions]; auto.
  - apply insert_fine; assumption.
  - rewrite Forall_forall in *. intros b Hb. apply I2, K4, Hb.
  - intros x. rewrite insert_cover by assumption. rewrite <- I3, K2. cbn [covering]. lia.
  - apply insert_apart; auto. intros c x C1 C2 C3. pose proof (covering_in _ c x C1 C2). pose proof (covering_in _ _ x K1 C3). specialize (I3 x). specialize (I4 x). lia.
Qed.
Lemma step_inv provide o h : provides provide -> inv h -> sane o -> fst (step provide o h) <> Misuse -> inv (snd (step provide o h)) /\ fst (step provide o h) <> Looping.
Proof.
  intros PV I S M. destruct o as [n|p|p n|x v]; cbn [step sane] in *.
  - pose proof (alloc_ok provide n h PV I S) as G. destruct (alloc 3 provide n h) as [[p| | | |] h']; cbn in *; try contradiction; (split; [tauto|discriminate]).
  - destruct (header (used h) p) as [[s u]|] eqn:E; [|unfold release in M; rewrite E in M; cbn in M; congruence].
    destruct (release_ok p h s u I E) as (R1 & R2). split; [exact R2|]. rewrite R1. discriminate.
  - unfold resize in *. destruct (header (used h) p) as [[s u]|] eqn:E; [|cbn in M; congruence]. destruct (n <=? s); [split; [exact I|discriminate]|].
    pose proof (alloc_ok provide n h PV I S) as G. destruct (alloc 3 provide n h) as [[q| | | |] h']; cbn in G; try contradiction; [|split; [apply G|discriminate]].
    destruct G as ([J1 J2 J3 J4 J5] & G2 & z & G3 & G4).
    set (h2 := Heap (free h') (used h') (regions h') (copy (bytes h') q p (Z.min s n))) in *.
    assert (J : inv h2) by (constructor; auto).
    unfold release in *. destruct (header (used h2) p) as [[s' u']|] eqn:E2; [|cbn in M; congruence].
    pose proof (release_ok p h2 s' u' J E2) as (R1 & R2). unfold release in R2. rewrite E2 in R2. cbn [fst snd] in *. split; [exact R2|discriminate].
  - split; [|discriminate]. destruct I. constructor; auto.
Qed.
Lemma reach_inv provide m h : provides provide -> reach provide m h -> inv h.
Proof.
  intros PV R. induction R as [|h o R IH S M]; [|apply step_inv; auto]. constructor; cbn; auto; lia.
Qed.
(** ** What it means *)
Lemma used_disjoint l : (forall x, covering l x <= 1) -> Forall fine l -> forall i j b c, i <> j -> nth_error l i = Some b -> nth_error l j = Some c -> forall x, in_span b x -> ~ in_span c x.
Proof.
  induction l as [|d r IH]; intros C F i j b c N Hi Hj x X Y; [destruct i; discriminate|].
  assert (C' : forall x, covering r x <= 1) by (intros y; specialize (C y); cbn in C; destruct (_ && _); lia).
  destruct i as [|i], j as [|j]; cbn in Hi, Hj; [lia| | |].
  - injection Hi as ->. apply nth_error_In in Hj. pose proof (covering_in r c x Hj Y). specialize (C x). cbn in C. unfold in_span in X. replace ((fst b <=? x) && (x <? fst b + 16 + snd b)) with true in C by lia. lia.
  - injection Hj as ->. apply nth_error_In in Hi. pose proof (covering_in r b x Hi X). specialize (C x). cbn in C. unfold in_span in Y. replace ((fst c <=? x) && (x <? fst c + 16 + snd c)) with true in C by lia. lia.
  - exact (IH C' (Forall_inv_tail F) i j b c ltac:(lia) Hi Hj x X Y).
Qed.
(** The copy of a resized block. *)
Lemma resize_copy provide p n h q h' s : provides provide -> inv h -> 0 < n <= 2 ^ 64 - 32 -> In (p - 16, s) (used h) -> resize provide p n h = (Ptr q, h') ->
  (forall i, 0 <= i < Z.min s n -> bytes h' (q + i) = bytes h (p + i)) /\
  (forall b x, In b (used h) -> fst b <> p - 16 -> in_span b x -> bytes h' x = bytes h x) /\
  (exists z, In (q - 16, z) (used h') /\ n <= z) /\ (forall b, In b (used h) -> fst b <> p - 16 -> In b (used h')).
Proof.
  intros PV I N U. unfold resize. pose proof (header_ok (used h) p) as H. destruct (header (used h) p) as [[s0 u]|] eqn:E; [|exfalso; exact (H s U)]. destruct H as (H1 & H2 & H3 & H4).
  assert (s0 = s).
  { destruct I as [_ IU IC IR _]. destruct (Z.eq_dec s0 s) as [|D]; [assumption|exfalso]. apply In_nth_error in U as (i & Ui). apply In_nth_error in H1 as (j & Uj).
    assert (i <> j) by (intros ->; congruence). assert (C1 : forall x, covering (used h) x <= 1) by (intros x; specialize (IC x); specialize (IR x); pose proof (covering_nonneg (free h) x); lia).
    apply (used_disjoint (used h) C1 IU i j _ _ H Ui Uj (p - 16)); unfold in_span; cbn; rewrite Forall_forall in IU; apply nth_error_In in Ui, Uj; pose proof (IU _ Ui) as (_ & _ & ? & _); pose proof (IU _ Uj) as (_ & _ & ? & _); cbn in *; lia. }
  subst s0. destruct (Z.leb_spec n s) as [L|L].
  - intros [= <- <-]. split; [reflexivity|]. split; [reflexivity|]. split; [exists s; split; [exact U|lia]|auto].
  - pose proof (alloc_ok provide n h PV I N) as G. destruct (alloc 3 provide n h) as [[r| | | |] h1]; cbn in G; try contradiction; [|discriminate].
    destruct G as (J & G2 & z & G3 & G4). pose proof J as [J1 J2 J3 J4 J5].
    set (h2 := Heap (free h1) (used h1) (regions h1) (copy (bytes h1) r p (Z.min s n))) in *. unfold release.
    assert (C1 : forall x, covering (used h1) x <= 1) by (intros x; specialize (J3 x); specialize (J4 x); pose proof (covering_nonneg (free h1) x); lia).
    assert (Z0 : 0 <= z /\ 0 <= s). { rewrite Forall_forall in J2. rewrite G3 in J2. split; [exact (proj1 (proj2 (proj2 (J2 (r - 16, z) (or_introl eq_refl)))))|exact (proj1 (proj2 (proj2 (J2 (p - 16, s) (or_intror U)))))]. }
    (* the new block is clear of all others *)
    assert (D : forall b, In b (used h) -> forall x, in_span b x -> ~ in_span (r - 16, z) x).
    { intros b Hb x X Y. apply In_nth_error in Hb as (k & Hk). refine (used_disjoint (used h1) C1 J2 (S k) 0 b (r - 16, z) ltac:(lia) _ _ x X Y); rewrite G3; [exact Hk|reflexivity]. }
    pose proof (header_ok (used h2) p) as K. destruct (header (used h2) p) as [[s2 u2]|] eqn:E2; [|discriminate]. destruct K as (K1 & K2 & K3 & K4). intros [= <- <-].
    cbn [bytes used h2]. split; [|split; [|split]].
    + intros i Hi. unfold copy. replace ((r <=? r + i) && (r + i <? r + Z.min s n)) with true by lia. rewrite G2. f_equal. lia.
    + intros b x Hb Hn X. unfold copy. destruct ((r <=? x) && (x <? r + Z.min s n)) eqn:Q; [|now rewrite G2]. exfalso. apply (D b Hb x X). unfold in_span; cbn. lia.
    + exists z. split; [|exact G4]. unfold h2 in K3; cbn [used] in K3. rewrite G3 in K3. destruct (K3 (r - 16, z) (or_introl eq_refl)) as [Q|Q]; [|exact Q]. exfalso. injection Q as Q1 Q2.
      apply (D (p - 16, s) U (p - 16)); unfold in_span; cbn; lia.
    + intros b Hb Hn. unfold h2 in K3; cbn [used] in K3. rewrite G3 in K3. destruct (K3 b (or_intror Hb)) as [->|Q]; [cbn in Hn; congruence|exact Q].
Qed.
(** When everything is free, a single region is a single block again. *)
Lemma all_free h a len : inv h -> used h = [] -> regions h = [(a, len)] -> 16 <= len -> free h = [(a, len - 16)].
Proof.
  intros [I1 I2 I3 I4 I5] U R L. rewrite U, R in I3. cbn [covering covering_r fst snd] in I3.
  destruct (free h) as [|b l] eqn:F; [specialize (I3 a); cbn in I3; replace ((a <=? a) && (a <? a + len)) with true in I3 by lia; lia|].
  pose proof (Forall_inv I1) as (B1 & B2 & B3 & B4).
  (* no second block *)
  assert (IN : forall c x, In c (b :: l) -> in_span c x -> a <= x < a + len).
  { intros c x C X. pose proof (covering_in _ c x C X) as K. specialize (I3 x). destruct ((a <=? x) && (x <? a + len)) eqn:Q; [lia|]. lia. }
  assert (LOW : forall e r, low e r -> apart r -> Forall fine r -> forall x, x <= e -> covering r x = 0).
  { clear. intros e r. revert e. induction r as [|c r IH]; intros e Lo A Fi x X; [reflexivity|]. apply apart_cons in A as (A1 & A2). cbn [low] in Lo. destruct (Forall_inv Fi) as (_ & _ & C & _).
    cbn [covering]. rewrite (IH _ A1 A2 (Forall_inv_tail Fi) x) by lia. replace ((fst c <=? x) && (x <? fst c + 16 + snd c)) with false by lia. reflexivity. }
  assert (l = []).
  { destruct l as [|c l]; [reflexivity|exfalso]. pose proof I5 as A. apply apart_cons in A as (A1 & A2). cbn [low] in A1.
    set (x := fst b + 16 + snd b) in *. pose proof (Forall_inv (Forall_inv_tail I1)) as (C1 & C2 & C3 & C4).
    pose proof (IN b (fst b) (or_introl eq_refl) ltac:(unfold in_span; lia)). pose proof (IN c (fst c) (or_intror (or_introl eq_refl)) ltac:(unfold in_span; lia)).
    specialize (I3 x). pose proof (LOW x (c :: l) A1 A2 (Forall_inv_tail I1) x ltac:(lia)) as Z0.
    change (covering (b :: c :: l) x) with ((if (fst b <=? x) && (x <? fst b + 16 + snd b) then 1 else 0) + covering (c :: l) x) in I3. rewrite Z0 in I3.
    replace ((fst b <=? x) && (x <? fst b + 16 + snd b)) with false in I3 by (unfold x; lia). replace ((a <=? x) && (x <? a + len)) with true in I3 by (unfold x in *; lia). lia. }
  subst l. f_equal. destruct b as [ba bs]. cbn [fst snd] in *.
  assert (ba = a).
  { pose proof (IN (ba, bs) ba (or_introl eq_refl) ltac:(unfold in_span; cbn; lia)). specialize (I3 a). cbn in I3. replace ((a <=? a) && (a <? a + len)) with true in I3 by lia. destruct ((ba <=? a) && (a <? ba + 16 + bs)) eqn:Q; lia. }
  subst ba. f_equal.
  pose proof (IN (a, bs) (a + 15 + bs) (or_introl eq_refl) ltac:(unfold in_span; cbn; lia)). specialize (I3 (a + len - 1)). cbn in I3. replace ((a <=? a + len - 1) && (a + len - 1 <? a + len)) with true in I3 by lia.
  destruct ((a <=? a + len - 1) && (a + len - 1 <? a + 16 + bs)) eqn:Q; lia.
Qed.
Lemma align16_eq n : 0 < n <= 2 ^ 64 - 32 -> align16 n = 16 * ((n + 15) / 16).
Proof.
  intros N. unfold align16, usz. rewrite (Z.mod_small (n + 16 - 1)) by lia. replace (n + 16 - 1) with (n + 15) by lia. rewrite Z.mod_small; [reflexivity|].
  pose proof (Z.div_mod (n + 15) 16 ltac:(lia)). pose proof (Z.mod_pos_bound (n + 15) 16 ltac:(lia)). lia.
Qed.
Lemma free_defined p s h : In (p - 16, s) (used h) -> fst (release p h) = Done /\ bytes (snd (release p h)) = bytes h /\ forall b, In b (used h) -> fst b <> p - 16 -> In b (used (snd (release p h))).
Proof.
  intros H. unfold release. pose proof (header_ok (used h) p) as K. destruct (header (used h) p) as [[z u]|]; [|exfalso; exact (K s H)]. cbn. split; [reflexivity|]. split; [reflexivity|].
  intros b Hb N. destruct K as (_ & _ & K & _). destruct (K b Hb) as [->|X]; [cbn in N; congruence|exact X].
Qed.
Lemma resize_defined provide p s n h : provides provide -> inv h -> In (p - 16, s) (used h) -> 0 < n <= 2 ^ 64 - 32 -> fst (resize provide p n h) = Refused \/ exists q, fst (resize provide p n h) = Ptr q.
Proof.
  intros PV I H N. unfold resize. pose proof (header_ok (used h) p) as K. destruct (header (used h) p) as [[z u]|]; [|exfalso; exact (K s H)]. destruct (n <=? z); [right; eexists; reflexivity|].
  pose proof (alloc_ok provide n h PV I N) as G. destruct (alloc 3 provide n h) as [[q| | | |] h']; cbn in G; try contradiction; [|left; reflexivity].
  destruct G as (_ & _ & y & G3 & _). pose proof (free_defined p s (Heap (free h') (used h') (regions h') (copy (bytes h') q p (Z.min z n)))) as F. cbn [used] in F. rewrite G3 in F. specialize (F (or_intror H)). destruct F as (F & _).
  rewrite <- G3 in F. destruct (release p _) as [[]]; try discriminate F. right. eexists. reflexivity.
Qed.
Lemma alloc_regions provide n h : forall r, In r (regions (snd (alloc 3 provide n h))) -> In r (regions h) \/ exists k before, provide k before = Some r.
Proof.
  assert (A : forall ab h h', add_block provide ab h = Some h' -> forall r, In r (regions h') -> In r (regions h) \/ exists k before, provide k before = Some r).
  { intros ab h0 h' E r. unfold add_block in E. destruct (provide _ (regions h0)) as [[a len]|] eqn:P; [|discriminate]. injection E as <-. cbn. intros [<-|X]; [right; eauto|left; exact X]. }
  generalize 3%nat as fuel. intros fuel. revert n h. induction fuel as [|fuel IH]; intros n h r; cbn [alloc]; [cbn; auto|].
  assert (B : match (match free h with [] => add_block provide (align16 n) h | _ => Some h end) with None => True | Some h' => forall r, In r (regions h') -> In r (regions h) \/ exists k before, provide k before = Some r end).
  { destruct (free h); [|auto]. destruct (add_block provide (align16 n) h) as [h'|] eqn:E; [|exact Logic.I]. exact (A _ _ _ E). }
  destruct (match free h with [] => add_block provide (align16 n) h | _ => Some h end) as [h1|]; [|cbn; auto].
  destruct (take (free h1) (align16 n)) as [[b l]|]; [cbn; apply B|]. destruct (add_block provide (align16 n) h1) as [h2|] eqn:E; [|cbn; apply B].
  intros X. destruct (IH _ _ _ X) as [Y|Y]; [|right; exact Y]. destruct (A _ _ _ E r Y) as [Z|Z]; [apply B, Z|right; exact Z].
Qed.
Lemma region_long provide m h : provides provide -> reach provide m h -> forall r, In r (regions h) -> 16 <= snd r.
Proof.
  intros PV R. induction R as [|h o R IH S M]; intros r X; [destruct X|].
  assert (A : forall n, In r (regions (snd (alloc 3 provide n h))) -> 16 <= snd r).
  { intros n Y. destruct (alloc_regions provide n h r Y) as [Z|(k & before & Z)]; [auto|]. destruct r as [a len]. apply PV in Z. cbn. tauto. }
  destruct o as [n|p|p n|x v]; cbn [step] in X.
  - exact (A n X).
  - unfold release in X. destruct (header (used h) p) as [[s u]|]; apply IH, X.
  - unfold resize in X. destruct (header (used h) p) as [[s u]|]; [|apply IH, X]. destruct (n <=? s); [apply IH, X|]. specialize (A n). destruct (alloc 3 provide n h) as [[q| | | |] h']; try (exact (A X)).
    unfold release in X. cbn [used regions free bytes] in X. destruct (header (used h') p) as [[s' u']|]; exact (A X).
  - apply IH, X.
Qed.
