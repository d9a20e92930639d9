(** Properties of the dynamic arena allocator (DynamicArenaAllocator). *)
From Coq Require Import ZArith Bool List Lia ZifyBool.
From Verif Require Import DynModel DynSpec DynProofs.
Import ListNotations.
Local Open Scope Z_scope.

(** C148: the blocks a dynamic arena has given out and not taken back lie, with their sizes in front, inside its pages, apart from each
    other.  Proved for programs that are [careful] with the first block of the current page; the others are refuted below. *)
Theorem C148_disjoint_partial : forall provide size m a, provides provide -> reach provide size m a ->
  (forall i j b c x, i <> j -> nth_error (live a) i = Some b -> nth_error (live a) j = Some c -> in_span b x -> ~ in_span c x) /\
  (forall b x, In b (live a) -> in_span b x -> exists p, In p (pages a) /\ in_memory (memory p, total p) x) /\
  (forall b, In b (live a) -> 0 < snd b /\ fst b mod 16 = 0).
Proof.
  intros provide size m a PV R. pose proof (reach_inv provide size m a PV R) as I. pose proof I as [I1 I2 I3 I4 I5]. split; [|split].
  - intros i j b c x N A B. exact (disjoint_nth (live a) (live_disjoint a I) i j b c N A B x).
  - intros b x B X. pose proof (covering_in (live a) b x B X). specialize (I4 x). destruct (cov_used_ex (pages a) x ltac:(lia)) as (p & P1 & P2). exists p. split; [exact P1|]. rewrite Forall_forall in I1. destruct (I1 p P1) as (_ & U & _). unfold in_memory; cbn. lia.
  - intros b B. rewrite Forall_forall in I3. destruct (I3 b B) as (_ & X & Y). auto.
Qed.
Print Assumptions C148_disjoint_partial.
(** A provider that hands out memory above all it has handed out. *)
Definition later_end (t : Z) (r : block) : Z := Z.max t (fst r + snd r).
Definition above : provider := fun n before => Some (fold_left later_end before 4096).
Lemma above_le l : forall t, t <= fold_left later_end l t /\ forall r, In r l -> fst r + snd r <= fold_left later_end l t.
Proof. induction l as [|r l IH]; intros t; cbn [fold_left]; [split; [lia|intros r []]|]. destruct (IH (later_end t r)) as (A & B). unfold later_end in A at 1. split; [lia|]. intros q [<-|Q]; [lia|apply B, Q]. Qed.
Lemma above_provides : provides above.
Proof. intros n before a [= <-]. destruct (above_le before 4096) as (A & B). split; [lia|]. intros r x R X Y. specialize (B r R). unfold in_memory in *. cbn in *. lia. Qed.
Definition after (ops : list op) : arena := fold_left (fun a o => snd (step above o a)) ops (arena_init 128 (fun _ => 0)).
Definition overlapping (a : arena) : Prop := exists i j b c x, i <> j /\ nth_error (live a) i = Some b /\ nth_error (live a) j = Some c /\ in_memory b x /\ in_memory c x.
(** Releasing the first block of a page makes the arena forget the later ones. *)
Theorem C148_release_refuted : provides above /\ let l := [Acquire 10 0; Acquire 10 0; Release 4112; Acquire 50 0] in Forall sane l /\ live (after l) = [(4112, 50); (4144, 10)] /\ overlapping (after l).
Proof. split; [exact above_provides|]. cbn zeta. split; [repeat constructor; cbn; auto; lia|]. split; [vm_compute; reflexivity|]. exists 0%nat, 1%nat, (4112, 50), (4144, 10), 4145. split; [lia|]. unfold in_memory; cbn. repeat split; lia. Qed.
Print Assumptions C148_release_refuted.
(** Shrinking the first block of a page makes the arena give it out again. *)
Theorem C148_shrink_refuted : provides above /\ let l := [Acquire 10 0; Resize 4112 5 0; Acquire 10 0] in Forall sane l /\ live (after l) = [(4112, 10); (4112, 5)] /\ overlapping (after l).
Proof. split; [exact above_provides|]. cbn zeta. split; [repeat constructor; cbn; auto; lia|]. split; [vm_compute; reflexivity|]. exists 0%nat, 1%nat, (4112, 10), (4112, 5), 4113. split; [lia|]. unfold in_memory; cbn. repeat split; lia. Qed.
Print Assumptions C148_shrink_refuted.
(** Growing the first block of a page runs over the next one. *)
Theorem C148_grow_refuted : provides above /\ let l := [Acquire 10 0; Acquire 10 0; Resize 4112 40 0] in Forall sane l /\ live (after l) = [(4112, 40); (4144, 10)] /\ overlapping (after l).
Proof. split; [exact above_provides|]. cbn zeta. split; [repeat constructor; cbn; auto; lia|]. split; [vm_compute; reflexivity|]. exists 0%nat, 1%nat, (4112, 40), (4144, 10), 4145. split; [lia|]. unfold in_memory; cbn. repeat split; lia. Qed.
Print Assumptions C148_grow_refuted.
Example C148_case : let l := [Acquire 10 0; Resize 4112 30 0; Acquire 20 32; Acquire 100 0; Release 4160; Resize 4112 90 0; Acquire 8 0] in
  reach above 128 (fun _ => 0) (after l) /\ live (after l) = [(4496, 8); (4368, 90); (4240, 100)] /\ map memory (pages (after l)) = [4480; 4352; 4224; 4096].
Proof.
  cbn zeta. split; [|split; vm_compute; reflexivity]. unfold after. cbn [fold_left].
  repeat (apply R1; [|vm_compute; try (split; [reflexivity|]; first [left; reflexivity|right; exists 5; split; [discriminate|reflexivity]]); exact I|vm_compute; intuition discriminate|vm_compute; discriminate]). apply R0.
Qed.

(** C149: an acquisition gives a new block of the size and alignment asked for and changes no contents; it fails only when the backing
    allocator refuses, and then the blocks are as they were; no assertion fails. *)
Theorem C149_acquire_partial : forall provide size m a n al, provides provide -> reach provide size m a -> 0 < n -> al = 0 \/ power_of_two al ->
  match step provide (Acquire n al) a with
  | (Ptr p, a') => p mod (Z.max 16 al) = 0 /\ bytes a' = bytes a /\ live a' = (p, n) :: live a /\ forall b x, In b (live a) -> in_span (p, n) x -> ~ in_span b x
  | (Refused, a') => live a' = live a /\ bytes a' = bytes a /\ exists s, n + 8 + al <= s /\ provide s (map extent (pages a' ++ unused a')) = None
  | _ => False
  end.
Proof.
  intros provide size m a n al PV R N AL. pose proof (reach_inv provide size m a PV R) as I. cbn [step]. pose proof (acquire_ok provide n al a PV I N AL) as G.
  assert (E : alignment_for al = Z.max 16 al) by (unfold alignment_for; destruct (Z.ltb_spec al 16); lia).
  destruct (acquire provide n al a) as [[p| | | |] a']; cbn in G; try contradiction.
  - destruct G as (G1 & G2 & G3 & G4 & G5). rewrite E in G4. repeat split; auto. intros b x B X Y. specialize (G5 x X). pose proof (covering_in (live a) b x B Y). pose proof (iv_cover a I x). lia.
  - destruct G as (G1 & G2 & G3 & _ & G4). repeat split; auto. eexists. split; [|exact G4]. pose proof (align_up_ok (n + PREFIX + alignment_for al) (alignment_for al) ltac:(lia)). unfold PREFIX in *. lia.
Qed.
Print Assumptions C149_acquire_partial.
(** A resize keeps the contents as far as both sizes go, and every other block with its contents. *)
Theorem C149_resize_partial : forall provide size m a p s n al, provides provide -> reach provide size m a -> 0 < n -> al = 0 \/ power_of_two al -> In (p, s) (live a) ->
  (remembered a p -> is_last a p /\ s < n) -> (n < s -> p mod (Z.max 16 al) = 0) ->
  match step provide (Resize p n al) a with
  | (Ptr q, a') => q mod (Z.max 16 al) = 0 /\ In (q, n) (live a') /\ (forall i, 0 <= i < Z.min s n -> bytes a' (q + i) = bytes a (p + i)) /\
      (forall b, In b (live a) -> fst b <> p -> In b (live a') /\ forall x, in_span b x -> bytes a' x = bytes a x)
  | (Refused, a') => a' = a
  | _ => False
  end.
Proof.
  intros provide size m a p s n al PV R N AL B C1 C2. pose proof (reach_inv provide size m a PV R) as I. cbn [step].
  assert (E : alignment_for al = Z.max 16 al) by (unfold alignment_for; destruct (Z.ltb_spec al 16); lia).
  pose proof (lookup_ok (live a) p) as L. assert (SZ : size_of a p = s). { unfold size_of. destruct (lookup (live a) p) as [[z l]|]; [|exfalso; exact (L s B)]. destruct L as (L & _). exact (same_size a p z s I L B). }
  assert (C : careful a (Resize p n al)) by (unfold careful; rewrite SZ, E; auto).
  pose proof (resize_ok provide p n al a PV I (conj N AL) C (ex_intro _ s B)) as (K1 & K2). destruct (resize provide p n al a) as [r a']. cbn [fst snd] in *. rewrite SZ, E in K2. destruct K2 as [(-> & ->)|(q & -> & Q1 & Q2 & Q3 & Q4 & Q5)]; [reflexivity|].
  split; [exact Q1|]. split; [exact Q2|]. split; [exact Q3|]. intros b Hb Nb. split; [exact (Q5 b Hb Nb)|]. intros x X. exact (Q4 b x Hb Nb X).
Qed.
Print Assumptions C149_resize_partial.
(** A release of a block held, and a reset, always succeed. *)
Theorem C149_release_partial : forall provide size m a p s, provides provide -> reach provide size m a -> In (p, s) (live a) ->
  fst (step provide (Release p) a) = Done /\ bytes (snd (step provide (Release p) a)) = bytes a /\ (forall b, In b (live a) -> fst b <> p -> In b (live (snd (step provide (Release p) a)))) /\
  fst (step provide Reset a) = Done /\ live (snd (step provide Reset a)) = [].
Proof.
  intros provide size m a p s PV R B. pose proof (reach_inv provide size m a PV R) as [I1 I2 I3 I4 I5]. cbn [step]. unfold release. destruct (pages a) as [|c ps].
  { exfalso. rewrite Forall_forall in I3. destruct (I3 _ B) as (_ & Z1 & _). cbn in Z1. specialize (I4 (p - 8)). pose proof (covering_in (live a) (p, s) (p - 8) B). unfold in_span in *. cbn [fst snd cov_used] in *. lia. }
  pose proof (lookup_ok (live a) p) as L. destruct (lookup (live a) p) as [[z l]|]; [|exfalso; exact (L s B)]. destruct L as (_ & _ & L & _). cbn [fst snd live bytes reset]. repeat split. intros b Hb Nb. destruct (L b Hb) as [->|X]; [cbn in Nb; lia|exact X].
Qed.
Print Assumptions C149_release_partial.
(** A shrinking resize that moves for its alignment copies past the new block: memory outside every page is written. *)
Theorem C149_overrun_refuted : provides above /\ let l := [Acquire 60 0; Store 4147 7] in Forall sane l /\ sane (Resize 4112 8 32) /\ live (after l) = [(4112, 60)] /\
  (forall p, In p (pages (after (l ++ [Resize 4112 8 32]))) -> ~ in_memory (memory p, total p) 4227) /\ bytes (after l) 4227 = 0 /\ bytes (after (l ++ [Resize 4112 8 32])) 4227 = 7.
Proof.
  split; [exact above_provides|]. cbn zeta. split; [repeat constructor; cbn; auto; lia|]. split; [split; [reflexivity|right; exists 5; split; [discriminate|reflexivity]]|]. split; [vm_compute; reflexivity|]. split; [|split; vm_compute; reflexivity].
  intros p [<-|[]]. unfold in_memory. vm_compute. intuition congruence.
Qed.
Print Assumptions C149_overrun_refuted.
Example C149_case : let a := after [Acquire 10 0; Store 4112 7; Acquire 20 32] in
  reach above 128 (fun _ => 0) a /\ live a = [(4160, 20); (4112, 10)] /\ fst (step above (Resize 4160 60 0) a) = Ptr 4240 /\ live (snd (step above (Release 4160) a)) = [(4112, 10)].
Proof.
  cbn zeta. split; [|split; [|split]; vm_compute; reflexivity]. unfold after. cbn [fold_left].
  repeat (apply R1; [|vm_compute; try (split; [reflexivity|]; first [left; reflexivity|right; exists 5; split; [discriminate|reflexivity]]); exact I|vm_compute; intuition discriminate|vm_compute; discriminate]). apply R0.
Qed.
