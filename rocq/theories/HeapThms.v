From Coq Require Import ZArith Bool List Lia ZifyBool.
From Verif Require Import HeapModel HeapSpec HeapProofs.
Import ListNotations.
Local Open Scope Z_scope.

(** C139: the blocks a program holds, headers included, never share a byte with each other or with a free block, and lie in memory
    the provider gave; and no memory is lost.  Missing: requests above 2^64 - 32, whose rounded size wraps. *)
Theorem C139_disjoint_partial : forall provide m h, provides provide -> reach provide m h ->
  (forall i j b c x, i <> j -> nth_error (used h) i = Some b -> nth_error (used h) j = Some c -> in_span b x -> ~ in_span c x) /\
  (forall b c x, In b (used h) -> In c (free h) -> in_span b x -> ~ in_span c x) /\
  (forall b x, In b (used h) -> in_span b x -> exists r, In r (regions h) /\ in_region r x) /\
  (forall r x, In r (regions h) -> in_region r x -> exists b, In b (used h ++ free h) /\ in_span b x).
Proof.
  intros provide m h PV R. pose proof (reach_inv provide m h PV R) as I. destruct I as [I1 I2 I3 I4 I5].
  assert (C1 : forall x, covering (used h) x <= 1) by (intros x; specialize (I3 x); specialize (I4 x); pose proof (covering_nonneg (free h) x); lia).
  split; [intros i j b c x N Hi Hj; exact (used_disjoint _ C1 I2 i j b c N Hi Hj x)|]. split; [|split].
  - intros b c x Hb Hc X Y. pose proof (covering_in _ b x Hb X). pose proof (covering_in _ c x Hc Y). specialize (I3 x). specialize (I4 x). lia.
  - intros b x Hb X. pose proof (covering_in _ b x Hb X). pose proof (covering_nonneg (free h) x). apply region_ex. rewrite <- I3. lia.
  - intros r x Hr X. pose proof (region_in _ r x Hr X). specialize (I3 x). apply covering_ex. rewrite covering_app. lia.
Qed.
Print Assumptions C139_disjoint_partial.
(** The full claim fails: a huge request is answered with a block of 0 bytes. *)
Definition one_page : provider := fun n before => match before with [] => if n <=? 4096 then Some (4096, 4096) else None | _ => None end.
Lemma one_page_provides : provides one_page.
Proof.
  intros n before a len. unfold one_page. destruct before; [|discriminate]. destruct (Z.leb_spec n 4096); [|discriminate]. intros [= <- <-]. repeat split; try lia. intros r x [].
Qed.
Theorem C139_huge_refuted : provides one_page /\ exists n, 0 < n < 2 ^ 64 /\ exists h, step one_page (Alloc n) (heap_init (fun _ => 0)) = (Ptr 4112, h) /\ used h = [(4096, 0)] /\ free h = [(4112, 4064)].
Proof. split; [exact one_page_provides|]. exists (2 ^ 64 - 8). split; [lia|]. eexists. split; [vm_compute; reflexivity|]. split; reflexivity. Qed.
Print Assumptions C139_huge_refuted.
Definition after (ops : list op) : heap := fold_left (fun h o => snd (step one_page o h)) ops (heap_init (fun _ => 0)).
Example C139_case : reach one_page (fun _ => 0) (after [Alloc 100; Alloc 30; Free 4112]) /\ used (after [Alloc 100; Alloc 30; Free 4112]) = [(4224, 32)] /\ free (after [Alloc 100; Alloc 30; Free 4112]) = [(4096, 112); (4272, 3904)].
Proof. split; [|split; reflexivity]. unfold after. cbn [fold_left]. repeat (apply R1; [|cbn; lia|discriminate]). apply R0. Qed.

(** C140: an allocation gives a new block of at least the size asked for, 16-aligned, and changes no contents; it fails only when no free
    block is large enough and the provider refuses, and then nothing changes for the blocks held; growing a block keeps its contents, and
    the contents of every other block. *)
Theorem C140_allocation_partial : forall provide m h n, provides provide -> reach provide m h -> 0 < n <= 2 ^ 64 - 32 ->
  match step provide (Alloc n) h with
  | (Ptr p, h') => p mod 16 = 0 /\ bytes h' = bytes h /\ exists s, used h' = (p - 16, s) :: used h /\ n <= s
  | (Refused, h') => used h' = used h /\ bytes h' = bytes h /\ provide (16 * ((n + 15) / 16) + 16) (regions h') = None /\ forall c, In c (free h') -> snd c < 16 * ((n + 15) / 16)
  | _ => False
  end.
Proof.
  intros provide m h n PV R N. pose proof (reach_inv provide m h PV R) as I. cbn [step]. pose proof (alloc_ok provide n h PV I N) as G. destruct (alloc 3 provide n h) as [[p| | | |] h']; cbn in G; try contradiction.
  - destruct G as (G1 & G2 & s & G3 & G4). split; [|split; [exact G2|exists s; auto]]. pose proof (iv_used _ G1) as F. rewrite G3 in F. pose proof (Forall_inv F) as (_ & M & _). cbn in M.
    replace p with (p - 16 + 1 * 16) by lia. rewrite Z.mod_add by lia. exact M.
  - destruct G as (G1 & G2 & G3 & G4 & G5). rewrite <- (align16_eq n N). auto.
Qed.
Print Assumptions C140_allocation_partial.
Theorem C140_resize_partial : forall provide m h p s n q h', provides provide -> reach provide m h -> 0 < n <= 2 ^ 64 - 32 -> In (p - 16, s) (used h) -> step provide (Realloc p n) h = (Ptr q, h') ->
  (forall i, 0 <= i < Z.min s n -> bytes h' (q + i) = bytes h (p + i)) /\
  (forall b x, In b (used h) -> fst b <> p - 16 -> in_span b x -> bytes h' x = bytes h x) /\
  (exists z, In (q - 16, z) (used h') /\ n <= z) /\ (forall b, In b (used h) -> fst b <> p - 16 -> In b (used h')).
Proof. intros provide m h p s n q h' PV R. exact (resize_copy provide p n h q h' s PV (reach_inv provide m h PV R)). Qed.
Print Assumptions C140_resize_partial.
(** No call of a program that frees only what it holds fails to return, or is taken for misuse. *)
Theorem C140_defined_partial : forall provide m h, provides provide -> reach provide m h ->
  (forall n, 0 < n <= 2 ^ 64 - 32 -> exists a, fst (step provide (Alloc n) h) = a /\ a <> Looping /\ a <> Misuse) /\
  (forall p s, In (p - 16, s) (used h) -> fst (step provide (Free p) h) = Done /\ bytes (snd (step provide (Free p) h)) = bytes h /\ forall b, In b (used h) -> fst b <> p - 16 -> In b (used (snd (step provide (Free p) h)))) /\
  (forall p s n, In (p - 16, s) (used h) -> 0 < n <= 2 ^ 64 - 32 -> fst (step provide (Realloc p n) h) = Refused \/ exists q, fst (step provide (Realloc p n) h) = Ptr q).
Proof.
  intros provide m h PV R. pose proof (reach_inv provide m h PV R) as I. split; [|split].
  - intros n N. cbn [step]. pose proof (alloc_ok provide n h PV I N) as G. destruct (alloc 3 provide n h) as [[p| | | |] h']; cbn in G; try contradiction; eexists; (split; [reflexivity|split; discriminate]).
  - intros p s H. exact (free_defined p s h H).
  - intros p s n H N. exact (resize_defined provide p s n h PV I H N).
Qed.
Print Assumptions C140_defined_partial.
Example C140_case : let h := after [Alloc 20; Store 4112 7; Alloc 16; Realloc 4112 300] in used h = [(4176, 304); (4144, 16)] /\ bytes h 4192 = 7 /\ fst (step one_page (Alloc 4000) h) = Refused.
Proof. cbn zeta. split; [reflexivity|split; reflexivity]. Qed.

(** C141: the free list is sorted by address and no two free blocks are neighbours; when all blocks are free again, the memory of a single
    region is a single block, so a request of any size the region can hold is met from it. *)
Theorem C141_coalesced_partial : forall provide m h, provides provide -> reach provide m h ->
  apart (free h) /\ (forall a len, used h = [] -> regions h = [(a, len)] -> free h = [(a, len - 16)]).
Proof.
  intros provide m h PV R. pose proof (reach_inv provide m h PV R) as I. split; [apply I|]. intros a len U E. apply all_free; auto. exact (region_long provide m h PV R (a, len) ltac:(rewrite E; left; reflexivity)).
Qed.
Print Assumptions C141_coalesced_partial.
Example C141_case : let l := [Alloc 100; Alloc 30; Alloc 500] in used (after l) = [(4272, 512); (4224, 32); (4096, 112)] /\ free (after (l ++ [Free 4112; Free 4288])) = [(4096, 112); (4272, 3904)] /\
  free (after (l ++ [Free 4112; Free 4288; Free 4240])) = [(4096, 4080)].
Proof. cbn zeta. split; [reflexivity|split; reflexivity]. Qed.
