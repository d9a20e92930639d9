(** C28: the compiler's memory arenas. *)
From Coq Require Import ZArith Bool List Lia ZifyBool.
From Verif Require Import Word ArenaModel ArenaSpec ArenaProofs.
Import ListNotations.
Open Scope Z_scope.

(** However clients allocate and use their blocks, the blocks are 16-byte aligned, lie in the reserved region after its first 16 bytes, and
    no two overlap. Missing from the full statement: requests above 2^63 bytes, where it is false. *)
Theorem C28_blocks_disjoint_aligned_inside_partial : forall base size v0 ops s,
  0 <= base -> base mod 16 = 0 -> 0 <= size <= 2 ^ 62 -> arena_start (Vm base 0 size) = AOk v0 ->
  Forall (fun op => match op with Alloc n => 0 < n <= 2 ^ 63 | Poke _ _ _ => True end) ops ->
  arun calloc_arena (ASt v0 [] []) ops = Some (AOk s) ->
  pairwise_disjoint (a_blocks s) /\ Forall (aligned 16) (a_blocks s) /\ Forall (within (base + 16) (base + size)) (a_blocks s).
Proof.
  intros base size v0 ops s B M S H R Q. destruct (start_inv base size v0 B M S H) as [-> I].
  destruct (arun_inv up16 16 calloc_arena ltac:(lia) arena_r arena_alloc (base + 16) ops _ s I R Q) as ([I1 I2 I3 I4 I5 I6 I7 I8 I9] & E1 & E2).
  cbn in E1, E2. split; [exact I8|]. split; [exact I7|]. eapply Forall_impl; [|exact I6]. intros b [B1 B2]. split; lia.
Qed.
Example C28_blocks_ex :
  let ops := [Alloc 10; Alloc 1; Poke 0 9 255; Alloc 100] in
  match arena_start (Vm 4096 0 1048576) with
  | AOk v0 => match arun calloc_arena (ASt v0 [] []) ops with Some (AOk s) => a_blocks s = [(4112, 10); (4128, 1); (4144, 100)] | _ => False end
  | _ => False end.
Proof. vm_compute. reflexivity. Qed.

(** Running out of memory is reported, and only when the requests (rounded up) do not fit. *)
Theorem C28_exhaustion_is_an_error_partial : forall base size v0 reqs,
  0 <= base -> base mod 16 = 0 -> 0 <= size <= 2 ^ 62 -> arena_start (Vm base 0 size) = AOk v0 ->
  Forall (fun n => 0 < n <= 2 ^ 63) reqs ->
  (16 + sum (map up16 reqs) <= size ->
     exists s, arun calloc_arena (ASt v0 [] []) (map Alloc reqs) = Some (AOk s) /\ map snd (a_blocks s) = reqs) /\
  (size < 16 + sum (map up16 reqs) -> arun calloc_arena (ASt v0 [] []) (map Alloc reqs) = Some Exhausted).
Proof.
  intros base size v0 reqs B M S H R. destruct (start_inv base size v0 B M S H) as [-> I].
  exact (arun_allocs up16 16 calloc_arena ltac:(lia) arena_r arena_alloc (base + 16) reqs _ I R).
Qed.
Example C28_exhaustion_ex :
  arena_start (Vm 4096 0 64) = AOk (Vm 4096 16 64) /\
  arun calloc_arena (ASt (Vm 4096 16 64) [] []) [Alloc 17; Alloc 1] = Some (AOk (ASt (Vm 4096 64 64) [(4112, 17); (4144, 1)] [])) /\
  arun calloc_arena (ASt (Vm 4096 16 64) [] []) [Alloc 17; Alloc 1; Alloc 1] = Some Exhausted.
Proof. vm_compute. auto. Qed.

(** Without the bound the claim is false: a request close to 2^64 is rounded to zero and the next block overlaps it. *)
Theorem C28_no_overlap_refuted : exists ops s, arun calloc_arena (ASt (Vm 4096 16 1048576) [] []) ops = Some (AOk s) /\ ~ pairwise_disjoint (a_blocks s).
Proof.
  exists [Alloc (2 ^ 64 - 1); Alloc 16]. eexists. split; [vm_compute; reflexivity|]. intros H.
  specialize (H 0%nat 1%nat _ _ ltac:(lia) eq_refl eq_refl). unfold disjoint in H. cbn in H. lia.
Qed.

(** A block reads as zeros when it is handed out. *)
Theorem C28_blocks_start_zeroed : forall base size v0 ops s n s',
  0 <= base -> base mod 16 = 0 -> 0 <= size <= 2 ^ 62 -> arena_start (Vm base 0 size) = AOk v0 ->
  Forall (fun op => match op with Alloc n => 0 < n <= 2 ^ 63 | Poke _ _ _ => True end) ops -> 0 < n <= 2 ^ 63 ->
  arun calloc_arena (ASt v0 [] []) ops = Some (AOk s) -> arun calloc_arena s [Alloc n] = Some (AOk s') ->
  exists p, a_blocks s' = a_blocks s ++ [(p, n)] /\ forall a, p <= a -> peek (a_mem s') a = 0.
Proof.
  intros base size v0 ops s n s' B M S H R N Q A. destruct (start_inv base size v0 B M S H) as [-> I].
  destruct (arun_inv up16 16 calloc_arena ltac:(lia) arena_r arena_alloc (base + 16) ops _ s I R Q) as (I' & E1 & E2).
  destruct (alloc_step up16 16 calloc_arena ltac:(lia) arena_r arena_alloc (base + 16) s n I' N) as [E K]. cbn [arun] in A. rewrite E in A.
  destruct (v_size (a_vm s) <? up16 n + v_alloc (a_vm s)); [discriminate|]. injection A as <-. eexists. cbn [a_blocks a_mem]. split; [reflexivity|].
  destruct I'. assumption.
Qed.
Example C28_zeroed_ex : match arun calloc_arena (ASt (Vm 4096 16 1048576) [] []) [Alloc 3; Poke 0 2 77; Alloc 8] with
  | Some (AOk s) => peek (a_mem s) 4114 = 77 /\ map (peek (a_mem s)) [4128; 4129; 4135] = [0; 0; 0] | _ => False end.
Proof. vm_compute. auto. Qed.

(** So a copied string is terminated although no terminator is written, and later activity in other blocks is irrelevant. *)
Theorem C28_string_copies_terminated : forall base size ops s bytes v' m' p,
  0 <= base -> 0 <= size <= 2 ^ 62 ->
  Forall (fun op => match op with Alloc n => 0 < n <= 2 ^ 63 | Poke _ _ _ => True end) ops -> Z.of_nat (length bytes) < 2 ^ 63 ->
  arun calloc_string (ASt (Vm base 0 size) [] []) ops = Some (AOk s) ->
  str_copy (a_vm s) (a_mem s) bytes = AOk (v', m', p) ->
  (forall i, (i < length bytes)%nat -> peek m' (p + Z.of_nat i) = nth i bytes 0) /\ peek m' (p + Z.of_nat (length bytes)) = 0 /\
  Forall (fun b => disjoint b (p, Z.of_nat (length bytes) + 1)) (a_blocks s).
Proof.
  intros base size ops s bytes v' m' p B S R L Q H. pose proof (fresh_inv base size B S) as I.
  destruct (arun_inv (fun n => n) 1 calloc_string ltac:(lia) string_r string_alloc base ops _ s I R Q) as ([I1 I2 I3 I4 I5 I6 I7 I8 I9] & E1 & E2).
  unfold str_copy in H. rewrite string_alloc, vmem_alloc_eq in H by lia. destruct (_ <? _); [discriminate|]. injection H as <- <- <-.
  split; [|split].
  - intros i Hi. rewrite peek_write. replace ((_ <=? _) && (_ <? _)) with true by lia. f_equal. lia.
  - rewrite peek_write. replace ((_ <=? _) && (_ <? _)) with false by lia. apply I9. lia.
  - eapply Forall_impl; [|exact I6]. intros b [B1 B2]. left. cbn. lia.
Qed.
Example C28_string_ex : match arun calloc_string (ASt (Vm 4096 0 100) [] []) [Alloc 3; Poke 0 2 77] with
  | Some (AOk s) => match str_copy (a_vm s) (a_mem s) [104; 105] with AOk (_, m, p) => p = 4099 /\ map (peek m) [4098; 4099; 4100; 4101] = [77; 104; 105; 0] | _ => False end
  | _ => False end.
Proof. vm_compute. auto. Qed.

(** Objects of the typed arenas: numbers identify them. The [i]th object after object 0 has number [i + 1], the number leads back to the address, and exhaustion is an error. *)
Theorem C28_object_numbers_identify : forall size base mem v0 n, 0 < size <= 2 ^ 31 -> 0 <= mem <= 2 ^ 32 - 1 ->
  obj_start size (Vm base 0 mem) = AOk v0 ->
  match obj_run size v0 n with
  | AOk (v, ps) =>
      map (obj_id size v) ps = map (fun i => Z.of_nat i + 1) (seq 0 n) /\
      map (fun p => obj_ptr size v (obj_id size v p)) ps = ps /\
      Forall (fun p => base + size <= p /\ p + size <= base + mem) ps
  | Exhausted => mem < (Z.of_nat n + 1) * size
  | AAssert => False
  end.
Proof.
  intros size base mem v0 n S M H. unfold obj_start, obj_calloc in H. rewrite vmem_alloc_eq in H by (cbn; lia). cbn [v_size v_alloc v_ptr] in H.
  destruct (Z.ltb_spec mem (size + 0)); [discriminate|]. injection H as <-.
  pose proof (obj_run_spec size S n (Vm base (size + 0) mem) 1) as R. cbn [v_ptr v_alloc v_size] in R. specialize (R ltac:(lia) ltac:(lia) ltac:(lia) ltac:(lia)).
  destruct (obj_run size (Vm base (size + 0) mem) n) as [[v ps]| |]; [|replace (Z.of_nat n + 1) with (1 + Z.of_nat n) by lia; exact R|exact R].
  destruct R as (-> & P & Q & A & L).
  assert (K : forall i, In i (seq 0 n) -> obj_id size v (base + (1 + Z.of_nat i) * size) = Z.of_nat i + 1).
  { intros i Hi. apply in_seq in Hi. unfold obj_id. rewrite P. replace (base + (1 + Z.of_nat i) * size - base) with ((1 + Z.of_nat i) * size) by lia.
    rewrite Z.div_mul by lia. rewrite Q in L. rewrite Z.mod_small; [lia|]. assert ((1 + Z.of_nat i) <= (1 + Z.of_nat n) * size) by nia. lia. }
  split; [rewrite map_map; apply map_ext_in; exact K|]. split.
  - rewrite map_map. apply map_ext_in. intros i Hi. rewrite (K i Hi). unfold obj_ptr. rewrite P. lia.
  - apply Forall_forall. intros p Hp. apply in_map_iff in Hp. destruct Hp as (i & <- & Hi). apply in_seq in Hi. rewrite Q in L.
    assert ((1 + Z.of_nat i + 1) * size <= (1 + Z.of_nat n) * size) by (apply Z.mul_le_mono_nonneg_r; lia). split; nia.
Qed.
Example C28_object_ex : obj_start 96 (Vm 4096 0 1000) = AOk (Vm 4096 96 1000) /\
  match obj_run 96 (Vm 4096 96 1000) 3 with AOk (v, ps) => ps = [4192; 4288; 4384] /\ map (obj_id 96 v) ps = [1; 2; 3] | _ => False end /\
  obj_run 96 (Vm 4096 96 1000) 10 = Exhausted.
Proof. vm_compute. auto. Qed.

(** On Windows, pages are committed on demand: everything allocated is committed, rounded up to a page. *)
Theorem C28_committed_covers_allocated : forall reqs, Forall (fun n => 0 <= n) reqs -> sum reqs < 2 ^ 63 ->
  exists committed, commit_run 0 0 reqs = (committed, sum reqs) /\ sum reqs <= committed < sum reqs + PAGE /\ committed mod PAGE = 0.
Proof.
  intros reqs F B. exists (upp (sum reqs)). split; [exact (commit_run_spec reqs 0 ltac:(lia) F B)|].
  assert (0 <= sum reqs) by (clear - F; induction F; cbn; lia).
  unfold upp, PAGE. pose proof (Z.div_mod (sum reqs + (65536 - 1)) 65536 ltac:(lia)). pose proof (Z.mod_pos_bound (sum reqs + (65536 - 1)) 65536 ltac:(lia)).
  split; [lia|]. rewrite Z.mul_comm. apply Z.mod_mul. lia.
Qed.
Example C28_commit_ex : commit_run 0 0 [100; 65436; 1] = (131072, 65537).
Proof. vm_compute. reflexivity. Qed.

(** If the system refuses the size asked for, smaller ones are tried; what is recorded is between a sixteenth and the whole. *)
Theorem C28_reserved_size : forall os max mb v, 0 <= max -> 0 <= mb <= 2 ^ 40 -> vmem_init os max mb = Some v ->
  v_alloc v = 0 /\ Z.min max mb * 2 ^ 20 / 16 <= v_size v <= Z.min max mb * 2 ^ 20.
Proof.
  intros os max mb v A B H. unfold vmem_init, mmap_init in H.
  set (n := wmul (1024 * 1024) (if max <? mb then max else mb)) in H.
  assert (E : n = Z.min max mb * 2 ^ 20).
  { subst n. unfold wmul, w64, W. rewrite Z.mod_small; [|split]; destruct (Z.ltb_spec max mb); lia. }
  rewrite <- E. assert (N : 0 <= n) by lia. clearbody n. assert (D : 0 <= n / 16 <= n) by (split; [apply Z.div_pos; lia|apply Z.div_le_upper_bound; lia]).
  apply mmap_loop_spec in H; [|lia|destruct (_ <? _); lia]. destruct (Z.ltb_spec (n / 16) 1); lia.
Qed.
Example C28_reserved_ex : vmem_init [Retry; Retry; Mapped 4096] 268435456 2048 = Some (Vm 4096 0 (512 * 2 ^ 20)) /\ vmem_init [Fatal; Mapped 4096] 268435456 2048 = None.
Proof. vm_compute. auto. Qed.

Print Assumptions C28_blocks_disjoint_aligned_inside_partial.
Print Assumptions C28_exhaustion_is_an_error_partial.
Print Assumptions C28_no_overlap_refuted.
Print Assumptions C28_blocks_start_zeroed.
Print Assumptions C28_string_copies_terminated.
Print Assumptions C28_object_numbers_identify.
Print Assumptions C28_committed_covers_allocated.
Print Assumptions C28_reserved_size.
