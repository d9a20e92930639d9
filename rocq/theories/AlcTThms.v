(** C67: temporary memory and nested pools. *)
From Coq Require Import ZArith Bool List Lia ZifyBool.
From Verif Require Import Word AlcSpec AlcMem AlcBack AlcTModel AlcTSpec AlcProofs AlcBProofs AlcTProofs AlcCheck.
Import ListNotations.
Open Scope Z_scope.

(** Every history of requests, with pools entered and left in any nesting, is served honestly, whatever the backing allocator does: blocks
    are aligned as requested, disjoint, zeroed on request, keep their bytes when resized, and no byte of a block held changes; leaving a
    pool drops exactly the blocks of that pool and changes no other block. Missing from the full statement: alignments above 32, sizes
    above 2^62, leaving several pools at once, resizing the topmost block to a larger alignment than its address has, resizing a page block
    again after a resize of it failed or from an inner pool. All but the last, which the interface excludes, are false: see the
    refutations. *)
Theorem C67_pools_partial : forall safe min buffer mult answer noise base size m ops,
  good_config min buffer mult -> 64 < base -> 0 <= size -> base + size <= 2 ^ 62 ->
  honest pool_step pl_mem pool_owns pool_below pool_allow [] (pool_init safe min buffer mult answer noise base size m) ops.
Proof.
  intros safe min buffer mult answer noise base size m ops CF B SZ T. apply pool_honest.
  constructor; [exact CF|]. constructor; [|intros p d []|exact I]. cbn [pool_init pl_bk bk_live pl_temps].
  constructor; cbn [placed hs ps flat_map hstart pstart tm_alloc tm_base tm_pages map app].
  - split; [constructor; [cbn [fst snd]; lia|constructor]|]. cbn [rapart]. split; [constructor|exact I].
  - intros t h [E|[]]. assert (h = (base - 64, 64 + size)) by (unfold home in E; cbn [tm_alloc tm_base tm_orig] in E; congruence).
    assert (t = Tm base true 0 size size []) by congruence. subst t h. cbn [tm_base tm_used tm_cap tm_orig fst snd]. split; [left; reflexivity|lia].
  - constructor; [constructor|constructor].
  - constructor; [intros []|constructor].
  - constructor.
  - intros a _ [].
  - intros t g [<-|[]] [].
  - reflexivity.
Qed.
Print Assumptions C67_pools_partial.
Definition poolb_ex (s : pools) (l : ledger) (o : op) : bool :=
  match o with
  | Acquire n _ al => (n <=? 2 ^ 62) && (al <=? 32)
  | Resize p n al => (n <=? 2 ^ 62) && (al <=? 16)
  | Reset k => k + 2 =? Z.of_nat (length (pl_temps s))
  | _ => true
  end.
(** A history with two nested pools, the second inside the first; blocks in the memory of each and in pages; a page block that is resized, and
    leaving the pools. *)
Example C67_pools_ex :
  let answer := fun n => nth n [Some 8192; Some 16384; Some 18432] None in
  let ops := [Acquire 10 true 0; Store 4112 9 5; Mark; Acquire 20 false 32; Acquire 500 true 0; Mark; Acquire 8 true 0; Acquire 900 false 0;
              Resize 16416 1000 0; Store 18464 999 3; Reset 1; Resize 8288 40 0; Store 8832 39 6; Reset 0] in
  match replay pool_step pl_mem pool_below poolb_ex [] (pool_init true 200 16 4 answer (fun _ _ => 170) 4096 100 (fun _ => 0)) (removelast ops) with
  | Some (l, s) => map fst l = [8832; 8320; 4112] /\ map (fun b => last (snd b) 7) l = [6; 0; 5] /\ length (pl_temps s) = 2%nat /\ length (bk_live (pl_bk s)) = 2%nat
  | None => False
  end /\
  match replay pool_step pl_mem pool_below poolb_ex [] (pool_init true 200 16 4 answer (fun _ _ => 170) 4096 100 (fun _ => 0)) ops with
  | Some (l, s) => l = [(4112, [0; 0; 0; 0; 0; 0; 0; 0; 0; 5])] /\ bk_live (pl_bk s) = [(4032, 164)]
  | None => False
  end.
Proof. vm_compute. repeat split; reflexivity. Qed.

Definition pool_allb (s : pools) (l : ledger) (o : op) : bool := match o with Reset k => k <? Z.of_nat (length (pl_temps s)) | _ => true end.
Ltac refute_pool :=
  apply (dishonest_sound _ _ _ pool_allb); [intros s l [] H; cbn [pool_all pool_allb] in *; try exact I; lia|vm_compute; reflexivity].
(** A block with alignment 64 that does not fit the memory of the allocator lies beyond the end of the region obtained for it: another
    block may then be given the same bytes. *)
Theorem C67_align_refuted :
  ~ honest pool_step pl_mem pool_owns pool_below pool_all []
      (pool_init false 200 16 4 (fun n => nth n [Some 8192; Some 8256] None) (fun _ _ => 170) 4096 16 (fun _ => 0))
      [Acquire 20 false 64; Acquire 20 true 0].
Proof. refute_pool. Qed.
Print Assumptions C67_align_refuted.
(** Resizing the topmost block in place ignores the alignment asked for. *)
Theorem C67_resize_align_refuted :
  ~ honest pool_step pl_mem pool_owns pool_below pool_all []
      (pool_init false 200 16 4 (fun _ => None) (fun _ _ => 0) 4096 100 (fun _ => 0)) [Acquire 8 false 0; Resize 4112 16 32].
Proof. refute_pool. Qed.
Print Assumptions C67_resize_align_refuted.
(** After a failed resize of a page block, which leaves the block as it was, another resize of it stops the program. *)
Theorem C67_retry_refuted :
  ~ honest pool_step pl_mem pool_owns pool_below pool_all []
      (pool_init false 200 16 4 (fun n => nth n [Some 8192] None) (fun _ _ => 0) 4096 16 (fun _ => 0)) [Acquire 100 false 0; Resize 8224 200 0; Resize 8224 200 0].
Proof. refute_pool. Qed.
Print Assumptions C67_retry_refuted.
(** Leaving two pools at once uses the inner allocator after its memory was given back with the outer one. *)
Theorem C67_pop2_refuted :
  ~ honest pool_step pl_mem pool_owns pool_below pool_all []
      (pool_init false 200 16 4 (fun n => nth n [Some 8192] None) (fun _ _ => 0) 4096 16 (fun _ => 0)) [Mark; Mark; Reset 0].
Proof. refute_pool. Qed.
Print Assumptions C67_pop2_refuted.
(** A request for almost 2^64 bytes succeeds: the computed use wraps around. *)
Theorem C67_huge_refuted :
  ~ honest pool_step pl_mem pool_owns pool_below pool_all []
      (pool_init false 200 16 4 (fun _ => None) (fun _ _ => 0) 4096 80 (fun _ => 0)) [Acquire (2 ^ 64 - 16) false 0].
Proof.
  intros H. cbn [honest] in H. destruct H as (s' & a & E & F & T & _); [split; [lia|left; reflexivity]|exact I|].
  assert (X : exists s1, pool_step (pool_init false 200 16 4 (fun _ => None) (fun _ _ => 0) 4096 80 (fun _ => 0)) (Acquire (2 ^ 64 - 16) false 0) = Done s1 (APtr 4112) /\
              bk_live (pl_bk s1) = [(4032, 144)]).
  { eexists. split; reflexivity. }
  destruct X as (s1 & E1 & E4). rewrite E1 in E. injection E as <- <-. cbn [updated] in T. destruct T as [T _].
  apply Forall_inv in T. destruct T as [_ T]. cbn [fst snd] in T. rewrite bytes_at_size in T by lia. unfold pool_owns in T. rewrite E4 in T.
  destruct T as (a & k & [T|[]] & T1 & T2). injection T as <- <-. lia.
Qed.
Print Assumptions C67_huge_refuted.
