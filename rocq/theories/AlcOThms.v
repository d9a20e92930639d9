(** C66: the allocator over a stack buffer that falls back to another allocator. *)
From Coq Require Import ZArith Bool List Lia ZifyBool.
From Verif Require Import Word AlcSpec AlcMem AlcBack AlcOModel AlcOSpec AlcProofs AlcBProofs AlcOProofs AlcCheck.
Import ListNotations.
Open Scope Z_scope.

(** With any correct backing allocator, every history is served honestly, also when blocks overflow to the backing allocator and when
    that runs out of memory. Missing from the full statement: zeroed blocks that fit the buffer, shrinking a block of the buffer when
    little room is left, sizes above 2^62. These are false, see the refutations. *)
Theorem C66_onstack_partial : forall answer noise base len m ops,
  0 < base -> 0 < len -> base + len <= 2 ^ 62 ->
  honest onstack_step os_mem onstack_owns drops_all onstack_allow [] (onstack_init answer noise base len m) ops.
Proof.
  intros answer noise base len m ops B L T. apply onstack_honest.
  constructor; cbn [onstack_init os_base os_len os_used os_mem os_bk os_chunks]; [lia| |intros p d []|exact I].
  constructor; cbn [bk_live].
  - split; [constructor; [cbn [fst snd]; lia|constructor]|]. cbn [rapart]. split; [constructor|exact I].
  - left. reflexivity.
  - constructor; [intros []|constructor].
  - intros c [].
  - intros c [].
Qed.
Print Assumptions C66_onstack_partial.
Definition oallowb_ex (s : onstack) (l : ledger) (o : op) : bool :=
  match o with
  | Acquire n z _ => (n <=? 2 ^ 62) && (negb z || (os_len s <? n))
  | Resize p n al => (n <=? 2 ^ 62) && forallb (fun b => negb (fst b =? p) || (size_of (snd b) <=? n) || (p <? os_base s) || (os_base s + os_len s <=? p)) l
  | Mark => false
  | _ => true
  end.
(** A history that overflows to the backing allocator, grows a block there, and releases. *)
Example C66_onstack_ex :
  let answer := fun n => nth n [Some 8192; Some 9216; Some 5120; Some 10240; Some 11264] None in
  let ops := [Acquire 10 false 0; Store 4112 9 5; Acquire 100 true 64; Resize 9216 104 64; Store 5120 103 1; Resize 4112 12 32; Release 4160 false;
              Acquire 100 false 0] in
  match replay onstack_step os_mem drops_all oallowb_ex [] (onstack_init answer (fun _ _ => 170) 4096 96 (fun _ => 0)) ops with
  | Some (l, s) => map fst l = [11264; 5120] /\ map (fun b => last (snd b) 7) l = [170; 1] /\ os_used s = 76 /\ map ck_data (os_chunks s) = [11264; 5120]
  | None => False
  end.
Proof. vm_compute. repeat split; reflexivity. Qed.

(** Zeroed memory taken from the buffer is not zeroed. *)
Theorem C66_zero_refuted :
  ~ honest onstack_step os_mem onstack_owns drops_all onstack_all [] (onstack_init (fun _ => None) (fun _ _ => 0) 4096 64 (fun _ => 170)) [Acquire 8 true 0].
Proof.
  apply (dishonest_sound _ _ _ (fun s l o => match o with Mark => false | _ => true end)).
  - intros s l [] H; cbn [onstack_all]; try exact I. discriminate.
  - vm_compute. reflexivity.
Qed.
Print Assumptions C66_zero_refuted.
(** Shrinking a block of the buffer copies its old size into the smaller new block, and so past the end of the buffer. *)
Theorem C66_shrink_refuted :
  ~ honest onstack_step os_mem onstack_owns drops_all onstack_all [] (onstack_init (fun _ => None) (fun _ _ => 0) 4096 80 (fun _ => 0))
      [Acquire 40 false 0; Resize 4112 8 0].
Proof.
  apply (dishonest_sound _ _ _ (fun s l o => match o with Mark => false | _ => true end)).
  - intros s l [] H; cbn [onstack_all]; try exact I. discriminate.
  - vm_compute. reflexivity.
Qed.
Print Assumptions C66_shrink_refuted.
(** A request for almost 2^64 bytes succeeds: the computed end wraps around. *)
Theorem C66_huge_refuted :
  ~ honest onstack_step os_mem onstack_owns drops_all onstack_all [] (onstack_init (fun _ => None) (fun _ _ => 0) 4096 80 (fun _ => 0))
      [Acquire (2 ^ 64 - 16) false 0].
Proof.
  intros H. cbn [honest] in H. destruct H as (s' & a & E & F & T & _); [split; [lia|left; reflexivity]|exact I|].
  assert (X : exists s1, onstack_step (onstack_init (fun _ => None) (fun _ _ => 0) 4096 80 (fun _ => 0)) (Acquire (2 ^ 64 - 16) false 0) = Done s1 (APtr 4112) /\
              os_base s1 = 4096 /\ os_len s1 = 80 /\ bk_live (os_bk s1) = [(4096, 80)]).
  { eexists. split; [reflexivity|]. split; [reflexivity|]. split; reflexivity. }
  destruct X as (s1 & E1 & E2 & E3 & E4). rewrite E1 in E. injection E as <- <-. cbn [updated] in T. destruct T as [T _].
  apply Forall_inv in T. destruct T as [_ T]. cbn [fst snd] in T. rewrite bytes_at_size in T by lia. unfold onstack_owns in T. rewrite E2, E3, E4 in T.
  destruct T as [T|[T|[]]]; [lia|]. injection T as T1 T2. lia.
Qed.
Print Assumptions C66_huge_refuted.
