(** C65: the arena allocator over a fixed buffer. *)
From Coq Require Import ZArith Bool List Lia ZifyBool.
From Verif Require Import AlcSpec AlcMem AlcAModel AlcASpec AlcProofs AlcAProofs AlcCheck.
Import ListNotations.
Open Scope Z_scope.

(** Every history of requests is served honestly: blocks are aligned as requested, inside the buffer, disjoint, zeroed on request, keep
    their bytes when resized, and no byte of a block held is ever changed; a reset keeps what lies below the mark. Missing from the full
    statement: in safe mode, releasing or resizing while the buffer is exactly full; shrinking a block that is not on top when little
    room is left. Both are false, see the refutations. *)
Theorem C65_arena_partial : forall safe base len m ops,
  0 <= base -> 0 <= len -> base + len <= 2 ^ 62 ->
  honest arena_step ar_mem arena_owns arena_below arena_allow [] (arena_init safe base len m) ops.
Proof.
  intros safe base len m ops B L T. apply arena_honest.
  constructor; cbn [arena_init ar_base ar_len ar_used ar_mem]; try lia; [intros p d []|exact I].
Qed.
Print Assumptions C65_arena_partial.
Definition allowb_ex (s : arena) (l : ledger) (o : op) : bool :=
  match o with
  | Reset k => k <=? ar_used s
  | Release _ _ => ar_used s <? ar_len s
  | Resize p n al => (ar_used s <? ar_len s) && forallb (fun b => negb (fst b =? p) || (size_of (snd b) <=? n)) l
  | _ => true
  end.
(** A history with every kind of request: the blocks held at the end, and their bytes. *)
Example C65_arena_ex :
  let ops := [Acquire 10 true 0; Acquire 3 false 64; Store 4112 2 7; Mark; Resize 4112 14 0; Acquire 1 true 0; Release 4208 false;
              Store 4176 13 9; Reset 94] in
  match replay arena_step ar_mem arena_below allowb_ex [] (arena_init true 4096 512 (fun _ => 170)) ops with
  | Some (l, s) => l = [(4176, [0; 0; 7; 0; 0; 0; 0; 0; 0; 0; 170; 170; 170; 9]); (4160, [170; 170; 170])] /\ ar_used s = 94
  | None => False
  end.
Proof. vm_compute. split; reflexivity. Qed.

(** Shrinking a block that is not on top copies its old size into the smaller new block, and so past the end of the buffer. *)
Theorem C65_shrink_refuted :
  ~ honest arena_step ar_mem arena_owns arena_below arena_all [] (arena_init false 4096 112 (fun _ => 0))
      [Acquire 40 false 0; Acquire 8 false 0; Resize 4112 24 0].
Proof.
  apply (dishonest_sound _ _ _ (fun s l o => match o with Reset k => k <=? ar_used s | _ => true end)).
  - intros s l [] H; cbn [arena_all]; try exact I. lia.
  - vm_compute. reflexivity.
Qed.
Print Assumptions C65_shrink_refuted.
(** In safe mode, releasing a block stops the program when the buffer is exactly full. *)
Theorem C65_full_refuted :
  ~ honest arena_step ar_mem arena_owns arena_below arena_all [] (arena_init true 4096 32 (fun _ => 0))
      [Acquire 16 false 0; Release 4112 false].
Proof.
  apply (dishonest_sound _ _ _ (fun s l o => match o with Reset k => k <=? ar_used s | _ => true end)).
  - intros s l [] H; cbn [arena_all]; try exact I. lia.
  - vm_compute. reflexivity.
Qed.
Print Assumptions C65_full_refuted.
