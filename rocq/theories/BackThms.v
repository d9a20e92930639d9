(** Properties of the arena with a backing allocator (BackedArenaAllocator). *)
From Coq Require Import ZArith Bool List Lia ZifyBool.
From Verif Require Import BackModel BackSpec BackProofs.
Import ListNotations.
Local Open Scope Z_scope.

Lemma apart_nth l : ForallOrdPairs apart l -> forall i j b c, i <> j -> nth_error l i = Some b -> nth_error l j = Some c -> apart b c.
Proof.
  intros F. induction F as [|x l H F IH]; intros i j b c N A B; [destruct i; discriminate A|]. rewrite Forall_forall in H. destruct i as [|i], j as [|j]; cbn [nth_error] in A, B.
  - congruence.
  - injection A as <-. apply H. apply nth_error_In in B. exact B.
  - injection B as <-. apply nth_error_In in A. specialize (H b A). unfold apart in *. lia.
  - apply (IH i j); auto.
Qed.
(** C161: the blocks a backed arena has given out and not taken back lie, with the word in front, inside the memory the arena has, apart
    from each other, through every history of requests, releases, resizes, marks and resets.  Missing: alignments above 16 that do not
    divide the size, which are refuted below. *)
Theorem C161_disjoint_partial : forall safe provide b0 cap m a, provides provide -> 16 <= cap -> reach safe provide b0 cap m a ->
  (forall i j b c x, i <> j -> nth_error (live a) i = Some b -> nth_error (live a) j = Some c -> in_block b x -> ~ in_block c x) /\
  (forall b x, In b (live a) -> in_block b x -> exists r, In r (owned a) /\ in_memory r x) /\
  (forall b, In b (live a) -> 0 < size b /\ ptr b mod 16 = 0).
Proof.
  intros safe provide b0 cap m a PV C R. pose proof (reach_inv _ _ _ _ _ _ PV C R) as [CAP I1 IM I2 I3 IL I4 I5 I6 I7]. split; [|split].
  - intros i j b c x N A B X Y. pose proof (apart_nth (live a) I3 i j b c N A B) as D. unfold apart, in_block in *. lia.
  - intros b x B X. destruct (I2 b B) as (A1 & A2 & A3). unfold in_block in X. destruct (paged b).
    + destruct A3 as (g & B1 & B2 & B3). assert (Q : In g (pages a ++ lost a)) by (rewrite in_app_iff; destruct B3 as [B3|(B3 & _)]; auto). destruct (I4 g Q) as (_ & _ & J1 & J2 & _).
      exists (extent g). split; [right; apply in_map, Q|]. unfold in_memory, extent; cbn [fst snd]. lia.
    + destruct A3 as (A3 & _ & A4 & _). exists (base a, capacity a). split; [left; reflexivity|]. unfold in_memory; cbn [fst snd]. lia.
  - intros b B. destruct (I2 b B) as (A1 & A2 & _). auto.
Qed.
Print Assumptions C161_disjoint_partial.
(** A backing allocator that hands out memory above all that is in use, at multiples of 4096. *)
Definition later_end (t : Z) (r : Z * Z) : Z := Z.max t (fst r + snd r).
Definition above : provider := fun n al before => if al <=? 4096 then Some ((fold_left later_end before 0 + 4095) / 4096 * 4096) else None.
Lemma above_le l : forall t, t <= fold_left later_end l t /\ forall r, In r l -> fst r + snd r <= fold_left later_end l t.
Proof. induction l as [|r l IH]; intros t; cbn [fold_left]; [split; [lia|intros r []]|]. destruct (IH (later_end t r)) as (A & B). unfold later_end in A at 1. split; [lia|]. intros q [<-|Q]; [lia|apply B, Q]. Qed.
(** Only alignments that divide 4096 are asked for here. *)
Definition pow_above : provider := fun n al before => if 4096 mod al =? 0 then above n al before else None.
Lemma above_provides : provides pow_above.
Proof.
  intros n al before s. unfold pow_above, above. destruct (Z.eqb_spec (4096 mod al) 0) as [D|]; [|discriminate]. destruct (al <=? 4096); [|discriminate]. intros [= <-]. destruct (above_le before 0) as (A & B). set (t := fold_left later_end before 0) in *. clearbody t. split.
  - destruct (Z.eq_dec al 0) as [->|N]; [cbn in D; lia|]. apply Z.mod_divide in D; [|exact N]. apply Z.mod_divide; [exact N|]. apply Z.divide_mul_r. exact D.
  - intros r x R X Y. specialize (B r R). unfold in_memory in *. cbn [fst snd] in *. pose proof (Z.div_mod (t + 4095) 4096 ltac:(lia)). pose proof (Z.mod_pos_bound (t + 4095) 4096 ltac:(lia)). lia.
Qed.
(** An arena of 64 bytes behind its header at 4096. *)
Definition small : arena := arena_init 4136 64 (fun _ => 0).
Definition after (safe : bool) (ops : list op) : arena := fold_left (fun a o => snd (step safe pow_above o a)) ops small.
Ltac sanity := repeat (apply Forall_cons; [first [exact I | split; [reflexivity|first [left; reflexivity|right; exists 5; split; [lia|reflexivity]]]]|]); apply Forall_nil.
(** A block of 24 bytes aligned to 32 that does not fit into the arena lies outside the memory obtained for it. *)
Theorem C161_aligned_refuted : provides pow_above /\ let l := [Acquire 40 0; Acquire 24 32] in Forall sane l /\
  live (after false l) = [Block 8256 24 0 true; Block 4144 40 0 false] /\ owned (after false l) = [(4136, 64); (8192, 64)] /\
  forall x, 8256 <= x < 8280 -> forall r, In r (owned (after false l)) -> ~ in_memory r x.
Proof.
  split; [exact above_provides|]. cbn zeta. split; [sanity|]. split; [vm_compute; reflexivity|].
  assert (E : owned (after false [Acquire 40 0; Acquire 24 32]) = [(4136, 64); (8192, 64)]) by (vm_compute; reflexivity). split; [exact E|]. rewrite E. intros x X r [<-|[<-|[]]] Y; unfold in_memory in Y; cbn [fst snd] in Y; lia.
Qed.
Print Assumptions C161_aligned_refuted.
Ltac walk := unfold after; cbn [fold_left]; repeat (eapply R1; [ | | | apply surjective_pairing | | ]; [|
   first [exact I | split; [reflexivity|first [left; reflexivity|right; exists 5; split; [discriminate|reflexivity]|right; exists 6; split; [discriminate|reflexivity]]]] |
   first [exact I | left; lia | right; reflexivity] | vm_compute; discriminate | vm_compute; discriminate]); apply R0.
Example C161_case : let l := [Acquire 10 0; Mark; Acquire 20 0; Acquire 64 64; Release 4176; Acquire 100 0; Resize 8256 128 32; Reset; Acquire 4 0; Resize 4144 200 0] in
  reach true pow_above 4136 64 (fun _ => 0) (after true l) /\ live (after true l) = [Block 8240 200 0 true; Block 4176 4 0 false] /\ owned (after true l) = [(4136, 64); (8192, 248)].
Proof. cbn zeta. split; [|split; vm_compute; reflexivity]. walk. Qed.

(** C162: requests give a block of the size and alignment asked for and change no contents; a resize keeps the contents; a release, a mark
    and a reset leave the other blocks as they are.  Missing: shrinking, and the overwriting of memory at a reset in safe mode. *)
Theorem C162_acquire_partial : forall safe provide b0 cap m a n al, provides provide -> 16 <= cap -> reach safe provide b0 cap m a -> 0 < n -> al = 0 \/ power_of_two al -> al <= 16 \/ n mod al = 0 ->
  match step safe provide (Acquire n al) a with
  | (Ptr q, a') => q mod (Z.max 16 al) = 0 /\ bytes a' = bytes a /\ exists b, ptr b = q /\ size b = n /\ live a' = b :: live a
  | (Refused, a') => a' = a /\ exists s, n <= s /\ provide s (Z.max 16 al) (owned a) = None
  | _ => False
  end.
Proof.
  intros safe provide b0 cap m a n al PV C R N AL CA. pose proof (reach_inv _ _ _ _ _ _ PV C R) as I. cbn [step]. pose proof (acquire_ok provide n al a PV I N AL CA) as M.
  assert (E : alignment_for al = Z.max 16 al) by (unfold alignment_for; destruct (Z.ltb_spec al 16); lia). rewrite E in M.
  destruct (acquire provide n al a) as [[q| | | |] a']; cbn [made] in M; try contradiction; [|exact M]. destruct M as (_ & (f & M2) & M3 & M4 & _). split; [exact M4|]. split; [exact M3|]. eexists. split; [|split; [|exact M2]]; reflexivity.
Qed.
Print Assumptions C162_acquire_partial.
(** A resize that does not shrink: nothing is written outside the new block, which has the old contents. *)
Theorem C162_resize_partial : forall safe provide b0 cap m a b n al, provides provide -> 16 <= cap -> reach safe provide b0 cap m a -> In b (live a) -> size b <= n -> al = 0 \/ power_of_two al -> al <= 16 \/ n mod al = 0 ->
  match step safe provide (Resize (ptr b) n al) a with
  | (Ptr q, a') => q mod (Z.max 16 al) = 0 /\ (exists c, In c (live a') /\ ptr c = q /\ size c = n) /\
      (forall i, 0 <= i < size b -> bytes a' (q + i) = bytes a (ptr b + i)) /\ (forall x, ~ in_memory (q, n) x -> bytes a' x = bytes a x) /\
      (forall c, In c (live a) -> ptr c <> ptr b -> In c (live a') /\ forall x, in_block c x -> bytes a' x = bytes a x)
  | (Refused, a') => live a' = live a /\ bytes a' = bytes a
  | (Crash, _) => exists g, In g (lost a) /\ data g = ptr b
  | _ => False
  end.
Proof.
  intros safe provide b0 cap m a b n al PV C R B SZ AL CA. pose proof (reach_inv _ _ _ _ _ _ PV C R) as I. cbn [step].
  assert (E : alignment_for al = Z.max 16 al) by (unfold alignment_for; destruct (Z.ltb_spec al 16); lia). pose proof I as [CAP I1 IM I2 I3 IL I4 I5 I6 I7]. destruct (I2 b B) as (S0 & _ & BB).
  destruct (resize provide (ptr b) n al a) as [r a'] eqn:RE.
  assert (NM : r <> Misuse). { intros ->. unfold resize in RE. pose proof (lookup_ok (live a) (ptr b)) as L. destruct (lookup (live a) (ptr b)) as [[c l]|]; [|exact (L b B eq_refl)].
    destruct (paged c).
    - destruct (unlink (pages a) (ptr b)) as [[g gs]|]; [|discriminate]. unfold acquire in RE. destruct (_ <=? _); [discriminate|]. destruct (provide _ _ _); discriminate.
    - unfold acquire in RE. destruct (_ <=? _); [discriminate|]. destruct (provide _ _ _); discriminate. }
  destruct (match r with Crash => true | _ => false end) eqn:CR.
  - destruct r; try discriminate. unfold resize in RE. pose proof (lookup_ok (live a) (ptr b)) as L. destruct (lookup (live a) (ptr b)) as [[c l]|]; [|exfalso; exact (L b B eq_refl)]. destruct L as (L1 & L2 & L3 & L4 & L5).
    destruct (L4 b B) as [<-|X].
    + destruct (paged b).
      * pose proof (unlink_ok (pages a) (ptr b)) as U. destruct (unlink (pages a) (ptr b)) as [[g gs]|]; [unfold acquire in RE; destruct (_ <=? _); [discriminate|]; destruct (provide _ _ _); discriminate|].
        destruct BB as (g & B1 & B2 & [B3|(B3 & _)]); [exists g; auto|]. exfalso. exact (U g B3 B1).
      * unfold acquire in RE. destruct (_ <=? _); [discriminate|]. destruct (provide _ _ _); discriminate.
    + exfalso. destruct (L5 I3) as (_ & L7). rewrite Forall_forall in L7. specialize (L7 b X). destruct (I2 c L1) as (S1 & _). unfold apart in L7. lia.
  - assert (NPOS : 0 < n) by lia. assert (NC : r <> Crash) by (intros ->; discriminate). destruct (resize_ok provide (ptr b) n al a r a' PV I (conj NPOS AL) CA RE NM NC) as (_ & [(-> & X & Y)|(q & c & f & -> & Q1 & Q2 & Q3 & Q4 & Q5 & Q6 & Q7 & Q8)]); [auto|].
    assert (c = b). { destruct (In_nth_error _ _ Q1) as (i & Ei). destruct (In_nth_error _ _ B) as (j & Ej). destruct (Nat.eq_dec i j) as [->|D]; [congruence|]. pose proof (apart_nth _ I3 i j c b D Ei Ej) as X. destruct (I2 c Q1) as (S1 & _). unfold apart in X. lia. } subst c.
    rewrite E in Q3. split; [exact Q3|]. split; [eexists; split; [exact Q4|split; reflexivity]|]. rewrite Q6. unfold copy. split; [|split].
    + intros i Hi. replace ((q <=? q + i) && (q + i <? q + size b)) with true by lia. f_equal. lia.
    + intros x X. unfold in_memory in X; cbn [fst snd] in X. replace ((q <=? x) && (x <? q + size b)) with false by lia. reflexivity.
    + intros c Hc NP. split; [exact (Q7 c Hc NP)|]. intros x X. specialize (Q8 c Hc). unfold apart, in_block in *; cbn [ptr size] in *. replace ((q <=? x) && (x <? q + size b)) with false by lia. reflexivity.
Qed.
Print Assumptions C162_resize_partial.
(** Releases, marks and resets in fast mode: contents stay, and so does every block but the released one or those made since the mark. *)
Theorem C162_others_partial : forall provide b0 cap m a, provides provide -> 16 <= cap -> reach false provide b0 cap m a ->
  (forall b, In b (live a) -> fst (step false provide (Release (ptr b)) a) = Done /\ bytes (snd (step false provide (Release (ptr b)) a)) = bytes a /\
     forall c, In c (live a) -> ptr c <> ptr b -> In c (live (snd (step false provide (Release (ptr b)) a)))) /\
  (marks a <> [] -> fst (step false provide Reset a) = Done /\ bytes (snd (step false provide Reset a)) = bytes a /\
     forall c, In c (live (snd (step false provide Reset a))) <-> In c (live a) /\ (depth c < length (marks a))%nat).
Proof.
  intros provide b0 cap m a PV C R. pose proof (reach_inv _ _ _ _ _ _ PV C R) as I. split.
  - intros b B. destruct (step false provide (Release (ptr b)) a) as [r a'] eqn:E. cbn [step] in E. cbn [fst snd]. assert (NM : r <> Misuse). { intros ->. unfold release in E. pose proof (lookup_ok (live a) (ptr b)) as L. destruct (lookup (live a) (ptr b)) as [[c l]|]; [discriminate|exact (L b B eq_refl)]. }
    destruct (release_ok (ptr b) a r a' I E NM) as (A1 & _ & A2 & _ & _ & A3). auto.
  - intros M. destruct (step false provide Reset a) as [r a'] eqn:E. cbn [fst snd]. assert (N : r <> Misuse /\ r <> Crash). { cbn [step] in E. destruct (marks a) as [|mk ms]; [congruence|]. unfold reset in E. destruct (free_pages (pages a) mk (used a)) as [gs u]. cbn [andb] in E. injection E as <- <-. split; discriminate. }
    destruct (reset_ok false provide a r a' I E (proj1 N) (proj2 N)) as (A1 & _ & _ & A2 & A3). auto.
Qed.
Print Assumptions C162_others_partial.
(** Shrinking copies the old size: the byte 4216, outside of everything the arena has, is written. *)
Theorem C162_shrink_refuted : provides pow_above /\ let l := [Acquire 100 0; Store 8296 7] in Forall sane l /\ live (after false l) = [Block 8240 100 0 true] /\
  (forall r, In r (owned (after false (l ++ [Resize 8240 8 0]))) -> ~ in_memory r 4216) /\ bytes (after false l) 4216 = 0 /\ bytes (after false (l ++ [Resize 8240 8 0])) 4216 = 7.
Proof.
  split; [exact above_provides|]. cbn zeta. split; [sanity|]. split; [vm_compute; reflexivity|]. split; [|split; vm_compute; reflexivity].
  assert (E : owned (after false [Acquire 100 0; Store 8296 7; Resize 8240 8 0]) = [(4136, 64)]) by (vm_compute; reflexivity). cbn [app]. rewrite E. intros r [<-|[]]. unfold in_memory; cbn [fst snd]. lia.
Qed.
Print Assumptions C162_shrink_refuted.
(** In safe mode a reset of a full arena that has had a page writes the byte behind the arena. *)
Theorem C162_reset_overrun_refuted : provides pow_above /\ let l := [Mark; Acquire 56 0; Acquire 1 0] in Forall sane l /\
  (forall r, In r (owned (after true (l ++ [Reset]))) -> ~ in_memory r 4200) /\ bytes (after true l) 4200 = 0 /\ bytes (after true (l ++ [Reset])) 4200 = 170.
Proof.
  split; [exact above_provides|]. cbn zeta. split; [sanity|]. split; [|split; vm_compute; reflexivity].
  assert (E : owned (after true [Mark; Acquire 56 0; Acquire 1 0; Reset]) = [(4136, 64)]) by (vm_compute; reflexivity). cbn [app]. rewrite E. intros r [<-|[]]. unfold in_memory; cbn [fst snd]. lia.
Qed.
Print Assumptions C162_reset_overrun_refuted.
(** In safe mode a reset after the release of the last block made before the mark overwrites all memory behind the mark. *)
Theorem C162_reset_release_refuted : provides pow_above /\ let l := [Acquire 10 0; Mark; Release 4144] in Forall sane l /\ reach true pow_above 4136 64 (fun _ => 0) (after true l) /\
  fst (step true pow_above Reset (after true l)) = Crash.
Proof. split; [exact above_provides|]. cbn zeta. split; [sanity|]. split; [walk|vm_compute; reflexivity]. Qed.
Print Assumptions C162_reset_release_refuted.
Example C162_case : let a := after false [Acquire 10 0; Store 4144 7; Mark; Acquire 64 64] in
  reach false pow_above 4136 64 (fun _ => 0) a /\ live a = [Block 8256 64 1 true; Block 4144 10 0 false] /\ fst (step false pow_above (Resize 8256 80 0) a) = Ptr 12336 /\
  live (snd (step false pow_above Reset a)) = [Block 4144 10 0 false] /\ fst (step false pow_above (Resize 4144 20 0) a) = Ptr 4176 /\ bytes (snd (step false pow_above (Resize 4144 20 0) a)) 4176 = 7.
Proof. cbn zeta. split; [walk|]. repeat split; vm_compute; reflexivity. Qed.

(** C163: destroying a backed arena gives every page back, if the backing allocator never refused a request. *)
Theorem C163_destroy_partial : forall safe provide b0 cap m a, provides provide -> 16 <= cap -> served safe provide b0 cap m a -> destroy safe a = Some [].
Proof.
  intros safe provide b0 cap m a PV C R. destruct (served_lost _ _ _ _ _ _ PV C R) as (R' & L). pose proof (reach_inv _ _ _ _ _ _ PV C R') as [CAP I1 IM I2 I3 IL I4 I5 I6 I7].
  unfold destroy, reset. pose proof (free_pages_ok (pages a) 0 I6 (used a)) as F. destruct (free_pages (pages a) 0 (used a)) as [gs u]. destruct F as (F1 & F2 & F3 & F4).
  assert (gs = []). { destruct gs as [|g gs]; [reflexivity|]. destruct (F1 g (or_introl eq_refl)) as (X & Y). destruct (I4 g) as (P & _); [apply in_app_iff; left; exact X|]. lia. } subst gs. rewrite L.
  destruct safe; cbn [andb]; [|reflexivity]. destruct (Z.ltb_spec u 0); [|reflexivity]. destruct (F4 eq_refl) as [(_ & ->)|X]; lia.
Qed.
Print Assumptions C163_destroy_partial.
(** A backing allocator that has one page only. *)
Definition single : provider := fun n al before => match before with [_] => pow_above n al before | _ => None end.
Lemma single_provides : provides single.
Proof. intros n al before s. unfold single. destruct before as [|x [|]]; try discriminate. apply above_provides. Qed.
(** A resize of a page that is refused makes the arena forget the page: it is never given back. *)
Theorem C163_refused_refuted : provides single /\ let a := fold_left (fun a o => snd (step false single o a)) [Acquire 100 0; Resize 8240 200 0] small in
  reach false single 4136 64 (fun _ => 0) a /\ live a = [Block 8240 100 0 true] /\ destroy false a = Some [(8192, 148)].
Proof. split; [exact single_provides|]. cbn zeta. split; [walk|split; vm_compute; reflexivity]. Qed.
Print Assumptions C163_refused_refuted.
Example C163_case : served true pow_above 4136 64 (fun _ => 0) (after true [Acquire 100 0; Mark; Acquire 100 0; Resize 8240 300 0]) /\ length (pages (after true [Acquire 100 0; Mark; Acquire 100 0; Resize 8240 300 0])) = 2%nat.
Proof.
  split; [|vm_compute; reflexivity]. unfold after; cbn [fold_left]; repeat (eapply S1; [ | | | apply surjective_pairing | | | ]; [|
   first [exact I | split; [reflexivity|left; reflexivity]] | first [exact I | left; lia] | vm_compute; discriminate | vm_compute; discriminate | vm_compute; discriminate]); apply S0.
Qed.
