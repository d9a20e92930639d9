(** Proofs about the bump allocator. *)
From Coq Require Import ZArith Bool List Lia ZifyBool.
From Verif Require Import Word ArenaModel ArenaSpec.
Import ListNotations.
Open Scope Z_scope.

Lemma round16_up n : 0 <= n <= 2 ^ 63 -> round16 n = up16 n.
Proof.
  intros H. unfold round16, up16, wadd, w64, W. rewrite Z.mod_small by lia.
  assert (E : forall x, 0 <= x < 2 ^ 64 -> Z.land x (wnot 15) = 16 * (x / 16)).
  { intros x Hx. replace (16 * (x / 16)) with (Z.shiftl (Z.shiftr x 4) 4) by (rewrite Z.shiftl_mul_pow2, Z.shiftr_div_pow2 by lia; change (2 ^ 4) with 16; lia).
    apply Z.bits_inj'. intros i Hi. rewrite Z.land_spec. destruct (Z.lt_ge_cases i 4) as [L|L].
    - rewrite Z.shiftl_spec_low by lia. assert (C : i = 0 \/ i = 1 \/ i = 2 \/ i = 3) by lia.
      destruct C as [->|[->|[->| ->]]]; apply andb_false_r.
    - rewrite Z.shiftl_spec_high, Z.shiftr_spec by lia. replace (i - 4 + 4) with i by lia.
      destruct (Z.lt_ge_cases i 64) as [M|M].
      + assert (T : Z.testbit (wnot 15) i = true); [|rewrite T; apply andb_true_r].
        change (wnot 15) with (Z.shiftl (Z.ones 60) 4). rewrite Z.shiftl_spec_high by lia. apply Z.ones_spec_low. lia.
      + assert (T : Z.testbit x i = false); [|rewrite T; reflexivity].
        destruct (Z.eq_dec x 0) as [->|]; [apply Z.testbit_0_l|]. apply Z.bits_above_log2; [lia|]. apply Z.log2_lt_pow2; [lia|].
        apply Z.lt_le_trans with (2 ^ 64); [lia|]. apply Z.pow_le_mono_r; lia. }
  apply E. lia.
Qed.
Lemma up16_bounds n : 0 <= n -> n <= up16 n <= n + 15 /\ up16 n mod 16 = 0.
Proof.
  intros H. unfold up16. pose proof (Z.div_mod (n + 15) 16 ltac:(lia)). pose proof (Z.mod_pos_bound (n + 15) 16 ltac:(lia)).
  split; [lia|]. rewrite Z.mul_comm. apply Z.mod_mul. lia.
Qed.

(** An allocator that hands out consecutive blocks of [r n] bytes. *)
Section Bump.
Variables (r : Z -> Z) (al : Z).
Variable alloc : vmem -> Z -> ares (vmem * Z).
Hypothesis al_pos : 0 < al.
Hypothesis r_ok : forall n, 0 < n <= 2 ^ 63 -> n <= r n <= n + 15 /\ r n mod al = 0.
Hypothesis alloc_ok : forall v n, 0 < n <= 2 ^ 63 -> alloc v n = vmem_alloc v (r n).

Definition reqs_ok (ops : list aop) : Prop := Forall (fun op => match op with Alloc n => 0 < n <= 2 ^ 63 | _ => True end) ops.

Record ainv (lo : Z) (s : astate) : Prop := AINV {
  i_lo : v_ptr (a_vm s) <= lo;
  i_top : lo <= v_ptr (a_vm s) + v_alloc (a_vm s);
  i_size : 0 <= v_alloc (a_vm s) <= v_size (a_vm s) /\ v_size (a_vm s) <= 2 ^ 62;
  i_al : (v_ptr (a_vm s) + v_alloc (a_vm s)) mod al = 0;
  i_pos : Forall (fun b => 0 < snd b) (a_blocks s);
  i_in : Forall (within lo (v_ptr (a_vm s) + v_alloc (a_vm s))) (a_blocks s);
  i_aligned : Forall (aligned al) (a_blocks s);
  i_dis : pairwise_disjoint (a_blocks s);
  i_mem : forall a, v_ptr (a_vm s) + v_alloc (a_vm s) <= a -> peek (a_mem s) a = 0 }.

Lemma vmem_alloc_eq v n : 0 <= n <= 2 ^ 63 + 15 -> 0 <= v_alloc v <= 2 ^ 62 ->
  vmem_alloc v n = if v_size v <? n + v_alloc v then Exhausted else AOk (Vm (v_ptr v) (n + v_alloc v) (v_size v), v_ptr v + v_alloc v).
Proof. intros N V. unfold vmem_alloc, wadd, w64, W. rewrite Z.mod_small by lia. reflexivity. Qed.

Lemma disjoint_snoc l b : pairwise_disjoint l -> Forall (fun c => disjoint c b) l -> pairwise_disjoint (l ++ [b]).
Proof.
  intros D F i j x y N X Y. rewrite Forall_forall in F.
  assert (C : forall k z, nth_error (l ++ [b]) k = Some z -> (nth_error l k = Some z) \/ (k = length l /\ z = b)).
  { intros k z H. destruct (Nat.lt_ge_cases k (length l)) as [L|L]; [left; rewrite nth_error_app1 in H by exact L; exact H|].
    rewrite nth_error_app2 in H by exact L. right. destruct (k - length l)%nat eqn:E; cbn in H; [split; [lia|congruence]|]. destruct n; discriminate. }
  apply C in X, Y. destruct X as [X|[X ->]], Y as [Y|[Y ->]].
  - eapply D; eassumption.
  - apply F. eapply nth_error_In, X.
  - destruct (F y (nth_error_In _ _ Y)); [right|left]; assumption.
  - lia.
Qed.

Lemma alloc_step lo s n : ainv lo s -> 0 < n <= 2 ^ 63 ->
  let s1 := ASt (Vm (v_ptr (a_vm s)) (r n + v_alloc (a_vm s)) (v_size (a_vm s))) (a_blocks s ++ [(v_ptr (a_vm s) + v_alloc (a_vm s), n)]) (a_mem s) in
  astep alloc s (Alloc n) = Some (if v_size (a_vm s) <? r n + v_alloc (a_vm s) then Exhausted else AOk s1) /\
  (r n + v_alloc (a_vm s) <= v_size (a_vm s) -> ainv lo s1).
Proof.
  intros [I1 I2 I3 I4 I5 I6 I7 I8 I9] N s1. destruct (r_ok n N) as [R1 R2]. split.
  - cbn [astep]. rewrite alloc_ok, vmem_alloc_eq by lia. destruct (v_size (a_vm s) <? r n + v_alloc (a_vm s)); reflexivity.
  - intros L. constructor; cbn [s1 a_vm a_blocks a_mem v_ptr v_alloc v_size]; try assumption; try lia.
    + replace (v_ptr (a_vm s) + (r n + v_alloc (a_vm s))) with (r n + (v_ptr (a_vm s) + v_alloc (a_vm s))) by lia.
      rewrite Z.add_mod, I4, R2 by lia. apply Z.mod_0_l. lia.
    + apply Forall_app. split; [exact I5|]. constructor; [cbn; lia|constructor].
    + apply Forall_app. split.
      * eapply Forall_impl; [|exact I6]. intros b [B1 B2]. split; lia.
      * constructor; [split; cbn; lia|constructor].
    + apply Forall_app. split; [exact I7|]. constructor; [exact I4|constructor].
    + apply disjoint_snoc; [exact I8|]. eapply Forall_impl; [|exact I6]. intros b [B1 B2]. left. cbn. lia.
    + intros a A. apply I9. lia.
Qed.

Lemma poke_step lo s k off b : ainv lo s -> forall s', astep alloc s (Poke k off b) = Some (AOk s') -> ainv lo s' /\ a_vm s' = a_vm s.
Proof.
  intros I s' H. cbn [astep] in H. destruct (nth_error (a_blocks s) k) as [[p n]|] eqn:E; [|discriminate].
  destruct ((0 <=? off) && (off <? n)) eqn:B; [|discriminate]. injection H as <-. split; [|reflexivity].
  destruct I as [I1 I2 I3 I4 I5 I6 I7 I8 I9]. constructor; cbn [a_vm a_blocks a_mem]; try assumption.
  intros a A. cbn [peek]. rewrite Forall_forall in I6. apply nth_error_In in E. apply I6 in E. destruct E as [E1 E2]. cbn in E1, E2.
  replace (p + off =? a) with false by lia. apply I9, A.
Qed.

Lemma arun_inv lo : forall ops s s', ainv lo s -> reqs_ok ops -> arun alloc s ops = Some (AOk s') ->
  ainv lo s' /\ v_ptr (a_vm s') = v_ptr (a_vm s) /\ v_size (a_vm s') = v_size (a_vm s).
Proof.
  induction ops as [|op ops IH]; intros s s' I R H; cbn [arun] in H; [injection H as <-; auto|].
  inversion R as [|x y R1 R2]. subst. destruct op as [n|k off b].
  - destruct (alloc_step lo s n I R1) as [E K]. rewrite E in H. destruct (Z.ltb_spec (v_size (a_vm s)) (r n + v_alloc (a_vm s))); [discriminate|].
    apply IH in H; [|apply K; lia|exact R2]. cbn in H. exact H.
  - destruct (astep alloc s (Poke k off b)) as [[s1| |]|] eqn:E; try discriminate. destruct (poke_step lo s k off b I s1 E) as [I1 V1].
    apply IH in H; [|exact I1|exact R2]. rewrite V1 in H. exact H.
Qed.

Lemma arun_allocs lo : forall reqs s, ainv lo s -> Forall (fun n => 0 < n <= 2 ^ 63) reqs ->
  (v_alloc (a_vm s) + sum (map r reqs) <= v_size (a_vm s) ->
     exists s', arun alloc s (map Alloc reqs) = Some (AOk s') /\ map snd (a_blocks s') = map snd (a_blocks s) ++ reqs) /\
  (v_size (a_vm s) < v_alloc (a_vm s) + sum (map r reqs) -> arun alloc s (map Alloc reqs) = Some Exhausted).
Proof.
  induction reqs as [|n reqs IH]; intros s I F; cbn [map arun sum].
  - split; [intros _; exists s; rewrite app_nil_r; auto|]. destruct I as [_ _ I3 _ _ _ _ _ _]. lia.
  - inversion F as [|x y F1 F2]. subst. destruct (alloc_step lo s n I F1) as [E K]. rewrite E.
    assert (SP : 0 <= sum (map r reqs)).
    { clear - F2 r_ok. induction F2 as [|x l H F2 IH]; cbn; [lia|]. pose proof (r_ok x H). lia. }
    destruct (Z.ltb_spec (v_size (a_vm s)) (r n + v_alloc (a_vm s))) as [L|L].
    + split; [lia|reflexivity].
    + destruct (IH _ (K L) F2) as [G1 G2]. cbn [a_vm v_alloc v_size a_blocks] in *. split.
      * intros H. destruct G1 as (s' & A & B); [lia|]. exists s'. split; [exact A|]. rewrite B, map_app, <- app_assoc. reflexivity.
      * intros H. apply G2. lia.
Qed.
End Bump.

Lemma start_inv base size v0 : 0 <= base -> base mod 16 = 0 -> 0 <= size <= 2 ^ 62 ->
  arena_start (Vm base 0 size) = AOk v0 -> v0 = Vm base 16 size /\ ainv 16 (base + 16) (ASt v0 [] []).
Proof.
  intros B M S H. unfold arena_start in H. rewrite vmem_alloc_eq in H by (cbn; lia). cbn [v_size v_alloc v_ptr] in H.
  destruct (Z.ltb_spec size (16 + 0)); [discriminate|]. injection H as <-. split; [reflexivity|].
  constructor; cbn [a_vm a_blocks a_mem v_ptr v_alloc v_size]; try apply Forall_nil; try (intros; reflexivity); try lia.
  - rewrite Z.add_mod, M by lia. reflexivity.
  - intros i j b c N X. destruct i; discriminate.
Qed.
Lemma fresh_inv base size : 0 <= base -> 0 <= size <= 2 ^ 62 -> ainv 1 base (ASt (Vm base 0 size) [] []).
Proof.
  intros B S. constructor; cbn [a_vm a_blocks a_mem v_ptr v_alloc v_size]; try apply Forall_nil; try (intros; reflexivity); try lia.
  - apply Z.mod_1_r.
  - intros i j b c N X. destruct i; discriminate.
Qed.
Lemma arena_r n : 0 < n <= 2 ^ 63 -> n <= up16 n <= n + 15 /\ up16 n mod 16 = 0.
Proof. intros. apply up16_bounds. lia. Qed.
Lemma arena_alloc v n : 0 < n <= 2 ^ 63 -> calloc_arena v n = vmem_alloc v (up16 n).
Proof. intros H. unfold calloc_arena. replace (n =? 0) with false by lia. rewrite round16_up by lia. reflexivity. Qed.
Lemma string_r n : 0 < n <= 2 ^ 63 -> n <= n <= n + 15 /\ n mod 1 = 0.
Proof. intros. split; [lia|apply Z.mod_1_r]. Qed.
Lemma string_alloc v n : 0 < n <= 2 ^ 63 -> calloc_string v n = vmem_alloc v n.
Proof. intros H. unfold calloc_string. replace (n =? 0) with false by lia. reflexivity. Qed.

(** Strings *)
Lemma peek_write : forall bs m a x, 
  peek (write_bytes m a bs) x = if (a <=? x) && (x <? a + Z.of_nat (length bs)) then nth (Z.to_nat (x - a)) bs 0 else peek m x.
Proof.
  induction bs as [|b bs IH]; intros m a x; cbn [write_bytes length].
  - replace ((a <=? x) && (x <? a + Z.of_nat 0)) with false by lia. reflexivity.
  - rewrite IH. destruct (Z.eqb_spec a x) as [->|N].
    + replace ((x + 1 <=? x) && (x <? x + 1 + Z.of_nat (length bs))) with false by lia.
      replace ((x <=? x) && (x <? x + Z.of_nat (S (length bs)))) with true by lia. cbn [peek]. rewrite Z.eqb_refl, Z.sub_diag. reflexivity.
    + destruct (Z.lt_ge_cases x a) as [L|L].
      * replace ((a + 1 <=? x) && (x <? a + 1 + Z.of_nat (length bs))) with false by lia.
        replace ((a <=? x) && (x <? a + Z.of_nat (S (length bs)))) with false by lia. cbn [peek]. replace (a =? x) with false by lia. reflexivity.
      * replace ((a + 1 <=? x) && (x <? a + 1 + Z.of_nat (length bs))) with ((a <=? x) && (x <? a + Z.of_nat (S (length bs)))) by lia.
        destruct ((a <=? x) && (x <? a + Z.of_nat (S (length bs)))) eqn:E.
        -- replace (Z.to_nat (x - a)) with (S (Z.to_nat (x - (a + 1)))) by lia. reflexivity.
        -- cbn [peek]. replace (a =? x) with false by lia. reflexivity.
Qed.

(** Objects *)
Lemma obj_run_spec size : 0 < size <= 2 ^ 31 -> forall n v k, v_alloc v = k * size -> 0 <= k -> v_size v <= 2 ^ 32 -> v_alloc v <= v_size v ->
  match obj_run size v n with
  | AOk (v', ps) => ps = map (fun i => v_ptr v + (k + Z.of_nat i) * size) (seq 0 n) /\ v_ptr v' = v_ptr v /\ v_size v' = v_size v /\
      v_alloc v' = (k + Z.of_nat n) * size /\ v_alloc v' <= v_size v'
  | Exhausted => v_size v < (k + Z.of_nat n) * size
  | AAssert => False
  end.
Proof.
  intros S n. induction n as [|n IH]; intros v k A K Z1 Z2.
  - cbn [obj_run]. rewrite Z.add_0_r. cbn. auto.
  - cbn [obj_run]. unfold obj_calloc. rewrite vmem_alloc_eq by lia. destruct (Z.ltb_spec (v_size v) (size + v_alloc v)) as [L|L].
    + rewrite A in L. nia.
    + specialize (IH (Vm (v_ptr v) (size + v_alloc v) (v_size v)) (k + 1)). cbn [v_ptr v_alloc v_size] in IH.
      specialize (IH ltac:(rewrite A; lia) ltac:(lia) Z1 L).
      destruct (obj_run size (Vm (v_ptr v) (size + v_alloc v) (v_size v)) n) as [[v2 ps]| |].
      * destruct IH as (P & H1 & H2 & H3 & H4). split; [|split; [exact H1|split; [exact H2|split; [rewrite H3; f_equal; lia|exact H4]]]].
        cbn [seq map]. f_equal; [rewrite A; lia|]. rewrite P, <- seq_shift, map_map. apply map_ext. intros i. f_equal. f_equal. lia.
      * replace (k + Z.of_nat (Datatypes.S n)) with (k + 1 + Z.of_nat n) by lia. exact IH.
      * contradiction.
Qed.

(** Commits *)
Definition upp (n : Z) : Z := PAGE * ((n + (PAGE - 1)) / PAGE).
Lemma commit_spec a b : 0 <= a <= b -> b < 2 ^ 63 -> commit (upp a) b = upp b.
Proof.
  intros H B. unfold commit, upp, PAGE, wadd, wsub, wmul, w64, W. cbv zeta.
  rewrite (Z.mul_comm 65536 ((a + (65536 - 1)) / 65536)), Z.div_mul by lia.
  assert (D : (a + (65536 - 1)) / 65536 <= (b + (65536 - 1)) / 65536) by (apply Z.div_le_mono; lia).
  assert (E : 0 <= (a + (65536 - 1)) / 65536) by (apply Z.div_pos; lia).
  assert (F : (b + (65536 - 1)) / 65536 * 65536 <= b + (65536 - 1)) by (pose proof (Z.div_mod (b + (65536 - 1)) 65536 ltac:(lia)); pose proof (Z.mod_pos_bound (b + (65536 - 1)) 65536 ltac:(lia)); lia).
  rewrite (Z.mod_small (b + (65536 - 1))) by lia.
  set (x := (a + (65536 - 1)) / 65536) in *. set (y := (b + (65536 - 1)) / 65536) in *. clearbody x y.
  rewrite (Z.mod_small (y - x)) by lia. destruct (Z.ltb_spec 0 (y - x)); [|lia].
  rewrite (Z.mod_small ((y - x) * 65536)) by lia. rewrite Z.mod_small by lia. lia.
Qed.
Lemma commit_run_spec : forall reqs a, 0 <= a -> Forall (fun n => 0 <= n) reqs -> a + sum reqs < 2 ^ 63 ->
  commit_run (upp a) a reqs = (upp (a + sum reqs), a + sum reqs).
Proof.
  induction reqs as [|n reqs IH]; intros a A F B; cbn [commit_run sum] in *; [rewrite Z.add_0_r; reflexivity|].
  inversion F as [|x y F1 F2]. subst. assert (SP : 0 <= sum reqs) by (clear - F2; induction F2; cbn; lia).
  unfold wadd, w64, W. rewrite Z.mod_small by lia. rewrite commit_spec by lia. rewrite IH by (try assumption; lia). f_equal; [f_equal|]; lia.
Qed.

Lemma mmap_loop_spec : forall os size min v, 0 <= size -> 0 <= min -> mmap_loop os size min = Some v -> min <= v_size v <= size /\ v_alloc v = 0.
Proof.
  induction os as [|o os IH]; intros size min v S M H; cbn [mmap_loop] in H; destruct (Z.ltb_spec size min); try discriminate.
  assert (D : 0 <= size / 2 <= size) by (split; [apply Z.div_pos; lia|apply Z.div_le_upper_bound; lia]).
  destruct o as [p| |]; [|apply IH in H; lia|discriminate]. destruct (p =? 0); [apply IH in H; lia|]. injection H as <-. cbn. lia.
Qed.
