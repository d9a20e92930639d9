(** SHA-1: the transformation. *)
From Coq Require Import ZArith Bool List Lia ZifyBool.
From Verif Require Import Mach ListAux HashModel HashSpec HashBits HashBlk.
Import ListNotations.
Open Scope Z_scope.

Definition L5 (r : regs5) : list Z := let '(a, b, c, d, e) := r in [a; b; c; d; e].
Definition inv5 (r : regs5) : Prop := Forall word (L5 r).
Lemma nth_upd (l : list Z) : forall n m x, nth m (upd l n x) 0 = if (m =? n)%nat && (n <? length l)%nat then x else nth m l 0.
Proof.
  induction l as [|y l IH]; intros n m x; [cbn [upd length]; destruct n; rewrite andb_false_r; destruct m; reflexivity|].
  destruct n as [|n], m as [|m]; try reflexivity. cbn [upd nth length]. rewrite IH. reflexivity.
Qed.
Lemma Forall_upd (P : Z -> Prop) l : forall n x, Forall P l -> P x -> Forall P (upd l n x).
Proof.
  induction l as [|y l IH]; intros n x H Hx; [destruct n; exact H|]. inversion H; subst.
  destruct n as [|n]; cbn [upd]; constructor; auto.
Qed.
Lemma word_nth l i : Forall word l -> word (nth i l 0).
Proof.
  intros H. destruct (Nat.lt_ge_cases i (length l)) as [L|L].
  - rewrite Forall_forall in H. apply H. apply nth_In. exact L.
  - rewrite nth_overflow by exact L. unfold word. lia.
Qed.

(** The table of the calls. *)
Definition kind (t : nat) : Z := if (t <? 16)%nat then 0 else if (t <? 20)%nat then 1 else if (t <? 40)%nat then 2 else if (t <? 60)%nat then 3 else 4.
Definition pos (k t : nat) : nat := ((k + 4 * t) mod 5)%nat.
Definition roles (t : nat) : Z * Z * Z * Z * Z :=
  (Z.of_nat (pos 0 t), Z.of_nat (pos 1 t), Z.of_nat (pos 2 t), Z.of_nat (pos 3 t), Z.of_nat (pos 4 t)).
Lemma calls1_eq : combine (upto 0 80) calls1 = map (fun t => (Z.of_nat t, (kind t, roles t))) (seq 0 80).
Proof. vm_compute. reflexivity. Qed.
Definition st1 (b : list Z) (st : regs5) (t : nat) : list Z * list Z :=
  fold_left call1 (map (fun t => (Z.of_nat t, (kind t, roles t))) (seq 0 t)) (L5 st, map (load_le b) (upto 0 16)).
Lemma st1_S b st t : st1 b st (S t) = call1 (st1 b st t) (Z.of_nat t, (kind t, roles t)).
Proof. unfold st1. rewrite seq_S, map_app, fold_left_app. reflexivity. Qed.
Lemma transform1_eq st b : transform1 st b =
  let '(a, b', c, d, e) := st in let regs := fst (st1 b st 80) in
  (add32 a (at_ regs 0), add32 b' (at_ regs 1), add32 c (at_ regs 2), add32 d (at_ regs 3), add32 e (at_ regs 4)).
Proof.
  destruct st as [[[[a b'] c] d] e]. unfold transform1, st1. rewrite calls1_eq. cbn [L5].
  match goal with |- context [fold_left ?g ?l ?x] => generalize (fold_left g l x) end. intros [r k]. reflexivity.
Qed.

(** One call: what it does to the block and to the registers. *)
Definition newword (block : list Z) (t : nat) : Z := if (t <? 16)%nat then snd (blk0 block (Z.of_nat t)) else snd (blk block (Z.of_nat t)).
Definition rot (t : nat) (word : Z) (regs : list Z) : list Z :=
  let sum := add32 (add32 (add32 (mix1 (kind t) (nth (pos 1 t) regs 0) (nth (pos 2 t) regs 0) (nth (pos 3 t) regs 0)) word) (const1 (kind t))) (rotl (nth (pos 0 t) regs 0) 5) in
  upd (upd regs (pos 4 t) (add32 (nth (pos 4 t) regs 0) sum)) (pos 1 t) (rotl (nth (pos 1 t) regs 0) 30).
Lemma land15 n : Z.land (Z.of_nat n) 15 = Z.of_nat (n mod 16).
Proof. change 15 with (Z.ones 4). rewrite Z.land_ones by lia. rewrite Nat2Z.inj_mod. reflexivity. Qed.
Lemma at_nat l n : at_ l (Z.of_nat n) = nth n l 0.
Proof. apply at_nth. reflexivity. Qed.
Lemma call1_eq regs block t : call1 (regs, block) (Z.of_nat t, (kind t, roles t)) =
  (rot t (newword block t) regs, upd block (t mod 16) (newword block t)).
Proof.
  unfold call1, roles, newword, rot. rewrite !at_nat, !Nat2Z.id.
  assert (K : (kind t =? 0) = (t <? 16)%nat).
  { unfold kind. destruct (t <? 16)%nat, (t <? 20)%nat, (t <? 40)%nat, (t <? 60)%nat; reflexivity. }
  rewrite K. destruct (Nat.ltb_spec t 16) as [L|L].
  - unfold blk0. cbn [snd]. cbv zeta. rewrite Nat2Z.id, (Nat.mod_small t 16) by exact L. reflexivity.
  - unfold blk. cbn [snd]. cbv zeta. rewrite (land15 t), Nat2Z.id. reflexivity.
Qed.
Lemma pos_mod k t : pos k t = pos k (t mod 5).
Proof.
  unfold pos. rewrite (Nat.div_mod t 5) at 1 by lia.
  replace (k + 4 * (5 * (t / 5) + t mod 5))%nat with ((k + 4 * (t mod 5)) + (4 * (t / 5)) * 5)%nat by lia.
  apply Nat.mod_add. lia.
Qed.
Lemma pos_S k t : pos k (S t) = pos k (S (t mod 5)).
Proof.
  unfold pos. rewrite (Nat.div_mod t 5) at 1 by lia.
  replace (k + 4 * S (5 * (t / 5) + t mod 5))%nat with ((k + 4 * S (t mod 5)) + (4 * (t / 5)) * 5)%nat by lia.
  apply Nat.mod_add. lia.
Qed.
Lemma rot_ok t w regs : length regs = 5%nat ->
  let r k := nth (pos k t) regs 0 in let r' k := nth (pos k (S t)) (rot t w regs) 0 in
  r' 0%nat = add32 (r 4%nat) (add32 (add32 (add32 (mix1 (kind t) (r 1%nat) (r 2%nat) (r 3%nat)) w) (const1 (kind t))) (rotl (r 0%nat) 5)) /\
  r' 1%nat = r 0%nat /\ r' 2%nat = rotl (r 1%nat) 30 /\ r' 3%nat = r 2%nat /\ r' 4%nat = r 3%nat.
Proof.
  intros Hl. cbv zeta. unfold rot. rewrite !(pos_S _ t), !(pos_mod _ t).
  pose proof (Nat.mod_upper_bound t 5 ltac:(lia)) as Hq. set (q := (t mod 5)%nat) in *. set (kd := kind t). clearbody q kd.
  destruct regs as [|a [|b [|c [|d [|e [|? ?]]]]]]; try discriminate Hl.
  do 5 (destruct q as [|q]; [cbv [pos Nat.add Nat.mul]; cbn [Nat.modulo Nat.divmod snd Nat.sub upd nth];
        repeat match goal with |- _ /\ _ => split end; reflexivity|]). lia.
Qed.

Lemma sum1_eq e f w k r : add32 e (add32 (add32 (add32 f w) k) r) = plus (plus (plus (plus r f) e) k) w.
Proof.
  unfold add32, u32, plus.
  rewrite (Zplus_mod_idemp_l (f + w) k), (Zplus_mod_idemp_l (f + w + k) r), (Zplus_mod_idemp_r (f + w + k + r) e).
  rewrite (Zplus_mod_idemp_l (r + f) e), (Zplus_mod_idemp_l (r + f + e) k), (Zplus_mod_idemp_l (r + f + e + k) w). f_equal. ring.
Qed.

(** The words of the block. *)
Section Words.
Context (b : list Z) (st : regs5) (Hb : Forall byte b) (Hst : inv5 st).
Definition B (t : nat) : list Z := snd (st1 b st t).
Definition R (t : nat) : list Z := fst (st1 b st t).
Lemma R_def t : fst (st1 b st t) = R t.
Proof. reflexivity. Qed.
Lemma R_0 : R 0 = L5 st.
Proof. reflexivity. Qed.
Lemma B_S t : B (S t) = upd (B t) (t mod 16) (newword (B t) t).
Proof. unfold B. rewrite st1_S. destruct (st1 b st t) as [r k]. rewrite call1_eq. reflexivity. Qed.
Lemma R_S t : R (S t) = rot t (newword (B t) t) (R t).
Proof. unfold R, B. rewrite st1_S. destruct (st1 b st t) as [r k]. rewrite call1_eq. reflexivity. Qed.
Lemma B_length t : length (B t) = 16%nat.
Proof. induction t as [|t IH]; [reflexivity|]. rewrite B_S, upd_length. exact IH. Qed.
Lemma R_length t : length (R t) = 5%nat.
Proof. induction t as [|t IH]; [unfold R, st1; cbn [seq map fold_left fst]; destruct st as [[[[? ?] ?] ?] ?]; reflexivity|]. rewrite R_S. unfold rot. rewrite !upd_length. exact IH. Qed.
Definition W (t : nat) : Z := nth (t mod 16) (B (S t)) 0.
Lemma W_eq t : W t = newword (B t) t.
Proof.
  unfold W. rewrite B_S, nth_upd, B_length, Nat.eqb_refl.
  replace ((t mod 16 <? 16)%nat) with true; [reflexivity|]. symmetry. apply Nat.ltb_lt. apply Nat.mod_upper_bound. lia.
Qed.
Lemma B_low t i : (t <= i < 16)%nat -> nth i (B t) 0 = word_le b i.
Proof.
  induction t as [|t IH]; intros H.
  - unfold B, st1. cbn [seq map fold_left snd].
    rewrite (nth_indep _ 0 (load_le b 0)) by (rewrite map_length, upto_length; lia).
    rewrite map_nth, nth_upto by lia. apply load_le_eq.
  - rewrite B_S, nth_upd. rewrite (Nat.mod_small t 16) by lia.
    replace ((i =? t)%nat) with false by (symmetry; apply Nat.eqb_neq; lia). apply IH. lia.
Qed.
Lemma B_keep s d : (d <= 15)%nat -> nth (s mod 16) (B (S s + d)) 0 = W s.
Proof.
  induction d as [|d IH]; intros H; [rewrite Nat.add_0_r; reflexivity|].
  rewrite Nat.add_succ_r, B_S, nth_upd.
  replace ((s mod 16 =? (S s + d) mod 16)%nat) with false; [apply IH; lia|].
  symmetry. apply Nat.eqb_neq. intros E.
  pose proof (Nat.div_mod s 16 ltac:(lia)). pose proof (Nat.div_mod (S s + d) 16 ltac:(lia)). lia.
Qed.
Lemma W_low t : (t < 16)%nat -> W t = word_be b t.
Proof.
  intros H. rewrite W_eq. unfold newword. replace (t <? 16)%nat with true by (symmetry; apply Nat.ltb_lt; exact H).
  unfold blk0. cbn [snd]. rewrite !at_nat, B_low by lia. apply swap_word. exact Hb.
Qed.
Lemma B_past t k : (16 <= t)%nat -> (k < 16)%nat -> nth ((t + k) mod 16) (B t) 0 = W (t - (16 - k))%nat.
Proof.
  intros H Hk. replace ((t + k) mod 16)%nat with ((t - (16 - k)) mod 16)%nat.
  - replace t with (S (t - (16 - k)) + (15 - k))%nat at 2 by lia. apply B_keep. lia.
  - replace (t + k)%nat with ((t - (16 - k)) + 1 * 16)%nat by lia. rewrite Nat.mod_add by lia. reflexivity.
Qed.
Lemma W_raw t : (16 <= t)%nat -> W t = rotl (Z.lxor (Z.lxor (Z.lxor (W (t - 3)) (W (t - 8))) (W (t - 14))) (W (t - 16))) 1.
Proof.
  intros H. rewrite W_eq. unfold newword. replace (t <? 16)%nat with false by (symmetry; apply Nat.ltb_ge; exact H).
  unfold blk. cbn [snd].
  replace (Z.of_nat t + 13) with (Z.of_nat (t + 13)) by lia. replace (Z.of_nat t + 8) with (Z.of_nat (t + 8)) by lia.
  replace (Z.of_nat t + 2) with (Z.of_nat (t + 2)) by lia.
  rewrite !land15, !at_nat. rewrite (B_past t 13), (B_past t 8), (B_past t 2) by lia.
  replace (t mod 16)%nat with ((t + 0) mod 16)%nat by (rewrite Nat.add_0_r; reflexivity). rewrite (B_past t 0) by lia. reflexivity.
Qed.
Lemma W_word t : word (W t).
Proof.
  induction t as [t IH] using lt_wf_ind. destruct (Nat.lt_ge_cases t 16) as [L|L]; [rewrite W_low by exact L; apply word_word_be; exact Hb|].
  rewrite W_raw by exact L.
  assert (X : word (Z.lxor (Z.lxor (Z.lxor (W (t - 3)) (W (t - 8))) (W (t - 14))) (W (t - 16)))) by (repeat apply word_lxor; apply IH; lia).
  rewrite rotl_eq by (lia || exact X). apply word_ROTL; [lia|exact X].
Qed.
Lemma W_high t : (16 <= t)%nat -> W t = ROTL 1 (xor (xor (xor (W (t - 3)) (W (t - 8))) (W (t - 14))) (W (t - 16))).
Proof.
  intros H. rewrite (W_raw t H). apply rotl_eq; [lia|]. repeat apply word_lxor; apply W_word.
Qed.
Lemma R_word t : Forall word (R t).
Proof.
  induction t as [|t IH]; [exact Hst|]. rewrite R_S. unfold rot.
  apply Forall_upd; [apply Forall_upd; [exact IH|apply word_add32]|].
  rewrite rotl_eq by (lia || apply word_nth; exact IH). apply word_ROTL; [lia|apply word_nth; exact IH].
Qed.
Lemma mix1_eq t x y z : word x -> word y -> word z -> mix1 (kind t) x y z = f1 t x y z.
Proof.
  intros Hx Hy Hz. unfold mix1, kind, f1, Parity, xor.
  destruct (Nat.ltb_spec t 16) as [L|L].
  { replace (t <? 20)%nat with true by (symmetry; apply Nat.ltb_lt; lia). apply ch1_eq; assumption. }
  destruct (t <? 20)%nat; [apply ch1_eq; assumption|]. destruct (t <? 40)%nat; [reflexivity|].
  destruct (t <? 60)%nat; [apply maj1_eq; assumption|reflexivity].
Qed.
Lemma const1_eq t : const1 (kind t) = K1 t.
Proof.
  unfold const1, kind, K1. destruct (Nat.ltb_spec t 16) as [L|L].
  { replace (t <? 20)%nat with true by (symmetry; apply Nat.ltb_lt; lia). reflexivity. }
  destruct (t <? 20)%nat; [reflexivity|]. destruct (t <? 40)%nat; [reflexivity|]. destruct (t <? 60)%nat; reflexivity.
Qed.
Lemma transform1_parts : inv5 (transform1 st b) /\ compress1 (L5 st) b (L5 (transform1 st b)).
Proof.
  rewrite transform1_eq. split.
  { destruct st as [[[[a0 b0] c0] d0] e0]. unfold inv5. cbn [L5]. cbv zeta.
    repeat (apply Forall_cons; [apply word_add32|]). apply Forall_nil. }
  exists W, (fun t => nth (pos 0 t) (R t) 0), (fun t => nth (pos 1 t) (R t) 0), (fun t => nth (pos 2 t) (R t) 0), (fun t => nth (pos 3 t) (R t) 0), (fun t => nth (pos 4 t) (R t) 0).
  split; [exact W_low|]. split; [intros t Ht; apply W_high; lia|].
  split; [rewrite R_0; destruct st as [[[[a0 b0] c0] d0] e0]; reflexivity|].
  split.
  - intros t Ht. cbv zeta. rewrite R_S. rewrite <- W_eq. pose proof (rot_ok t (W t) (R t) (R_length t)) as E. cbv zeta in E.
    destruct E as (E0 & E1 & E2 & E3 & E4). rewrite E0, E1, E2, E3, E4.
    assert (Wd : forall k, word (nth (pos k t) (R t) 0)) by (intros k; apply word_nth; apply R_word).
    rewrite mix1_eq, const1_eq, !rotl_eq by (lia || apply Wd).
    split; [reflexivity|]. split; [reflexivity|]. split; [reflexivity|]. split; [reflexivity|].
    apply sum1_eq.
  - cbv zeta. rewrite R_def, R_0. generalize (R 80). intros r. destruct st as [[[[a0 b0] c0] d0] e0].
    change (pos 0 80) with 0%nat. change (pos 1 80) with 1%nat. change (pos 2 80) with 2%nat. change (pos 3 80) with 3%nat. change (pos 4 80) with 4%nat.
    change (pos 0 0) with 0%nat. change (pos 1 0) with 1%nat. change (pos 2 0) with 2%nat. change (pos 3 0) with 3%nat. change (pos 4 0) with 4%nat.
    cbn [L5 nth]. unfold at_. change (Z.to_nat 0) with 0%nat. change (Z.to_nat 1) with 1%nat. change (Z.to_nat 2) with 2%nat. change (Z.to_nat 3) with 3%nat. change (Z.to_nat 4) with 4%nat.
    unfold plus, add32, u32. reflexivity.
Qed.
End Words.
Lemma transform1_ok st b : inv5 st -> length b = 64%nat -> Forall byte b -> inv5 (transform1 st b) /\ compress1 (L5 st) b (L5 (transform1 st b)).
Proof. intros Hst _ Hb. apply transform1_parts; assumption. Qed.
