(** Alphabets checked by computation; uniqueness of what a text stands for; round trips. *)
From Coq Require Import ZArith Lia Bool List ZifyBool.
From Verif Require Import Mach CodecModel CodecSpec CodecProofs B64Proofs B32Proofs.
Import ListNotations.
Open Scope Z_scope.

Definition check_alphabet (k : nat) (al rev : list Z) : bool :=
  (zlen al =? 2 ^ Z.of_nat k) && (length rev =? 256)%nat
  && forallb (fun d => (0 <=? letter al d) && (letter al d <? 256) && (nth (Z.to_nat (letter al d)) rev (-1) =? d)) (map Z.of_nat (seq 0 (Z.to_nat (2 ^ Z.of_nat k))))
  && forallb (fun c => existsb (fun d => letter al d =? c) (map Z.of_nat (seq 0 (Z.to_nat (2 ^ Z.of_nat k)))) || (nth (Z.to_nat c) rev (-1) =? 255)) (map Z.of_nat (seq 0 256)).
Lemma in_zseq n z : 0 <= z < n -> In z (map Z.of_nat (seq 0 (Z.to_nat n))).
Proof. intros H. apply in_map_iff. exists (Z.to_nat z). split; [lia|]. apply in_seq. lia. Qed.
Lemma zseq_in n z : 0 <= n -> In z (map Z.of_nat (seq 0 (Z.to_nat n))) -> 0 <= z < n.
Proof. intros H I. apply in_map_iff in I as (x & <- & I). apply in_seq in I. lia. Qed.
Lemma check_ok k al rev : check_alphabet k al rev = true -> good_alphabet k al rev.
Proof.
  unfold check_alphabet. intros H. apply andb_prop in H as [H H4]. apply andb_prop in H as [H H3]. apply andb_prop in H as [H1 H2].
  rewrite forallb_forall in H3, H4. split; [unfold zlen in H1; lia|]. split; [apply Nat.eqb_eq, H2|]. split.
  - intros d Hd. specialize (H3 d (in_zseq _ _ Hd)). apply andb_prop in H3 as [H3 H5]. apply andb_prop in H3 as [H6 H7]. unfold is_byte. split; lia.
  - intros c Hc N. specialize (H4 c (in_zseq 256 c Hc)). apply orb_prop in H4 as [H4|H4]; [|lia].
    apply existsb_exists in H4 as (d & I & E). apply zseq_in in I; [|apply Z.pow_nonneg; lia]. destruct (N d I). lia.
Qed.
Lemma good_b64_standard : good_alphabet 6 (encoding b64_standard) (reverse b64_standard). Proof. apply check_ok. vm_compute. reflexivity. Qed.
Lemma good_b64_url : good_alphabet 6 (encoding b64_url) (reverse b64_url). Proof. apply check_ok. vm_compute. reflexivity. Qed.
Lemma good_b32_standard : good_alphabet 5 (encoding b32_standard) (reverse b32_standard). Proof. apply check_ok. vm_compute. reflexivity. Qed.
Lemma good_b32_hex : good_alphabet 5 (encoding b32_hex) (reverse b32_hex). Proof. apply check_ok. vm_compute. reflexivity. Qed.

(** What a text stands for is unique. *)
Lemma letters_inj_gen k al rev : good_alphabet k al rev -> forall a b, Forall (fun d => 0 <= d < 2 ^ Z.of_nat k) a -> Forall (fun d => 0 <= d < 2 ^ Z.of_nat k) b ->
  map (letter al) a = map (letter al) b -> a = b.
Proof.
  intros G a b Ra Rb E. assert (forall l, Forall (fun d => 0 <= d < 2 ^ Z.of_nat k) l -> map (fun c => nth (Z.to_nat c) rev (-1)) (map (letter al) l) = l) as H.
  { intros l Rl. rewrite map_map. rewrite <- (map_id l) at 2. apply map_ext_in. intros d I. rewrite Forall_forall in Rl. specialize (Rl d I).
    destruct G as (_ & _ & G1 & _). exact (proj2 (G1 d Rl)). }
  rewrite <- (H a Ra), <- (H b Rb), E. reflexivity.
Qed.
Lemma letters_in_gen k al rev ds : good_alphabet k al rev -> Forall (fun d => 0 <= d < 2 ^ Z.of_nat k) ds -> incl (map (letter al) ds) al.
Proof.
  intros G R c I. apply in_map_iff in I as (d & <- & I). rewrite Forall_forall in R. specialize (R d I). destruct G as (L & _).
  apply nth_In. lia.
Qed.
Lemma text_of_unique k q al rev pad s x y : good_alphabet k al rev -> good_padding k al pad -> text_of k q al pad s x -> text_of k q al pad s y -> x = y.
Proof.
  intros G [_ P] (d1 & E1 & R1 & _ & ->) (d2 & E2 & R2 & _ & ->).
  assert (map (letter al) d1 = map (letter al) d2) as E.
  { destruct (pad =? 0).
    - rewrite !app_nil_r in *. congruence.
    - rewrite E1 in E2. apply app_repeat_inj in E2 as [E2 _]; [exact E2|intros I; apply P; exact (letters_in_gen k al rev _ G R1 _ I)|intros I; apply P; exact (letters_in_gen k al rev _ G R2 _ I)]. }
  rewrite (letters_inj_gen k al rev G d1 d2 R1 R2 E). reflexivity.
Qed.

Lemma text_bytes k q al rev pad x : (0 < k < 8)%nat -> good_alphabet k al rev -> good_padding k al pad -> Forall is_byte x -> Forall is_byte (text k q al pad x).
Proof.
  intros Hk G [P _] Hx. destruct (text_text_of k q al pad x Hk Hx) as (ds & E & R & _). rewrite E. apply Forall_app. split.
  - apply Forall_map. rewrite Forall_forall in R |- *. intros d I. destruct G as (_ & _ & G & _). apply (G d (R d I)).
  - destruct (pad =? 0); [constructor|]. apply Forall_forall. intros c I. apply repeat_spec in I. subst. unfold is_byte. lia.
Qed.
Lemma b64_len_bound n pad : 0 <= n < 2 ^ 61 -> b64_encode_len n pad < 2 ^ 62.
Proof.
  intros H. unfold b64_encode_len. cbv zeta. destruct (negb (pad =? 0)).
  - rewrite (usz_small (n + 2)) by lia. pose proof (Z.div_mod (n + 2) 3 ltac:(lia)). pose proof (Z.mod_pos_bound (n + 2) 3 ltac:(lia)). rewrite usz_small; lia.
  - pose proof (Z.div_mod n 3 ltac:(lia)). pose proof (Z.mod_pos_bound n 3 ltac:(lia)).
    rewrite (usz_small (n / 3 * 4)) by lia. rewrite (usz_small (n mod 3 * 4 + 2)) by lia.
    assert (0 <= (n mod 3 * 4 + 2) / 3 < 4) by (split; [apply Z.div_pos|apply Z.div_lt_upper_bound]; lia). rewrite usz_small; lia.
Qed.
Lemma b32_len_bound n pad : 0 <= n < 2 ^ 58 -> b32_encode_len n pad < 2 ^ 60.
Proof.
  intros H. unfold b32_encode_len. cbv zeta. destruct (negb (pad =? 0)).
  - rewrite (usz_small (n + 4)) by lia. pose proof (Z.div_mod (n + 4) 5 ltac:(lia)). pose proof (Z.mod_pos_bound (n + 4) 5 ltac:(lia)). rewrite usz_small; lia.
  - pose proof (Z.div_mod n 5 ltac:(lia)). pose proof (Z.mod_pos_bound n 5 ltac:(lia)).
    rewrite (usz_small (n / 5 * 8)) by lia.
    assert (0 <= (n mod 5 * 8 + 4) / 5 < 8) by (split; [apply Z.div_pos|apply Z.div_lt_upper_bound]; lia). rewrite usz_small; lia.
Qed.
Lemma b64_round al : good_alphabet 6 (encoding al) (reverse al) -> forall x dst1 dst2 pad, good_padding 6 (encoding al) pad -> Forall is_byte x -> zlen x < 2 ^ 61 ->
  b64_encode_len (zlen x) pad <= zlen dst1 ->
  exists t buf1, b64_encode_buffer x dst1 pad al = Ok (t, buf1) /\
    (match b64_decode_len (zlen t) pad with Val dn => dn <= zlen dst2 | Fault _ => False end -> exists buf2, b64_decode_buffer t dst2 pad al = Ok (Val x, buf2)).
Proof.
  intros G x dst1 dst2 pad P Hx Hn Hd1. destruct (encode_ok al G x dst1 pad P Hx ltac:(lia) Hd1) as [L E]. eexists. eexists. split; [exact E|].
  intros Hd2. assert (b64_encode_len (zlen x) pad < 2 ^ 62) as HL.
  { apply b64_len_bound. pose proof (zlen_nonneg x). lia. }
  destruct (decode_ok al G pad _ dst2 P (text_bytes 6 4 _ _ pad x ltac:(lia) G P Hx) ltac:(rewrite L; lia) ltac:(destruct (b64_decode_len _ pad); [exact Hd2|exact I])) as (o & buf & E2 & _ & M).
  exists buf. destruct o as [y|f].
  - destruct M as [M _]. rewrite E2. repeat f_equal. exact (text_of_unique 6 4 _ _ pad _ _ _ G P M (text_text_of 6 4 _ pad x ltac:(lia) Hx)).
  - exfalso. exact (M x (text_text_of 6 4 _ pad x ltac:(lia) Hx)).
Qed.
Lemma b32_round al : good_alphabet 5 (encoding al) (reverse al) -> forall x dst1 dst2 pad, good_padding 5 (encoding al) pad -> Forall is_byte x -> zlen x < 2 ^ 58 ->
  b32_encode_len (zlen x) pad <= zlen dst1 ->
  exists t buf1, b32_encode_buffer x dst1 pad al = Ok (t, buf1) /\
    ((if pad =? 0 then b32_decode_len (zlen t) pad <= zlen dst2 else zlen dst2 = b32_decode_len (zlen t) pad) -> exists buf2, b32_decode_buffer t dst2 pad al = Ok (Val x, buf2)).
Proof.
  intros G x dst1 dst2 pad P Hx Hn Hd1. destruct (encode32_ok al G x dst1 pad P Hx ltac:(lia) Hd1) as [L E]. eexists. eexists. split; [exact E|].
  intros Hd2. pose proof (text_text_of 5 8 (encoding al) pad x ltac:(lia) Hx) as T. pose proof T as (ds & Et & R & Lm & _).
  set (t := text 5 8 (encoding al) pad x) in *. clearbody t.
  pose (m := if pad =? 0 then O else missing 8 (length ds)).
  assert (t = map (letter (encoding al)) ds ++ repeat pad m) as Et' by (rewrite Et; unfold m; destruct (pad =? 0); reflexivity).
  assert (Forall is_byte (map (letter (encoding al)) ds)) as Hb.
  { apply Forall_map. rewrite Forall_forall in R |- *. intros d I. destruct G as (_ & _ & G1 & _). apply (G1 d (R d I)). }
  assert (~ In pad (map (letter (encoding al)) ds)) as Hp by (destruct P as [_ P]; intros I; apply P; exact (letters_in_gen 5 _ _ ds G R _ I)).
  assert (zlen t < 2 ^ 60) as Ht.
  { rewrite L. apply b32_len_bound. pose proof (zlen_nonneg x). lia. }
  rewrite Et' in Ht, Hd2 |- *.
  destruct (decode32_ok al G (map (letter (encoding al)) ds) m dst2 pad P Hb Hp Ht) as (o & buf & E2 & _ & M).
  - destruct (pad =? 0); lia.
  - unfold m in *. destruct (Z.eqb_spec pad 0) as [Hz|Hz].
    + split; [reflexivity|]. left. unfold zlen. rewrite map_length. intros C.
      assert (length ds mod 8 = 1)%nat as C' by (apply Nat2Z.inj; rewrite Nat2Z.inj_mod; exact C).
      rewrite Nat.mul_mod, C' in Lm by lia. vm_compute in Lm. lia.
    + split; [|right; exact Hd2]. unfold zlen. rewrite app_length, map_length, repeat_length. rewrite <- (Nat2Z.inj_mod _ 8). change 0 with (Z.of_nat 0). f_equal.
      unfold missing. pose proof (Nat.mod_upper_bound (length ds) 8 ltac:(lia)).
      rewrite Nat.add_mod, Nat.mod_mod, <- Nat.add_mod by lia. rewrite Nat.add_mod_idemp_l || idtac.
      destruct (length ds mod 8)%nat as [|[|[|[|[|[|[|[|]]]]]]]] eqn:En; try lia; rewrite Nat.add_mod, En by lia; reflexivity.
  - exists buf. rewrite <- Et' in *. destruct o as [y|f].
    + destruct M as [M _]. rewrite E2. repeat f_equal. exact (text_of_unique 5 8 _ _ pad _ _ _ G P M T).
    + exfalso. exact (M x T).
Qed.
