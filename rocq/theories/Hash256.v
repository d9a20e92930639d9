(** SHA-256. *)
From Coq Require Import ZArith Bool List Lia ZifyBool.
From Verif Require Import Mach ListAux HashModel HashUse HashSpec HashBits HashBlk.
Import ListNotations.
Open Scope Z_scope.

Definition L8 (r : regs8) : list Z := let '(a, b, c, d, e, f, g, h) := r in [a; b; c; d; e; f; g; h].
Definition inv8 (r : regs8) : Prop := Forall word (L8 r).

(** The constants. *)
Definition primes64 : list Z :=
  [2; 3; 5; 7; 11; 13; 17; 19; 23; 29; 31; 37; 41; 43; 47; 53; 59; 61; 67; 71; 73; 79; 83; 89; 97; 101; 103; 107; 109; 113; 127; 131;
   137; 139; 149; 151; 157; 163; 167; 173; 179; 181; 191; 193; 197; 199; 211; 223; 227; 229; 233; 239; 241; 251; 257; 263; 269; 271;
   277; 281; 283; 293; 307; 311].
Lemma primes_eq : primes = primes64.
Proof. vm_compute. reflexivity. Qed.
Definition cbrt_check (p k : Z) : bool :=
  (0 <=? k) && (k <? 2 ^ 32) && existsb (fun q => let r := k + q * 2 ^ 32 in (r ^ 3 <=? p * 2 ^ 96) && (p * 2 ^ 96 <? (r + 1) ^ 3)) [1; 2; 3; 4; 5; 6].
Lemma cbrt_check_ok p k : cbrt_check p k = true -> cbrt_frac p k.
Proof.
  unfold cbrt_check. intros H. apply andb_true_iff in H. destruct H as [H0 H]. apply existsb_exists in H.
  destruct H as (q & Hq & H). cbv zeta in H. exists (k + q * 2 ^ 32).
  assert (Q : 0 <= q) by (cbn [In] in Hq; lia).
  split; [nia|]. split; [lia|]. rewrite Z.mod_add by lia. symmetry. apply Z.mod_small. lia.
Qed.
Lemma K256_check : forallb (fun n => cbrt_check (fst n) (snd n)) (combine primes64 K256) = true.
Proof. vm_compute. reflexivity. Qed.
Lemma forallb_combine (P : Z -> Z -> bool) l m n : forallb (fun x => P (fst x) (snd x)) (combine l m) = true -> (n < length l)%nat -> (n < length m)%nat ->
  P (nth n l 0) (nth n m 0) = true.
Proof.
  revert m n. induction l as [|x l IH]; intros m n H Hl Hm; [cbn [length] in Hl; lia|].
  destruct m as [|y m]; [cbn [length] in Hm; lia|]. cbn [combine forallb fst snd] in H. apply andb_true_iff in H. destruct H as [H1 H2].
  destruct n as [|n]; [exact H1|]. cbn [nth]. apply IH; [exact H2|cbn [length] in *; lia|cbn [length] in *; lia].
Qed.
Lemma K256_ok t : (t < 64)%nat -> cbrt_frac (nth t primes 0) (nth t K256 0).
Proof.
  intros H. rewrite primes_eq. apply cbrt_check_ok. apply (forallb_combine cbrt_check); [exact K256_check|exact H|exact H].
Qed.
Definition sqrt_check (p k : Z) : bool :=
  (0 <=? k) && (k <? 2 ^ 32) && existsb (fun q => let r := k + q * 2 ^ 32 in (r ^ 2 <=? p * 2 ^ 64) && (p * 2 ^ 64 <? (r + 1) ^ 2)) [1; 2; 3; 4].
Lemma sqrt_check_ok p k : sqrt_check p k = true -> sqrt_frac p k.
Proof.
  unfold sqrt_check. intros H. apply andb_true_iff in H. destruct H as [H0 H]. apply existsb_exists in H.
  destruct H as (q & Hq & H). cbv zeta in H. exists (k + q * 2 ^ 32).
  assert (Q : 0 <= q) by (cbn [In] in Hq; lia).
  split; [nia|]. split; [lia|]. rewrite Z.mod_add by lia. symmetry. apply Z.mod_small. lia.
Qed.
Lemma IV256_check : forallb (fun n => sqrt_check (fst n) (snd n)) (combine (firstn 8 primes64) (L8 (state256 init256))) = true.
Proof. vm_compute. reflexivity. Qed.
Lemma IV256_ok t : (t < 8)%nat -> sqrt_frac (nth t primes 0) (nth t (L8 (state256 init256)) 0).
Proof.
  intros H. rewrite primes_eq. apply sqrt_check_ok.
  replace (nth t primes64 0) with (nth t (firstn 8 primes64) 0) by (do 8 (destruct t as [|t]; [reflexivity|]); lia).
  apply (forallb_combine sqrt_check); [exact IV256_check|exact H|exact H].
Qed.
Lemma inv8_init : inv8 (state256 init256).
Proof. unfold inv8. cbn [state256 init256 L8]. repeat (apply Forall_cons; [unfold word; lia|]). apply Forall_nil. Qed.

(** The functions. *)
Lemma word_shr x n : 0 <= n -> word x -> word (Z.shiftr x n).
Proof.
  intros Hn Hx. unfold word in *. rewrite Z.shiftr_div_pow2 by exact Hn.
  assert (0 < 2 ^ n) by (apply Z.pow_pos_nonneg; lia).
  split; [apply Z.div_pos; lia|]. apply Z.div_lt_upper_bound; [lia|]. nia.
Qed.
Lemma sigma0_eq x : word x -> sigma0 x = s0 x.
Proof. intros H. unfold sigma0, s0, xor, SHR. rewrite !rotr_eq, Z.shiftr_div_pow2 by (assumption || lia). reflexivity. Qed.
Lemma sigma1_eq x : word x -> sigma1 x = s1 x.
Proof. intros H. unfold sigma1, s1, xor, SHR. rewrite !rotr_eq, Z.shiftr_div_pow2 by (assumption || lia). reflexivity. Qed.
Lemma bsigma0_eq x : word x -> bsigma0 x = Sigma0 x.
Proof. intros H. unfold bsigma0, Sigma0, xor. rewrite !rotr_eq by (assumption || lia). reflexivity. Qed.
Lemma bsigma1_eq x : word x -> bsigma1 x = Sigma1 x.
Proof. intros H. unfold bsigma1, Sigma1, xor. rewrite !rotr_eq by (assumption || lia). reflexivity. Qed.

(** The message schedule. *)
Definition sch (b : list Z) (n : nat) : list Z :=
  fold_left (fun m i => m ++ [add32 (add32 (add32 (sigma1 (at_ m (i - 2))) (at_ m (i - 7))) (sigma0 (at_ m (i - 15)))) (at_ m (i - 16))])
    (upto 16 n) (map (load_be b) (upto 0 16)).
Lemma schedule256_eq b : schedule256 b = sch b 48.
Proof. unfold schedule256, sch. reflexivity. Qed.
Lemma sch_S b n : sch b (S n) =
  let m := sch b n in let i := Z.of_nat (16 + n) in
  m ++ [add32 (add32 (add32 (sigma1 (at_ m (i - 2))) (at_ m (i - 7))) (sigma0 (at_ m (i - 15)))) (at_ m (i - 16))].
Proof. unfold sch. rewrite upto_S, fold_left_app. reflexivity. Qed.
Lemma sch_length b n : length (sch b n) = (16 + n)%nat.
Proof.
  induction n as [|n IH]; [unfold sch; cbn [upto seq map fold_left]; reflexivity|].
  rewrite sch_S. cbv zeta. rewrite app_length, IH. cbn [length]. lia.
Qed.
Lemma sch_nth b n k i : (i < 16 + n)%nat -> nth i (sch b (n + k)) 0 = nth i (sch b n) 0.
Proof.
  intros H. induction k as [|k IH]; [rewrite Nat.add_0_r; reflexivity|].
  rewrite Nat.add_succ_r, sch_S. cbv zeta. rewrite app_nth1 by (rewrite sch_length; lia). exact IH.
Qed.
Lemma sch_low b i : Forall byte b -> (i < 16)%nat -> nth i (sch b 48) 0 = word_be b i.
Proof.
  intros Hb H. change 48%nat with (0 + 48)%nat. rewrite sch_nth by lia. unfold sch. cbn [upto seq map fold_left].
  change (nth i (map (load_be b) (upto 0 16)) 0 = word_be b i).
  rewrite (nth_indep _ 0 (load_be b 0)) by (rewrite map_length, upto_length; exact H).
  rewrite map_nth, nth_upto by exact H. apply load_be_eq. exact Hb.
Qed.
Lemma sch_word b i : Forall byte b -> (i < 64)%nat -> word (nth i (sch b 48) 0).
Proof.
  intros Hb H. destruct (Nat.lt_ge_cases i 16) as [L|L]; [rewrite sch_low by assumption; apply word_word_be; exact Hb|].
  replace 48%nat with (S (i - 16) + (47 - (i - 16)))%nat by lia. rewrite sch_nth by lia. rewrite sch_S. cbv zeta.
  rewrite app_nth2 by (rewrite sch_length; lia). rewrite sch_length. replace (i - (16 + (i - 16)))%nat with 0%nat by lia.
  cbn [nth]. apply word_add32.
Qed.
Lemma sch_high b t : Forall byte b -> (16 <= t < 64)%nat ->
  nth t (sch b 48) 0 = plus (plus (plus (s1 (nth (t - 2) (sch b 48) 0)) (nth (t - 7) (sch b 48) 0)) (s0 (nth (t - 15) (sch b 48) 0))) (nth (t - 16) (sch b 48) 0).
Proof.
  intros Hb H. rewrite <- sigma1_eq, <- sigma0_eq by (apply sch_word; [exact Hb|lia]).
  assert (E : forall i, (i < t)%nat -> nth i (sch b 48) 0 = nth i (sch b (t - 16)) 0).
  { intros i Hi. replace 48%nat with ((t - 16) + (64 - t))%nat by lia. apply sch_nth. lia. }
  rewrite (E (t - 2)%nat), (E (t - 7)%nat), (E (t - 15)%nat), (E (t - 16)%nat) by lia. replace 48%nat with (S (t - 16) + (63 - t))%nat by lia. rewrite sch_nth by lia. rewrite sch_S. cbv zeta.
  rewrite app_nth2 by (rewrite sch_length; lia). rewrite sch_length. replace (t - (16 + (t - 16)))%nat with 0%nat by lia. cbn [nth].
  replace (16 + (t - 16))%nat with t by lia.
  rewrite (at_nth _ (t - 2) (Z.of_nat t - 2)), (at_nth _ (t - 7) (Z.of_nat t - 7)), (at_nth _ (t - 15) (Z.of_nat t - 15)), (at_nth _ (t - 16) (Z.of_nat t - 16)) by lia. unfold plus, add32, u32. reflexivity.
Qed.

(** The rounds. *)
Definition rnd (b : list Z) (st : regs8) (t : nat) : regs8 := fold_left (round256 (sch b 48)) (upto 0 t) st.
Lemma rnd_S b st t : rnd b st (S t) = round256 (sch b 48) (rnd b st t) (Z.of_nat t).
Proof. unfold rnd. rewrite upto_S, fold_left_app. reflexivity. Qed.
Lemma inv8_round m r i : inv8 r -> inv8 (round256 m r i).
Proof.
  destruct r as [[[[[[[a b] c] d] e] f] g] h]. unfold inv8. cbn [round256 L8]. cbv zeta. intros H.
  rewrite !Forall_cons_iff in H. destruct H as (Ha & Hb & Hc & Hd & He & Hf & Hg & Hh & _).
  repeat (apply Forall_cons; [first [assumption|apply word_add32]|]). apply Forall_nil.
Qed.
Lemma inv8_rnd b st t : inv8 st -> inv8 (rnd b st t).
Proof. intros H. induction t as [|t IH]; [exact H|]. rewrite rnd_S. apply inv8_round. exact IH. Qed.
Opaque sch.
Lemma transform256_ok st b : inv8 st -> length b = 64%nat -> Forall byte b ->
  inv8 (transform256 st b) /\ compress256 (L8 st) b (L8 (transform256 st b)).
Proof.
  intros Hst Hlen Hb.
  assert (Et : transform256 st b = let '(a, b', c, d, e, f, g, h) := rnd b st 64 in
    let '(a0, b0, c0, d0, e0, f0, g0, h0) := st in
    (add32 a0 a, add32 b0 b', add32 c0 c, add32 d0 d, add32 e0 e, add32 f0 f, add32 g0 g, add32 h0 h)).
  { unfold transform256, rnd. rewrite schedule256_eq. reflexivity. }
  rewrite Et. split.
  { destruct (rnd b st 64) as [[[[[[[a b'] c] d] e] f] g] h]. destruct st as [[[[[[[a0 b0] c0] d0] e0] f0] g0] h0].
    unfold inv8. cbn [L8]. repeat (apply Forall_cons; [apply word_add32|]). apply Forall_nil. }
  exists (fun t => nth t K256 0), (fun t => nth t (sch b 48) 0).
  exists (fun t => nth 0 (L8 (rnd b st t)) 0), (fun t => nth 1 (L8 (rnd b st t)) 0), (fun t => nth 2 (L8 (rnd b st t)) 0), (fun t => nth 3 (L8 (rnd b st t)) 0).
  exists (fun t => nth 4 (L8 (rnd b st t)) 0), (fun t => nth 5 (L8 (rnd b st t)) 0), (fun t => nth 6 (L8 (rnd b st t)) 0), (fun t => nth 7 (L8 (rnd b st t)) 0).
  split; [exact K256_ok|]. split; [intros t Ht; apply sch_low; assumption|]. split; [intros t Ht; apply sch_high; assumption|].
  split; [change (rnd b st 0) with st; destruct st as [[[[[[[a0 b0] c0] d0] e0] f0] g0] h0]; reflexivity|].
  split.
  - intros t Ht. rewrite rnd_S. pose proof (inv8_rnd b st t Hst) as W.
    destruct (rnd b st t) as [[[[[[[a b'] c] d] e] f] g] h]. unfold inv8 in W. cbn [L8] in W.
    rewrite !Forall_cons_iff in W. destruct W as (Ha & Hb' & Hc & Hd & He & Hf & Hg & Hh & _).
    unfold round256. cbn [L8 nth]. cbv zeta.
    rewrite (at_nth K256 t), (at_nth (sch b 48) t) by reflexivity.
    rewrite bsigma0_eq, bsigma1_eq, ch_eq by assumption.
    repeat match goal with |- _ /\ _ => split end; reflexivity.
  - change (rnd b st 0) with st. destruct (rnd b st 64) as [[[[[[[a b'] c] d] e] f] g] h]. destruct st as [[[[[[[a0 b0] c0] d0] e0] f0] g0] h0].
    reflexivity.
Qed.

(** Feeding bytes. *)
Definition feed256 := feeds transform256.
Lemma bytes256_ok data : forall st rest junk, (length rest < 64)%nat -> length (rest ++ junk) = 64%nat ->
  exists junk', bytes256 data st (rest ++ junk) (zlen rest) = Ok (fst (feed256 (st, rest) data), snd (feed256 (st, rest) data) ++ junk') /\
                length (snd (feed256 (st, rest) data) ++ junk') = 64%nat.
Proof.
  induction data as [|x t IH]; intros st rest junk Hr Hj.
  - exists junk. split; [reflexivity|exact Hj].
  - cbn [bytes256 feed256 feeds fold_left]. destruct junk as [|y junk]; [rewrite app_nil_r in Hj; lia|].
    rewrite set_app by reflexivity. cbn [bind]. unfold feed at 2 4 6. cbn [fst snd].
    rewrite app_length in Hj. cbn [length] in Hj.
    destruct (Nat.eqb_spec (length rest) 63) as [E|E].
    + replace (zlen rest + 1 =? 64) with true by (unfold zlen; lia).
      assert (junk = []) by (destruct junk; [reflexivity|cbn [length] in Hj; lia]). subst junk.
      destruct (IH (transform256 st (rest ++ [x])) [] (zeros 64)) as (j & A & B); [cbn [length]; lia|reflexivity|].
      exists j. split; [exact A|exact B].
    + replace (zlen rest + 1 =? 64) with false by (unfold zlen; lia).
      destruct (IH st (rest ++ [x]) junk) as (j & A & B); [rewrite app_length; cbn [length]; lia|rewrite !app_length; cbn [length]; lia|].
      exists j. split; [|exact B].
      replace (rest ++ x :: junk) with ((rest ++ [x]) ++ junk) by (rewrite <- app_assoc; reflexivity).
      replace (zlen rest + 1) with (zlen (rest ++ [x])) by (rewrite zlen_app; reflexivity). exact A.
Qed.
(** The state [s] has seen bytes that leave [st] and [rest]; [count] is what it counts. *)
Definition rep256 (s : sha256) (st : regs8) (rest : list Z) (count : Z) : Prop :=
  state256 s = st /\ bitcount s = count /\ (exists junk, buffer256 s = rest ++ junk) /\ length (buffer256 s) = 64%nat /\
  0 <= count < 2 ^ 64 /\ count mod 8 = 0 /\ (count / 8) mod 64 = zlen rest /\ (length rest < 64)%nat.
Lemma rep256_init : rep256 init256 (state256 init256) [] 0.
Proof.
  unfold rep256. split; [reflexivity|]. split; [reflexivity|]. split; [exists (zeros 64); reflexivity|]. split; [reflexivity|].
  split; [lia|]. split; [reflexivity|]. split; [reflexivity|cbn [length]; lia].
Qed.
Lemma update256_ok s st rest count data : rep256 s st rest count ->
  exists s', update256 s data = Ok s' /\
    rep256 s' (fst (feed256 (st, rest) data)) (snd (feed256 (st, rest) data)) ((count + (8 * zlen data) mod 2 ^ 32) mod 2 ^ 64).
Proof.
  intros (E1 & E2 & (junk & E3) & E4 & E5 & E6 & E7 & E8).
  unfold update256.
  assert (P : u32 (bitcount s / 8) mod 64 = zlen rest).
  { rewrite E2, <- E7. unfold u32. change (2 ^ 32) with (64 * 2 ^ 26). rewrite Z.rem_mul_r by lia.
    rewrite Z.mul_comm, Z.mod_add by lia. apply Z.mod_mod. lia. }
  rewrite P, E1, E3. rewrite E3 in E4.
  destruct (bytes256_ok data st rest junk E8 E4) as (j & A & B). rewrite A. cbn [bind].
  eexists. split; [reflexivity|].
  destruct (feeds_len transform256 data st rest E8) as (Z1 & Z2). fold (feed256 (st, rest) data) in Z1, Z2.
  assert (Eu : u32 (u32 (zlen data) * 8) = (8 * zlen data) mod 2 ^ 32).
  { unfold u32. rewrite Z.mul_mod_idemp_l by lia. f_equal. lia. }
  unfold rep256. cbn [state256 bitcount buffer256]. rewrite Eu, E2. fold (u64 (count + (8 * zlen data) mod 2 ^ 32)).
  split; [reflexivity|]. split; [reflexivity|]. split; [eexists; reflexivity|]. split; [exact B|].
  split; [apply Z.mod_pos_bound; lia|].
  assert (D : exists q, u64 (count + (8 * zlen data) mod 2 ^ 32) = 8 * (count / 8 + zlen data + 2 ^ 29 * q)).
  { unfold u64. pose proof (Z.div_mod (8 * zlen data) (2 ^ 32) ltac:(lia)) as D1.
    pose proof (Z.div_mod (count + (8 * zlen data) mod 2 ^ 32) (2 ^ 64) ltac:(lia)) as D2.
    pose proof (Z.div_mod count 8 ltac:(lia)) as D3. rewrite E6 in D3.
    exists (- (8 * zlen data / 2 ^ 32) - 2 ^ 32 * ((count + (8 * zlen data) mod 2 ^ 32) / 2 ^ 64)).
    set (x := (count + (8 * zlen data) mod 2 ^ 32) mod 2 ^ 64) in *. set (y := (8 * zlen data) mod 2 ^ 32) in *.
    set (q1 := 8 * zlen data / 2 ^ 32) in *. set (q2 := (count + y) / 2 ^ 64) in *. lia. }
  destruct D as (q & D).
  split; [rewrite D, Z.mul_comm; apply Z.mod_mul; lia|].
  split; [|exact Z2].
  rewrite Z1, D, (Z.mul_comm 8), Z.div_mul by lia.
  replace (count / 8 + zlen data + 2 ^ 29 * q) with (count / 8 + zlen data + (2 ^ 23 * q) * 64) by ring.
  rewrite Z.mod_add by lia. rewrite <- Z.add_mod_idemp_l by lia. rewrite E7. reflexivity.
Qed.

(** The end. *)
Lemma len8_eq c : map (fun j => Z.land (Z.shiftr c (56 - j * 8)) 255) (upto 0 8) = bytes_be 8 c.
Proof.
  unfold bytes_be. cbn [upto seq map bytes_le rev app]. rewrite !land_255. cbn [Z.of_nat Pos.of_succ_nat Pos.succ].
  rewrite !Z.shiftr_div_pow2 by lia. rewrite !Z.div_div by lia. rewrite Z.div_1_r. reflexivity.
Qed.
Lemma final256_ok s st rest count : rep256 s st rest count ->
  exists k out, (k < 64)%nat /\ (zlen rest + 9 + Z.of_nat k) mod 64 = 0 /\
    feed256 (st, rest) ([128] ++ repeat 0 k ++ bytes_be 8 count) = (out, []) /\
    final256 s = Ok (let '(a, b, c, d, e, f, g, h) := out in be_out a ++ be_out b ++ be_out c ++ be_out d ++ be_out e ++ be_out f ++ be_out g ++ be_out h).
Proof.
  intros (E1 & E2 & (junk & E3) & E4 & E5 & E6 & E7 & E8).
  assert (Hr : zlen rest < 64) by (unfold zlen; lia). pose proof (zlen_nonneg rest) as Hr0.
  set (k := if (length rest <? 56)%nat then (55 - length rest)%nat else (119 - length rest)%nat).
  assert (Hk : (length rest < 56 -> k = 55 - length rest)%nat /\ (56 <= length rest -> k = 119 - length rest)%nat).
  { unfold k. destruct (Nat.ltb_spec (length rest) 56); lia. }
  unfold final256. rewrite E2, E7, E3, E1.
  destruct junk as [|y junk]; [rewrite E3, app_nil_r in E4; lia|].
  rewrite set_app by reflexivity. cbn [bind]. cbv zeta.
  rewrite E3, app_length in E4. cbn [length] in E4.
  replace (rest ++ 128 :: junk) with ((rest ++ [128]) ++ junk) by (rewrite <- app_assoc; reflexivity).
  assert (Hl : zlen (rest ++ [128]) = zlen rest + 1) by (rewrite zlen_app; reflexivity).
  assert (P56 : forall a, length a = 56%nat -> forall b, length (a ++ b) = 64%nat -> put (a ++ b) 56 (bytes_be 8 count) = Ok (a ++ bytes_be 8 count)).
  { intros a Ha b Hb. rewrite app_length in Hb. rewrite put_app; [|unfold zlen; lia|unfold zlen; rewrite bytes_be_length; lia].
    rewrite skipn_all2 by (rewrite bytes_be_length; lia). rewrite app_nil_r. reflexivity. }
  destruct (Z.ltb_spec 56 (zlen rest + 1)) as [G|G].
  - rewrite put_app; [|lia|rewrite zlen_zeros by lia; unfold zlen; lia].
    cbn [bind]. rewrite skipn_all2 by (unfold zeros, zlen; rewrite repeat_length; lia). rewrite app_nil_r.
    rewrite put0 by (rewrite !zlen_zeros by lia; lia). cbn [bind].
    rewrite len8_eq. rewrite P56 by (rewrite ?app_length; reflexivity). cbn [bind].
    exists k. eexists. split; [unfold zlen in *; lia|].
    split; [replace (zlen rest + 9 + Z.of_nat k) with (2 * 64) by (unfold zlen in *; lia); reflexivity|].
    split; [|reflexivity].
    replace ([128] ++ repeat 0 k ++ bytes_be 8 count) with (([128] ++ zeros (64 - (zlen rest + 1))) ++ (zeros 56 ++ bytes_be 8 count)).
    + unfold feed256. rewrite feeds_app, (feeds_full transform256 ([128] ++ zeros (64 - (zlen rest + 1)))).
      * rewrite feeds_full; [|rewrite app_length, bytes_be_length; reflexivity|cbn [length]; lia].
        rewrite <- (app_assoc rest [128]). reflexivity.
      * rewrite app_length. unfold zeros. rewrite repeat_length. cbn [length]. unfold zlen. lia.
      * exact E8.
    + rewrite <- !app_assoc. f_equal. rewrite app_assoc. f_equal. unfold zeros. rewrite <- repeat_app. f_equal. unfold zlen in *. lia.
  - cbn [bind]. rewrite put_app; [|lia|rewrite zlen_zeros by lia; unfold zlen in *; lia].
    cbn [bind]. rewrite len8_eq. rewrite app_assoc. rewrite P56;
      [|rewrite !app_length; unfold zeros, zlen in *; rewrite repeat_length; cbn [length]; lia
       |rewrite !app_length, skipn_length; unfold zeros, zlen in *; rewrite repeat_length; cbn [length]; lia].
    cbn [bind]. exists k. eexists. split; [unfold zlen in *; lia|].
    split; [replace (zlen rest + 9 + Z.of_nat k) with (1 * 64) by (unfold zlen in *; lia); reflexivity|].
    split; [|reflexivity].
    unfold feed256. rewrite feeds_full.
    + unfold zeros. replace (Z.to_nat (56 - (zlen rest + 1))) with k by (unfold zlen in *; lia). rewrite <- !app_assoc. reflexivity.
    + rewrite !app_length, repeat_length, bytes_be_length. cbn [length]. unfold zlen in *; lia.
    + exact E8.
Qed.

(** Messages in pieces. *)
Definition run256 (chunks : list (list Z)) : Res (list Z) :=
  s <- fold_left (fun r c => s <- r ;; update256 s c) chunks (Ok init256) ;; final256 s.
Lemma updates256 chunks : forall s st rest count, rep256 s st rest count ->
  exists s', fold_left (fun r c => s <- r ;; update256 s c) chunks (Ok s) = Ok s' /\
    rep256 s' (fst (feed256 (st, rest) (concat chunks))) (snd (feed256 (st, rest) (concat chunks)))
      (fold_left (fun n c => (n + (8 * zlen c) mod 2 ^ 32) mod 2 ^ 64) chunks count).
Proof.
  induction chunks as [|c t IH]; intros s st rest count H; cbn [fold_left concat].
  - exists s. split; [reflexivity|exact H].
  - cbn [bind]. destruct (update256_ok s st rest count c H) as (s' & A & B). rewrite A.
    destruct (IH _ _ _ _ B) as (s'' & C & D). exists s''. split; [exact C|].
    unfold feed256. rewrite feeds_app. fold (feed256 (st, rest) c). destruct (feed256 (st, rest) c) as [u v]. exact D.
Qed.
Lemma L8_out out : inv8 out -> (let '(a, b, c, d, e, f, g, h) := out in be_out a ++ be_out b ++ be_out c ++ be_out d ++ be_out e ++ be_out f ++ be_out g ++ be_out h) = flat_map (bytes_be 4) (L8 out).
Proof.
  intros H. destruct out as [[[[[[[a b] c] d] e] f] g] h]. unfold inv8 in H. cbn [L8] in H. rewrite !Forall_cons_iff in H.
  destruct H as (Ha & Hb & Hc & Hd & He & Hf & Hg & Hh & _). rewrite !be_out_eq by assumption.
  cbn [L8 flat_map]. rewrite app_nil_r. reflexivity.
Qed.
Lemma chain256 p n : length p = (64 * n)%nat -> Forall byte p ->
  exists out, feed256 (state256 init256, []) p = (out, []) /\ inv8 out /\ digest256 p (flat_map (bytes_be 4) (L8 out)).
Proof.
  intros Hp Hb. destruct (feeds_chain transform256 L8 inv8 compress256 transform256_ok n p _ Hp Hb inv8_init) as (out & A & B & C).
  exists out. split; [exact A|]. split; [exact B|]. exists (L8 (state256 init256)), (L8 out).
  split; [reflexivity|]. split; [exact IV256_ok|]. split; [exact C|reflexivity].
Qed.
Lemma finish256 m s count : Forall byte m ->
  rep256 s (fst (feed256 (state256 init256, []) m)) (snd (feed256 (state256 init256, []) m)) count ->
  exists k d, (k < 64)%nat /\ final256 s = Ok d /\ length d = 32%nat /\ Forall byte d /\
    let p := m ++ [128] ++ repeat 0 k ++ bytes_be 8 count in len p mod 64 = 0 /\ digest256 p d.
Proof.
  intros Hbytes B. set (fs := feed256 (state256 init256, []) m) in *.
  destruct (feeds_len transform256 m (state256 init256) [] ltac:(cbn [length]; lia)) as (Z1 & Z2).
  fold (feed256 (state256 init256, []) m) in Z1, Z2. fold fs in Z1, Z2. rewrite zlen_nil, Z.add_0_l in Z1.
  destruct (final256_ok s (fst fs) (snd fs) count B) as (k & out & Hk & M & F & R).
  set (p := m ++ [128] ++ repeat 0 k ++ bytes_be 8 count).
  assert (Hp : len p mod 64 = 0).
  { unfold len, p. rewrite !app_length, repeat_length, bytes_be_length. cbn [length].
    rewrite Z1 in M. rewrite <- Z.add_assoc, Z.add_mod_idemp_l in M by lia. rewrite <- M. f_equal. unfold zlen. lia. }
  exists k. apply Z.mod_divide in Hp as Hd; [|lia]. destruct Hd as [n Hn].
  assert (Hbp : Forall byte p).
  { unfold p. apply Forall_app. split; [exact Hbytes|]. apply Forall_app. split; [repeat constructor; lia|]. apply Forall_app. split; [apply Forall_zeros|apply bytes_be_byte]. }
  destruct (chain256 p (Z.to_nat n)) as (out' & C1 & C2 & C3); [unfold len in Hn; lia|exact Hbp|].
  assert (out' = out).
  { unfold p, feed256 in C1. rewrite feeds_app in C1. fold (feed256 (state256 init256, []) m) in C1. fold fs in C1.
    rewrite (surjective_pairing fs) in C1. unfold feed256 in F. rewrite F in C1. congruence. }
  subst out'. exists (flat_map (bytes_be 4) (L8 out)).
  split; [exact Hk|]. split; [rewrite R, L8_out by exact C2; reflexivity|].
  split; [rewrite (flat_map_length 4) by (intros; apply bytes_be_length); destruct out as [[[[[[[a b] c] d] e] f] g] h]; reflexivity|].
  split; [apply flat_map_byte; intros; apply bytes_be_byte|]. cbv zeta. split; [exact Hp|exact C3].
Qed.
Lemma run256_ok chunks : Forall (Forall byte) chunks ->
  exists k d, (k < 64)%nat /\ run256 chunks = Ok d /\ length d = 32%nat /\ Forall byte d /\
    let p := concat chunks ++ [128] ++ repeat 0 k ++ bytes_be 8 (counted chunks) in len p mod 64 = 0 /\ digest256 p d.
Proof.
  intros Hc. destruct (updates256 chunks _ _ _ _ rep256_init) as (s & A & B).
  unfold run256. rewrite A. cbn [bind]. apply finish256; [apply Forall_concat; exact Hc|exact B].
Qed.
Lemma counted_small chunks : Forall (fun c => zlen c < 2 ^ 29) chunks -> counted chunks = (8 * zlen (concat chunks)) mod 2 ^ 64.
Proof.
  intros H. unfold counted. rewrite <- (Z.add_0_l (8 * zlen (concat chunks))).
  assert (G : forall n, fold_left (fun n c => (n + (8 * zlen c) mod 2 ^ 32) mod 2 ^ 64) chunks (n mod 2 ^ 64) = (n + 8 * zlen (concat chunks)) mod 2 ^ 64);
    [|apply (G 0)].
  induction chunks as [|c t IH]; intros n; cbn [fold_left concat]; [change (zlen (@nil Z)) with 0; f_equal; lia|].
  inversion H; subst. rewrite (Z.mod_small (8 * zlen c)) by (pose proof (zlen_nonneg c); lia).
  rewrite Z.add_mod_idemp_l by lia. rewrite IH by assumption. rewrite zlen_app. f_equal. lia.
Qed.
