(** MD5. *)
From Coq Require Import ZArith Bool List Lia ZifyBool.
From Verif Require Import Mach ListAux HashModel HashSpec HashBits HashBlk Hash1.
Import ListNotations.
Open Scope Z_scope.

Definition L4 (r : regs4) : list Z := let '(a, b, c, d) := r in [a; b; c; d].
Definition inv4 (r : regs4) : Prop := Forall word (L4 r).
Definition fsel (t : nat) : Z := if (t <? 16)%nat then 0 else if (t <? 32)%nat then 1 else if (t <? 48)%nat then (if Nat.even t then 2 else 3) else 4.
Definition pos4 (k t : nat) : nat := ((k + 3 * t) mod 4)%nat.
Definition call5 (t : nat) : Z * (Z * Z * Z * Z) * Z * Z * Z :=
  (fsel t, (Z.of_nat (pos4 0 t), Z.of_nat (pos4 1 t), Z.of_nat (pos4 2 t), Z.of_nat (pos4 3 t)), Z.of_nat (k5 t), nth t Tsin 0, shift5 t).
Lemma calls5_eq : calls5 = map call5 (seq 0 64).
Proof. vm_compute. reflexivity. Qed.
Definition st5 (b : list Z) (st : regs4) (t : nat) : list Z := fold_left (step5 b) (map call5 (seq 0 t)) (L4 st).
Lemma st5_S b st t : st5 b st (S t) = step5 b (st5 b st t) (call5 t).
Proof. unfold st5. rewrite seq_S, map_app, fold_left_app. reflexivity. Qed.
Lemma turn5_eq st b : turn5 st b =
  let '(a, b', c, d) := st in let regs := st5 b st 64 in
  (add32 (at_ regs 0) a, add32 (at_ regs 1) b', add32 (at_ regs 2) c, add32 (at_ regs 3) d).
Proof. destruct st as [[[a b'] c] d]. unfold turn5, st5. rewrite calls5_eq. cbn [L4]. reflexivity. Qed.

Definition new5 (b regs : list Z) (t : nat) : Z :=
  let a := add32 (nth (pos4 0 t) regs 0) (add32 (add32 (mix5 (fsel t) (nth (pos4 1 t) regs 0) (nth (pos4 2 t) regs 0) (nth (pos4 3 t) regs 0)) (word_le b (k5 t))) (nth t Tsin 0)) in
  add32 (rotl a (shift5 t)) (nth (pos4 1 t) regs 0).
Lemma step5_eq b regs t : step5 b regs (call5 t) = upd regs (pos4 0 t) (new5 b regs t).
Proof.
  unfold step5, call5, new5. cbv zeta. rewrite !at_nat, Nat2Z.id, load_le_eq. unfold rotl. do 3 f_equal. f_equal.
  change 4294967295 with (Z.ones 32). rewrite Z.land_ones by lia. apply Z.mod_small. apply word_add32.
Qed.
Lemma pos4_mod k t : pos4 k t = pos4 k (t mod 4).
Proof.
  unfold pos4. rewrite (Nat.div_mod t 4) at 1 by lia.
  replace (k + 3 * (4 * (t / 4) + t mod 4))%nat with ((k + 3 * (t mod 4)) + (3 * (t / 4)) * 4)%nat by lia.
  apply Nat.mod_add. lia.
Qed.
Lemma pos4_S k t : pos4 k (S t) = pos4 k (S (t mod 4)).
Proof.
  unfold pos4. rewrite (Nat.div_mod t 4) at 1 by lia.
  replace (k + 3 * S (4 * (t / 4) + t mod 4))%nat with ((k + 3 * S (t mod 4)) + (3 * (t / 4)) * 4)%nat by lia.
  apply Nat.mod_add. lia.
Qed.
Lemma rot5_ok t x regs : length regs = 4%nat ->
  let r k := nth (pos4 k t) regs 0 in let r' k := nth (pos4 k (S t)) (upd regs (pos4 0 t) x) 0 in
  r' 0%nat = r 3%nat /\ r' 1%nat = x /\ r' 2%nat = r 1%nat /\ r' 3%nat = r 2%nat.
Proof.
  intros Hl. cbv beta zeta. rewrite !(pos4_S _ t), !(pos4_mod _ t).
  pose proof (Nat.mod_upper_bound t 4 ltac:(lia)) as Hq. set (q := (t mod 4)%nat) in *. clearbody q.
  destruct regs as [|a [|b [|c [|d [|? ?]]]]]; try discriminate Hl.
  do 4 (destruct q as [|q]; [cbv [pos4 Nat.add Nat.mul]; cbn [Nat.modulo Nat.divmod snd Nat.sub upd nth];
        repeat match goal with |- _ /\ _ => split end; reflexivity|]). lia.
Qed.
Lemma mix5_eq t x y z : word x -> word y -> word z -> mix5 (fsel t) x y z = F5 t x y z.
Proof.
  intros Hx Hy Hz. unfold mix5, fsel, F5, xor. destruct (t <? 16)%nat; [apply f5_eq; assumption|].
  destruct (t <? 32)%nat; [apply g5_eq; assumption|]. destruct (t <? 48)%nat.
  - destruct (Nat.even t); [reflexivity|]. cbn [Z.eqb Pos.eqb]. rewrite Z.lxor_assoc. reflexivity.
  - cbn [Z.eqb Pos.eqb]. rewrite not32_eq by exact Hz. reflexivity.
Qed.
Lemma sum5_eq a f x t : add32 a (add32 (add32 f x) t) = plus (plus (plus a f) x) t.
Proof.
  unfold add32, u32, plus.
  rewrite (Zplus_mod_idemp_l (f + x) t), (Zplus_mod_idemp_r (f + x + t) a), (Zplus_mod_idemp_l (a + f) x), (Zplus_mod_idemp_l (a + f + x) t). f_equal. ring.
Qed.
Lemma shift5_range t : 0 <= shift5 t <= 32.
Proof.
  unfold shift5. pose proof (Nat.mod_upper_bound t 4 ltac:(lia)) as H. set (q := (t mod 4)%nat) in *. clearbody q.
  destruct (t <? 16)%nat, (t <? 32)%nat, (t <? 48)%nat; (do 4 (destruct q as [|q]; [cbn [nth]; lia|]); lia).
Qed.
Section Turn.
Context (b : list Z) (st : regs4) (Hb : Forall byte b) (Hst : inv4 st).
Definition R5 (t : nat) : list Z := st5 b st t.
Lemma R5_def t : st5 b st t = R5 t.
Proof. reflexivity. Qed.
Lemma R5_0 : R5 0 = L4 st.
Proof. reflexivity. Qed.
Lemma R5_S t : R5 (S t) = upd (R5 t) (pos4 0 t) (new5 b (R5 t) t).
Proof. unfold R5. rewrite st5_S. apply step5_eq. Qed.
Lemma R5_length t : length (R5 t) = 4%nat.
Proof. induction t as [|t IH]; [rewrite R5_0; destruct st as [[[? ?] ?] ?]; reflexivity|]. rewrite R5_S, upd_length. exact IH. Qed.
Lemma R5_word t : Forall word (R5 t).
Proof. induction t as [|t IH]; [exact Hst|]. rewrite R5_S. apply Forall_upd; [exact IH|apply word_add32]. Qed.
Lemma turn5_parts : inv4 (turn5 st b) /\ compress5 (L4 st) b (L4 (turn5 st b)).
Proof.
  rewrite turn5_eq. split.
  { destruct st as [[[a0 b0] c0] d0]. unfold inv4. cbn [L4]. cbv zeta. repeat (apply Forall_cons; [apply word_add32|]). apply Forall_nil. }
  exists (fun t => nth (pos4 0 t) (R5 t) 0), (fun t => nth (pos4 1 t) (R5 t) 0), (fun t => nth (pos4 2 t) (R5 t) 0), (fun t => nth (pos4 3 t) (R5 t) 0).
  split; [rewrite R5_0; destruct st as [[[a0 b0] c0] d0]; reflexivity|].
  split.
  - intros t Ht. rewrite R5_S. pose proof (rot5_ok t (new5 b (R5 t) t) (R5 t) (R5_length t)) as E. cbv zeta in E.
    destruct E as (E0 & E1 & E2 & E3). rewrite E0, E1, E2, E3.
    split; [reflexivity|]. split; [reflexivity|]. split; [reflexivity|].
    assert (Wd : forall k, word (nth (pos4 k t) (R5 t) 0)) by (intros k; apply word_nth; apply R5_word).
    unfold new5. cbv zeta. rewrite mix5_eq by apply Wd. rewrite rotl_eq by (apply shift5_range || apply word_add32). rewrite sum5_eq.
    unfold add32, u32, plus. rewrite Z.add_comm. reflexivity.
  - cbv zeta. rewrite R5_def, R5_0. generalize (R5 64). intros r. destruct st as [[[a0 b0] c0] d0].
    change (pos4 0 64) with 0%nat. change (pos4 1 64) with 1%nat. change (pos4 2 64) with 2%nat. change (pos4 3 64) with 3%nat.
    change (pos4 0 0) with 0%nat. change (pos4 1 0) with 1%nat. change (pos4 2 0) with 2%nat. change (pos4 3 0) with 3%nat.
    cbn [L4 nth]. unfold at_. change (Z.to_nat 0) with 0%nat. change (Z.to_nat 1) with 1%nat. change (Z.to_nat 2) with 2%nat. change (Z.to_nat 3) with 3%nat.
    unfold plus, add32, u32. rewrite (Z.add_comm (nth 0 r 0)), (Z.add_comm (nth 1 r 0)), (Z.add_comm (nth 2 r 0)), (Z.add_comm (nth 3 r 0)). reflexivity.
Qed.
End Turn.
Lemma turn5_ok st b : inv4 st -> length b = 64%nat -> Forall byte b -> inv4 (turn5 st b) /\ compress5 (L4 st) b (L4 (turn5 st b)).
Proof. intros Hst _ Hb. apply turn5_parts; assumption. Qed.

(** Feeding. *)
Definition feed5 := feeds turn5.
Lemma body5_ok n : forall st data, 64 * (Z.of_nat n + 1) <= zlen data ->
  exists st', body5 n st data = Ok (st', skipn (64 * (n + 1)) data) /\ feed5 (st, []) (firstn (64 * (n + 1)) data) = (st', []).
Proof.
  induction n as [|n IH]; intros st data H; cbn [body5]; rewrite sub_ok by lia; cbn [bind]; change (Z.to_nat 0) with 0%nat; change (Z.to_nat 64) with 64%nat; rewrite skipn_O.
  - eexists. split; [reflexivity|]. change (64 * (0 + 1))%nat with 64%nat. unfold feed5. rewrite feeds_full; [reflexivity| |cbn [length]; lia].
    rewrite firstn_length. unfold zlen in H. cbn [length]. lia.
  - destruct (IH (turn5 st (firstn 64 data)) (skipn 64 data)) as (st' & A & B); [change 64%nat with (Z.to_nat 64); rewrite skipn_zlen by lia; lia|].
    cbv zeta. exists st'. split.
    + rewrite A, skipn_skipn. do 3 f_equal. lia.
    + replace (64 * (S n + 1))%nat with (64 + 64 * (n + 1))%nat by lia.
      rewrite <- (firstn_skipn 64 (firstn (64 + 64 * (n + 1)) data)). rewrite firstn_firstn, skipn_firstn_comm.
      replace (Init.Nat.min 64 (64 + 64 * (n + 1))) with 64%nat by lia. replace (64 + 64 * (n + 1) - 64)%nat with (64 * (n + 1))%nat by lia.
      unfold feed5. rewrite feeds_app, (feeds_full turn5 (firstn 64 data)); [exact B| |cbn [length]; lia].
      rewrite firstn_length. unfold zlen in H. cbn [length]. lia.
Qed.
Definition rep5 (s : md5) (st : regs4) (rest : list Z) (total : Z) : Prop :=
  state5 s = st /\ lo s = total mod 2 ^ 29 /\ hi s = (total / 2 ^ 29) mod 2 ^ 32 /\
  (exists junk, buffer5 s = rest ++ junk) /\ length (buffer5 s) = 64%nat /\ zlen rest = total mod 64 /\ (length rest < 64)%nat /\ 0 <= total.
Definition iv5 : regs4 := (1732584193, 4023233417, 2562383102, 271733878).
Lemma rep5_init s : length (buffer5 s) = 64%nat -> rep5 (init5 s) iv5 [] 0.
Proof.
  intros H. unfold rep5. cbn [state5 lo hi buffer5 init5]. split; [reflexivity|]. split; [reflexivity|]. split; [reflexivity|].
  split; [exists (buffer5 s); reflexivity|]. split; [exact H|]. split; [reflexivity|]. split; [cbn [length]; lia|lia].
Qed.
Lemma inv4_init : inv4 iv5.
Proof. unfold inv4, iv5. cbn [L4]. repeat (apply Forall_cons; [unfold word; lia|]). apply Forall_nil. Qed.
Lemma count5 total n : 0 <= total -> 0 <= n ->
  let l := total mod 2 ^ 29 in let h := (total / 2 ^ 29) mod 2 ^ 32 in
  let l' := Z.land (u64 (l + n)) 536870911 in
  l' = (total + n) mod 2 ^ 29 /\ u32 ((if l' <? l then u32 (h + 1) else h) + Z.shiftr n 29) = ((total + n) / 2 ^ 29) mod 2 ^ 32.
Proof.
  intros Ht Hn. cbv zeta.
  assert (E : Z.land (u64 (total mod 2 ^ 29 + n)) 536870911 = (total + n) mod 2 ^ 29).
  { change 536870911 with (Z.ones 29). rewrite Z.land_ones by lia. unfold u64. change (2 ^ 64) with (2 ^ 29 * 2 ^ 35).
    rewrite Z.rem_mul_r, (Z.mul_comm (2 ^ 29)), Z.mod_add, Z.mod_mod by lia. apply Zplus_mod_idemp_l. }
  split; [exact E|]. rewrite E. unfold u32. rewrite Z.shiftr_div_pow2 by lia.
  pose proof (Z.div_mod total (2 ^ 29) ltac:(lia)) as D1. pose proof (Z.mod_pos_bound total (2 ^ 29) ltac:(lia)) as D2.
  pose proof (Z.div_mod n (2 ^ 29) ltac:(lia)) as D3. pose proof (Z.mod_pos_bound n (2 ^ 29) ltac:(lia)) as D4.
  set (l := total mod 2 ^ 29) in *. set (h := total / 2 ^ 29) in *. set (n0 := n mod 2 ^ 29) in *. set (n1 := n / 2 ^ 29) in *.
  destruct (Z_lt_le_dec (l + n0) (2 ^ 29)) as [L|L].
  - replace ((total + n) mod 2 ^ 29) with (l + n0) by (apply Z.mod_unique with (q := h + n1); lia).
    replace ((total + n) / 2 ^ 29) with (h + n1) by (apply Z.div_unique with (r := l + n0); lia).
    replace (l + n0 <? l) with false by lia. rewrite Zplus_mod_idemp_l. reflexivity.
  - replace ((total + n) mod 2 ^ 29) with (l + n0 - 2 ^ 29) by (apply Z.mod_unique with (q := h + n1 + 1); lia).
    replace ((total + n) / 2 ^ 29) with (h + n1 + 1) by (apply Z.div_unique with (r := l + n0 - 2 ^ 29); lia).
    replace (l + n0 - 2 ^ 29 <? l) with true by lia. rewrite !Zplus_mod_idemp_l. 
    replace (h mod 2 ^ 32 + 1 + n1) with (h mod 2 ^ 32 + (1 + n1)) by lia. rewrite Zplus_mod_idemp_l. f_equal. lia.
Qed.
Lemma used5 total : Z.land (total mod 2 ^ 29) 63 = total mod 64.
Proof.
  change 63 with (Z.ones 6). rewrite Z.land_ones by lia. change (2 ^ 29) with (64 * 2 ^ 23). change (2 ^ 6) with 64.
  rewrite Z.rem_mul_r, (Z.mul_comm 64), Z.mod_add, Z.mod_mod by lia. reflexivity.
Qed.
Lemma rest5 st buffer data lo' hi' : length buffer = 64%nat ->
  exists buffer' junk, 
    ('(st, data) <- (if 64 <=? zlen data then
                      '(st, p) <- body5 (Z.to_nat (Z.shiftr (zlen data) 6) - 1) st data ;;
                      d <- sub p 0 (Z.land (zlen data) 63) ;; Ok (st, d)
                    else Ok (st, data)) ;;
     buffer <- put buffer 0 data ;; Ok (M5 lo' hi' st buffer)) = Ok (M5 lo' hi' (fst (feed5 (st, []) data)) buffer') /\
    buffer' = snd (feed5 (st, []) data) ++ junk /\ length buffer' = 64%nat.
Proof.
  intros Hb. pose proof (zlen_nonneg data) as Hn.
  destruct (Z.leb_spec 64 (zlen data)) as [L|L].
  - rewrite Z.shiftr_div_pow2 by lia. change 63 with (Z.ones 6). rewrite Z.land_ones by lia. change (2 ^ 6) with 64.
    pose proof (Z.div_mod (zlen data) 64 ltac:(lia)) as D. pose proof (Z.mod_pos_bound (zlen data) 64 ltac:(lia)) as D2.
    assert (Hq : 1 <= zlen data / 64) by (apply Z.div_le_lower_bound; lia).
    destruct (body5_ok (Z.to_nat (zlen data / 64) - 1) st data) as (st' & A & B); [lia|].
    rewrite A. cbn [bind]. replace (64 * (Z.to_nat (zlen data / 64) - 1 + 1))%nat with (Z.to_nat (64 * (zlen data / 64))) in * by lia.
    set (tail := skipn (Z.to_nat (64 * (zlen data / 64))) data) in *.
    assert (Ht : zlen tail = zlen data mod 64) by (unfold tail; rewrite skipn_zlen by lia; lia).
    rewrite sub_ok by lia. cbn [bind]. change (Z.to_nat 0) with 0%nat. rewrite skipn_O. rewrite firstn_all2 by (unfold zlen in *; lia).
    assert (F : feed5 (st, []) data = (st', tail)).
    { rewrite <- (firstn_skipn (Z.to_nat (64 * (zlen data / 64))) data). fold tail. unfold feed5 in *. rewrite feeds_app, B. apply feeds_short.
      cbn [length]. unfold zlen in *. lia. }
    rewrite put0 by (unfold zlen in *; lia). cbn [bind]. rewrite F. cbn [fst snd].
    eexists. eexists. split; [reflexivity|]. split; [reflexivity|]. rewrite app_length, skipn_length. unfold zlen in *. lia.
  - cbn [bind]. rewrite put0 by (unfold zlen in *; lia). cbn [bind].
    assert (F : feed5 (st, []) data = (st, data)) by (apply feeds_short; cbn [length]; unfold zlen in *; lia). rewrite F. cbn [fst snd].
    eexists. eexists. split; [reflexivity|]. split; [reflexivity|]. rewrite app_length, skipn_length. unfold zlen in *. lia.
Qed.
Lemma update5_ok s st rest total data : rep5 s st rest total ->
  exists s', update5 s data = Ok s' /\ rep5 s' (fst (feed5 (st, rest) data)) (snd (feed5 (st, rest) data)) (total + zlen data).
Proof.
  intros (E1 & E2 & E3 & (junk & E4) & E5 & E6 & E7 & E8). pose proof (zlen_nonneg data) as Hn.
  unfold update5. cbv zeta. rewrite E2, E3, used5, <- E6, E1, E4.
  destruct (count5 total (zlen data) E8 Hn) as (C1 & C2). cbv zeta in C1, C2. rewrite C2. rewrite C1. clear C1 C2.
  destruct (feeds_len turn5 data st rest E7) as (Z1 & Z2). fold (feed5 (st, rest) data) in Z1, Z2.
  assert (Done : forall buf junk', buf = snd (feed5 (st, rest) data) ++ junk' -> length buf = 64%nat ->
     rep5 (M5 ((total + zlen data) mod 2 ^ 29) (((total + zlen data) / 2 ^ 29) mod 2 ^ 32) (fst (feed5 (st, rest) data)) buf) (fst (feed5 (st, rest) data)) (snd (feed5 (st, rest) data)) (total + zlen data)).
  { intros buf junk' Hb Hl. unfold rep5. cbn [state5 lo hi buffer5]. split; [reflexivity|]. split; [reflexivity|]. split; [reflexivity|].
    split; [exists junk'; exact Hb|]. split; [exact Hl|]. split; [rewrite Z1, E6, Zplus_mod_idemp_l; reflexivity|]. split; [exact Z2|lia]. }
  rewrite E4 in E5. pose proof E5 as E5'. rewrite app_length in E5. pose proof (zlen_nonneg rest) as Hr. assert (Hr64 : zlen rest < 64) by (unfold zlen; lia).
  destruct (Z.eqb_spec (zlen rest) 0) as [Z0|Z0].
  - assert (rest = []) by (destruct rest; [reflexivity|unfold zlen in Z0; cbn [length] in Z0; lia]). subst rest. cbn [app] in *.
    destruct (rest5 st junk data ((total + zlen data) mod 2 ^ 29) (((total + zlen data) / 2 ^ 29) mod 2 ^ 32) E5') as (buf & j & A & B & C).
    eexists. split; [exact A|]. eapply Done; [exact B|exact C].
  - destruct (Z.ltb_spec (zlen data) (64 - zlen rest)) as [L|L].
    + rewrite put_app by (reflexivity || (unfold zlen in *; lia)). cbn [bind].
      assert (F : feed5 (st, rest) data = (st, rest ++ data)) by (apply feeds_short; unfold zlen in *; lia).
      rewrite F in *. cbn [fst snd] in *. eexists. split; [reflexivity|]. eapply Done; [rewrite app_assoc; reflexivity|].
      rewrite !app_length, skipn_length. unfold zlen in *. lia.
    + rewrite sub_ok by lia. cbn [bind]. change (Z.to_nat 0) with 0%nat. rewrite skipn_O.
      set (head := firstn (Z.to_nat (64 - zlen rest)) data).
      assert (Hh : zlen head = 64 - zlen rest) by (apply firstn_zlen; lia).
      rewrite put_app by (reflexivity || (unfold zlen in *; lia)). cbn [bind]. rewrite (skipn_all2 junk) by (unfold zlen in *; lia). rewrite app_nil_r.
      cbn [body5]. rewrite sub_ok by (rewrite ?zlen_app; lia). cbn [bind]. change (Z.to_nat 0) with 0%nat. rewrite skipn_O.
      rewrite firstn_all2 by (rewrite app_length; unfold zlen in *; lia).
      assert (Hfull : length (rest ++ head) = 64%nat) by (rewrite app_length; unfold zlen in *; lia).
      destruct (rest5 (turn5 st (rest ++ head)) (rest ++ head) (skipn (Z.to_nat (64 - zlen rest)) data) ((total + zlen data) mod 2 ^ 29) (((total + zlen data) / 2 ^ 29) mod 2 ^ 32) Hfull) as (buf & j & A & B & C).
      rewrite A. assert (F : feed5 (st, rest) data = feed5 (turn5 st (rest ++ head), []) (skipn (Z.to_nat (64 - zlen rest)) data)).
      { rewrite <- (firstn_skipn (Z.to_nat (64 - zlen rest)) data) at 1. fold head. unfold feed5. rewrite feeds_app, (feeds_full turn5 head) by (unfold zlen in *; lia). reflexivity. }
      rewrite <- F in B |- *. eexists. split; [reflexivity|]. eapply Done; [exact B|exact C].
Qed.
Definition out5 (st : regs4) : list Z := let '(a, b, c, d) := st in le_out a ++ le_out b ++ le_out c ++ le_out d.
Lemma len8_5 total : 0 <= total -> le_out (shl32 (total mod 2 ^ 29) 3) ++ le_out ((total / 2 ^ 29) mod 2 ^ 32) = bytes_le 8 (8 * total).
Proof.
  intros H. rewrite !le_out_eq. pose proof (Z.mod_pos_bound total (2 ^ 29) ltac:(lia)) as D2. rewrite shl32_small by lia. change (2 ^ 3) with 8.
  rewrite <- (bytes_le_app 4 4) by (change (256 ^ Z.of_nat 4) with (2 ^ 32); lia).
  rewrite <- (bytes_le_mod 8 (8 * total)). change (2 ^ (8 * Z.of_nat 8)) with (2 ^ 64). change (256 ^ Z.of_nat 4) with (2 ^ 32). change (4 + 4)%nat with 8%nat. f_equal.
  pose proof (Z.div_mod total (2 ^ 29) ltac:(lia)) as D1.
  pose proof (Z.div_mod (total / 2 ^ 29) (2 ^ 32) ltac:(lia)) as D3. pose proof (Z.mod_pos_bound (total / 2 ^ 29) (2 ^ 32) ltac:(lia)) as D4.
  apply Z.mod_unique with (q := total / 2 ^ 29 / 2 ^ 32); lia.
Qed.
Lemma body5_0 st b : length b = 64%nat -> body5 0 st b = Ok (turn5 st b, []).
Proof.
  intros H. cbn [body5]. rewrite sub_ok by (unfold zlen; lia). cbn [bind]. change (Z.to_nat 0) with 0%nat. rewrite skipn_O.
  rewrite firstn_all2 by (rewrite H; reflexivity). cbv zeta. rewrite skipn_all2 by (rewrite H; lia). reflexivity.
Qed.
Lemma final5_ok s st rest total : rep5 s st rest total ->
  exists k out, (k < 64)%nat /\ (total + 9 + Z.of_nat k) mod 64 = 0 /\
    feed5 (st, rest) ([128] ++ repeat 0 k ++ bytes_le 8 (8 * total)) = (out, []) /\ final5 s = Ok (out5 out).
Proof.
  intros (E1 & E2 & E3 & (junk & E4) & E5 & E6 & E7 & E8).
  unfold final5. cbv zeta. rewrite E2, E3, used5, <- E6, E1, E4.
  set (k := if (length rest <? 56)%nat then (55 - length rest)%nat else (119 - length rest)%nat).
  assert (Hk : (length rest < 56 -> k = 55 - length rest)%nat /\ (56 <= length rest -> k = 119 - length rest)%nat).
  { unfold k. destruct (Nat.ltb_spec (length rest) 56); lia. }
  clearbody k. pose proof (zlen_nonneg rest) as Hr. assert (Hr64 : zlen rest < 64) by (unfold zlen; lia).
  rewrite E4 in E5. destruct junk as [|y junk]; [rewrite app_nil_r in E5; lia|].
  rewrite set_app by reflexivity. cbn [bind]. rewrite app_length in E5. cbn [length] in E5.
  replace (rest ++ 128 :: junk) with ((rest ++ [128]) ++ junk) by (rewrite <- app_assoc; reflexivity).
  assert (Hl : zlen (rest ++ [128]) = zlen rest + 1) by (rewrite zlen_app; reflexivity).
  assert (M : (total + 9 + Z.of_nat k) mod 64 = 0).
  { rewrite <- Z.add_assoc, <- Zplus_mod_idemp_l, <- E6. destruct (Nat.lt_ge_cases (length rest) 56).
    - replace (zlen rest + (9 + Z.of_nat k)) with 64 by (unfold zlen in *; lia). reflexivity.
    - replace (zlen rest + (9 + Z.of_nat k)) with 128 by (unfold zlen in *; lia). reflexivity. }
  assert (P56 : forall a b, length a = 56%nat -> length (a ++ b) = 64%nat ->
     exists b', put (a ++ b) 56 (le_out (shl32 (total mod 2 ^ 29) 3)) = Ok b' /\ put b' 60 (le_out ((total / 2 ^ 29) mod 2 ^ 32)) = Ok (a ++ bytes_le 8 (8 * total))).
  { intros a b Ha Hb. rewrite app_length in Hb. eexists. split; [apply put_app; [unfold zlen; lia|]|].
    - unfold zlen. cbn [le_out length]. lia.
    - rewrite (app_assoc a). rewrite put_app; [|rewrite zlen_app; unfold zlen; cbn [le_out length]; lia|unfold zlen; rewrite skipn_length; cbn [le_out length]; lia].
      rewrite <- (len8_5 total E8), (skipn_all2 (skipn _ b)), app_nil_r, <- app_assoc; [reflexivity|]. rewrite skipn_length. cbn [le_out length]. lia. }
  exists k. destruct (Z.ltb_spec (64 - (zlen rest + 1)) 8) as [G|G].
  - rewrite put_app; [|lia|rewrite zlen_zeros by lia; unfold zlen; lia]. cbn [bind].
    rewrite skipn_all2 by (unfold zeros, zlen; rewrite repeat_length; lia). rewrite app_nil_r.
    assert (L1 : length ((rest ++ [128]) ++ zeros (64 - (zlen rest + 1))) = 64%nat) by (rewrite !app_length; unfold zeros; rewrite repeat_length; cbn [length]; unfold zlen; lia).
    rewrite body5_0 by exact L1. cbn [bind].
    rewrite put0 by (unfold zlen at 2; rewrite L1; vm_compute; discriminate). cbn [bind].
    destruct (P56 (zeros (64 - 8)) (skipn (length (zeros (64 - 8))) ((rest ++ [128]) ++ zeros (64 - (zlen rest + 1))))) as (b' & Q1 & Q2);
      [reflexivity|rewrite app_length, skipn_length, L1; reflexivity|].
    rewrite Q1. cbn [bind]. rewrite Q2. cbn [bind]. rewrite body5_0 by (rewrite app_length, bytes_le_length; reflexivity). cbn [bind].
    eexists. split; [unfold zlen in *; lia|]. split; [exact M|]. split; [|reflexivity].
    replace ([128] ++ repeat 0 k ++ bytes_le 8 (8 * total)) with (([128] ++ zeros (64 - (zlen rest + 1))) ++ (zeros (64 - 8) ++ bytes_le 8 (8 * total))).
    + unfold feed5. rewrite feeds_app, (feeds_full turn5 ([128] ++ zeros (64 - (zlen rest + 1)))).
      * rewrite feeds_full; [|rewrite app_length, bytes_le_length; reflexivity|cbn [length]; lia].
        rewrite <- (app_assoc rest [128]). reflexivity.
      * rewrite <- L1, !app_length. lia.
      * exact E7.
    + rewrite <- !app_assoc. f_equal. rewrite app_assoc. f_equal. unfold zeros. rewrite <- repeat_app. f_equal. unfold zlen in *. lia.
  - cbn [bind]. rewrite put_app; [|lia|rewrite zlen_zeros by lia; unfold zlen in *; lia]. cbn [bind].
    set (z := zeros (64 - (zlen rest + 1) - 8)).
    assert (Hz : length z = k) by (unfold z, zeros; rewrite repeat_length; unfold zlen in *; lia).
    destruct (P56 ((rest ++ [128]) ++ z) (skipn (length z) junk)) as (b' & Q1 & Q2);
      [rewrite !app_length, Hz; cbn [length]; unfold zlen in *; lia|rewrite !app_length, skipn_length, Hz; cbn [length]; unfold zlen in *; lia|].
    rewrite (app_assoc (rest ++ [128]) z), Q1. cbn [bind]. rewrite Q2. cbn [bind].
    assert (L2 : length (((rest ++ [128]) ++ z) ++ bytes_le 8 (8 * total)) = 64%nat).
    { rewrite !app_length, Hz, bytes_le_length. cbn [length]. unfold zlen in *. lia. }
    rewrite body5_0 by exact L2. cbn [bind].
    eexists. split; [unfold zlen in *; lia|]. split; [exact M|]. split; [|reflexivity].
    assert (Ez : z = repeat 0 k) by (unfold z, zeros; f_equal; unfold zlen in *; lia).
    unfold feed5. rewrite feeds_full.
    + rewrite Ez, <- !app_assoc. reflexivity.
    + rewrite <- L2, Ez, !app_length. cbn [length]. lia.
    + exact E7.
Qed.
Lemma finish5 m s : Forall byte m -> rep5 s (fst (feed5 (iv5, []) m)) (snd (feed5 (iv5, []) m)) (zlen m) ->
  exists d, final5 s = Ok d /\ length d = 16%nat /\ Forall byte d /\ MD5 m d.
Proof.
  intros Hm H. destruct (final5_ok _ _ _ _ H) as (k & out & Hk & M & F & R). rewrite <- surjective_pairing in F.
  destruct (finish_chain turn5 L4 inv4 compress5 iv5 m k (bytes_le 8 (8 * zlen m)) out turn5_ok inv4_init Hm (bytes_le_byte _ _) (bytes_le_length _ _) F M) as (I & Ch & Pm).
  exists (flat_map (bytes_le 4) (L4 out)). split; [rewrite R; destruct out as [[[a b] c] d]; unfold out5; cbn [L4 flat_map]; rewrite !le_out_eq, app_nil_r; reflexivity|].
  split; [rewrite (flat_map_length 4) by (intros; apply bytes_le_length); destruct out as [[[a b] c] d]; reflexivity|].
  split; [apply flat_map_byte; intros; apply bytes_le_byte|].
  exists (m ++ [128] ++ repeat 0 k ++ bytes_le 8 (8 * zlen m)), (L4 out). split; [|split; [exact Ch|reflexivity]].
  exists k. split; [lia|]. split; [reflexivity|exact Pm].
Qed.
Definition run5 (s : md5) (chunks : list (list Z)) : Res (list Z) :=
  s <- fold_left (fun r c => s <- r ;; update5 s c) chunks (Ok (init5 s)) ;; final5 s.
Lemma updates5 chunks : forall s st rest total, rep5 s st rest total ->
  exists s', fold_left (fun r c => s <- r ;; update5 s c) chunks (Ok s) = Ok s' /\
    rep5 s' (fst (feed5 (st, rest) (concat chunks))) (snd (feed5 (st, rest) (concat chunks))) (total + zlen (concat chunks)).
Proof.
  induction chunks as [|c t IH]; intros s st rest total H; cbn [fold_left concat].
  - exists s. split; [reflexivity|]. change (zlen (@nil Z)) with 0. rewrite Z.add_0_r. exact H.
  - cbn [bind]. destruct (update5_ok s st rest total c H) as (s' & A & B). rewrite A.
    destruct (IH _ _ _ _ B) as (s'' & C & D). exists s''. split; [exact C|].
    unfold feed5. rewrite feeds_app. fold (feed5 (st, rest) c). rewrite zlen_app, Z.add_assoc. destruct (feed5 (st, rest) c) as [u v]. exact D.
Qed.
Lemma run5_ok s chunks : length (buffer5 s) = 64%nat -> Forall (Forall byte) chunks ->
  exists d, run5 s chunks = Ok d /\ length d = 16%nat /\ MD5 (concat chunks) d.
Proof.
  intros Hs Hb. destruct (updates5 chunks _ _ _ _ (rep5_init s Hs)) as (s' & A & B).
  unfold run5. rewrite A. cbn [bind]. destruct (finish5 (concat chunks) s' (Forall_concat _ Hb) B) as (d & D1 & D2 & _ & D3).
  exists d. split; [exact D1|]. split; [exact D2|exact D3].
Qed.
