(** SHA-1: feeding the message. *)
From Coq Require Import ZArith Bool List Lia ZifyBool.
From Verif Require Import Mach ListAux HashModel HashSpec HashBits HashBlk Hash1.
Import ListNotations.
Open Scope Z_scope.

Definition feed1 := feeds transform1.
Definition rep1 (s : sha1) (st : regs5) (rest : list Z) (total : Z) : Prop :=
  state1 s = st /\ 0 <= count0 s < 2 ^ 32 /\ 0 <= count1 s < 2 ^ 32 /\ count0 s + 2 ^ 32 * count1 s = (8 * total) mod 2 ^ 64 /\
  (exists junk, buffer1 s = rest ++ junk) /\ length (buffer1 s) = 64%nat /\ zlen rest = total mod 64 /\ (length rest < 64)%nat.
Lemma rep1_init : rep1 init1 (state1 init1) [] 0.
Proof.
  unfold rep1. cbn [state1 count0 count1 buffer1 init1]. split; [reflexivity|]. split; [lia|]. split; [lia|]. split; [reflexivity|].
  split; [exists (zeros 64); reflexivity|]. split; [reflexivity|]. split; [reflexivity|cbn [length]; lia].
Qed.
Lemma inv5_init : inv5 (state1 init1).
Proof. unfold inv5. cbn [state1 init1 L5]. repeat (apply Forall_cons; [unfold word; lia|]). apply Forall_nil. Qed.
(** The number of bits, in two words. *)
Lemma count_add c0 c1 x : 0 <= c0 < 2 ^ 32 -> 0 <= c1 < 2 ^ 32 -> 0 <= x ->
  let d0 := u32 (c0 + shl32 x 3) in
  let d1 := u32 ((if d0 <? c0 then u32 (c1 + 1) else c1) + Z.shiftr x 29) in
  d0 + 2 ^ 32 * d1 = (c0 + 2 ^ 32 * c1 + 8 * x) mod 2 ^ 64 /\ 0 <= d0 < 2 ^ 32 /\ 0 <= d1 < 2 ^ 32.
Proof.
  intros H0 H1 Hx. cbv zeta. unfold shl32, u32. rewrite Z.shiftl_mul_pow2, Z.shiftr_div_pow2 by lia. change (2 ^ 3) with 8.
  assert (E : x / 2 ^ 29 = (x * 8) / 2 ^ 32) by (change (2 ^ 32) with (2 ^ 29 * 8); rewrite Z.div_mul_cancel_r by lia; reflexivity). rewrite E.
  pose proof (Z.div_mod (x * 8) (2 ^ 32) ltac:(lia)) as D1. pose proof (Z.mod_pos_bound (x * 8) (2 ^ 32) ltac:(lia)) as D2.
  assert (D3 : 0 <= x * 8 / 2 ^ 32) by (apply Z.div_pos; lia).
  set (x0 := (x * 8) mod 2 ^ 32) in *. set (x1 := x * 8 / 2 ^ 32) in *. clearbody x0 x1.
  split; [|split; apply Z.mod_pos_bound; lia].
  assert (C : (if (c0 + x0) mod 2 ^ 32 <? c0 then (c1 + 1) mod 2 ^ 32 else c1) mod 2 ^ 32 = (c1 + (c0 + x0) / 2 ^ 32) mod 2 ^ 32).
  { destruct (Z_lt_le_dec (c0 + x0) (2 ^ 32)) as [L|L].
    - rewrite (Z.mod_small (c0 + x0)), (Z.div_small (c0 + x0)) by lia. replace (c0 + x0 <? c0) with false by lia. f_equal. lia.
    - replace ((c0 + x0) mod 2 ^ 32) with (c0 + x0 - 2 ^ 32) by (apply Z.mod_unique with (q := 1); lia).
      replace ((c0 + x0) / 2 ^ 32) with 1 by (apply Z.div_unique with (r := c0 + x0 - 2 ^ 32); lia).
      replace (c0 + x0 - 2 ^ 32 <? c0) with true by lia. apply Z.mod_mod. lia. }
  rewrite <- (Zplus_mod_idemp_l (if (c0 + x0) mod 2 ^ 32 <? c0 then (c1 + 1) mod 2 ^ 32 else c1) x1), C, Zplus_mod_idemp_l.
  pose proof (Z.div_mod (c0 + x0) (2 ^ 32) ltac:(lia)) as D4. pose proof (Z.mod_pos_bound (c0 + x0) (2 ^ 32) ltac:(lia)) as D5.
  set (d0 := (c0 + x0) mod 2 ^ 32) in *. set (cy := (c0 + x0) / 2 ^ 32) in *. clearbody d0 cy.
  pose proof (Z.div_mod (c1 + cy + x1) (2 ^ 32) ltac:(lia)) as D6. pose proof (Z.mod_pos_bound (c1 + cy + x1) (2 ^ 32) ltac:(lia)) as D7.
  set (d1 := (c1 + cy + x1) mod 2 ^ 32) in *. set (q := (c1 + cy + x1) / 2 ^ 32) in *. clearbody d1 q.
  apply Z.mod_unique with (q := q); lia.
Qed.
Lemma place1 c0 c1 total : 0 <= c0 < 2 ^ 32 -> c0 + 2 ^ 32 * c1 = (8 * total) mod 2 ^ 64 ->
  c0 mod 8 = 0 /\ (c0 / 8) mod 64 = total mod 64.
Proof.
  intros H E. pose proof (Z.div_mod (8 * total) (2 ^ 64) ltac:(lia)) as D.
  set (q := 8 * total / 2 ^ 64) in *. rewrite <- E in D. clearbody q.
  replace c0 with ((total - 2 ^ 61 * q - 2 ^ 29 * c1) * 8) by lia.
  split; [apply Z.mod_mul; lia|]. rewrite Z.div_mul by lia.
  replace (total - 2 ^ 61 * q - 2 ^ 29 * c1) with (total + (- 2 ^ 55 * q - 2 ^ 23 * c1) * 64) by lia. apply Z.mod_add. lia.
Qed.
Lemma land63 x : Z.land (Z.shiftr x 3) 63 = (x / 8) mod 64.
Proof. change 63 with (Z.ones 6). rewrite Z.land_ones, Z.shiftr_div_pow2 by lia. reflexivity. Qed.
Lemma land504 x : x mod 8 = 0 -> Z.land x 504 = 8 * ((x / 8) mod 64).
Proof.
  intros H. pose proof (Z.div_mod x 8 ltac:(lia)) as D. rewrite H in D.
  assert (E : x = Z.shiftl (x / 8) 3) by (rewrite Z.shiftl_mul_pow2 by lia; lia).
  rewrite E at 1. change 504 with (Z.shiftl (Z.ones 6) 3). rewrite <- Z.shiftl_land, Z.land_ones, Z.shiftl_mul_pow2 by lia. change (2 ^ 6) with 64. lia.
Qed.
Lemma whole1_ok data fuel : zlen data <= 2 ^ 32 - 64 -> forall st i, 0 <= i <= zlen data -> zlen data - i <= Z.of_nat fuel ->
  exists st' i', whole1 fuel st data (zlen data) i = Ok (st', i') /\ i <= i' <= zlen data /\ zlen data - i' < 64 /\
    feed1 (st, []) (skipn (Z.to_nat i) data) = (st', skipn (Z.to_nat i') data).
Proof.
  intros Hlen. induction fuel as [|n IH]; intros st i Hi Hf; cbn [whole1]; unfold u32; rewrite (Z.mod_small (i + 63)) by lia;
    destruct (Z.ltb_spec (i + 63) (zlen data)) as [L|L]; try lia.
  - exists st, i. split; [reflexivity|]. split; [lia|]. split; [lia|].
    unfold feed1. rewrite feeds_short; [reflexivity|]. cbn [length]. rewrite skipn_length. unfold zlen in *. lia.
  - rewrite sub_ok by lia. cbn [bind]. fold (u32 (i + 64)). unfold u32. rewrite (Z.mod_small (i + 64)) by lia.
    destruct (IH (transform1 st (firstn (Z.to_nat 64) (skipn (Z.to_nat i) data))) (i + 64)) as (st' & i' & A & B & C & D); [lia|lia|].
    exists st', i'. split; [exact A|]. split; [lia|]. split; [exact C|].
    rewrite <- (firstn_skipn 64 (skipn (Z.to_nat i) data)). unfold feed1. rewrite feeds_app.
    rewrite (feeds_full transform1 (firstn 64 (skipn (Z.to_nat i) data)));
      [|cbn [length]; rewrite firstn_length, skipn_length; unfold zlen in *; lia|cbn [length]; lia].
    rewrite skipn_skipn. replace (Z.to_nat i + 64)%nat with (Z.to_nat (i + 64)) by lia. exact D.
  - exists st, i. split; [reflexivity|]. split; [lia|]. split; [lia|].
    unfold feed1. rewrite feeds_short; [reflexivity|]. cbn [length]. rewrite skipn_length. unfold zlen in *. lia.
Qed.
Lemma update1_ok s st rest total data : rep1 s st rest total -> zlen data <= 2 ^ 32 - 64 ->
  exists s', update1 s data = Ok s' /\ rep1 s' (fst (feed1 (st, rest) data)) (snd (feed1 (st, rest) data)) (total + zlen data).
Proof.
  intros (E1 & E2 & E3 & E4 & (junk & E5) & E6 & E7 & E8) Hlen.
  pose proof (zlen_nonneg data) as Hn. pose proof (zlen_nonneg rest) as Hr.
  unfold update1. unfold u32. cbv zeta. rewrite !(Z.mod_small (zlen data)) by lia.
  destruct (place1 _ _ _ E2 E4) as (P1 & P2). rewrite land63, P2, <- E7.
  assert (Hr64 : zlen rest < 64) by (unfold zlen; lia).
  rewrite (Z.mod_small (zlen rest + zlen data)) by lia.
  pose proof (count_add (count0 s) (count1 s) (zlen data) E2 E3 Hn) as Hc. cbv zeta in Hc. unfold u32 in Hc |- *.
  set (d0 := (count0 s + shl32 (zlen data) 3) mod 2 ^ 32) in *.
  set (d1 := ((if d0 <? count0 s then (count1 s + 1) mod 2 ^ 32 else count1 s) + Z.shiftr (zlen data) 29) mod 2 ^ 32) in *.
  clearbody d0 d1. destruct Hc as (Hc & Hc0 & Hc1).
  destruct (feeds_len transform1 data st rest E8) as (Z1 & Z2). fold (feed1 (st, rest) data) in Z1, Z2.
  assert (Done : forall buf junk', buf = snd (feed1 (st, rest) data) ++ junk' -> length buf = 64%nat ->
     rep1 (S1 (fst (feed1 (st, rest) data)) d0 d1 buf) (fst (feed1 (st, rest) data)) (snd (feed1 (st, rest) data)) (total + zlen data)).
  { intros buf junk' Hb Hl. unfold rep1. cbn [state1 count0 count1 buffer1]. split; [reflexivity|]. split; [exact Hc0|]. split; [exact Hc1|].
    split; [rewrite Hc, E4, Zplus_mod_idemp_l; f_equal; lia|]. split; [exists junk'; exact Hb|]. split; [exact Hl|].
    split; [|exact Z2]. rewrite Z1, E7, Zplus_mod_idemp_l. reflexivity. }
  rewrite E5, E1. rewrite E5 in E6. rewrite app_length in E6.
  destruct (Z.ltb_spec 63 (zlen rest + zlen data)) as [L|L].
  - rewrite sub_ok by lia. cbn [bind]. change (Z.to_nat 0) with 0%nat. cbn [skipn].
    set (fst64 := firstn (Z.to_nat (64 - zlen rest)) data).
    assert (Hfl : zlen fst64 = 64 - zlen rest) by (apply firstn_zlen; lia).
    rewrite put_app by (reflexivity || (rewrite Hfl; unfold zlen; lia)). cbn [bind].
    rewrite (skipn_all2 junk) by (unfold zlen in *; lia). rewrite app_nil_r.
    destruct (whole1_ok data (length data) Hlen (transform1 st (rest ++ fst64)) (64 - zlen rest)) as (st' & i' & A & B & C & D); [lia|unfold zlen; lia|].
    rewrite A. cbn [bind]. rewrite sub_ok by (rewrite ?(Z.mod_small (zlen data - i')) by lia; lia).
    rewrite (Z.mod_small (zlen data - i')) by lia. cbn [bind].
    assert (Hk : zlen (skipn (Z.to_nat i') data) = zlen data - i') by (apply skipn_zlen; lia).
    rewrite (firstn_all2 (skipn (Z.to_nat i') data)) by (unfold zlen in *; lia).
    assert (Ef : feed1 (st, rest) data = (st', skipn (Z.to_nat i') data)).
    { rewrite <- D. rewrite <- (firstn_skipn (Z.to_nat (64 - zlen rest)) data) at 1. unfold feed1. rewrite feeds_app.
      fold fst64. rewrite (feeds_full transform1 fst64) by (unfold zlen in *; lia). reflexivity. }
    rewrite put0 by (rewrite zlen_app; unfold zlen in *; lia). cbn [bind].
    eexists. split; [reflexivity|].
    rewrite Ef in Done |- *. cbn [fst snd] in Done |- *. eapply Done; [reflexivity|].
    rewrite app_length, !skipn_length, app_length. unfold zlen in *. lia.
  - cbn [bind]. rewrite Z.sub_0_r, (Z.mod_small (zlen data)) by lia. rewrite sub_ok by lia. cbn [bind]. change (Z.to_nat 0) with 0%nat. cbn [skipn].
    rewrite firstn_all2 by (unfold zlen; lia).
    rewrite put_app by (reflexivity || (unfold zlen in *; lia)). cbn [bind].
    eexists. split; [reflexivity|].
    assert (Ef : feed1 (st, rest) data = (st, rest ++ data)) by (apply feeds_short; unfold zlen in *; lia).
    rewrite Ef in Done |- *. cbn [fst snd] in Done |- *. eapply Done; [rewrite app_assoc; reflexivity|].
    rewrite !app_length, skipn_length. unfold zlen in *. lia.
Qed.
Lemma pad1_ok k : forall fuel s st rest total, rep1 s st rest total -> (total + Z.of_nat k) mod 64 = 56 -> (k < 64)%nat -> (k <= fuel)%nat ->
  exists s', pad1 fuel s = Ok s' /\ rep1 s' (fst (feed1 (st, rest) (repeat 0 k))) (snd (feed1 (st, rest) (repeat 0 k))) (total + Z.of_nat k).
Proof.
  induction k as [|k IH]; intros fuel s st rest total H Hm Hk Hf.
  - exists s. assert (E : Z.land (count0 s) 504 =? 448 = true).
    { destruct H as (_ & A & _ & B & _). destruct (place1 _ _ _ A B) as (P1 & P2). rewrite land504 by exact P1. rewrite P2.
      replace (total + Z.of_nat 0) with total in Hm by lia. rewrite Hm. reflexivity. }
    destruct fuel; cbn [pad1]; rewrite E; (split; [reflexivity|]); replace (total + Z.of_nat 0) with total by lia; exact H.
  - destruct fuel as [|n]; [lia|]. cbn [pad1].
    assert (E : Z.land (count0 s) 504 =? 448 = false).
    { destruct H as (_ & A & _ & B & _). destruct (place1 _ _ _ A B) as (P1 & P2). rewrite land504 by exact P1. rewrite P2.
      pose proof (Z.div_mod (total + Z.of_nat (S k)) 64 ltac:(lia)). pose proof (Z.div_mod total 64 ltac:(lia)). lia. }
    rewrite E. destruct (update1_ok s st rest total [0] H) as (s' & A & B); [unfold zlen; cbn [length]; lia|]. rewrite A. cbn [bind].
    destruct (IH n s' _ _ _ B) as (s'' & C & D); [rewrite <- Hm; f_equal; unfold zlen; cbn [length]; lia|lia|lia|].
    exists s''. split; [exact C|]. change (repeat 0 (S k)) with ([0] ++ repeat 0 k). unfold feed1 in *. rewrite feeds_app.
    rewrite (surjective_pairing (feeds transform1 (st, rest) [0])).
    replace (total + Z.of_nat (S k)) with (total + zlen [0] + Z.of_nat k) by (unfold zlen; cbn [length]; lia). exact D.
Qed.
Lemma finalcount_eq s total : 0 <= count0 s < 2 ^ 32 -> 0 <= count1 s < 2 ^ 32 -> count0 s + 2 ^ 32 * count1 s = (8 * total) mod 2 ^ 64 ->
  map (fun i => Z.land (Z.shiftr (if 4 <=? i then count0 s else count1 s) ((3 - Z.land i 3) * 8)) 255) (upto 0 8) = bytes_be 8 (8 * total).
Proof.
  intros H0 H1 E. rewrite <- bytes_be_mod, <- E. set (c0 := count0 s) in *. set (c1 := count1 s) in *. clearbody c0 c1.
  transitivity (be_out c1 ++ be_out c0); [reflexivity|]. rewrite !be_out_eq by assumption. unfold bytes_be.
  rewrite <- rev_app_distr. f_equal. symmetry. apply (bytes_le_app 4 4). exact H0.
Qed.
Lemma digest1_eq out : inv5 out ->
  (let '(a, b, c, d, e) := out in map (fun i => Z.land (Z.shiftr (at_ [a; b; c; d; e] (Z.shiftr i 2)) ((3 - Z.land i 3) * 8)) 255) (upto 0 20)) = flat_map (bytes_be 4) (L5 out).
Proof.
  intros H. destruct out as [[[[a b] c] d] e]. unfold inv5 in H. cbn [L5] in H. rewrite !Forall_cons_iff in H. destruct H as (Ha & Hb & Hc & Hd & He & _).
  cbn [L5 flat_map]. rewrite app_nil_r, <- !be_out_eq by assumption. reflexivity.
Qed.
Definition out1 (out : regs5) : list Z :=
  let '(a, b, c, d, e) := out in map (fun i => Z.land (Z.shiftr (at_ [a; b; c; d; e] (Z.shiftr i 2)) ((3 - Z.land i 3) * 8)) 255) (upto 0 20).
Lemma final1_ok s st rest total : rep1 s st rest total ->
  exists k out, (k < 64)%nat /\ (total + 9 + Z.of_nat k) mod 64 = 0 /\
    feed1 (st, rest) ([128] ++ repeat 0 k ++ bytes_be 8 (8 * total)) = (out, []) /\ final1 s = Ok (out1 out).
Proof.
  intros H. pose proof H as (_ & H0 & H1 & H2 & _ & _ & H3 & H4).
  unfold final1. rewrite (finalcount_eq s total H0 H1 H2).
  destruct (update1_ok _ _ _ _ [128] H) as (sa & A1 & A2); [unfold zlen; cbn [length]; lia|]. rewrite A1. cbn [bind].
  set (k := Z.to_nat ((55 - total) mod 64)).
  pose proof (Z.mod_pos_bound (55 - total) 64 ltac:(lia)) as Hk. pose proof (Z.div_mod (55 - total) 64 ltac:(lia)) as Hk2.
  assert (Hk3 : Z.of_nat k = (55 - total) mod 64) by (unfold k; lia). clearbody k.
  assert (M : (total + 9 + Z.of_nat k) mod 64 = 0).
  { rewrite Hk3. replace (total + 9 + (55 - total) mod 64) with (0 + (1 - (55 - total) / 64) * 64) by lia. rewrite Z.mod_add by lia. reflexivity. }
  destruct (pad1_ok k 64 sa _ _ _ A2) as (sb & B1 & B2); [|lia|lia|].
  { rewrite Hk3. change (zlen [128]) with 1.
    replace (total + 1 + (55 - total) mod 64) with (56 + (- ((55 - total) / 64)) * 64) by lia. rewrite Z.mod_add by lia. reflexivity. }
  rewrite B1. cbn [bind].
  destruct (update1_ok _ _ _ _ (bytes_be 8 (8 * total)) B2) as (sc & C1 & C2); [unfold zlen; rewrite bytes_be_length; lia|]. rewrite C1. cbn [bind].
  rewrite <- !surjective_pairing in C2.
  assert (E : feed1 (feed1 (feed1 (st, rest) [128]) (repeat 0 k)) (bytes_be 8 (8 * total)) = feed1 (st, rest) ([128] ++ repeat 0 k ++ bytes_be 8 (8 * total))).
  { unfold feed1. rewrite !feeds_app. reflexivity. }
  rewrite E in C2.
  assert (W : snd (feed1 (st, rest) ([128] ++ repeat 0 k ++ bytes_be 8 (8 * total))) = []).
  { apply feeds_whole; [exact H4|]. rewrite H3, !zlen_app. unfold zlen. rewrite repeat_length, bytes_be_length.
    rewrite Zplus_mod_idemp_l, <- M. f_equal. cbn [length]. lia. }
  destruct (feed1 (st, rest) ([128] ++ repeat 0 k ++ bytes_be 8 (8 * total))) as [out r] eqn:Eo. cbn [snd] in W. subst r. cbn [fst snd] in C2.
  exists k, out. split; [lia|]. split; [exact M|]. split; [exact Eo|]. destruct C2 as (C2 & _). rewrite C2. reflexivity.
Qed.
Lemma finish1 m s : Forall byte m -> rep1 s (fst (feed1 (state1 init1, []) m)) (snd (feed1 (state1 init1, []) m)) (zlen m) ->
  exists d, final1 s = Ok d /\ length d = 20%nat /\ Forall byte d /\ SHA1 m d.
Proof.
  intros Hm H. destruct (final1_ok _ _ _ _ H) as (k & out & Hk & M & F & R). rewrite <- surjective_pairing in F.
  destruct (finish_chain transform1 L5 inv5 compress1 (state1 init1) m k (bytes_be 8 (8 * zlen m)) out transform1_ok inv5_init Hm (bytes_be_byte _ _) (bytes_be_length _ _) F M) as (I & Ch & Pm).
  unfold out1 in R. rewrite digest1_eq in R by exact I.
  exists (flat_map (bytes_be 4) (L5 out)). split; [exact R|].
  split; [rewrite (flat_map_length 4) by (intros; apply bytes_be_length); destruct out as [[[[a b] c] d] e]; reflexivity|].
  split; [apply flat_map_byte; intros; apply bytes_be_byte|].
  exists (m ++ [128] ++ repeat 0 k ++ bytes_be 8 (8 * zlen m)), (L5 out). split; [|split; [exact Ch|reflexivity]].
  exists k. split; [lia|]. split; [reflexivity|exact Pm].
Qed.
Definition run1 (chunks : list (list Z)) : Res (list Z) :=
  s <- fold_left (fun r c => s <- r ;; update1 s c) chunks (Ok init1) ;; final1 s.
Lemma updates1 chunks : forall s st rest total, rep1 s st rest total -> Forall (fun c => zlen c <= 2 ^ 32 - 64) chunks ->
  exists s', fold_left (fun r c => s <- r ;; update1 s c) chunks (Ok s) = Ok s' /\
    rep1 s' (fst (feed1 (st, rest) (concat chunks))) (snd (feed1 (st, rest) (concat chunks))) (total + zlen (concat chunks)).
Proof.
  induction chunks as [|c t IH]; intros s st rest total H Hc; cbn [fold_left concat].
  - exists s. split; [reflexivity|]. change (zlen (@nil Z)) with 0. rewrite Z.add_0_r. exact H.
  - inversion Hc; subst. cbn [bind]. destruct (update1_ok s st rest total c H) as (s' & A & B); [assumption|]. rewrite A.
    destruct (IH _ _ _ _ B) as (s'' & C & D); [assumption|]. exists s''. split; [exact C|].
    unfold feed1. rewrite feeds_app. fold (feed1 (st, rest) c). rewrite zlen_app, Z.add_assoc. destruct (feed1 (st, rest) c) as [u v]. exact D.
Qed.
Lemma run1_ok chunks : Forall (Forall byte) chunks -> Forall (fun c => zlen c <= 2 ^ 32 - 64) chunks ->
  exists d, run1 chunks = Ok d /\ length d = 20%nat /\ SHA1 (concat chunks) d.
Proof.
  intros Hb Hc. destruct (updates1 chunks _ _ _ _ rep1_init Hc) as (s & A & B).
  unfold run1. rewrite A. cbn [bind]. destruct (finish1 (concat chunks) s (Forall_concat _ Hb) B) as (d & D1 & D2 & _ & D3).
  exists d. split; [exact D1|]. split; [exact D2|exact D3].
Qed.
