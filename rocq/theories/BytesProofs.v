From Coq Require Import ZArith Bool List Lia ZifyBool.
From Verif Require Import Mach LexModel LexSpec LexProofs5 BytesModel BytesSpec.
Import ListNotations.
Open Scope Z_scope.

(** A value function skips the white space. *)
Definition skips (val : Z -> Res Z) : Prop := forall c, is_space c = true -> val c = Ok (-1).
Lemma skips_nibble : skips nibble.
Proof. intros c H. unfold is_space in H. assert (c = 32 \/ c = 9 \/ c = 10) as [ -> | [ -> | -> ] ] by lia; reflexivity. Qed.
Lemma skips_sextet : skips sextet.
Proof. intros c H. unfold is_space in H. assert (c = 32 \/ c = 9 \/ c = 10) as [ -> | [ -> | -> ] ] by lia; reflexivity. Qed.
Lemma no_space_cons c s : no_space (c :: s) = (if is_space c then [] else [c]) ++ no_space s.
Proof. unfold no_space. cbn [filter]. destruct (is_space c); reflexivity. Qed.

(** Finding the next value before the end: skip the white space. *)
Lemma find_first val v : skips val -> forall cs d ds r stop, no_space cs = d :: ds -> val d = Ok v -> 0 <= v -> match stop with Some e => e <= zlen r | None => True end ->
  exists cs', find_val val stop (cs ++ r) = Ok (Some v, cs' ++ r) /\ no_space cs' = ds /\ (length cs' < length cs)%nat /\ (forall x, In x cs' -> In x cs).
Proof.
  intros Hs. induction cs as [|c cs IH]; intros d ds r stop Hn Hv Hp Hst; [discriminate|]. cbn [app find_val]. rewrite no_space_cons in Hn. destruct (is_space c) eqn:Sp.
  - rewrite (Hs c Sp). cbn [bind]. change (-1 <? 0) with true. cbv iota. cbn [app] in Hn.
    assert (Hne : match stop with Some e => zlen (cs ++ r) =? e | None => false end = false).
    { destruct stop as [e|]; [|reflexivity]. rewrite zlen_app. destruct cs as [|y cs]; [discriminate|]. rewrite zlen_cons. pose proof (zlen_nonneg cs). lia. }
    rewrite Hne. destruct (IH d ds r stop Hn Hv Hp Hst) as (cs' & E & A & B & C). exists cs'. split; [exact E|]. split; [exact A|]. split; [cbn; lia|]. intros x Hx. right. apply C. exact Hx.
  - cbn [app] in Hn. injection Hn as -> <-. rewrite Hv. cbn [bind]. replace (v <? 0) with false by lia. exists cs. split; [reflexivity|]. split; [reflexivity|]. split; [cbn; lia|]. intros; right; assumption.
Qed.
(** Only white space left: the loop returns at the end. *)
Lemma find_none val : skips val -> forall cs r, cs <> [] -> no_space cs = [] -> find_val val (Some (zlen r)) (cs ++ r) = Ok (None, r).
Proof.
  intros Hs. induction cs as [|c cs IH]; intros r Hc Hn; [congruence|]. rewrite no_space_cons in Hn. destruct (is_space c) eqn:Sp; [|discriminate]. cbn [app find_val]. rewrite (Hs c Sp). cbn [bind]. change (-1 <? 0) with true. cbv iota.
  rewrite zlen_app. destruct cs as [|y cs].
  - change (zlen (@nil Z)) with 0. rewrite Z.add_0_l, Z.eqb_refl. reflexivity.
  - replace (zlen (y :: cs) + zlen r =? zlen r) with false by (rewrite zlen_cons; pose proof (zlen_nonneg cs); lia). apply IH; [discriminate|exact Hn].
Qed.

(** ** Hex *)
Lemma nibble_ok d x : hexdigit d = Some x -> nibble d = Ok x /\ 0 <= x < 16.
Proof. intros H. destruct (hexdigit_some _ _ H) as (A & B & C & D). unfold nibble. replace (128 <=? d) with false by lia. rewrite B. auto. Qed.
Lemma lor_nib x y : 0 <= x < 16 -> 0 <= y < 16 -> Z.lor (Z.shiftl x 4) y mod 256 = 16 * x + y.
Proof.
  intros Hx Hy. assert (K : forallb (fun i => forallb (fun j => Z.lor (Z.shiftl (Z.of_nat i) 4) (Z.of_nat j) mod 256 =? 16 * Z.of_nat i + Z.of_nat j) (seq 0 16)) (seq 0 16) = true) by (vm_compute; reflexivity).
  rewrite forallb_forall in K. specialize (K (Z.to_nat x) ltac:(apply in_seq; lia)). rewrite forallb_forall in K. specialize (K (Z.to_nat y) ltac:(apply in_seq; lia)). rewrite !Z2Nat.id in K by lia. lia.
Qed.
Lemma parse_hex_ok : forall n fuel cs r pre gap tail, (length (no_space cs) <= 2 * n)%nat -> (n < fuel)%nat -> Forall (fun x => hexdigit x <> None \/ is_space x = true) cs ->
  Nat.even (length (no_space cs)) = true -> length gap = length (hex_bytes (no_space cs)) ->
  parse_hex fuel (zlen r) (pre ++ gap ++ tail) (zlen pre) (cs ++ r) = Ok (pre ++ map Some (hex_bytes (no_space cs)) ++ tail).
Proof.
  induction n as [|n IH]; intros fuel cs r pre gap tail Hn Hf F Ev Hg; (destruct fuel as [|f]; [lia|]); cbn [parse_hex]; rewrite zlen_app; pose proof (zlen_nonneg cs); pose proof (zlen_nonneg r).
  - destruct (no_space cs) as [|d ds] eqn:En; [|cbn in Hn; lia]. cbn [hex_bytes map length] in *. destruct gap; [|discriminate]. cbn [app].
    destruct cs as [|c cs].
    + change (zlen (@nil Z)) with 0. replace (zlen r <? 0 + zlen r) with false by lia. reflexivity.
    + replace (zlen r <? zlen (c :: cs) + zlen r) with true by (rewrite zlen_cons in *; pose proof (zlen_nonneg cs); lia). rewrite find_none; [reflexivity|apply skips_nibble|discriminate|exact En].
  - destruct (no_space cs) as [|d [|d2 ds]] eqn:En.
    + cbn [hex_bytes map length] in *. destruct gap; [|discriminate]. cbn [app].
      destruct cs as [|c cs].
      * change (zlen (@nil Z)) with 0. replace (zlen r <? 0 + zlen r) with false by lia. reflexivity.
      * replace (zlen r <? zlen (c :: cs) + zlen r) with true by (rewrite zlen_cons in *; pose proof (zlen_nonneg cs); lia). rewrite find_none; [reflexivity|apply skips_nibble|discriminate|exact En].
    + discriminate.
    + assert (Hd : forall x, In x (d :: d2 :: ds) -> exists v, hexdigit x = Some v).
      { intros x Hx. rewrite <- En in Hx. unfold no_space in Hx. apply filter_In in Hx. destruct Hx as [Hx Hs]. rewrite Forall_forall in F. destruct (F x Hx) as [H1|H1]; [|rewrite H1 in Hs; discriminate]. destruct (hexdigit x) as [v|]; [exists v; reflexivity|congruence]. }
      destruct (Hd d ltac:(left; reflexivity)) as (x & Ex). destruct (Hd d2 ltac:(right; left; reflexivity)) as (y & Ey).
      destruct (nibble_ok d x Ex) as [Nx Bx]. destruct (nibble_ok d2 y Ey) as [Ny By].
      assert (0 < zlen cs) by (destruct cs; [discriminate|rewrite zlen_cons; pose proof (zlen_nonneg cs); lia]).
      replace (zlen r <? zlen cs + zlen r) with true by lia.
      destruct (find_first nibble x skips_nibble cs d (d2 :: ds) r (Some (zlen r)) En Nx ltac:(lia) ltac:(cbn; lia)) as (cs1 & E1 & N1 & L1 & I1). rewrite E1. cbn [bind].
      destruct (find_first nibble y skips_nibble cs1 d2 ds r None N1 Ny ltac:(lia) I) as (cs2 & E2 & N2 & L2 & I2). rewrite E2. cbn [must bind]. 
      cbn [hex_bytes] in *. rewrite Ex, Ey in *. cbn [length] in Hg. destruct gap as [|g gap]; [discriminate|]. cbn [app]. rewrite set_app by reflexivity. cbn [bind]. rewrite lor_nib by assumption.
      specialize (IH f cs2 r (pre ++ [Some (16 * x + y)]) gap tail). rewrite zlen_app in IH. change (zlen [Some (16 * x + y)]) with 1 in IH. rewrite <- !app_assoc in IH. cbn [app] in IH. rewrite N2 in IH. cbn [map app]. apply IH; cbn [length] in *; try lia.
      * rewrite Forall_forall in *. intros z Hz. apply F, I1, I2, Hz.
      * exact Ev.
Qed.

(** ** Base64 *)
Lemma sextet_ok d x : b64_digit d = Some x -> sextet d = Ok x /\ 0 <= x < 64 /\ d <> 61.
Proof.
  unfold b64_digit, sextet, is_upper, is_lower, is_digit. intros H.
  destruct ((65 <=? d) && (d <=? 90)) eqn:A; [injection H as <-; split; [reflexivity|lia]|].
  destruct ((97 <=? d) && (d <=? 122)) eqn:B; [injection H as <-; split; [f_equal; lia|lia]|].
  destruct ((48 <=? d) && (d <=? 57)) eqn:C; [injection H as <-; split; [f_equal; lia|lia]|].
  destruct (d =? 43) eqn:D; [injection H as <-; split; [reflexivity|lia]|]. destruct (d =? 47) eqn:E; [injection H as <-; split; [reflexivity|lia]|discriminate].
Qed.
(** The three bytes of a quadruple. *)
Definition quad (a b c d : Z) : list Z := [a * 4 + b / 16; b mod 16 * 16 + c / 4; c mod 4 * 64 + d].
Lemma quad_ok a b c d : 0 <= a < 64 -> 0 <= b < 64 -> 0 <= c < 64 -> 0 <= d < 64 ->
  let t := Z.shiftl a 18 + Z.shiftl b 12 + Z.shiftl c 6 + d in
  Z.land (Z.shiftr t 16) 255 = a * 4 + b / 16 /\ Z.land (Z.shiftr t 8) 255 = b mod 16 * 16 + c / 4 /\ Z.land t 255 = c mod 4 * 64 + d.
Proof.
  intros Ha Hb Hc Hd. cbv zeta. rewrite !Z.shiftl_mul_pow2 by lia. rewrite !Z.shiftr_div_pow2 by lia. change 255 with (Z.ones 8). rewrite !Z.land_ones by lia.
  change (2 ^ 18) with 262144. change (2 ^ 12) with 4096. change (2 ^ 6) with 64. change (2 ^ 16) with 65536. change (2 ^ 8) with 256.
  pose proof (Z.div_mod b 16 ltac:(lia)). pose proof (Z.mod_pos_bound b 16 ltac:(lia)). pose proof (Z.div_mod c 4 ltac:(lia)). pose proof (Z.mod_pos_bound c 4 ltac:(lia)).
  assert (T : a * 262144 + b * 4096 + c * 64 + d = (a * 4 + b / 16) * 65536 + (b mod 16 * 16 + c / 4) * 256 + (c mod 4 * 64 + d)) by lia. rewrite T.
  set (x := a * 4 + b / 16) in *. set (y := b mod 16 * 16 + c / 4) in *. set (z := c mod 4 * 64 + d) in *.
  assert (0 <= x < 256) by lia. assert (0 <= y < 256) by lia. assert (0 <= z < 256) by lia.
  replace ((x * 65536 + y * 256 + z) / 65536) with x; [|apply Z.div_unique with (y * 256 + z); lia].
  replace ((x * 65536 + y * 256 + z) / 256) with (x * 256 + y); [|apply Z.div_unique with z; lia].
  split; [apply Z.mod_small; lia|]. split.
  - symmetry. apply Z.mod_unique with x; lia.
  - symmetry. apply Z.mod_unique with (x * 256 + y); lia.
Qed.
Definition write (xs : list Z) (gap : mem) : mem := map Some (firstn (length gap) xs) ++ skipn (length xs) gap.
Lemma put_below_ok pre gap tail x : put_below (zlen pre + zlen gap) (pre ++ gap ++ tail) (zlen pre) x =
  Ok (match gap with [] => (pre ++ gap ++ tail, zlen pre) | _ :: g => ((pre ++ [Some x]) ++ g ++ tail, zlen (pre ++ [Some x])) end).
Proof.
  unfold put_below. destruct gap as [|g gap].
  - change (zlen (@nil (option Z))) with 0. replace (zlen pre <? zlen pre + 0) with false by lia. reflexivity.
  - rewrite zlen_cons. pose proof (zlen_nonneg gap). replace (zlen pre <? zlen pre + (1 + zlen gap)) with true by lia. cbn [app]. rewrite set_app by reflexivity. cbn [bind]. rewrite <- app_assoc, zlen_app. reflexivity.
Qed.
(** Zero for padding. *)
Definition sx (c : Z) : Z := match b64_digit c with Some v => v | None => 0 end.
Fixpoint quads (ds : list Z) : list Z := match ds with a :: b :: c :: d :: r => quad (sx a) (sx b) (sx c) (sx d) ++ quads r | _ => [] end.
Lemma sx_ok c : b64_digit c <> None \/ c = 61 -> sextet c = Ok (sx c) /\ 0 <= sx c < 64.
Proof.
  intros [H| -> ]; [|cbn; split; [reflexivity|lia]]. unfold sx. destruct (b64_digit c) as [v|] eqn:E; [|congruence]. destruct (sextet_ok c v E) as (A & B & _). auto.
Qed.
Lemma parse_base64_ok : forall n fuel cs r pre gap tail, length (no_space cs) = (4 * n)%nat -> (n < fuel)%nat -> Forall (fun x => b64_digit x <> None \/ x = 61) (no_space cs) ->
  (length gap <= length (quads (no_space cs)))%nat ->
  parse_base64 fuel (zlen r) (zlen pre + zlen gap) (pre ++ gap ++ tail) (zlen pre) (cs ++ r) = Ok (pre ++ map Some (firstn (length gap) (quads (no_space cs))) ++ tail).
Proof.
  induction n as [|n IH]; intros fuel cs r pre gap tail Hn Hf F Hg; (destruct fuel as [|f]; [lia|]); cbn [parse_base64]; rewrite zlen_app; pose proof (zlen_nonneg cs); pose proof (zlen_nonneg r).
  - destruct (no_space cs) as [|d ds] eqn:En; [|discriminate]. cbn [quads map length] in *. destruct gap; [|cbn in Hg; lia]. cbn [app firstn length map].
    destruct cs as [|c cs].
    + change (zlen (@nil Z)) with 0. replace (zlen r <? 0 + zlen r) with false by lia. reflexivity.
    + replace (zlen r <? zlen (c :: cs) + zlen r) with true by (rewrite zlen_cons in *; pose proof (zlen_nonneg cs); lia). rewrite find_none; [reflexivity|apply skips_sextet|discriminate|exact En].
  - destruct (no_space cs) as [|d1 [|d2 [|d3 [|d4 ds]]]] eqn:En; try (cbn in Hn; lia).
    inversion F as [|? ? H1 F1]; subst. inversion F1 as [|? ? H2 F2]; subst. inversion F2 as [|? ? H3 F3]; subst. inversion F3 as [|? ? H4 F4]; subst. clear F F1 F2 F3.
    destruct (sx_ok d1 H1) as [S1 B1]. destruct (sx_ok d2 H2) as [S2 B2]. destruct (sx_ok d3 H3) as [S3 B3]. destruct (sx_ok d4 H4) as [S4 B4].
    assert (0 < zlen cs) by (destruct cs; [discriminate|rewrite zlen_cons; pose proof (zlen_nonneg cs); lia]).
    replace (zlen r <? zlen cs + zlen r) with true by lia.
    destruct (find_first sextet (sx d1) skips_sextet cs d1 _ r (Some (zlen r)) En S1 ltac:(lia) ltac:(cbn; lia)) as (cs1 & E1 & N1 & _). rewrite E1. cbn [bind].
    destruct (find_first sextet (sx d2) skips_sextet cs1 d2 _ r None N1 S2 ltac:(lia) I) as (cs2 & E2 & N2 & _). rewrite E2. cbn [must bind].
    destruct (find_first sextet (sx d3) skips_sextet cs2 d3 _ r None N2 S3 ltac:(lia) I) as (cs3 & E3 & N3 & _). rewrite E3. cbn [must bind].
    destruct (find_first sextet (sx d4) skips_sextet cs3 d4 _ r None N3 S4 ltac:(lia) I) as (cs4 & E4 & N4 & _). rewrite E4. cbn [must bind]. cbv zeta.
    destruct (quad_ok (sx d1) (sx d2) (sx d3) (sx d4) B1 B2 B3 B4) as (Q1 & Q2 & Q3). cbv zeta in Q1, Q2, Q3. rewrite Q1, Q2, Q3. cbn [quads] in *.
    assert (Len : length ds = (4 * n)%nat) by (cbn in Hn; lia).
    assert (Fin : forall pre' gap' rend, rend = zlen pre' + zlen gap' -> (length gap' <= length (quads ds))%nat ->
       parse_base64 f (zlen r) rend (pre' ++ gap' ++ tail) (zlen pre') (cs4 ++ r) = Ok (pre' ++ map Some (firstn (length gap') (quads ds)) ++ tail)).
    { intros pre' gap' rend -> Hg'. rewrite <- N4. apply IH; [rewrite N4; lia|lia|rewrite N4; exact F4|rewrite N4; exact Hg']. }
    rewrite put_below_ok. cbn [bind].
    destruct gap as [|g1 gap]; [cbn [app]; rewrite (put_below_ok pre [] tail) by reflexivity|].
    { cbn [bind app]. assert (P : forall x, put_below (zlen pre + zlen (@nil (option Z))) (pre ++ tail) (zlen pre) x = Ok (pre ++ tail, zlen pre)) by (intros x; apply (put_below_ok pre [] tail x)). rewrite P. cbn [bind].
      exact (Fin pre [] _ eq_refl (Nat.le_0_l _)). }
    replace (zlen pre + zlen (g1 :: gap)) with (zlen (pre ++ [Some (sx d1 * 4 + sx d2 / 16)]) + zlen gap) by (unfold zlen; rewrite app_length; cbn [length]; lia).
    set (p1 := pre ++ [Some (sx d1 * 4 + sx d2 / 16)]). rewrite put_below_ok. cbn [bind].
    destruct gap as [|g2 gap].
    { assert (P : forall x, put_below (zlen p1 + zlen (@nil (option Z))) (p1 ++ [] ++ tail) (zlen p1) x = Ok (p1 ++ [] ++ tail, zlen p1)) by (intros x; apply (put_below_ok p1 [] tail x)). rewrite P. cbn [bind].
      rewrite (Fin p1 [] _ eq_refl ltac:(cbn; lia)). unfold p1. rewrite <- app_assoc. reflexivity. }
    replace (zlen p1 + zlen (g2 :: gap)) with (zlen (p1 ++ [Some (sx d2 mod 16 * 16 + sx d3 / 4)]) + zlen gap) by (unfold zlen; rewrite app_length; cbn [length]; lia).
    set (p2 := p1 ++ [Some (sx d2 mod 16 * 16 + sx d3 / 4)]). rewrite put_below_ok. cbn [bind].
    destruct gap as [|g3 gap].
    { rewrite (Fin p2 [] _ eq_refl ltac:(cbn; lia)). unfold p2, p1. rewrite <- !app_assoc. reflexivity. }
    replace (zlen p2 + zlen (g3 :: gap)) with (zlen (p2 ++ [Some (sx d3 mod 4 * 64 + sx d4)]) + zlen gap) by (unfold zlen; rewrite app_length; cbn [length]; lia).
    set (p3 := p2 ++ [Some (sx d3 mod 4 * 64 + sx d4)]). rewrite (Fin p3 gap _ eq_refl ltac:(cbn in Hg; lia)).
    unfold p3, p2, p1. rewrite <- !app_assoc. reflexivity.
Qed.
