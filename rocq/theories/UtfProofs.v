(** UTF conversions. *)
From Coq Require Import ZArith Lia Bool List ZifyBool.
From Verif Require Import Mach ListAux CodecModel CodecSpec CodecProofs B64Proofs HexProofs LexSpec UtfModel UtfSpec.
Import ListNotations.
Open Scope Z_scope.

(** ** Bytes *)
Ltac bytes := let c := fresh in let H := fresh in intros c H; apply Z.eqb_eq || apply eqb_prop; revert c H; apply all_bytes; vm_compute; reflexivity.
Lemma cls1 : forall c, is_byte c -> (Z.land c 128 =? 0) = (c <? 128). Proof. bytes. Qed.
Lemma cls2 : forall c, is_byte c -> (Z.land c 224 =? 192) = ((192 <=? c) && (c <? 224)). Proof. bytes. Qed.
Lemma cls3 : forall c, is_byte c -> (Z.land c 240 =? 224) = ((224 <=? c) && (c <? 240)). Proof. bytes. Qed.
Lemma cls4 : forall c, is_byte c -> (Z.land c 248 =? 240) = ((240 <=? c) && (c <? 248)). Proof. bytes. Qed.
Lemma clsc : forall c, is_byte c -> is_cont c = ((128 <=? c) && (c <? 192)). Proof. bytes. Qed.
Lemma and63 x : Z.land x 63 = x mod 64. Proof. exact (Z.land_ones x 6 ltac:(lia)). Qed.
Lemma and31 x : Z.land x 31 = x mod 32. Proof. exact (Z.land_ones x 5 ltac:(lia)). Qed.
Lemma and15 x : Z.land x 15 = x mod 16. Proof. exact (Z.land_ones x 4 ltac:(lia)). Qed.
Lemma and7 x : Z.land x 7 = x mod 8. Proof. exact (Z.land_ones x 3 ltac:(lia)). Qed.
Lemma and1023 x : Z.land x 1023 = x mod 1024. Proof. exact (Z.land_ones x 10 ltac:(lia)). Qed.
Lemma shl6 x : Z.shiftl x 6 = 64 * x. Proof. rewrite Z.shiftl_mul_pow2 by lia. lia. Qed.
Lemma shl12 x : Z.shiftl x 12 = 4096 * x. Proof. rewrite Z.shiftl_mul_pow2 by lia. lia. Qed.
Lemma shl18 x : Z.shiftl x 18 = 262144 * x. Proof. rewrite Z.shiftl_mul_pow2 by lia. lia. Qed.
Lemma shl10 x : Z.shiftl x 10 = 1024 * x. Proof. rewrite Z.shiftl_mul_pow2 by lia. lia. Qed.
Lemma shr6 x : Z.shiftr x 6 = x / 64. Proof. rewrite Z.shiftr_div_pow2 by lia. reflexivity. Qed.
Lemma shr12 x : Z.shiftr x 12 = x / 4096. Proof. rewrite Z.shiftr_div_pow2 by lia. reflexivity. Qed.
Lemma shr18 x : Z.shiftr x 18 = x / 262144. Proof. rewrite Z.shiftr_div_pow2 by lia. reflexivity. Qed.
Lemma shr10 x : Z.shiftr x 10 = x / 1024. Proof. rewrite Z.shiftr_div_pow2 by lia. reflexivity. Qed.
Lemma modof k n a c : 0 <= a < n -> c = k * n + a -> c mod n = a. Proof. intros H ->. symmetry. apply Z.mod_unique with k; lia. Qed.

Lemma lor_plus k a x : 0 <= x < 2 ^ Z.of_nat k -> Z.lor (a * 2 ^ Z.of_nat k) x = a * 2 ^ Z.of_nat k + x.
Proof.
  intros H. assert (Z.land (a * 2 ^ Z.of_nat k) x = 0) as E.
  { apply Z.bits_inj'. intros n Hn. rewrite Z.land_spec, Z.bits_0. destruct (Z.lt_ge_cases n (Z.of_nat k)).
    - rewrite Z.mul_pow2_bits_low by lia. reflexivity.
    - rewrite (small_bits (Z.of_nat k) x H n) by lia. apply andb_false_r. }
  rewrite Z.add_nocarry_lxor, Z.lxor_lor by exact E. reflexivity.
Qed.
Lemma lor128 x : 0 <= x < 64 -> byte (Z.lor 128 x) = 128 + x.
Proof. intros H. change 128 with (2 * 2 ^ Z.of_nat 6) at 1. rewrite (lor_plus 6 2 x H). unfold byte. apply Z.mod_small. lia. Qed.

(** ** One sequence *)
Lemma lead_spec pre t : Forall is_byte t -> t <> [] ->
  (exists u b t', t = b ++ t' /\ loose u b /\ utf8_to_char32 (pre ++ t) (zlen pre) (zlen t) = Ok (Some (u, zlen b)))
  \/ (utf8_to_char32 (pre ++ t) (zlen pre) (zlen t) = Ok None /\ forall u b t', t = b ++ t' -> ~ loose u b).
Proof.
  intros Hb Hne. destruct t as [|c t]; [congruence|]. clear Hne. fcons Hb Hc. unfold utf8_to_char32. pose proof (zlen_nonneg t).
  rewrite zlen_cons. replace (1 + zlen t <? 1) with false by lia. rewrite (get_at pre (c :: t) 0 (zlen pre)) by lia. change (get (c :: t) 0) with (Ok c). cbn [bind].
  rewrite cls1, cls2, cls3, cls4 by exact Hc. unfold is_byte in Hc.
  (* why no sequence starts here *)
  assert (No : forall k, (forall u b, loose u b -> hd 0 b = c -> length b = k) -> (length (c :: t) < k)%nat -> forall u b t', c :: t = b ++ t' -> ~ loose u b).
  { intros k Hk Hl u b t' E L. assert (length b = k) as Lb by (apply (Hk u b L); destruct L; cbn [app hd] in *; congruence). rewrite E, app_length in Hl. lia. }
  assert (G1 : forall x r, t = x :: r -> get (pre ++ c :: t) (zlen pre + 1) = Ok x) by (intros x r ->; rewrite (get_at pre _ 1) by lia; reflexivity).
  assert (G2 : forall x y r, t = x :: y :: r -> get (pre ++ c :: t) (zlen pre + 2) = Ok y) by (intros x y r ->; rewrite (get_at pre _ 2) by lia; reflexivity).
  assert (G3 : forall x y z r, t = x :: y :: z :: r -> get (pre ++ c :: t) (zlen pre + 3) = Ok z) by (intros x y z r ->; rewrite (get_at pre _ 3) by lia; reflexivity).
  destruct (Z.ltb_spec c 128) as [H1|H1].
  { left. exists c, [c], t. split; [reflexivity|]. split; [constructor; lia|reflexivity]. }
  destruct ((192 <=? c) && (c <? 224)) eqn:C2.
  { destruct t as [|x r].
    - right. replace (1 + zlen (@nil Z) <? 2) with true by reflexivity. split; [reflexivity|]. apply (No 2%nat); [|cbn; lia].
      intros u b L E. destruct L; cbn [hd length] in *; lia.
    - rewrite zlen_cons in *. pose proof (zlen_nonneg r). replace (1 + (1 + zlen r) <? 2) with false by lia. rewrite (G1 x r eq_refl). cbn [bind]. fcons Hb Hx.
      rewrite clsc by exact Hx. unfold is_byte in Hx. rewrite and31, shl6, and63. rewrite (modof 6 32 (c - 192)) by lia.
      destruct ((64 * (c - 192) =? 0) || negb ((128 <=? x) && (x <? 192))) eqn:D.
      + right. split; [reflexivity|]. intros u b t' E L. destruct L; cbn [app] in E; injection E; clear E; intros; subst; unfold cont in *; lia.
      + left. rewrite (modof 2 64 (x - 128)) by lia. exists (64 * (c - 192) + (x - 128)), [c; x], r. split; [reflexivity|]. split; [|reflexivity].
        apply Loose2; unfold cont; lia. }
  destruct ((224 <=? c) && (c <? 240)) eqn:C3.
  { assert (L3 : forall u b, loose u b -> hd 0 b = c -> length b = 3%nat) by (intros u b L E; destruct L; cbn [hd length] in *; lia).
    destruct t as [|x [|y r]].
    - right. split; [reflexivity|]. apply (No 3%nat L3). cbn; lia.
    - right. split; [reflexivity|]. apply (No 3%nat L3). cbn; lia.
    - rewrite !zlen_cons in *. pose proof (zlen_nonneg r). replace (1 + (1 + (1 + zlen r)) <? 3) with false by lia. rewrite (G1 x (y :: r) eq_refl), (G2 x y r eq_refl). cbn [bind].
      fcons Hb Hx. fcons Hb Hy. rewrite !clsc by assumption. unfold is_byte in Hx, Hy. rewrite and15, shl12, !and63, shl6. rewrite (modof 14 16 (c - 224)) by lia.
      destruct (negb ((128 <=? x) && (x <? 192))) eqn:D1.
      { right. split; [reflexivity|]. intros u b t' E L. destruct L; cbn [app] in E; injection E; clear E; intros; subst; unfold cont in *; lia. }
      rewrite (modof 2 64 (x - 128)) by lia.
      destruct ((4096 * (c - 224) + 64 * (x - 128) =? 0) || negb ((128 <=? y) && (y <? 192))) eqn:D2.
      + right. split; [reflexivity|]. intros u b t' E L. destruct L; cbn [app] in E; injection E; clear E; intros; subst; unfold cont in *; lia.
      + left. rewrite (modof 2 64 (y - 128)) by lia. exists (4096 * (c - 224) + 64 * (x - 128) + (y - 128)), [c; x; y], r. split; [reflexivity|]. split; [|reflexivity].
        apply Loose3; unfold cont; lia. }
  assert (L4 : forall u b, loose u b -> hd 0 b = c -> length b = 4%nat) by (intros u b L E; destruct L; cbn [hd length] in *; lia).
  destruct t as [|x [|y [|z r]]].
  - right. split; [reflexivity|]. apply (No 4%nat L4). cbn; lia.
  - right. split; [reflexivity|]. apply (No 4%nat L4). cbn; lia.
  - right. split; [reflexivity|]. apply (No 4%nat L4). cbn; lia.
  - rewrite !zlen_cons in *. pose proof (zlen_nonneg r). replace (1 + (1 + (1 + (1 + zlen r))) <? 4) with false by lia.
    destruct ((240 <=? c) && (c <? 248)) eqn:C4; cbn [negb].
    2:{ right. split; [reflexivity|]. intros u b t' E L. destruct L; cbn [app] in E; injection E; clear E; intros; subst; unfold cont in *; lia. }
    rewrite (G1 x (y :: z :: r) eq_refl), (G2 x y (z :: r) eq_refl), (G3 x y z r eq_refl). cbn [bind].
    fcons Hb Hx. fcons Hb Hy. fcons Hb Hz. rewrite !clsc by assumption. unfold is_byte in Hx, Hy, Hz. rewrite and7, shl18, !and63, shl12, shl6. rewrite (modof 30 8 (c - 240)) by lia.
    destruct (negb ((128 <=? x) && (x <? 192))) eqn:D1.
    { right. split; [reflexivity|]. intros u b t' E L. destruct L; cbn [app] in E; injection E; clear E; intros; subst; unfold cont in *; lia. }
    rewrite (modof 2 64 (x - 128)) by lia.
    destruct (negb ((128 <=? y) && (y <? 192))) eqn:D2.
    { right. split; [reflexivity|]. intros u b t' E L. destruct L; cbn [app] in E; injection E; clear E; intros; subst; unfold cont in *; lia. }
    rewrite (modof 2 64 (y - 128)) by lia.
    destruct ((262144 * (c - 240) + 4096 * (x - 128) + 64 * (y - 128) =? 0) || negb ((128 <=? z) && (z <? 192))) eqn:D3.
    + right. split; [reflexivity|]. intros u b t' E L. destruct L; cbn [app] in E; injection E; clear E; intros; subst; unfold cont in *; lia.
    + left. rewrite (modof 2 64 (z - 128)) by lia. exists (262144 * (c - 240) + 4096 * (x - 128) + 64 * (y - 128) + (z - 128)), [c; x; y; z], r. split; [reflexivity|]. split; [|reflexivity].
      apply Loose4; unfold cont; lia.
Qed.
Lemma loose_length u b : loose u b -> (1 <= length b <= 4)%nat.
Proof. intros L. destruct L; unfold cont in *; cbn [length]; lia. Qed.
Lemma loose_det u b t u' b' t' : loose u b -> loose u' b' -> b ++ t = b' ++ t' -> u = u' /\ b = b' /\ t = t'.
Proof.
  intros L L' E. destruct L; destruct L'; cbn [app] in E; injection E; clear E; intros; subst; unfold cont in *; try lia; repeat split; reflexivity.
Qed.
Lemma looses_det : forall us s, looses us s -> forall us', looses us' s -> us = us'.
Proof.
  induction 1 as [|u b us bs L LS IH]; intros us' H.
  - inversion H as [|u0 b0 us0 bs0 L0 _ E1 E2]; [reflexivity|]. apply loose_length in L0. destruct b0; [cbn in L0; lia|discriminate].
  - remember (b ++ bs) as s eqn:Es. destruct H as [|u0 b0 us0 bs0 L0 LS0].
    + apply loose_length in L. destruct b; [cbn in L; lia|discriminate].
    + destruct (loose_det _ _ _ _ _ _ L0 L Es) as (-> & -> & ->). f_equal. apply IH, LS0.
Qed.
Lemma looses_head us t u b t' : looses us t -> t = b ++ t' -> loose u b -> exists us', us = u :: us' /\ looses us' t'.
Proof.
  intros H E L. destruct H as [|u0 b0 us0 bs0 L0 LS0].
  - apply loose_length in L. destruct b; [cbn in L; lia|discriminate].
  - destruct (loose_det _ _ _ _ _ _ L0 L E) as (-> & -> & ->). eauto.
Qed.
Lemma loose_prefix u a b w c cs : loose u (utf8 u) -> utf8 u = a ++ b -> loose w c -> a = c ++ cs -> b <> [] -> False.
Proof.
  intros L E L' -> Hb. rewrite E in L. destruct (loose_det u ((c ++ cs) ++ b) [] w c (cs ++ b) L L') as (_ & _ & E2); [rewrite app_nil_r, <- app_assoc; reflexivity|].
  symmetry in E2. apply app_eq_nil in E2 as [_ E2]. congruence.
Qed.
Lemma loose_utf8 u : 0 <= u <= 1114111 -> loose u (utf8 u).
Proof.
  intros H. unfold utf8. pose proof (Z.div_mod u 64 ltac:(lia)). pose proof (Z.mod_pos_bound u 64 ltac:(lia)).
  destruct (Z.leb_spec u 127); [constructor; lia|].
  assert (forall v b, v = u -> loose v b -> loose u b) as R by (intros v b ->; exact id).
  destruct (Z.leb_spec u 2047).
  { eapply R; [|apply Loose2; unfold cont; lia]. lia. }
  pose proof (Z.div_mod (u / 64) 64 ltac:(lia)). pose proof (Z.mod_pos_bound (u / 64) 64 ltac:(lia)).
  assert (u / 64 / 64 = u / 4096) as E by (rewrite Z.div_div by lia; reflexivity). rewrite E in *.
  destruct (Z.leb_spec u 65535).
  { eapply R; [|apply Loose3; unfold cont; lia]. lia. }
  pose proof (Z.div_mod (u / 4096) 64 ltac:(lia)). pose proof (Z.mod_pos_bound (u / 4096) 64 ltac:(lia)).
  assert (u / 4096 / 64 = u / 262144) as E2 by (rewrite Z.div_div by lia; reflexivity). rewrite E2 in *.
  eapply R; [|apply Loose4; unfold cont; lia]. lia.
Qed.
Lemma looses_utf8 us : Forall (fun u => 0 <= u <= 1114111) us -> looses us (utf8s us).
Proof. unfold utf8s. induction 1; cbn [flat_map]; constructor; [apply loose_utf8; assumption|assumption]. Qed.

(** ** Buffers *)
Lemma store_at (d r xs : list Z) p : p = zlen d -> zlen xs <= zlen r -> store (d ++ r) p xs = Ok ((d ++ xs) ++ skipn (length xs) r).
Proof.
  intros -> H. unfold store. pose proof (zlen_nonneg d). rewrite zlen_app. replace (0 <=? zlen d) with true by lia. replace (zlen d + zlen xs <=? zlen d + zlen r) with true by lia.
  cbn [andb]. unfold zlen. rewrite Nat2Z.id. rewrite firstn_app, Nat.sub_diag, firstn_all, firstn_O, app_nil_r.
  rewrite skipn_app. rewrite (skipn_all2 d) by lia. replace (length d + length xs - length d)%nat with (length xs) by lia. rewrite <- app_assoc. reflexivity.
Qed.
(** Bytes that are no continuation bytes. *)
Definition heads (s : list Z) : Z := zlen (filter (fun c => negb (is_cont c)) s).
Lemma heads_app a b : heads (a ++ b) = heads a + heads b.
Proof. unfold heads. rewrite filter_app, zlen_app. reflexivity. Qed.
Lemma heads_nonneg s : 0 <= heads s. Proof. apply zlen_nonneg. Qed.
Lemma heads_le s : heads s <= zlen s.
Proof. unfold heads. induction s as [|c s IH]; cbn [filter]; [lia|]. destruct (negb (is_cont c)); rewrite !zlen_cons; lia. Qed.
Lemma codepoints_ok : forall s n, 0 <= n -> n + zlen s < 2 ^ 64 -> utf8_codepoints s n = n + heads s.
Proof.
  unfold heads. induction s as [|c s IH]; intros n Hn Hm; cbn [utf8_codepoints filter]; [change (zlen (@nil Z)) with 0; lia|].
  rewrite zlen_cons in Hm. pose proof (zlen_nonneg s).
  destruct (negb (is_cont c)); [|apply IH; lia]. unfold usz. rewrite Z.mod_small by lia. rewrite IH by lia. rewrite zlen_cons. lia.
Qed.
Lemma loose_bytes u b : loose u b -> Forall is_byte b.
Proof. intros L. destruct L; unfold cont in *; repeat (constructor; [unfold is_byte; lia|]); constructor. Qed.
Lemma cont_true c : cont c -> negb (is_cont c) = false.
Proof. intros H. unfold cont in H. rewrite clsc by (unfold is_byte; lia). lia. Qed.
Lemma cont_false c : 0 <= c < 128 \/ 192 <= c < 256 -> negb (is_cont c) = true.
Proof. intros H. rewrite clsc by (unfold is_byte; lia). lia. Qed.
Lemma heads_loose u b : loose u b -> heads b = 1.
Proof. intros L. unfold heads. destruct L; cbn [filter]; repeat match goal with H : cont ?c |- _ => rewrite (cont_true c H); unfold cont in H end; rewrite cont_false by (unfold cont in *; lia); reflexivity. Qed.
Lemma heads_looses us s : looses us s -> heads s = zlen us.
Proof. induction 1 as [|u b us bs L LS IH]; [reflexivity|]. rewrite heads_app, IH, zlen_cons, (heads_loose u b L). reflexivity. Qed.

Lemma u8to32_loop : forall k t, (length t <= k)%nat -> forall fuel pre d r, (length t < fuel)%nat -> Forall is_byte t -> heads t <= zlen r ->
  (exists us, looses us t /\ utf8to32_unsafe fuel (pre ++ t) (zlen pre) (d ++ r) (zlen d) = Ok (Some (d ++ us ++ skipn (length us) r)))
  \/ (utf8to32_unsafe fuel (pre ++ t) (zlen pre) (d ++ r) (zlen d) = Ok None /\ forall us, ~ looses us t).
Proof.
  induction k as [|k IH]; intros t Hk fuel pre d r Hf Hb Hr; destruct fuel as [|fuel]; try lia;
    (destruct t as [|c t0]; [left; exists []; split; [constructor|]; cbn [utf8to32_unsafe]; rewrite app_nil_r, Z.ltb_irrefl; reflexivity|]).
  { cbn [length] in Hk. lia. }
  remember (c :: t0) as t eqn:Et. assert (t <> []) as Hne by (subst; discriminate).
  assert (Unf : utf8to32_unsafe (S fuel) (pre ++ t) (zlen pre) (d ++ r) (zlen d) = (q <- utf8_to_char32 (pre ++ t) (zlen pre) (zlen t) ;; match q with None => Ok None | Some (uc, width) => buf <- store (d ++ r) (zlen d) [uc] ;; utf8to32_unsafe fuel (pre ++ t) (zlen pre + width) buf (zlen d + 1) end)).
  { cbn [utf8to32_unsafe]. rewrite zlen_app. replace (zlen pre <? zlen pre + zlen t) with true by (subst t; rewrite zlen_cons; pose proof (zlen_nonneg t0); lia).
    replace (zlen pre + zlen t - zlen pre) with (zlen t) by lia. reflexivity. }
  rewrite Unf. clear Unf. clear Et c t0.
  destruct (lead_spec pre t Hb Hne) as [(u & b & t' & -> & L & E)|[E N]]; rewrite E; cbn [bind].
  - rewrite heads_app, (heads_loose u b L) in Hr. pose proof (heads_nonneg t'). rewrite store_at by (reflexivity || (change (zlen [u]) with 1; lia)). cbn [bind].
    pose proof (loose_length u b L). rewrite app_length in *. apply Forall_app in Hb as [_ Hb].
    destruct (IH t' ltac:(lia) fuel (pre ++ b) (d ++ [u]) (skipn 1 r) ltac:(lia) Hb ltac:(unfold zlen in *; rewrite skipn_length; lia)) as [(us & LS & E2)|[E2 N]].
    + left. exists (u :: us). split; [constructor; assumption|]. rewrite <- !app_assoc, !zlen_app in E2. rewrite <- !app_assoc. change (length [u]) with 1%nat. change (zlen [u]) with 1 in E2. rewrite E2.
      cbn [app length]. destruct r; [change (zlen (@nil Z)) with 0 in Hr; lia|]. reflexivity.
    + right. rewrite <- !app_assoc, !zlen_app in E2. rewrite <- !app_assoc. change (length [u]) with 1%nat. change (zlen [u]) with 1 in E2. rewrite E2. split; [reflexivity|].
      intros us LS. destruct (looses_head _ _ u b t' LS eq_refl L) as (us' & -> & LS'). exact (N us' LS').
  - right. split; [reflexivity|]. intros us LS. destruct LS as [|u b us bs L LS]; [congruence|]. exact (N u b bs eq_refl L).
Qed.
Lemma to_utf32_ok junk s : (forall n, 0 <= n -> zlen (junk n) = n) -> Forall is_byte s -> zlen s < 2 ^ 62 ->
  (exists us, looses us s /\ to_utf32 junk s = Ok (Some us)) \/ (to_utf32 junk s = Ok None /\ forall us, ~ looses us s).
Proof.
  intros Hj Hb Hn. unfold to_utf32. pose proof (zlen_nonneg s). pose proof (heads_nonneg s). pose proof (heads_le s). rewrite codepoints_ok by lia. rewrite Z.add_0_l.
  unfold usz. rewrite Z.mod_small by lia. pose proof (Hj (heads s + 1) ltac:(lia)) as Hl. set (r := junk (heads s + 1)) in *.
  destruct (u8to32_loop (length s) s (le_n _) (S (length s)) [] [] r ltac:(lia) Hb ltac:(lia)) as [(us & LS & E)|[E N]]; cbn [app] in E; change (zlen (@nil Z)) with 0 in E; rewrite E; cbn [bind].
  - left. exists us. split; [exact LS|]. pose proof (heads_looses us s LS) as HL.
    destruct (skipn (length us) r) as [|x q] eqn:Eq.
    { apply (f_equal (@length Z)) in Eq. rewrite skipn_length in Eq. cbn [length] in Eq. unfold zlen in *. lia. }
    rewrite set_app by lia. cbn [bind]. rewrite upto_at by lia. reflexivity.
  - right. auto.
Qed.

(** ** UTF-16 output *)
Definition written (u : Z) : list Z := if u <? 65536 then [u] else utf16 (65536 + (u - 65536) mod 1048576).
Lemma to16_one u d r : 0 <= u < 2097152 -> zlen (written u) <= zlen r ->
  char32_to_utf16_unsafe u (d ++ r) (zlen d) = Ok ((d ++ written u) ++ skipn (length (written u)) r, zlen (d ++ written u)).
Proof.
  intros Hu Hr. unfold char32_to_utf16_unsafe. unfold written in *. destruct (Z.ltb_spec u 65536).
  - unfold u16. rewrite Z.mod_small by lia. rewrite store_at by (reflexivity || exact Hr). cbn [bind]. rewrite zlen_app. reflexivity.
  - assert (u32 (u - 65536) = u - 65536) as -> by (unfold u32; apply Z.mod_small; lia). set (v := u - 65536) in *.
    rewrite !and1023, shr10. pose proof (Z.mod_pos_bound v 1024 ltac:(lia)). pose proof (Z.mod_pos_bound (v / 1024) 1024 ltac:(lia)).
    assert (forall x, 0 <= x < 1024 -> u16 (Z.lor 56320 x) = 56320 + x /\ u16 (Z.lor 55296 x) = 55296 + x) as Or.
    { intros x Hx. change 56320 with (55 * 2 ^ Z.of_nat 10) at 1. change 55296 with (54 * 2 ^ Z.of_nat 10) at 1. rewrite !lor_plus by exact Hx. unfold u16. rewrite !Z.mod_small by lia. auto. }
    destruct (Or _ H0) as [-> _]. destruct (Or _ H1) as [_ ->].
    assert (utf16 (65536 + v mod 1048576) = [55296 + v / 1024 mod 1024; 56320 + v mod 1024]) as E.
    { unfold utf16. pose proof (Z.mod_pos_bound v 1048576 ltac:(lia)). replace (65536 + v mod 1048576 <? 65536) with false by lia.
      replace (65536 + v mod 1048576 - 65536) with (v mod 1048576) by lia.
      change 1048576 with (1024 * 1024). rewrite Z.rem_mul_r by lia. pose proof (Z.mod_pos_bound v 1024 ltac:(lia)).
      rewrite (Z.mul_comm 1024), Z.div_add, Z.mod_add by lia. rewrite Z.div_small, Z.mod_mod by lia. reflexivity. }
    rewrite E in *. rewrite store_at by (reflexivity || exact Hr). cbn [bind]. rewrite zlen_app. reflexivity.
Qed.
Lemma loose_range u b : loose u b -> 0 <= u < 2097152 /\ (65536 <= u -> length b = 4%nat).
Proof. intros L. destruct L; unfold cont in *; cbn [length]; lia. Qed.
(** What the length function adds for a sequence. *)
Definition announced (b : list Z) : Z := if (length b =? 4)%nat then 2 else 1.
Lemma written_fits u b : loose u b -> zlen (written u) <= announced b.
Proof.
  intros L. destruct (loose_range u b L) as [_ H]. unfold written, announced, utf16. destruct (Z.ltb_spec u 65536).
  - destruct (length b =? 4)%nat; unfold zlen; cbn [length]; lia.
  - rewrite H by lia. destruct (_ <? 65536); vm_compute; discriminate.
Qed.
Lemma walk_total : forall fuel s i n, 0 <= i -> (Z.to_nat (zlen s - i) < fuel)%nat -> zlen s < 2 ^ 60 -> i < 2 ^ 61 -> 0 <= n -> n + 2 * (zlen s - i) < 2 ^ 62 -> n < 2 ^ 62 ->
  exists L, utf16len_for_utf8 fuel s i n = Ok (n + L) /\ 0 <= L /\ L <= Z.max 0 (2 * (zlen s - i)).
Proof.
  induction fuel as [|fuel IH]; intros s i n Hi Hf Hs Hi2 Hn Hm Hn2; [lia|]. cbn [utf16len_for_utf8].
  destruct (Z.ltb_spec i (zlen s)) as [Hlt|Hge]; [|exists 0; split; [f_equal; lia|lia]].
  destruct (get_ok s i ltac:(lia)) as [c Ec]. rewrite Ec. cbn [bind].
  unfold usz. rewrite !(Z.mod_small (i + _)) by lia. rewrite (Z.mod_small (n + 1)) by lia. rewrite (Z.mod_small (n + 1 + 1)) by lia.
  destruct (Z.land c 128 =? 0); [destruct (IH s (i + 1) (n + 1)) as (L & -> & H); try lia; exists (1 + L); split; [f_equal; lia|lia]|].
  destruct (Z.land c 224 =? 192); [destruct (IH s (i + 2) (n + 1)) as (L & -> & H); try lia; exists (1 + L); split; [f_equal; lia|lia]|].
  destruct (Z.land c 240 =? 224); [destruct (IH s (i + 3) (n + 1)) as (L & -> & H); try lia; exists (1 + L); split; [f_equal; lia|lia]|].
  destruct (IH s (i + 4) (n + 1 + 1)) as (L & -> & H); try lia; exists (2 + L); split; [f_equal; lia|lia].
Qed.
Lemma walk_loose fuel pre u b t n : loose u b -> Forall is_byte t -> zlen (pre ++ b ++ t) < 2 ^ 60 -> 0 <= n < 2 ^ 62 ->
  utf16len_for_utf8 (S fuel) (pre ++ b ++ t) (zlen pre) n = utf16len_for_utf8 fuel ((pre ++ b) ++ t) (zlen (pre ++ b)) (n + announced b).
Proof.
  intros L Ht Hz Hn. cbn [utf16len_for_utf8]. pose proof (loose_length u b L). pose proof (zlen_nonneg pre). pose proof (zlen_nonneg t). pose proof (loose_bytes u b L) as B.
  assert (zlen (pre ++ b ++ t) = zlen pre + zlen b + zlen t) as Lz by (rewrite !zlen_app; lia). rewrite <- app_assoc.
  replace (zlen pre <? zlen (pre ++ b ++ t)) with true by (unfold zlen in *; lia).
  rewrite (get_at pre (b ++ t) 0 (zlen pre)) by lia.
  assert (forall x, 0 <= x <= 4 -> usz (zlen pre + x) = zlen pre + x) as U by (intros x Hx; unfold usz; apply Z.mod_small; unfold zlen in *; lia).
  assert (usz (n + 1) = n + 1 /\ usz (n + 1 + 1) = n + 2) as [U1 U2] by (unfold usz; rewrite !Z.mod_small by lia; lia).
  rewrite U1, !U by lia. clear U U1 Lz.
  destruct L; unfold cont in *; repeat (let H := fresh "B" in fcons B H); cbn [app]; match goal with |- context [get (?c :: ?l) 0] => change (get (c :: l) 0) with (Ok c) end; cbn [bind];
    rewrite cls1, cls2, cls3 by assumption; rewrite zlen_app; unfold announced; cbn [length Nat.eqb];
    repeat match goal with |- context [if ?x then _ else _] => destruct x eqn:? end; try (exfalso; lia); try reflexivity.
  rewrite U2. reflexivity.
Qed.
Lemma u8to16_loop : forall k t, (length t <= k)%nat -> forall fuel f2 pre d r n, (length t < fuel)%nat -> (length t < f2)%nat -> Forall is_byte t -> zlen (pre ++ t) < 2 ^ 60 -> 0 <= n -> n + 2 * zlen t < 2 ^ 62 ->
  exists L, utf16len_for_utf8 f2 (pre ++ t) (zlen pre) n = Ok (n + L) /\ 0 <= L <= 2 * zlen t /\
  (L <= zlen r ->
  (exists us, looses us t /\ zlen (flat_map written us) <= L /\ utf8to16_unsafe fuel (pre ++ t) (zlen pre) (d ++ r) (zlen d) = Ok (Some (d ++ flat_map written us ++ skipn (length (flat_map written us)) r)))
  \/ (utf8to16_unsafe fuel (pre ++ t) (zlen pre) (d ++ r) (zlen d) = Ok None /\ forall us, ~ looses us t)).
Proof.
  induction k as [|k IH]; intros t Hk fuel f2 pre d r n Hf Hf2 Hb Hz Hn Hm; destruct fuel as [|fuel]; try lia; destruct f2 as [|f2]; try lia;
    (destruct t as [|c t0]; [exists 0; split; [cbn [utf16len_for_utf8]; rewrite app_nil_r, Z.ltb_irrefl; f_equal; lia|]; split; [change (zlen (@nil Z)) with 0; lia|]; intros _; left; exists []; split; [constructor|]; cbn [utf8to16_unsafe flat_map length]; split; [change (zlen (@nil Z)) with 0; lia|]; rewrite app_nil_r, Z.ltb_irrefl; reflexivity|]).
  { cbn [length] in Hk. lia. }
  remember (c :: t0) as t eqn:Et. assert (t <> []) as Hne by (subst; discriminate).
  assert (Unf : utf8to16_unsafe (S fuel) (pre ++ t) (zlen pre) (d ++ r) (zlen d) = (q <- utf8_to_char32 (pre ++ t) (zlen pre) (zlen t) ;; match q with None => Ok None | Some (uc, width) => '(buf, p) <- char32_to_utf16_unsafe uc (d ++ r) (zlen d) ;; utf8to16_unsafe fuel (pre ++ t) (zlen pre + width) buf p end)).
  { cbn [utf8to16_unsafe]. rewrite zlen_app. replace (zlen pre <? zlen pre + zlen t) with true by (subst t; rewrite zlen_cons; pose proof (zlen_nonneg t0); lia).
    replace (zlen pre + zlen t - zlen pre) with (zlen t) by lia. reflexivity. }
  rewrite Unf. clear Unf. clear Et c t0.
  destruct (lead_spec pre t Hb Hne) as [(u & b & t' & -> & L & E)|[E N]]; rewrite E; cbn [bind].
  - pose proof (loose_length u b L). rewrite app_length in *. apply Forall_app in Hb as [_ Hb]. pose proof (zlen_nonneg t').
    rewrite zlen_app in Hm. pose proof (zlen_nonneg b).
    rewrite (walk_loose f2 pre u b t' n L Hb Hz ltac:(lia)).
    assert (1 <= announced b <= 2 /\ announced b <= zlen b) as [Ha Ha'] by (unfold announced, zlen; destruct (Nat.eqb_spec (length b) 4); lia).
    pose proof (written_fits u b L) as Hw.
    destruct (IH t' ltac:(lia) fuel f2 (pre ++ b) (d ++ written u) (skipn (length (written u)) r) (n + announced b) ltac:(lia) ltac:(lia) Hb ltac:(rewrite <- app_assoc; exact Hz) ltac:(lia) ltac:(lia)) as (L1 & E1 & HL1 & K).
    exists (announced b + L1). split; [rewrite E1; f_equal; lia|]. split; [rewrite zlen_app; lia|]. intros Hr.
    rewrite to16_one by (apply (loose_range u b L) || lia). cbn [bind].
    destruct K as [(us & LS & HL & E2)|[E2 N]]; [unfold zlen in *; rewrite skipn_length; lia| |].
    + left. exists (u :: us). split; [constructor; assumption|]. cbn [flat_map]. split; [rewrite zlen_app; lia|].
      rewrite <- (app_assoc pre b t') in E2. rewrite (zlen_app pre b) in E2. rewrite E2. rewrite skipn_skipn, app_length, <- !app_assoc. repeat f_equal.
    + right. rewrite <- (app_assoc pre b t') in E2. rewrite (zlen_app pre b) in E2. rewrite E2. split; [reflexivity|].
      intros us LS. destruct (looses_head _ _ u b t' LS eq_refl L) as (us' & -> & LS'). exact (N us' LS').
  - pose proof (zlen_nonneg t). pose proof (zlen_nonneg pre). rewrite zlen_app in Hz.
    assert (exists L, utf16len_for_utf8 (S f2) (pre ++ t) (zlen pre) n = Ok (n + L) /\ 0 <= L /\ L <= 2 * zlen t) as (L & E1 & H1 & H2).
    { destruct (walk_total (S f2) (pre ++ t) (zlen pre) n) as (L & E1 & H1 & H2); try lia; try (rewrite zlen_app; unfold zlen in *; lia).
      exists L. split; [exact E1|]. split; [exact H1|]. rewrite zlen_app in H2. lia. }
    exists L. split; [exact E1|]. split; [lia|]. intros _. right. split; [reflexivity|].
    intros us LS. destruct LS as [|u b us bs L0 LS]; [congruence|]. exact (N u b bs eq_refl L0).
Qed.

Lemma written_scalar u : 0 <= u <= 1114111 -> written u = utf16 u.
Proof.
  intros H. unfold written. destruct (Z.ltb_spec u 65536) as [C|C].
  - unfold utf16. replace (u <? 65536) with true by lia. reflexivity.
  - rewrite Z.mod_small by lia. f_equal. lia.
Qed.
Lemma announced_scalar u : 0 <= u <= 1114111 -> announced (utf8 u) = zlen (utf16 u).
Proof.
  intros H. unfold announced, utf8, utf16. destruct (Z.leb_spec u 127); [replace (u <? 65536) with true by lia; reflexivity|].
  destruct (Z.leb_spec u 2047); [replace (u <? 65536) with true by lia; reflexivity|].
  destruct (Z.leb_spec u 65535); [replace (u <? 65536) with true by lia; reflexivity|replace (u <? 65536) with false by lia; reflexivity].
Qed.
Lemma utf8_bytes u : 0 <= u <= 1114111 -> Forall is_byte (utf8 u).
Proof. intros H. exact (loose_bytes u _ (loose_utf8 u H)). Qed.
Lemma utf8s_bytes us : Forall (fun u => 0 <= u <= 1114111) us -> Forall is_byte (utf8s us).
Proof. unfold utf8s. induction 1; cbn [flat_map]; [constructor|]. apply Forall_app. split; [apply utf8_bytes; assumption|assumption]. Qed.
Lemma walk_utf8s : forall us fuel pre n, Forall (fun u => 0 <= u <= 1114111) us -> (length us < fuel)%nat -> zlen (pre ++ utf8s us) < 2 ^ 60 -> 0 <= n -> n + 2 * zlen (utf8s us) < 2 ^ 62 ->
  utf16len_for_utf8 fuel (pre ++ utf8s us) (zlen pre) n = Ok (n + zlen (utf16s us)).
Proof.
  unfold utf16s, utf8s. induction us as [|u us IH]; intros fuel pre n Hu Hf Hz Hn Hm; destruct fuel as [|fuel]; try (cbn [length] in Hf; lia).
  - cbn [flat_map utf16len_for_utf8]. rewrite app_nil_r, Z.ltb_irrefl. change (zlen (@nil Z)) with 0. f_equal. lia.
  - fcons Hu H0. cbn [flat_map] in *. pose proof (loose_utf8 u H0) as L. pose proof (utf8s_bytes us Hu) as B. unfold utf8s in B. pose proof (loose_length _ _ L).
    rewrite zlen_app in Hm. pose proof (zlen_nonneg (flat_map utf8 us)). pose proof (zlen_nonneg (utf8 u)).
    rewrite (walk_loose fuel pre u (utf8 u) _ n L B Hz ltac:(lia)).
    assert (announced (utf8 u) <= 2 * zlen (utf8 u)) by (unfold announced, zlen in *; destruct (length (utf8 u) =? 4)%nat eqn:?; lia).
    assert (0 <= announced (utf8 u)) by (unfold announced; destruct (length (utf8 u) =? 4)%nat; lia).
    rewrite IH by (assumption || (cbn [length] in Hf; lia) || (rewrite <- app_assoc; exact Hz) || lia).
    rewrite announced_scalar by exact H0. rewrite zlen_app. f_equal. lia.
Qed.
Lemma to_utf16_total junk s : (forall n, 0 <= n -> zlen (junk n) = n) -> Forall is_byte s -> zlen s < 2 ^ 60 ->
  (exists us x, looses us s /\ to_utf16 junk s = Ok (Some x)) \/ (to_utf16 junk s = Ok None /\ forall us, ~ looses us s).
Proof.
  intros Hj Hb Hn. unfold to_utf16. pose proof (zlen_nonneg s).
  destruct (u8to16_loop (length s) s (le_n _) (S (length s)) (S (length s)) [] [] (junk 0) 0 ltac:(lia) ltac:(lia) Hb Hn ltac:(lia) ltac:(lia)) as (L & E & HL & _).
  destruct (u8to16_loop (length s) s (le_n _) (S (length s)) (S (length s)) [] [] (junk (L + 1)) 0 ltac:(lia) ltac:(lia) Hb Hn ltac:(lia) ltac:(lia)) as (L' & E' & _ & K).
  cbn [app] in *. change (zlen (@nil Z)) with 0 in *. assert (L' = L) as -> by (rewrite E in E'; injection E' as E'; lia). clear E'. rewrite E. cbn [bind]. rewrite Z.add_0_l in *.
  assert (usz (L + 1) = L + 1) as -> by (unfold usz; apply Z.mod_small; lia). pose proof (Hj (L + 1) ltac:(lia)) as Hl. set (r := junk (L + 1)) in *.
  destruct (K ltac:(lia)) as [(us & LS & HW & E2)|[E2 N]]; rewrite E2; cbn [bind].
  - left. set (w := flat_map written us) in *. set (data := w ++ skipn (length w) r).
    assert (zlen data = L + 1) as Ld by (unfold data, zlen in *; rewrite app_length, skipn_length; lia).
    destruct (set_ok data L 0 ltac:(lia)) as [data' E3]. rewrite E3. cbn [bind].
    assert (zlen data' = L + 1) as Ld' by (rewrite (set_zlen _ _ _ _ E3); exact Ld).
    unfold upto. replace ((0 <=? L) && (L <=? zlen data')) with true by lia. cbn [bind]. exists us. eexists. split; [exact LS|reflexivity].
  - right. auto.
Qed.
Lemma to_utf16_ok junk us : (forall n, 0 <= n -> zlen (junk n) = n) -> Forall (fun u => 0 <= u <= 1114111) us -> zlen (utf8s us) < 2 ^ 60 ->
  to_utf16 junk (utf8s us) = Ok (Some (utf16s us)).
Proof.
  intros Hj Hu Hn. unfold to_utf16. pose proof (zlen_nonneg (utf8s us)). pose proof (utf8s_bytes us Hu) as Hb. set (s := utf8s us) in *.
  assert (length us <= length s)%nat as Hle.
  { unfold s. clear -Hu. unfold utf8s. induction Hu as [|u us H HF IH]; cbn [flat_map length]; [lia|]. rewrite app_length. pose proof (loose_length _ _ (loose_utf8 u H)). lia. }
  pose proof (walk_utf8s us (S (length s)) [] 0 Hu ltac:(lia) Hn ltac:(lia) ltac:(fold s; lia)) as W. cbn [app] in W. change (zlen (@nil Z)) with 0 in W. rewrite Z.add_0_l in W. fold s in W.
  rewrite W. cbn [bind]. set (L := zlen (utf16s us)) in *.
  destruct (u8to16_loop (length s) s (le_n _) (S (length s)) (S (length s)) [] [] (junk (L + 1)) 0 ltac:(lia) ltac:(lia) Hb Hn ltac:(lia) ltac:(lia)) as (L' & E' & HL' & K).
  cbn [app] in *. change (zlen (@nil Z)) with 0 in *. rewrite Z.add_0_l in *. assert (L' = L) as -> by (rewrite W in E'; injection E' as E'; lia). clear E'.
  assert (usz (L + 1) = L + 1) as -> by (unfold usz; apply Z.mod_small; lia). pose proof (Hj (L + 1) ltac:(lia)) as Hl. set (r := junk (L + 1)) in *.
  destruct (K ltac:(lia)) as [(us' & LS & HW & E2)|[E2 N]]; [|exfalso; exact (N us (looses_utf8 us Hu))].
  assert (us' = us) as -> by exact (looses_det _ _ LS _ (looses_utf8 us Hu)).
  assert (flat_map written us = utf16s us) as Ew.
  { unfold utf16s. clear -Hu. induction Hu as [|u us H HF IH]; [reflexivity|]. cbn [flat_map]. rewrite written_scalar, IH by exact H. reflexivity. }
  rewrite Ew in E2. rewrite E2. cbn [bind].
  destruct (skipn (length (utf16s us)) r) as [|x q] eqn:Eq.
  { apply (f_equal (@length Z)) in Eq. rewrite skipn_length in Eq. cbn [length] in Eq. unfold L, zlen in *. lia. }
  rewrite set_app by reflexivity. cbn [bind]. rewrite upto_at by reflexivity. reflexivity.
Qed.

(** ** UTF-8 output *)
Definition enc8 (c : Z) : list Z := if c <=? 127 then seq1 c else if c <=? 2047 then seq2 c else if c <=? 65535 then seq3 c else seq4 c.
Lemma enc8_utf8 u : 0 <= u <= 1114111 -> enc8 u = utf8 u.
Proof.
  intros H. unfold enc8, utf8, seq1, seq2, seq3, seq4. rewrite !and63, shr6, shr12, shr18.
  assert (forall x, byte (Z.lor 128 (x mod 64)) = 128 + x mod 64) as L by (intros x; apply lor128, Z.mod_pos_bound; lia). rewrite !L.
  destruct (Z.leb_spec u 127); [unfold byte; rewrite Z.mod_small by lia; reflexivity|].
  destruct (Z.leb_spec u 2047).
  { assert (0 <= u / 64 < 2 ^ Z.of_nat 5) by (split; [apply Z.div_pos|apply Z.div_lt_upper_bound]; lia).
    change 192 with (6 * 2 ^ Z.of_nat 5) at 1. rewrite lor_plus by assumption. unfold byte. rewrite Z.mod_small by lia. reflexivity. }
  destruct (Z.leb_spec u 65535).
  { assert (0 <= u / 4096 < 2 ^ Z.of_nat 4) by (split; [apply Z.div_pos|apply Z.div_lt_upper_bound]; lia).
    change 224 with (14 * 2 ^ Z.of_nat 4) at 1. rewrite lor_plus by assumption. unfold byte. rewrite Z.mod_small by lia. reflexivity. }
  assert (0 <= u / 262144 < 2 ^ Z.of_nat 3) by (split; [apply Z.div_pos|apply Z.div_lt_upper_bound]; lia).
  change 240 with (30 * 2 ^ Z.of_nat 3) at 1. rewrite lor_plus by assumption. unfold byte. rewrite Z.mod_small by lia. reflexivity.
Qed.
Lemma enc8_length u : zlen (enc8 u) = if u <=? 127 then 1 else if u <=? 2047 then 2 else if u <=? 65535 then 3 else 4.
Proof. unfold enc8. repeat match goal with |- context [if ?c then _ else _] => destruct c end; reflexivity. Qed.
Lemma enc8_bounds u : 1 <= zlen (enc8 u) <= 4.
Proof. rewrite enc8_length. repeat match goal with |- context [if ?c then _ else _] => destruct c end; lia. Qed.
Lemma to8_one u d r : zlen (enc8 u) <= zlen r ->
  char32_to_utf8_unsafe u (d ++ r) (zlen d) = Ok ((d ++ enc8 u) ++ skipn (length (enc8 u)) r, zlen (d ++ enc8 u)).
Proof.
  intros Hr. unfold char32_to_utf8_unsafe, enc8 in *. repeat match goal with |- context [if ?c then _ else _] => destruct c end;
  (rewrite store_at by (reflexivity || exact Hr); cbn [bind]; rewrite zlen_app; reflexivity).
Qed.
Lemma len32_ok : forall us n, 0 <= n -> n + 4 * zlen us < 2 ^ 64 -> utf8len_for_utf32 us n = n + zlen (flat_map enc8 us).
Proof.
  induction us as [|u us IH]; intros n Hn Hm; cbn [utf8len_for_utf32 flat_map]; [change (zlen (@nil Z)) with 0; lia|].
  rewrite zlen_cons in Hm. pose proof (zlen_nonneg us). rewrite zlen_app, <- enc8_length. pose proof (enc8_bounds u).
  unfold usz. rewrite Z.mod_small by lia. rewrite IH by lia. lia.
Qed.
Lemma enc8s_length us : zlen (flat_map enc8 us) <= 4 * zlen us.
Proof. induction us as [|u us IH]; cbn [flat_map]; [change (zlen (@nil Z)) with 0; lia|]. rewrite zlen_app, zlen_cons. pose proof (enc8_bounds u). lia. Qed.
Lemma u32to8_loop : forall us d r, zlen (flat_map enc8 us) <= zlen r ->
  utf32to8_unsafe us (d ++ r) (zlen d) = Ok (d ++ flat_map enc8 us ++ skipn (length (flat_map enc8 us)) r).
Proof.
  induction us as [|u us IH]; intros d r Hr; cbn [utf32to8_unsafe flat_map] in *; [reflexivity|].
  rewrite zlen_app in Hr. pose proof (zlen_nonneg (flat_map enc8 us)). rewrite to8_one by lia. cbn [bind].
  rewrite IH by (unfold zlen in *; rewrite skipn_length; lia). rewrite skipn_skipn, app_length, <- !app_assoc. reflexivity.
Qed.
Lemma from_utf32_ok junk us : (forall n, 0 <= n -> zlen (junk n) = n) -> zlen us < 2 ^ 60 -> from_utf32 junk us = Ok (Some (flat_map enc8 us)).
Proof.
  intros Hj Hn. unfold from_utf32. pose proof (zlen_nonneg us). pose proof (enc8s_length us). pose proof (zlen_nonneg (flat_map enc8 us)). rewrite len32_ok by lia. rewrite Z.add_0_l.
  set (w := flat_map enc8 us) in *. unfold usz. rewrite Z.mod_small by lia. pose proof (Hj (zlen w + 1) ltac:(lia)) as Hl. set (r := junk (zlen w + 1)) in *.
  pose proof (u32to8_loop us [] r ltac:(fold w; lia)) as E. cbn [app] in E. change (zlen (@nil Z)) with 0 in E. fold w in E. rewrite E. cbn [bind].
  destruct (skipn (length w) r) as [|x q] eqn:Eq.
  { apply (f_equal (@length Z)) in Eq. rewrite skipn_length in Eq. cbn [length] in Eq. unfold zlen in *. lia. }
  rewrite set_app by reflexivity. cbn [bind]. rewrite upto_at by reflexivity. reflexivity.
Qed.
Lemma enc8s_utf8s us : Forall (fun u => 0 <= u <= 1114111) us -> flat_map enc8 us = utf8s us.
Proof. unfold utf8s. induction 1 as [|u us H HF IH]; [reflexivity|]. cbn [flat_map]. rewrite enc8_utf8, IH by exact H. reflexivity. Qed.

(** ** UTF-16 input *)
Lemma land_hi x m : 0 <= x -> Z.land x (m * 2 ^ 8) = 2 ^ 8 * Z.land (x / 2 ^ 8) m.
Proof.
  intros H. apply Z.bits_inj'. intros n Hn. rewrite Z.land_spec, (Z.mul_comm (2 ^ 8)). destruct (Z.lt_ge_cases n 8).
  - rewrite !Z.mul_pow2_bits_low by lia. apply andb_false_r.
  - rewrite !Z.mul_pow2_bits by lia. rewrite Z.land_spec. rewrite Z.div_pow2_bits by lia. replace (n - 8 + 8) with n by lia. reflexivity.
Qed.
Lemma hi1 : forall c, is_byte c -> (Z.land c 248 =? 216) = ((216 <=? c) && (c <? 224)). Proof. bytes. Qed.
Lemma hi2 : forall c, is_byte c -> (Z.land c 252 =? 216) = ((216 <=? c) && (c <? 220)). Proof. bytes. Qed.
Lemma hi3 : forall c, is_byte c -> (Z.land c 252 =? 220) = ((220 <=? c) && (c <? 224)). Proof. bytes. Qed.
Lemma unit_byte x : is_unit x -> is_byte (x / 2 ^ 8) /\ 256 * (x / 2 ^ 8) <= x < 256 * (x / 2 ^ 8) + 256.
Proof.
  intros H. unfold is_unit in H. change (2 ^ 8) with 256. pose proof (Z.div_mod x 256 ltac:(lia)). pose proof (Z.mod_pos_bound x 256 ltac:(lia)). split; [|lia].
  split; [apply Z.div_pos|apply Z.div_lt_upper_bound]; lia.
Qed.
Lemma sur x : is_unit x -> (Z.land x 63488 =? 55296) = ((55296 <=? x) && (x <? 57344)).
Proof.
  intros H. destruct (unit_byte x H) as [B E]. unfold is_unit in H. change 63488 with (248 * 2 ^ 8). rewrite land_hi by lia.
  assert ((2 ^ 8 * Z.land (x / 2 ^ 8) 248 =? 55296) = (Z.land (x / 2 ^ 8) 248 =? 216)) as -> by (change (2 ^ 8) with 256; lia).
  rewrite hi1 by exact B. lia.
Qed.
Lemma sur_hi x : is_unit x -> (Z.land x 64512 =? 55296) = ((55296 <=? x) && (x <? 56320)).
Proof.
  intros H. destruct (unit_byte x H) as [B E]. unfold is_unit in H. change 64512 with (252 * 2 ^ 8). rewrite land_hi by lia.
  assert ((2 ^ 8 * Z.land (x / 2 ^ 8) 252 =? 55296) = (Z.land (x / 2 ^ 8) 252 =? 216)) as -> by (change (2 ^ 8) with 256; lia).
  rewrite hi2 by exact B. lia.
Qed.
Lemma sur_lo x : is_unit x -> (Z.land x 64512 =? 56320) = ((56320 <=? x) && (x <? 57344)).
Proof.
  intros H. destruct (unit_byte x H) as [B E]. unfold is_unit in H. change 64512 with (252 * 2 ^ 8). rewrite land_hi by lia.
  assert ((2 ^ 8 * Z.land (x / 2 ^ 8) 252 =? 56320) = (Z.land (x / 2 ^ 8) 252 =? 220)) as -> by (change (2 ^ 8) with 256; lia).
  rewrite hi3 by exact B. lia.
Qed.
Lemma utf16_shape u : scalar u -> utf16 u = [u] /\ u < 65536 \/ exists h l, utf16 u = [h; l] /\ 55296 <= h < 56320 /\ 56320 <= l < 57344 /\ u = 65536 + 1024 * (h - 55296) + (l - 56320).
Proof.
  intros H. unfold utf16, scalar in *. destruct (Z.ltb_spec u 65536); [auto|]. right. eexists. eexists. split; [reflexivity|].
  pose proof (Z.div_mod (u - 65536) 1024 ltac:(lia)). pose proof (Z.mod_pos_bound (u - 65536) 1024 ltac:(lia)).
  assert (0 <= (u - 65536) / 1024 < 1024) by (split; [apply Z.div_pos|apply Z.div_lt_upper_bound]; lia). lia.
Qed.
Lemma utf16_pair h l : 55296 <= h < 56320 -> 56320 <= l < 57344 -> let u := 65536 + 1024 * (h - 55296) + (l - 56320) in utf16 u = [h; l] /\ scalar u /\ 65536 <= u.
Proof.
  intros Hh Hl u. assert (65536 <= u <= 1114111) as Hu by (unfold u; lia). unfold utf16, scalar. replace (u <? 65536) with false by lia.
  replace (u - 65536) with ((h - 55296) * 1024 + (l - 56320)) by (unfold u; lia).
  rewrite Z.div_add_l by lia. rewrite Z.div_small by lia. rewrite (Z.add_comm (_ * 1024)), Z.mod_add by lia. rewrite Z.mod_small by lia.
  split; [|lia]. replace (55296 + (h - 55296 + 0)) with h by lia. replace (56320 + (l - 56320)) with l by lia. reflexivity.
Qed.
(** One code point. *)
Lemma unit_spec pre t : Forall is_unit t -> t <> [] ->
  (exists u t', t = utf16 u ++ t' /\ scalar u /\ forall d r, zlen (utf8 u) <= zlen r ->
     char16_to_utf8_unsafe (pre ++ t) (zlen pre) (zlen t) (d ++ r) (zlen d) = Ok (Some (zlen (utf16 u), (d ++ utf8 u) ++ skipn (length (utf8 u)) r, zlen (d ++ utf8 u))))
  \/ ((forall buf p, char16_to_utf8_unsafe (pre ++ t) (zlen pre) (zlen t) buf p = Ok None) /\ forall u t', t = utf16 u ++ t' -> ~ scalar u).
Proof.
  intros Hb Hne. destruct t as [|c t]; [congruence|]. clear Hne. fcons Hb Hc. unfold char16_to_utf8_unsafe. pose proof (zlen_nonneg t).
  rewrite (get_at pre (c :: t) 0 (zlen pre)) by lia. change (get (c :: t) 0) with (Ok c). cbn [bind]. rewrite sur, sur_hi by exact Hc.
  destruct ((55296 <=? c) && (c <? 57344)) eqn:C1; cbn [negb].
  2:{ left. unfold is_unit in Hc. exists c, t. assert (utf16 c = [c]) as -> by (unfold utf16; replace (c <? 65536) with true by lia; reflexivity). split; [reflexivity|].
      split; [unfold scalar; lia|]. intros d r Hr. rewrite <- (enc8_utf8 c) in * by lia. rewrite to8_one by exact Hr. reflexivity. }
  destruct ((55296 <=? c) && (c <? 56320)) eqn:C2; cbn [negb].
  2:{ right. split; [reflexivity|]. intros u t' E S. destruct (utf16_shape u S) as [[E1 Hu]|(h & l & E1 & Hh & Hl & Hu)]; rewrite E1 in E; cbn [app] in E; injection E; intros; subst; unfold scalar in *; lia. }
  destruct t as [|x t].
  { right. split; [reflexivity|]. intros u t' E S. destruct (utf16_shape u S) as [[E1 Hu]|(h & l & E1 & Hh & Hl & Hu)]; rewrite E1 in E; cbn [app] in E; [|discriminate]. injection E; intros; subst; unfold scalar in *; lia. }
  rewrite !zlen_cons in *. pose proof (zlen_nonneg t). replace (1 + (1 + zlen t) =? 1) with false by lia. fcons Hb Hx.
  rewrite (get_at pre (c :: x :: t) 1 (zlen pre + 1)) by lia. change (get (c :: x :: t) 1) with (Ok x). cbn [bind]. rewrite sur_lo by exact Hx.
  destruct ((56320 <=? x) && (x <? 57344)) eqn:C3; cbn [negb].
  2:{ right. split; [reflexivity|]. intros u t' E S. destruct (utf16_shape u S) as [[E1 Hu]|(h & l & E1 & Hh & Hl & Hu)]; rewrite E1 in E; cbn [app] in E; injection E; intros; subst; unfold scalar in *; lia. }
  left. destruct (utf16_pair c x ltac:(lia) ltac:(lia)) as (E1 & S & Hge). set (u := 65536 + 1024 * (c - 55296) + (x - 56320)) in *.
  exists u, t. rewrite E1. split; [reflexivity|]. split; [exact S|]. intros d r Hr.
  assert (u32 (Z.lor (Z.shiftl (Z.land c 1023) 10) (Z.land x 1023) + 65536) = u) as ->.
  { rewrite !and1023, shl10. rewrite (modof 54 1024 (c - 55296)) by lia. rewrite (modof 55 1024 (x - 56320)) by lia.
    replace (1024 * (c - 55296)) with ((c - 55296) * 2 ^ Z.of_nat 10) by lia. rewrite lor_plus by lia. unfold u32. rewrite Z.mod_small by lia. unfold u. lia. }
  assert (0 <= u <= 1114111) as Hu by (unfold scalar in S; lia).
  rewrite <- (enc8_utf8 u Hu) in *. rewrite to8_one by exact Hr. reflexivity.
Qed.
(** The announced length. *)
Definition unit_len (c : Z) : Z := if negb (Z.land c 63488 =? 55296) then (if c <=? 127 then 1 else if c <=? 2047 then 2 else 3) else 4.
Fixpoint units_len (t : list Z) : Z := match t with [] => 0 | c :: r => unit_len c + units_len r end.
Lemma units_len_app a b : units_len (a ++ b) = units_len a + units_len b.
Proof. induction a as [|c a IH]; cbn [app units_len]; lia. Qed.
Lemma unit_len_bounds c : 1 <= unit_len c <= 4.
Proof. unfold unit_len. repeat match goal with |- context [if ?c then _ else _] => destruct c end; lia. Qed.
Lemma units_len_bounds t : 0 <= units_len t <= 4 * zlen t.
Proof. induction t as [|c t IH]; cbn [units_len]; [change (zlen (@nil Z)) with 0; lia|]. rewrite zlen_cons. pose proof (unit_len_bounds c). lia. Qed.
Lemma len16_ok : forall t n, 0 <= n -> n + 4 * zlen t < 2 ^ 64 -> utf8len_for_utf16 t n = n + units_len t.
Proof.
  induction t as [|c t IH]; intros n Hn Hm; cbn [utf8len_for_utf16 units_len]; [lia|].
  rewrite zlen_cons in Hm. pose proof (zlen_nonneg t). fold (unit_len c). pose proof (unit_len_bounds c). unfold usz. rewrite Z.mod_small by lia. rewrite IH by lia. lia.
Qed.
Lemma units_len_scalar u : scalar u -> units_len (utf16 u) = if u <? 65536 then zlen (utf8 u) else 4 + zlen (utf8 u).
Proof.
  intros S. destruct (utf16_shape u S) as [[-> Hu]|(h & l & -> & Hh & Hl & Hu)]; cbn [units_len]; unfold unit_len.
  - replace (u <? 65536) with true by lia. rewrite sur by (unfold is_unit, scalar in *; lia). unfold scalar in S. replace ((55296 <=? u) && (u <? 57344)) with false by lia. cbn [negb].
    unfold utf8. destruct (u <=? 127); [reflexivity|]. destruct (u <=? 2047); [reflexivity|]. replace (u <=? 65535) with true by lia. reflexivity.
  - rewrite !sur by (unfold is_unit; lia). replace (u <? 65536) with false by lia. replace ((55296 <=? h) && (h <? 57344)) with true by lia. replace ((55296 <=? l) && (l <? 57344)) with true by lia.
    cbn [negb]. unfold utf8. replace (u <=? 127) with false by lia. replace (u <=? 2047) with false by lia. replace (u <=? 65535) with false by lia. reflexivity.
Qed.
Lemma utf16_head u t us : scalar u -> Forall scalar us -> utf16 u ++ t = utf16s us -> exists us', us = u :: us' /\ t = utf16s us' /\ Forall scalar us'.
Proof.
  intros S F E. destruct us as [|v us].
  - exfalso. destruct (utf16_shape u S) as [[E1 _]|(h & l & E1 & _)]; rewrite E1 in E; discriminate.
  - fcons F Fv. unfold utf16s in *. cbn [flat_map] in E. exists us.
    assert (u = v /\ t = flat_map utf16 us) as [-> ->]; [|auto].
    destruct (utf16_shape u S) as [[E1 H1]|(h & l & E1 & Hh & Hl & H1)]; destruct (utf16_shape v Fv) as [[E2 H2]|(h' & l' & E2 & Hh' & Hl' & H2)]; rewrite E1, E2 in E; cbn [app] in E; injection E; intros; subst; unfold scalar in *; try lia; split; (reflexivity || congruence || lia).
Qed.
Lemma u16to8_loop : forall k t, (length t <= k)%nat -> forall fuel pre d r, (length t < fuel)%nat -> Forall is_unit t -> units_len t <= zlen r ->
  (exists us, Forall scalar us /\ t = utf16s us /\ zlen (utf8s us) <= units_len t /\ utf16to8_unsafe fuel (pre ++ t) (zlen pre) (d ++ r) (zlen d) = Ok (Some (d ++ utf8s us ++ skipn (length (utf8s us)) r)))
  \/ (utf16to8_unsafe fuel (pre ++ t) (zlen pre) (d ++ r) (zlen d) = Ok None /\ forall us, Forall scalar us -> t <> utf16s us).
Proof.
  induction k as [|k IH]; intros t Hk fuel pre d r Hf Hb Hr; destruct fuel as [|fuel]; try lia;
    (destruct t as [|c t0]; [left; exists []; split; [constructor|]; split; [reflexivity|]; split; [vm_compute; discriminate|]; cbn [utf16to8_unsafe]; rewrite app_nil_r, Z.ltb_irrefl; reflexivity|]).
  { cbn [length] in Hk. lia. }
  remember (c :: t0) as t eqn:Et. assert (t <> []) as Hne by (subst; discriminate).
  assert (Unf : utf16to8_unsafe (S fuel) (pre ++ t) (zlen pre) (d ++ r) (zlen d) = (q <- char16_to_utf8_unsafe (pre ++ t) (zlen pre) (zlen t) (d ++ r) (zlen d) ;; match q with None => Ok None | Some (used, buf, p) => utf16to8_unsafe fuel (pre ++ t) (zlen pre + used) buf p end)).
  { cbn [utf16to8_unsafe]. rewrite zlen_app. replace (zlen pre <? zlen pre + zlen t) with true by (subst t; rewrite zlen_cons; pose proof (zlen_nonneg t0); lia).
    replace (zlen pre + zlen t - zlen pre) with (zlen t) by lia. reflexivity. }
  rewrite Unf. clear Unf. clear Et c t0.
  destruct (unit_spec pre t Hb Hne) as [(u & t' & -> & S & E)|[E N]].
  - rewrite units_len_app in *. pose proof (units_len_bounds t'). pose proof (units_len_scalar u S) as Hu.
    assert (zlen (utf8 u) <= units_len (utf16 u)) as Hfit by (rewrite Hu; destruct (u <? 65536); lia).
    rewrite E by lia. cbn [bind]. apply Forall_app in Hb as [_ Hb].
    assert (1 <= length (utf16 u))%nat as H1 by (destruct (utf16_shape u S) as [[-> _]|(h & l & -> & _)]; cbn [length]; lia). rewrite app_length in *.
    destruct (IH t' ltac:(lia) fuel (pre ++ utf16 u) (d ++ utf8 u) (skipn (length (utf8 u)) r) ltac:(lia) Hb ltac:(unfold zlen in *; rewrite skipn_length; lia)) as [(us & F & -> & HL & E2)|[E2 N]];
      rewrite <- (app_assoc pre) in E2; rewrite (zlen_app pre) in E2; rewrite E2.
    + left. exists (u :: us). split; [constructor; assumption|]. split; [reflexivity|]. unfold utf8s in *. cbn [flat_map]. split; [rewrite zlen_app; lia|].
      rewrite skipn_skipn, app_length, <- !app_assoc. reflexivity.
    + right. split; [reflexivity|]. intros us F E3. destruct (utf16_head u t' us S F E3) as (us' & -> & E4 & F'). exact (N us' F' E4).
  - rewrite E. cbn [bind]. right. split; [reflexivity|]. intros us F E3. destruct us as [|u us]; [exact (Hne E3)|]. fcons F Fu. exact (N u (utf16s us) E3 Fu).
Qed.
Lemma units_len_utf16s us : Forall scalar us -> units_len (utf16s us) = zlen (utf8s us) + 4 * pairs us.
Proof.
  unfold utf16s, utf8s, pairs. induction 1 as [|u us S F IH]; [reflexivity|]. cbn [flat_map filter]. rewrite units_len_app, zlen_app, units_len_scalar, IH by exact S.
  destruct (u <? 65536); cbn [negb]; rewrite ?zlen_cons; lia.
Qed.
Lemma from_utf16_ok junk t : (forall n, 0 <= n -> zlen (junk n) = n) -> Forall is_unit t -> zlen t < 2 ^ 60 ->
  (exists us j, Forall scalar us /\ t = utf16s us /\ zlen j = 4 * pairs us /\ from_utf16 junk t = Ok (Some (utf8s us ++ j)))
  \/ (from_utf16 junk t = Ok None /\ forall us, Forall scalar us -> t <> utf16s us).
Proof.
  intros Hj Hb Hn. unfold from_utf16. pose proof (zlen_nonneg t). pose proof (units_len_bounds t). rewrite len16_ok by lia. rewrite Z.add_0_l. set (L := units_len t) in *.
  unfold usz. rewrite Z.mod_small by lia. pose proof (Hj (L + 1) ltac:(lia)) as Hl. set (r := junk (L + 1)) in *.
  destruct (u16to8_loop (length t) t (le_n _) (S (length t)) [] [] r ltac:(lia) Hb ltac:(fold L; lia)) as [(us & F & E0 & HL & E)|[E N]]; cbn [app] in E; change (zlen (@nil Z)) with 0 in E; rewrite E; cbn [bind]; [left|right; auto].
  pose proof (units_len_utf16s us F) as HP. rewrite <- E0 in HP. fold L in HP, HL. set (w := utf8s us) in *. set (data := w ++ skipn (length w) r).
  assert (zlen data = L + 1) as Ld by (unfold data, zlen in *; rewrite app_length, skipn_length; lia).
  exists us. set (m := Z.to_nat (4 * pairs us)).
  assert (0 <= pairs us) as Hp by apply zlen_nonneg.
  assert (data = (w ++ firstn m (skipn (length w) r)) ++ skipn m (skipn (length w) r)) as Ed by (unfold data; rewrite <- app_assoc, firstn_skipn; reflexivity).
  assert (length (firstn m (skipn (length w) r)) = m) as Lm by (rewrite firstn_length, skipn_length; unfold m, zlen in *; lia).
  exists (firstn m (skipn (length w) r)). split; [exact F|]. split; [exact E0|]. split; [unfold zlen; rewrite Lm; unfold m; lia|].
  assert (zlen (w ++ firstn m (skipn (length w) r)) = L) as Lq by (rewrite zlen_app; unfold zlen at 2; rewrite Lm; unfold m; lia).
  rewrite Ed. destruct (skipn m (skipn (length w) r)) as [|x q] eqn:Eq.
  { rewrite app_nil_r in Ed. rewrite Ed in Ld. lia. }
  rewrite set_app by lia. cbn [bind]. rewrite upto_at by lia. reflexivity.
Qed.

(** ** Into a caller's buffer *)
Lemma to8_bounded u d r : 0 <= u ->
  if (u <=? 1114111) && (zlen (enc8 u) <=? zlen r) then char32_to_utf8 u (d ++ r) (zlen d) = Ok (Some (zlen (enc8 u), (d ++ enc8 u) ++ skipn (length (enc8 u)) r))
  else char32_to_utf8 u (d ++ r) (zlen d) = Ok None.
Proof.
  intros Hu. unfold char32_to_utf8, enc8. rewrite zlen_app. replace (zlen d + zlen r - zlen d) with (zlen r) by lia. pose proof (zlen_nonneg r).
  destruct (Z.leb_spec u 127); [|destruct (Z.leb_spec u 2047); [|destruct (Z.leb_spec u 65535)]];
    [change (zlen (seq1 u)) with 1|change (zlen (seq2 u)) with 2|change (zlen (seq3 u)) with 3|change (zlen (seq4 u)) with 4].
  - replace (u <=? 1114111) with true by lia. cbn [andb]. destruct (Z.leb_spec 1 (zlen r)); [|replace (zlen r =? 0) with true by lia; reflexivity].
    replace (zlen r =? 0) with false by lia. rewrite store_at by (reflexivity || (change (zlen (seq1 u)) with 1; lia)). reflexivity.
  - replace (u <=? 1114111) with true by lia. cbn [andb]. destruct (Z.leb_spec 2 (zlen r)); [|destruct (zlen r =? 0); [reflexivity|]; replace (zlen r <? 2) with true by lia; reflexivity].
    replace (zlen r =? 0) with false by lia. replace (zlen r <? 2) with false by lia. rewrite store_at by (reflexivity || (change (zlen (seq2 u)) with 2; lia)). reflexivity.
  - replace (u <=? 1114111) with true by lia. cbn [andb]. destruct (Z.leb_spec 3 (zlen r)); [|destruct (zlen r =? 0); [reflexivity|]; replace (zlen r <? 3) with true by lia; reflexivity].
    replace (zlen r =? 0) with false by lia. replace (zlen r <? 3) with false by lia. rewrite store_at by (reflexivity || (change (zlen (seq3 u)) with 3; lia)). reflexivity.
  - destruct (u <=? 1114111); cbn [andb]; [|destruct (zlen r =? 0); reflexivity]. destruct (Z.leb_spec 4 (zlen r)); [|destruct (zlen r =? 0); [reflexivity|]; replace (zlen r <? 4) with true by lia; reflexivity].
    replace (zlen r =? 0) with false by lia. replace (zlen r <? 4) with false by lia. rewrite store_at by (reflexivity || (change (zlen (seq4 u)) with 4; lia)). reflexivity.
Qed.
Lemma utf32to8_loop_ok : forall us d r, Forall (fun u => 0 <= u) us ->
  (Forall (fun u => u <= 1114111) us /\ zlen (flat_map enc8 us) <= zlen r /\
   utf32to8_loop us (d ++ r) (zlen d) = Ok (Some (zlen d + zlen (flat_map enc8 us)), d ++ flat_map enc8 us ++ ended (skipn (length (flat_map enc8 us)) r)))
  \/ (~ (Forall (fun u => u <= 1114111) us /\ zlen (flat_map enc8 us) <= zlen r) /\ exists buf, utf32to8_loop us (d ++ r) (zlen d) = Ok (None, buf) /\ zlen buf = zlen (d ++ r)).
Proof.
  induction us as [|u us IH]; intros d r HF.
  - left. split; [constructor|]. split; [apply zlen_nonneg|]. cbn [utf32to8_loop flat_map length app skipn]. change (zlen (@nil Z)) with 0. rewrite zlen_app. destruct r as [|x r]; cbn [ended].
    + change (zlen (@nil Z)) with 0. rewrite Z.add_0_r, Z.ltb_irrefl. reflexivity.
    + rewrite zlen_cons. pose proof (zlen_nonneg r). replace (zlen d <? zlen d + (1 + zlen r)) with true by lia. rewrite set_app by reflexivity. cbn [bind]. rewrite Z.add_0_r. reflexivity.
  - fcons HF Hu. cbn [utf32to8_loop flat_map]. pose proof (to8_bounded u d r Hu) as E. rewrite !zlen_app. pose proof (zlen_nonneg (flat_map enc8 us)).
    destruct (Z.leb_spec u 1114111); cbn [andb] in E; [destruct (Z.leb_spec (zlen (enc8 u)) (zlen r)) as [Hfit|Hno]|]; rewrite E; cbn [bind].
    + unfold advance. assert (zlen ((d ++ enc8 u) ++ skipn (length (enc8 u)) r) = zlen d + zlen r) as Lz by (unfold zlen in *; rewrite !app_length, skipn_length; lia).
      rewrite Lz. replace (zlen d + zlen (enc8 u) <=? zlen d + zlen r) with true by lia. cbn [bind]. rewrite <- (zlen_app d (enc8 u)).
      assert (zlen (skipn (length (enc8 u)) r) = zlen r - zlen (enc8 u)) as Ls by (unfold zlen in *; rewrite skipn_length; lia).
      destruct (IH (d ++ enc8 u) (skipn (length (enc8 u)) r) HF) as [(F & HL & E2)|(N & buf & E2 & HL)]; rewrite E2.
      * left. split; [constructor; assumption|]. split; [lia|]. rewrite skipn_skipn, !app_length, zlen_app, Z.add_assoc, <- !app_assoc. reflexivity.
      * right. split; [|exists buf; split; [reflexivity|]; rewrite HL; exact Lz]. intros [F HL2]. inversion F; subst. apply N. split; [assumption|lia].
    + right. split; [intros [_ HL]; lia|]. exists (d ++ r). split; [reflexivity|apply zlen_app].
    + right. split; [intros [F _]; inversion F; lia|]. exists (d ++ r). split; [reflexivity|apply zlen_app].
Qed.
Lemma utf8to32_loop_ok : forall k t, (length t <= k)%nat -> forall fuel pre d r, (length t < fuel)%nat -> Forall is_byte t ->
  (exists us, looses us t /\ zlen us <= zlen r /\ utf8to32_loop fuel (pre ++ t) (zlen pre) (d ++ r) (zlen d) = Ok (Some (zlen d + zlen us), d ++ us ++ ended2 (skipn (length us) r)))
  \/ ((forall us, looses us t -> zlen r < zlen us) /\ exists buf, utf8to32_loop fuel (pre ++ t) (zlen pre) (d ++ r) (zlen d) = Ok (None, buf) /\ zlen buf = zlen (d ++ r)).
Proof.
  induction k as [|k IH]; intros t Hk fuel pre d r Hf Hb; destruct fuel as [|fuel]; try lia;
    (destruct t as [|c t0]; [left; exists []; split; [constructor|]; split; [apply zlen_nonneg|]; cbn [utf8to32_loop]; rewrite app_nil_r, Z.ltb_irrefl; change (zlen (@nil Z)) with 0; cbn [app length skipn]; rewrite zlen_app;
       destruct r as [|x [|y r]]; cbn [ended2]; rewrite ?zlen_cons; change (zlen (@nil Z)) with 0; rewrite ?Z.add_0_r; [replace (zlen d + 1 <? zlen d) with false by lia; reflexivity|rewrite Z.ltb_irrefl; reflexivity|]; pose proof (zlen_nonneg r);
       replace (zlen d + 1 <? zlen d + (1 + (1 + zlen r))) with true by lia; rewrite set_app by reflexivity; reflexivity|]).
  { cbn [length] in Hk. lia. }
  remember (c :: t0) as t eqn:Et. assert (t <> []) as Hne by (subst; discriminate).
  assert (Unf : utf8to32_loop (S fuel) (pre ++ t) (zlen pre) (d ++ r) (zlen d) = if zlen d =? zlen (d ++ r) then Ok (None, d ++ r) else (q <- utf8_to_char32 (pre ++ t) (zlen pre) (zlen t) ;; match q with None => Ok (None, d ++ r) | Some (uc, width) => buf <- set (d ++ r) (zlen d) uc ;; utf8to32_loop fuel (pre ++ t) (zlen pre + width) buf (zlen d + 1) end)).
  { cbn [utf8to32_loop]. rewrite (zlen_app pre). replace (zlen pre <? zlen pre + zlen t) with true by (subst t; rewrite zlen_cons; pose proof (zlen_nonneg t0); lia).
    replace (zlen pre + zlen t - zlen pre) with (zlen t) by lia. reflexivity. }
  rewrite Unf. clear Unf. clear Et c t0. rewrite (zlen_app d).
  assert (forall us, looses us t -> us <> []) as Hus by (intros us LS ->; inversion LS; subst; congruence).
  destruct r as [|x r].
  { right. change (zlen (@nil Z)) with 0. rewrite Z.add_0_r, Z.eqb_refl. split; [|exists (d ++ []); split; [reflexivity|rewrite app_nil_r; reflexivity]].
    intros us LS. specialize (Hus us LS). destruct us; [congruence|]. rewrite zlen_cons. pose proof (zlen_nonneg us). lia. }
  rewrite zlen_cons. pose proof (zlen_nonneg r). replace (zlen d =? zlen d + (1 + zlen r)) with false by lia.
  destruct (lead_spec pre t Hb Hne) as [(u & b & t' & -> & L & E)|[E N]]; rewrite E; cbn [bind].
  - rewrite set_app by reflexivity. cbn [bind]. pose proof (loose_length u b L). rewrite app_length in *. apply Forall_app in Hb as [_ Hb].
    destruct (IH t' ltac:(lia) fuel (pre ++ b) (d ++ [u]) r ltac:(lia) Hb) as [(us & LS & HL & E2)|(N & buf & E2 & HL)]; rewrite <- !app_assoc, !zlen_app in E2; change (zlen [u]) with 1 in E2; cbn [app] in E2; rewrite E2.
    + left. exists (u :: us). split; [constructor; assumption|]. rewrite zlen_cons. split; [lia|]. cbn [length skipn app]. rewrite Z.add_assoc. reflexivity.
    + right. split; [|exists buf; split; [reflexivity|]; rewrite HL, !zlen_app; change (zlen [u]) with 1; lia].
      intros us LS. destruct (looses_head _ _ u b t' LS eq_refl L) as (us' & -> & LS'). rewrite zlen_cons. specialize (N us' LS'). lia.
  - right. split; [|eexists; split; [reflexivity|rewrite zlen_app, zlen_cons; reflexivity]]. intros us LS. destruct LS as [|u b us bs L LS]; [congruence|]. exfalso. exact (N u b bs eq_refl L).
Qed.
Lemma len16_32 : forall us n, 0 <= n -> n + zlen us < 2 ^ 64 -> utf16len_count us n = n + pairs us.
Proof.
  unfold pairs. induction us as [|u us IH]; intros n Hn Hm; cbn [utf16len_count filter]; [change (zlen (@nil Z)) with 0; lia|]. rewrite zlen_cons in Hm. pose proof (zlen_nonneg us).
  replace (65536 <=? u) with (negb (u <? 65536)) by lia. destruct (negb (u <? 65536)); [|apply IH; lia]. unfold usz. rewrite Z.mod_small by lia. rewrite IH by lia. rewrite zlen_cons. lia.
Qed.
Lemma zlen_utf16s us : zlen (utf16s us) = zlen us + pairs us.
Proof.
  unfold utf16s, pairs. induction us as [|u us IH]; [reflexivity|]. cbn [flat_map filter]. rewrite zlen_app, IH, zlen_cons. unfold utf16. destruct (u <? 65536); cbn [negb]; rewrite ?zlen_cons; change (zlen (@nil Z)) with 0; lia.
Qed.
Lemma scalar_range us : Forall scalar us -> Forall (fun u => 0 <= u <= 1114111) us.
Proof. apply Forall_impl. intros u H. unfold scalar in H. lia. Qed.
Lemma utf16s_inj us vs : Forall scalar us -> Forall scalar vs -> utf16s us = utf16s vs -> us = vs.
Proof.
  intros F. revert vs. induction F as [|u us S F IH]; intros vs G E.
  - destruct vs as [|v vs]; [reflexivity|]. fcons G Gv. destruct (utf16_shape v Gv) as [[E1 _]|(h & l & E1 & _)]; unfold utf16s in E; cbn [flat_map] in E; rewrite E1 in E; discriminate.
  - destruct (utf16_head u (utf16s us) vs S G E) as (us' & -> & E2 & F'). f_equal. apply IH; assumption.
Qed.
