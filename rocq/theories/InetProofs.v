(** Proofs about IPv4 texts and address blocks. *)
From Coq Require Import ZArith Bool List Lia.
From Coq Require Import ZifyBool.
From Verif Require Import Word Mach InetModel InetSpec.
Import ListNotations.
Open Scope Z_scope.
Ltac Zify.zify_post_hook ::= Z.to_euclidean_division_equations.

Lemma i32_small x : - 2 ^ 31 <= x < 2 ^ 31 -> i32 x = x.
Proof.
  intros H. unfold i32, swrap. change (2 ^ (32 - 1)) with 2147483648. change (2 ^ 32) with 4294967296. change (2 ^ 31) with 2147483648 in H.
  destruct (Z.ltb_spec (x mod 4294967296) 2147483648); lia.
Qed.
Lemma i32_minus1_or x : i32 x = -1 \/ i32 x <> -1. Proof. lia. Qed.

Definition dec_from (a : Z) (l : list Z) : Z := fold_left (fun a c => a * 10 + (c - 48)) l a.
Lemma dec_from_bound l : forall a, Forall digit l -> 0 <= a -> 0 <= dec_from a l < (a + 1) * 10 ^ zlen l.
Proof.
  induction l as [|c l IH]; intros a Hl Ha; cbn [dec_from fold_left].
  - change (10 ^ zlen (@nil Z)) with 1. lia.
  - inversion Hl; subst. unfold digit in *. specialize (IH (a * 10 + (c - 48)) H2 ltac:(lia)). unfold dec_from in IH. rewrite zlen_cons, Z.pow_add_r by (pose proof (zlen_nonneg l); lia).
    change (10 ^ 1) with 10. pose proof (Z.pow_pos_nonneg 10 (zlen l) ltac:(lia) (zlen_nonneg l)). nia.
Qed.
Lemma v4_digits l : forall r a b c e cur, Forall digit l -> e <= 3 -> 0 <= cur -> (cur + 1) * 10 ^ zlen l <= 2 ^ 31 ->
  v4_loop (l ++ r) a b c e cur = v4_loop r a b c e (dec_from cur l).
Proof.
  induction l as [|ch l IH]; intros r a b c e cur Hl He Hc Hb; [reflexivity|]. inversion Hl; subst. unfold digit in *.
  cbn [app v4_loop]. rewrite zlen_cons, Z.pow_add_r in Hb by (pose proof (zlen_nonneg l); lia). change (10 ^ 1) with 10 in Hb.
  replace (ch =? 46) with false by lia. replace ((3 <? e) || (ch <? 48) || (57 <? ch)) with false by lia. replace (cur <? 0) with false by lia.
  pose proof (Z.pow_pos_nonneg 10 (zlen l) ltac:(lia) (zlen_nonneg l)).
  rewrite i32_small by nia. rewrite IH; try assumption; try nia. unfold dec_from. cbn [fold_left]. replace (cur * 10 + (ch - 48)) with (cur * 10 + ch - 48) by lia. reflexivity.
Qed.
Lemma v4_group l r a b c e : l <> [] -> Forall digit l -> (length l < 10)%nat -> e <= 3 -> v4_loop (l ++ r) a b c e (-1) = v4_loop r a b c e (dec_value l).
Proof.
  intros Hn Hl Hs He. destruct l as [|ch l]; [congruence|]. inversion Hl; subst. unfold digit in *. cbn [app v4_loop].
  replace (ch =? 46) with false by lia. replace ((3 <? e) || (ch <? 48) || (57 <? ch)) with false by lia. cbn [Z.ltb Z.compare].
  cbn [length] in Hs. rewrite v4_digits; try assumption; try lia; [|].
  - f_equal.
  - assert (10 ^ zlen l <= 10 ^ 8) by (apply Z.pow_le_mono_r; unfold zlen; lia). change (10 ^ 8) with 100000000 in *. change (2 ^ 31) with 2147483648. nia.
Qed.
Lemma span_digits s : exists l r, s = l ++ r /\ Forall digit l /\ (r = [] \/ exists c r', r = c :: r' /\ ~ digit c).
Proof.
  induction s as [|c s (l & r & -> & Hl & Hr)]; [exists [], []; auto|].
  destruct (Z_le_dec 48 c), (Z_le_dec c 57); try (exists [], (c :: l ++ r); repeat split; auto; right; exists c, (l ++ r); split; [reflexivity|unfold digit; lia]).
  exists (c :: l), r. repeat split; auto. constructor; [unfold digit; lia|assumption].
Qed.
Lemma short_runs_suffix n P p q : short_runs n P (p ++ q) -> short_runs n P q.
Proof. intros H x m y E Hm. apply (H (p ++ x) m y); [|assumption]. rewrite E, app_assoc. reflexivity. Qed.
Lemma short_runs_prefix n P p q : short_runs n P (p ++ q) -> Forall P p -> (length p < n)%nat.
Proof. intros H Hp. apply (H [] p q); auto. Qed.
Lemma v4_step s a b c e a' b' c' e' cur : short_runs 10 digit s -> 0 <= e <= 3 -> v4_loop s a b c e (-1) = Some (a', b', c', e', cur) -> 0 <= cur ->
  exists l, l <> [] /\ Forall digit l /\ (length l < 10)%nat /\ 0 <= dec_value l /\
    ((s = l /\ cur = dec_value l /\ a' = a /\ b' = b /\ c' = c /\ e' = e) \/
     (exists r, s = l ++ 46 :: r /\ dec_value l <= 255 /\ e < 3 /\ short_runs 10 digit r /\
        v4_loop r (if e =? 0 then dec_value l else a) (if e =? 1 then dec_value l else b) (if e =? 2 then dec_value l else c) (e + 1) (-1) = Some (a', b', c', e', cur))).
Proof.
  intros Hs He H Hc. destruct (span_digits s) as (l & r & -> & Hl & Hr).
  pose proof (short_runs_prefix _ _ _ _ Hs Hl) as Hlen.
  destruct l as [|d l].
  { exfalso. cbn [app] in *. destruct Hr as [->|(ch & r' & -> & Hd)]; [cbn in H; injection H; lia|]. cbn [v4_loop] in H.
    destruct (ch =? 46) eqn:E1; [cbn in H; discriminate H|]. unfold digit in Hd. replace ((3 <? e) || (ch <? 48) || (57 <? ch)) with true in H by lia. discriminate H. }
  set (g := d :: l) in *. assert (Hg : g <> []) by discriminate.
  rewrite v4_group in H by (auto; lia).
  assert (Hv : 0 <= dec_value g) by (pose proof (dec_from_bound g 0 Hl ltac:(lia)); unfold dec_from in *; unfold dec_value; lia).
  exists g. repeat split; auto. destruct Hr as [->|(ch & r' & -> & Hd)].
  - left. rewrite app_nil_r. cbn [v4_loop] in H. injection H as <- <- <- <- <-. repeat split.
  - right. cbn [v4_loop] in H. destruct (ch =? 46) eqn:E1.
    + apply Z.eqb_eq in E1. subst ch. exists r'. replace (dec_value g <? 0) with false in H by lia. destruct (255 <? dec_value g) eqn:E2; [discriminate H|].
      assert (Hr' : short_runs 10 digit r') by (apply (short_runs_suffix _ _ (g ++ [46])); rewrite <- app_assoc; exact Hs).
      destruct (Z.eqb_spec e 0); [subst e; repeat split; auto; lia|]. destruct (Z.eqb_spec e 1); [subst e; repeat split; auto; lia|].
      destruct (Z.eqb_spec e 2); [subst e; repeat split; auto; lia|discriminate H].
    + unfold digit in Hd. replace ((3 <? e) || (ch <? 48) || (57 <? ch)) with true in H by lia. discriminate H.
Qed.
Lemma v4_sound s x : short_runs 10 digit s -> ipv4_from_str s = Some x -> exists a b c d, v4_text s a b c d /\ x = v4inet a b c d.
Proof.
  intros Hs H. unfold ipv4_from_str in H. destruct (v4_loop s 0 0 0 0 (-1)) as [((((a & b) & c) & e) & cur)|] eqn:E; [|discriminate].
  destruct (negb (e =? 3) || (cur <? 0) || (255 <? cur)) eqn:G; [discriminate|]. injection H as <-.
  assert (He : e = 3) by lia. assert (Hc : 0 <= cur <= 255) by lia. clear G. subst e.
  apply v4_step in E; [|assumption|lia|lia]. destruct E as (la & na & da & _ & pa & [(_ & _ & _ & _ & _ & Ee)|(s1 & -> & ba & _ & Hs1 & E)]); [lia|]. cbn [Z.eqb Pos.eqb Z.add Pos.add] in E.
  apply v4_step in E; [|assumption|lia|lia]. destruct E as (lb & nb & db & _ & pb & [(_ & _ & _ & _ & _ & Ee)|(s2 & -> & bb & _ & Hs2 & E)]); [lia|]. cbn [Z.eqb Pos.eqb Z.add Pos.add Pos.succ] in E.
  apply v4_step in E; [|assumption|lia|lia]. destruct E as (lc & nc & dc & _ & pc & [(_ & _ & _ & _ & _ & Ee)|(s3 & -> & bc & _ & Hs3 & E)]); [lia|]. cbn [Z.eqb Pos.eqb Z.add Pos.add Pos.succ] in E.
  apply v4_step in E; [|assumption|lia|lia]. destruct E as (ld & nd & dd & _ & pd & [(-> & -> & -> & -> & -> & _)|(s4 & -> & bd & K & _)]); [|lia].
  exists (dec_value la), (dec_value lb), (dec_value lc), (dec_value ld). split; [|reflexivity].
  exists la, lb, lc, ld. unfold octet. repeat split; auto. lia.
Qed.
Lemma v4_complete s a b c d : short_runs 10 digit s -> v4_text s a b c d -> ipv4_from_str s = Some (v4inet a b c d).
Proof.
  intros Hs (la & lb & lc & ld & -> & (na & da & ea & ua) & (nb & db & eb & ub) & (nc & dc & ec & uc) & (nd & dd & ed & ud)).
  pose proof (short_runs_prefix _ _ _ _ Hs da). apply (short_runs_suffix _ _ la) in Hs. apply (short_runs_suffix _ _ [46]) in Hs.
  pose proof (short_runs_prefix _ _ _ _ Hs db). apply (short_runs_suffix _ _ lb) in Hs. apply (short_runs_suffix _ _ [46]) in Hs.
  pose proof (short_runs_prefix _ _ _ _ Hs dc). apply (short_runs_suffix _ _ lc) in Hs. apply (short_runs_suffix _ _ [46]) in Hs.
  rewrite <- (app_nil_r ld) in Hs. pose proof (short_runs_prefix _ _ _ _ Hs dd). clear Hs.
  pose proof (dec_from_bound la 0 da ltac:(lia)). pose proof (dec_from_bound lb 0 db ltac:(lia)). pose proof (dec_from_bound lc 0 dc ltac:(lia)). pose proof (dec_from_bound ld 0 dd ltac:(lia)).
  unfold dec_from in *. unfold dec_value in ea, eb, ec, ed. rewrite ?ea, ?eb, ?ec, ?ed in *.
  unfold ipv4_from_str. rewrite v4_group by (auto; lia). unfold dec_value at 1. rewrite ea. cbn [v4_loop Z.eqb Pos.eqb]. replace (a <? 0) with false by lia. replace (255 <? a) with false by lia.
  rewrite v4_group by (auto; lia). unfold dec_value at 1. rewrite eb. cbn [v4_loop Z.eqb Pos.eqb Z.add Pos.add Pos.succ]. replace (b <? 0) with false by lia. replace (255 <? b) with false by lia.
  rewrite v4_group by (auto; lia). unfold dec_value at 1. rewrite ec. cbn [v4_loop Z.eqb Pos.eqb Z.add Pos.add Pos.succ]. replace (c <? 0) with false by lia. replace (255 <? c) with false by lia.
  rewrite <- (app_nil_r ld). rewrite v4_group by (auto; lia). unfold dec_value. rewrite ed. cbn [v4_loop Z.eqb Pos.eqb negb orb]. replace (d <? 0) with false by lia. replace (255 <? d) with false by lia. reflexivity.
Qed.

(** Printing. *)
Lemma dec3_octet v : 0 <= v <= 255 -> octet (dec3 v) v.
Proof.
  intros H. unfold dec3, octet. destruct (Z.ltb_spec v 10); [|destruct (Z.ltb_spec v 100)]; (split; [discriminate|]); (split; [repeat constructor; lia|]); (split; [|lia]); cbn [dec_value fold_left]; unfold dec_value; cbn [fold_left]; lia.
Qed.
Lemma v4_print a b c d : 0 <= a <= 255 -> 0 <= b <= 255 -> 0 <= c <= 255 -> 0 <= d <= 255 -> v4_text (to_string (v4inet a b c d)) a b c d.
Proof.
  intros Ha Hb Hc Hd. unfold to_string, v4inet, v4a, v4b, v4c, v4d, group. cbn [is_ipv6 groups nth].
  replace ((a * 256 + b) / 256) with a by lia. replace ((a * 256 + b) mod 256) with b by lia. replace ((c * 256 + d) / 256) with c by lia. replace ((c * 256 + d) mod 256) with d by lia.
  exists (dec3 a), (dec3 b), (dec3 c), (dec3 d). repeat split; try apply dec3_octet; auto; try (apply (dec3_octet _ Ha)); try (apply (dec3_octet _ Hb)); try apply (dec3_octet _ Hc); try apply (dec3_octet _ Hd).
Qed.

Lemma short_runs_cut n (P : Z -> Prop) l c r : (length l < n)%nat -> ~ P c -> short_runs n P r -> short_runs n P (l ++ c :: r).
Proof.
  intros Hl Hc Hr p m q E Hm. symmetry in E. destruct (app_eq_app _ _ _ _ E) as (t & [(-> & E1)|(-> & E1)]).
  - destruct t as [|c' t]; cbn [app] in E1.
    + destruct m as [|m0 m]; [cbn; lia|]. cbn [app] in E1. injection E1 as -> _. inversion Hm; subst. contradiction.
    + injection E1 as <- E1. apply (Hr t m q); [exact E1|assumption].
  - rewrite app_length in Hl. destruct (app_eq_app _ _ _ _ E1) as (u & [(-> & E2)|(-> & E2)]).
    + destruct u as [|c' u]; [rewrite app_nil_r; lia|]. injection E2 as -> _. apply Forall_app in Hm. destruct Hm as (_ & Hm). inversion Hm; subst. contradiction.
    + rewrite app_length in Hl. lia.
Qed.
Lemma short_runs_one n (P : Z -> Prop) l : (length l < n)%nat -> short_runs n P l.
Proof. intros Hl p m q -> _. rewrite !app_length in Hl. lia. Qed.
Lemma dec3_len v : (length (dec3 v) < 10)%nat.
Proof. unfold dec3. destruct (v <? 10); [|destruct (v <? 100)]; cbn; lia. Qed.
Lemma v4_print_short x : is_ipv6 x = false -> short_runs 10 digit (to_string x).
Proof.
  intros E. unfold to_string. rewrite E. repeat (apply short_runs_cut; [apply dec3_len|unfold digit; lia|]). apply short_runs_one, dec3_len.
Qed.
Lemma v4_round a b c d : 0 <= a <= 255 -> 0 <= b <= 255 -> 0 <= c <= 255 -> 0 <= d <= 255 -> ipv4_from_str (to_string (v4inet a b c d)) = Some (v4inet a b c d).
Proof. intros. apply v4_complete; [apply v4_print_short; reflexivity|apply v4_print; assumption]. Qed.

(** Address blocks. *)
Lemma v4_fields a b c d : 0 <= a <= 255 -> 0 <= b <= 255 -> 0 <= c <= 255 -> 0 <= d <= 255 ->
  v4a (v4inet a b c d) = a /\ v4b (v4inet a b c d) = b /\ v4c (v4inet a b c d) = c /\ v4d (v4inet a b c d) = d.
Proof. intros. unfold v4a, v4b, v4c, v4d, v4inet, group. cbn [groups nth]. lia. Qed.
Lemma land_f0 b : 0 <= b <= 255 -> Z.land b 0xf0 = b / 16 * 16.
Proof.
  intros H. assert (F : forallb (fun b => Z.land b 0xf0 =? b / 16 * 16) (map Z.of_nat (seq 0 256)) = true) by (vm_compute; reflexivity).
  rewrite forallb_forall in F. apply Z.eqb_eq, F, in_map_iff. exists (Z.to_nat b). split; [lia|apply in_seq; lia].
Qed.
Lemma land_top v : 0 <= v < 2 ^ 32 -> Z.land v 0xf0000000 = v / 2 ^ 28 * 2 ^ 28.
Proof.
  intros H. change 0xf0000000 with (Z.shiftl 15 28). rewrite <- Z.shiftl_mul_pow2, <- Z.shiftr_div_pow2 by lia.
  apply Z.bits_inj'. intros k Hk. rewrite Z.land_spec, !Z.shiftl_spec by lia. destruct (Z.lt_ge_cases k 28) as [L|L].
  - rewrite !(Z.testbit_neg_r _ (k - 28)) by lia. apply andb_false_r.
  - rewrite Z.shiftr_spec by lia. replace (k - 28 + 28) with k by lia. destruct (Z.lt_ge_cases k 32) as [G|G].
    + replace (Z.testbit 15 (k - 28)) with true; [apply andb_true_r|]. assert (K : k - 28 = 0 \/ k - 28 = 1 \/ k - 28 = 2 \/ k - 28 = 3) by lia. destruct K as [->|[->|[->| ->]]]; reflexivity.
    + rewrite (Z.bits_above_log2 v k); [reflexivity|lia|]. destruct (Z.eq_dec v 0) as [->|]; [cbn; lia|]. apply Z.log2_lt_pow2; [lia|]. apply Z.lt_le_trans with (2 ^ 32); [lia|apply Z.pow_le_mono_r; lia].
Qed.
