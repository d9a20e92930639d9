(** Proofs about implicit integer conversions. *)
From Coq Require Import ZArith Bool List Lia.
From Coq Require Import ZifyBool.
From Verif Require Import Word Int128Model Int128Spec Int128Proofs Int128Proofs2 Int128Proofs3 Int128Thms CmpModel CmpSpec CmpProofs NumModel NumSpec.
Import ListNotations.
Open Scope Z_scope.

Lemma kb k : 8 <= kbits k <= 128. Proof. destruct k; cbn; lia. Qed.
Lemma kp k : 0 < 2 ^ kbits k. Proof. pose proof (kb k). apply Z.pow_pos_nonneg; lia. Qed.
Lemma down m n a b : 0 <= n <= m -> a mod 2 ^ m = b mod 2 ^ m -> a mod 2 ^ n = b mod 2 ^ n.
Proof.
  intros H E. assert (0 < 2 ^ n) by (apply Z.pow_pos_nonneg; lia). assert (0 < 2 ^ (m - n)) by (apply Z.pow_pos_nonneg; lia).
  assert (D : (2 ^ n | 2 ^ m)) by (exists (2 ^ (m - n)); rewrite <- Z.pow_add_r by lia; f_equal; lia).
  assert (0 < 2 ^ m) by (apply Z.pow_pos_nonneg; lia).
  rewrite (Znumtheory.Zmod_div_mod (2 ^ n) (2 ^ m) a), (Znumtheory.Zmod_div_mod (2 ^ n) (2 ^ m) b) by auto. rewrite E. reflexivity.
Qed.
Lemma swrap_cong w x : 0 < w -> swrap w x mod 2 ^ w = x mod 2 ^ w.
Proof.
  intros Hw. unfold swrap. assert (0 < 2 ^ w) by (apply Z.pow_pos_nonneg; lia). destruct (_ <? _).
  - apply Z.mod_mod. lia.
  - replace (x mod 2 ^ w - 2 ^ w) with (x mod 2 ^ w + (-1) * 2 ^ w) by lia. rewrite Z.mod_add by lia. apply Z.mod_mod. lia.
Qed.
Lemma wrap_cong k x : wrap k x mod 2 ^ kbits k = x mod 2 ^ kbits k.
Proof. pose proof (kb k). pose proof (kp k). unfold wrap, uwrap. destruct (ksigned k); [apply swrap_cong; lia|apply Z.mod_mod; lia]. Qed.
Lemma wrap_eq k x y : x mod 2 ^ kbits k = y mod 2 ^ kbits k -> wrap k x = wrap k y.
Proof. intros E. unfold wrap, swrap, uwrap. rewrite E. reflexivity. Qed.
Lemma bv_wrap k v : is_bits k v -> bits_value k v = wrap k v.
Proof. intros H. unfold bits_value, wrap, uwrap. destruct (ksigned k); [reflexivity|]. symmetry. apply Z.mod_small. exact H. Qed.
Lemma bv_cong k v : is_bits k v -> bits_value k v mod 2 ^ kbits k = v mod 2 ^ kbits k.
Proof. intros H. rewrite bv_wrap by auto. apply wrap_cong. Qed.
Lemma wrap_in k z : in_kind k z -> wrap k z = z.
Proof.
  pose proof (kb k). unfold in_kind, kmin, kmax, wrap, uwrap. destruct (ksigned k); intros [A B].
  - apply swrap_small; lia.
  - apply Z.mod_small. lia.
Qed.
Lemma wrap_range k z : in_kind k (wrap k z).
Proof.
  pose proof (kb k). unfold in_kind, kmin, kmax, wrap, uwrap. destruct (ksigned k).
  - pose proof (swrap_range (kbits k) z ltac:(lia)). lia.
  - pose proof (Z.mod_pos_bound z (2 ^ kbits k) (kp k)). lia.
Qed.
Lemma bv_in k v : is_bits k v -> in_kind k (bits_value k v).
Proof. intros H. rewrite bv_wrap by auto. apply wrap_range. Qed.
Lemma bv_mod k z : bits_value k (z mod 2 ^ kbits k) = wrap k z.
Proof.
  rewrite bv_wrap by (apply Z.mod_pos_bound, kp). apply wrap_eq. apply Z.mod_mod. pose proof (kp k). lia.
Qed.
Lemma mod_bits k z : is_bits k (z mod 2 ^ kbits k). Proof. apply Z.mod_pos_bound, kp. Qed.

Lemma ext_eq from to v : is_bits from v -> ext_trunc from to v = bits_value from v mod 2 ^ kbits to.
Proof.
  intros H. unfold ext_trunc. pose proof (kb from). pose proof (kb to). destruct (Z.ltb_spec (kbits from) (kbits to)).
  - unfold bits_value. destruct (ksigned from); [reflexivity|]. symmetry. apply Z.mod_small. unfold is_bits in H.
    assert (2 ^ kbits from <= 2 ^ kbits to) by (apply Z.pow_le_mono_r; lia). lia.
  - apply (down (kbits from)); [lia|]. symmetry. apply bv_cong. auto.
Qed.

Lemma land_bits k a b : is_bits k a -> is_bits k b -> is_bits k (Z.land a b) /\ is_bits k (Z.lor a b) /\ is_bits k (Z.lxor a b).
Proof.
  unfold is_bits. pose proof (kb k) as Hk. intros Ha Hb.
  assert (Hz : forall x, 0 <= x < 2 ^ kbits k <-> x = x mod 2 ^ kbits k).
  { intros x. split; intros Hx; [symmetry; apply Z.mod_small; auto|]. rewrite Hx. apply Z.mod_pos_bound, kp. }
  assert (Bt : forall x i, 0 <= x < 2 ^ kbits k -> kbits k <= i -> Z.testbit x i = false).
  { intros x i Hx Hi. rewrite (proj1 (Hz x) Hx). apply Z.mod_pow2_bits_high. lia. }
  repeat split; try (apply Z.land_nonneg || apply Z.lor_nonneg || apply Z.lxor_nonneg); try lia.
  all: match goal with |- ?x < _ => assert (E : x = x mod 2 ^ kbits k); [|rewrite E; apply Z.mod_pos_bound, kp] end.
  all: apply Z.bits_inj'; intros i Hi; destruct (Z.lt_ge_cases i (kbits k));
    [rewrite Z.mod_pow2_bits_low by lia; reflexivity|rewrite Z.mod_pow2_bits_high by lia].
  all: rewrite ?Z.land_spec, ?Z.lor_spec, ?Z.lxor_spec, (Bt a), (Bt b) by auto; reflexivity.
Qed.
Lemma bin_bits k op a b v : is_bits k a -> is_bits k b -> bin k op a b = Some v -> is_bits k v.
Proof.
  intros Ha Hb H. destruct (land_bits k a b Ha Hb) as (L1 & L2 & L3). unfold bin in H. cbn zeta in H. destruct op.
  all: try (destruct (_ || _) in H; [discriminate|]).
  all: injection H as <-; auto using mod_bits.
Qed.
Lemma eval_bits e : typed e -> forall v, eval e = Some v -> is_bits (ty e) v.
Proof.
  induction e; cbn [typed eval ty]; intros T w E.
  - injection E as <-. auto.
  - injection E as <-. apply mod_bits.
  - injection E as <-. auto.
  - destruct T as (ET & T1 & T2). destruct (eval e1); [|discriminate]. destruct (eval e2); [|discriminate].
    eapply bin_bits; [| |exact E]; [eauto|rewrite ET; eauto].
  - destruct (eval e); [|discriminate]. destruct (_ && _); [|discriminate]. injection E as <-. apply mod_bits.
  - destruct (eval e); [|discriminate]. destruct (_ && _); [|discriminate]. injection E as <-. apply mod_bits.
  - destruct T as (ET & T1 & T2). destruct ok; [eauto|rewrite ET; eauto].
  - destruct T as (ET & T1 & T2). destruct c; [eauto|rewrite ET; eauto].
  - destruct (eval e); [|discriminate]. injection E as <-. apply mod_bits.
  - destruct (eval e) as [a|] eqn:Ea; [|discriminate]. injection E as <-. specialize (IHe T a eq_refl). unfold is_bits in *. lia.
  - eauto.
  - eauto.
  - destruct (eval e) as [a|] eqn:Ea; [|discriminate]. injection E as <-. rewrite ext_eq by eauto. apply mod_bits.
Qed.
Lemma lit_value x : valid x -> bits_value (itype x) (value x mod 2 ^ kbits (itype x)) = value x.
Proof. intros [_ H]. rewrite bv_mod. apply wrap_in. auto. Qed.

(** Every conversion reduces the value into the target. *)
Lemma convert_reduces e t z : typed e -> result e z -> result (convert e t) (wrap t z).
Proof.
  intros T (v & E & <-).
  destruct (match e with Lit x => true | _ => false end) eqn:K.
  - destruct e; try discriminate. cbn [convert ty eval typed] in *. destruct (C07_conv x t T) as (V & K1 & K2).
    exists (value (int_conv x t) mod 2 ^ kbits t). split; [cbn [eval]; rewrite K1; reflexivity|]. injection E as <-.
    cbn [ty]. rewrite K1, bv_mod, K2, lit_value by auto. apply wrap_in, wrap_range.
  - assert (C : convert e t = Ext t e) by (destruct e; try reflexivity; discriminate).
    rewrite C. exists (ext_trunc (ty e) t v). split; [cbn [eval]; rewrite E; reflexivity|]. cbn [ty].
    rewrite ext_eq by (eapply eval_bits; eauto). apply bv_mod.
Qed.
Lemma result_range e z : typed e -> result e z -> in_kind (ty e) z.
Proof. intros T (v & E & <-). apply bv_in. eapply eval_bits; eauto. Qed.
Lemma in_kind_widen a t z : kbits a < kbits t -> (ksigned t = false -> 0 <= z) -> in_kind a z -> in_kind t z.
Proof.
  intros L N H. pose proof (kb a). pose proof (kb t). unfold in_kind, kmin, kmax in *.
  assert (2 ^ kbits a <= 2 ^ (kbits t - 1)) by (apply Z.pow_le_mono_r; lia).
  assert (2 ^ (kbits a - 1) <= 2 ^ (kbits t - 1)) by (apply Z.pow_le_mono_r; lia).
  pose proof (half (kbits t) ltac:(lia)). pose proof (half (kbits a) ltac:(lia)). assert (0 < 2 ^ (kbits a - 1)) by (apply Z.pow_pos_nonneg; lia).
  destruct (ksigned a), (ksigned t); try specialize (N eq_refl); lia.
Qed.

(** Narrowing looks at the operands. *)
Lemma may_narrow_operands cint t e : typed e -> Forall no_len (operands t e) -> (may_narrow cint e t = true <-> Forall (fits t) (operands t e)).
Proof.
  induction e; cbn [typed operands may_narrow]; intros T N.
  - rewrite Forall_cons_iff. cbn [fits ty]. split; [intros H; split; [lia|constructor]|intros [H _]; lia].
  - rewrite Forall_cons_iff. cbn [fits]. destruct T as [W _]. rewrite (C07_fits x t W). split; [split; [auto|constructor]|tauto].
  - inversion N. contradiction.
  - destruct T as (_ & T1 & T2). apply Forall_app in N. destruct N. rewrite Forall_app, andb_true_iff. rewrite IHe1, IHe2 by auto. reflexivity.
  - auto.
  - auto.
  - destruct T as (_ & T1 & T2). apply Forall_app in N. destruct N. rewrite Forall_app, andb_true_iff. rewrite IHe1, IHe2 by auto. reflexivity.
  - destruct T as (_ & T1 & T2). apply Forall_app in N. destruct N. rewrite Forall_app, andb_true_iff. rewrite IHe1, IHe2 by auto. reflexivity.
  - auto.
  - auto.
  - auto.
  - auto.
  - destruct (Z.leb_spec (kbits k) (kbits t)).
    + rewrite Forall_cons_iff. cbn [fits ty]. split; [intros _; split; [auto|constructor]|reflexivity].
    + auto.
Qed.

(** Bitwise operations and reduction. *)
Lemma land_cong n a b c d : 0 <= n -> a mod 2 ^ n = c mod 2 ^ n -> b mod 2 ^ n = d mod 2 ^ n ->
  Z.land a b mod 2 ^ n = Z.land c d mod 2 ^ n /\ Z.lor a b mod 2 ^ n = Z.lor c d mod 2 ^ n /\ Z.lxor a b mod 2 ^ n = Z.lxor c d mod 2 ^ n.
Proof.
  intros Hn Ha Hb.
  assert (B : forall x y, x mod 2 ^ n = y mod 2 ^ n <-> forall i, 0 <= i < n -> Z.testbit x i = Z.testbit y i).
  { intros x y. split; intros H.
    - intros i Hi. rewrite <- (Z.mod_pow2_bits_low x n i), <- (Z.mod_pow2_bits_low y n i) by lia. rewrite H. reflexivity.
    - apply Z.bits_inj'. intros i Hi. destruct (Z.lt_ge_cases i n); [rewrite !Z.mod_pow2_bits_low by lia; apply H; lia|rewrite !Z.mod_pow2_bits_high by lia; reflexivity]. }
  rewrite B in Ha, Hb. rewrite !B. repeat split; intros i Hi; rewrite ?Z.land_spec, ?Z.lor_spec, ?Z.lxor_spec, Ha, Hb by auto; reflexivity.
Qed.
Lemma zop_cong op n a b c d : 0 <= n -> op <> BDiv -> op <> BMod -> a mod 2 ^ n = c mod 2 ^ n -> b mod 2 ^ n = d mod 2 ^ n ->
  zop op a b mod 2 ^ n = zop op c d mod 2 ^ n.
Proof.
  intros Hn H1 H2 Ha Hb. assert (P : 2 ^ n <> 0) by (apply Z.pow_nonzero; lia). destruct (land_cong n a b c d Hn Ha Hb) as (L1 & L2 & L3).
  destruct op; cbn [zop]; try congruence.
  - rewrite (Z.add_mod a b), (Z.add_mod c d), Ha, Hb by auto. reflexivity.
  - rewrite (Zminus_mod a b), (Zminus_mod c d), Ha, Hb. reflexivity.
  - rewrite (Z.mul_mod a b), (Z.mul_mod c d), Ha, Hb by auto. reflexivity.
Qed.
Lemma bin_ring k op a b v : op <> BDiv -> op <> BMod -> is_bits k a -> is_bits k b -> bin k op a b = Some v -> v mod 2 ^ kbits k = zop op a b mod 2 ^ kbits k.
Proof.
  intros H1 H2 Ha Hb H. pose proof (kp k). unfold bin in H; cbn zeta in H. destruct op; try congruence; injection H as <-; cbn [zop]; rewrite ?Z.mod_mod by lia; reflexivity.
Qed.
Lemma neg_cong m a b : 0 < m -> a mod m = b mod m -> (- a) mod m = (- b) mod m.
Proof. intros Hm E. replace (- a) with (0 - a) by lia. replace (- b) with (0 - b) by lia. rewrite (Zminus_mod 0 a), (Zminus_mod 0 b), E. reflexivity. Qed.
Lemma mod_wrap_t t x y : x mod 2 ^ kbits t = y mod 2 ^ kbits t -> x mod 2 ^ kbits t = wrap t y mod 2 ^ kbits t.
Proof. intros E. rewrite wrap_cong. auto. Qed.

Lemma computes_cong t : forall e z, typed e -> modular t e -> computes t e z -> forall v, eval e = Some v ->
  bits_value (ty e) v mod 2 ^ kbits t = z mod 2 ^ kbits t.
Proof.
  assert (W : forall e z, (kbits (ty e) <= kbits t -> result e z -> forall v, eval e = Some v -> bits_value (ty e) v mod 2 ^ kbits t = z mod 2 ^ kbits t)).
  { intros e z _ (v & E & <-) v' E'. rewrite E in E'. injection E' as <-. reflexivity. }
  assert (D : forall k v, is_bits k v -> kbits t <= kbits k -> bits_value k v mod 2 ^ kbits t = v mod 2 ^ kbits t).
  { intros k v H L. pose proof (kb t). apply (down (kbits k)); [lia|]. apply bv_cong; auto. }
  pose proof (kb t) as KT. pose proof (kp t) as KP.
  induction e; intros z T M C w E; inversion C as [? ? Hs Hr|?|? ? Hw Hc]; subst; try (eapply W; eassumption).
  - inversion Hc.
  - cbn [eval ty typed] in *. injection E as <-. rewrite lit_value by auto. reflexivity.
  - inversion Hc.
  - inversion Hc.
  - inversion Hc; subst. cbn [typed modular] in *. destruct T as (ET & T1 & T2). destruct M as (O1 & O2 & M1 & M2).
    pose proof (eval_bits (Bin op e1 e2) ltac:(cbn [typed]; auto) w E) as Bw. cbn [ty eval] in *.
    destruct (eval e1) as [x|] eqn:E1; [|discriminate]. destruct (eval e2) as [y|] eqn:E2; [|discriminate].
    pose proof (eval_bits e1 T1 x E1) as B1. pose proof (eval_bits e2 T2 y E2) as B2. rewrite <- ET in B2.
    rewrite D by (auto; lia). apply mod_wrap_t.
    rewrite (down (kbits (ty e1)) (kbits t) w (zop op x y)); [|lia|apply bin_ring; auto].
    apply zop_cong; [lia|auto|auto| |].
    + rewrite <- (IHe1 a T1 M1 ltac:(auto) x eq_refl). symmetry. apply D; [auto|lia].
    + rewrite <- (IHe2 b T2 M2 ltac:(auto) y eq_refl). symmetry. rewrite <- ET. apply D; [auto|lia].
  - inversion Hc; subst. cbn [typed modular] in *. pose proof (eval_bits (Shl e n) ltac:(cbn [typed]; auto) w E) as Bw. cbn [ty eval] in *.
    destruct (eval e) as [x|] eqn:E1; [|discriminate]. destruct (_ && _) eqn:Hn; [|discriminate]. injection E as <-.
    pose proof (eval_bits e T x E1) as B1. rewrite D by (auto; lia). apply mod_wrap_t.
    rewrite (down (kbits (ty e)) (kbits t) _ (Z.shiftl x n)) by (try lia; apply Z.mod_mod; pose proof (kp (ty e)); lia).
    rewrite Z.shiftl_mul_pow2 by lia. rewrite (Z.mul_mod x), (Z.mul_mod a) by lia. f_equal. f_equal.
    rewrite <- (IHe a T M ltac:(auto) x eq_refl). symmetry. apply D; [auto|lia].
  - cbn [modular ty] in *. lia.
  - cbn [typed modular ty eval] in *. destruct T as (ET & T1 & T2). destruct M as (M1 & M2). inversion Hc; subst; [eauto|rewrite ET; eauto].
  - cbn [typed modular ty eval] in *. destruct T as (ET & T1 & T2). destruct M as (M1 & M2). inversion Hc; subst; [eauto|rewrite ET; eauto].
  - inversion Hc; subst. cbn [typed modular] in *. pose proof (eval_bits (Neg e) ltac:(cbn [typed]; auto) w E) as Bw. cbn [ty eval] in *.
    destruct (eval e) as [x|] eqn:E1; [|discriminate]. injection E as <-.
    pose proof (eval_bits e T x E1) as B1. rewrite D by (auto; lia). apply mod_wrap_t.
    rewrite (down (kbits (ty e)) (kbits t) _ (- x)) by (try lia; apply Z.mod_mod; pose proof (kp (ty e)); lia).
    apply neg_cong; [lia|]. rewrite <- (IHe a T M ltac:(auto) x eq_refl). symmetry. apply D; [auto|lia].
  - inversion Hc; subst. cbn [typed modular] in *. pose proof (eval_bits (BitNot e) ltac:(cbn [typed]; auto) w E) as Bw. cbn [ty eval] in *.
    destruct (eval e) as [x|] eqn:E1; [|discriminate]. injection E as <-.
    pose proof (eval_bits e T x E1) as B1. rewrite D by (auto; lia). apply mod_wrap_t.
    rewrite (down (kbits (ty e)) (kbits t) _ (- x - 1)).
    2: lia.
    2: { replace (2 ^ kbits (ty e) - 1 - x) with (- x - 1 + 1 * 2 ^ kbits (ty e)) by lia. apply Z.mod_add. pose proof (kp (ty e)). lia. }
    rewrite (Zminus_mod (- x)), (Zminus_mod (- a)). f_equal. f_equal. apply neg_cong; [lia|].
    rewrite <- (IHe a T M ltac:(auto) x eq_refl). symmetry. apply D; [auto|lia].
  - inversion Hc; subst. cbn [typed modular ty eval] in *. eauto.
  - inversion Hc; subst. cbn [typed modular ty eval] in *. eauto.
  - inversion Hc; subst. cbn [typed modular] in *. pose proof (eval_bits (Ext k e) ltac:(cbn [typed]; auto) w E) as Bw. cbn [ty eval] in *.
    destruct (eval e) as [x|] eqn:E1; [|discriminate]. injection E as <-. destruct M as [M|M]; [lia|].
    rewrite D by (auto; lia). rewrite ext_eq by (eapply eval_bits; eauto).
    rewrite (down (kbits k) (kbits t) _ (bits_value (ty e) x)) by (try lia; apply Z.mod_mod; pose proof (kp k); lia).
    eauto.
Qed.
Lemma computes_exists cint t : forall e, typed e -> may_narrow cint e t = true -> modular t e -> forall v, eval e = Some v -> exists z, computes t e z.
Proof.
  induction e; intros T N M w E.
  all: match goal with |- exists z, computes ?t0 ?e z => destruct (Z.le_gt_cases (kbits (ty e)) (kbits t0)) as [L|L];
    [exists (bits_value (ty e) w); apply Comp_operand; [exact L|exists w; split; [exact E|reflexivity]]|] end.
  all: cbn [typed may_narrow modular ty eval] in *.
  - lia.
  - exists (value x). apply Comp_lit.
  - lia.
  - destruct T as (ET & T1 & T2). destruct M as (_ & _ & M1 & M2). apply andb_true_iff in N. destruct N as [N1 N2].
    destruct (eval e1) as [a|]; [|discriminate]. destruct (eval e2) as [b|]; [|discriminate].
    destruct (IHe1 T1 N1 M1 a eq_refl) as (za & Ca). destruct (IHe2 T2 N2 M2 b eq_refl) as (zb & Cb).
    eexists. apply Comp_wide; [exact L|]. apply Wide_bin; eassumption.
  - destruct (eval e) as [a|]; [|discriminate]. destruct (IHe T N M a eq_refl) as (za & Ca). eexists. apply Comp_wide; [exact L|]. apply Wide_shl; eassumption.
  - lia.
  - destruct T as (ET & T1 & T2). destruct M as (M1 & M2). apply andb_true_iff in N. destruct N as [N1 N2]. destruct ok.
    + destruct (IHe1 T1 N1 M1 w E) as (za & Ca). eexists. apply Comp_wide; [exact L|]. apply Wide_else_l; eassumption.
    + destruct (IHe2 T2 N2 M2 w E) as (za & Ca). eexists. apply Comp_wide; [exact L|]. apply Wide_else_r; eassumption.
  - destruct T as (ET & T1 & T2). destruct M as (M1 & M2). apply andb_true_iff in N. destruct N as [N1 N2]. destruct c.
    + destruct (IHe1 T1 N1 M1 w E) as (za & Ca). eexists. apply Comp_wide; [exact L|]. apply Wide_then; eassumption.
    + destruct (IHe2 T2 N2 M2 w E) as (za & Ca). eexists. apply Comp_wide; [exact L|]. apply Wide_otherwise; eassumption.
  - destruct (eval e) as [a|]; [|discriminate]. destruct (IHe T N M a eq_refl) as (za & Ca). eexists. apply Comp_wide; [exact L|]. apply Wide_neg; eassumption.
  - destruct (eval e) as [a|]; [|discriminate]. destruct (IHe T N M a eq_refl) as (za & Ca). eexists. apply Comp_wide; [exact L|]. apply Wide_not; eassumption.
  - destruct (IHe T N M w E) as (za & Ca). eexists. apply Comp_wide; [exact L|]. apply Wide_rethrow; eassumption.
  - destruct (IHe T N M w E) as (za & Ca). eexists. apply Comp_wide; [exact L|]. apply Wide_unwrap; eassumption.
  - destruct (Z.leb_spec (kbits k) (kbits t)); [lia|]. destruct M as [M|M]; [lia|]. destruct (eval e) as [a|]; [|discriminate].
    destruct (IHe T N M a eq_refl) as (za & Ca). eexists. apply Comp_wide; [exact L|]. apply Wide_ext; eassumption.
Qed.
Lemma narrow_modular cint e t v : typed e -> kbits t < kbits (ty e) -> implicit_ok cint e t = true -> modular t e -> eval e = Some v ->
  exists z, computes t e z /\ forall z', computes t e z' -> result (convert e t) (wrap t z').
Proof.
  intros T L H M E. unfold implicit_ok in H. destruct (Z.ltb_spec (kbits (ty e)) (kbits t)); [lia|].
  assert (N : may_narrow cint e t = true).
  { destruct (match e with Lit x => _ | _ => false end); [discriminate|]. destruct (Z.eqb_spec (kbits t) (kbits (ty e))); [lia|auto]. }
  destruct (computes_exists cint t e T N M v E) as (z & C). exists z. split; [exact C|]. intros z' C'.
  rewrite <- (wrap_eq t _ _ (computes_cong t e z' T M C' v E)). apply convert_reduces; [auto|]. exists v. auto.
Qed.

(** Simple expressions do not wrap. *)
Lemma exact_det : forall e z z', exact e z -> exact e z' -> z = z'.
Proof.
  assert (R : forall e z z', result e z -> result e z' -> z = z').
  { intros e z z' (v & E & <-) (v' & E' & <-). rewrite E in E'. injection E' as <-. reflexivity. }
  induction e; intros z z' X Y; inversion X; subst; try contradiction; inversion Y; subst; try contradiction; eauto.
  f_equal; eauto.
Qed.
Lemma quot_in k x y : in_kind k x -> in_kind k y -> y <> 0 -> ~ (ksigned k = true /\ y = -1 /\ x = kmin k) -> in_kind k (Z.quot x y) /\ in_kind k (Z.rem x y).
Proof.
  intros Hx Hy Hn Hm. pose proof (kb k). unfold in_kind, kmin, kmax in *. assert (0 < 2 ^ (kbits k - 1)) by (apply Z.pow_pos_nonneg; lia).
  assert (R : Z.abs (Z.rem x y) < Z.abs y) by (apply Z.rem_bound_abs; auto).
  assert (RS : 0 <= Z.sgn x * Z.rem x y). { destruct (Z.eq_dec (Z.rem x y) 0) as [->|]; [lia|]. rewrite <- (Z.rem_sign_nz x y) by auto. destruct (Z.rem x y); cbn; lia. }
  assert (RA : Z.abs (Z.rem x y) <= Z.abs x).
  { rewrite <- Z.rem_abs by auto. apply Z.rem_le; lia. }
  assert (QA : Z.abs (Z.quot x y) <= Z.abs x).
  { rewrite <- Z.quot_abs by auto. apply Z.quot_le_upper_bound; [lia|]. nia. }
  assert (QS : 0 <= Z.sgn x * Z.sgn y * Z.quot x y).
  { destruct (Z.eq_dec (Z.quot x y) 0) as [->|]; [lia|]. rewrite <- (Z.abs_sgn x) at 2. rewrite <- (Z.abs_sgn y) at 2.
    destruct (Z.lt_trichotomy x 0) as [Lx|[->|Lx]]; [|lia|]; destruct (Z.lt_trichotomy y 0) as [Ly|[->|Ly]]; try lia.
    - rewrite !Z.sgn_neg by auto. rewrite (Z.abs_neq x), (Z.abs_neq y) by lia. replace (- x * -1) with x by lia. replace (- y * -1) with y by lia.
      pose proof (Z.quot_opp_opp x y Hn). pose proof (Z.quot_pos (- x) (- y)). lia.
    - rewrite (Z.sgn_neg x), (Z.sgn_pos y) by auto. rewrite (Z.abs_neq x), (Z.abs_eq y) by lia. replace (- x * -1) with x by lia. replace (y * 1) with y by lia.
      pose proof (Z.quot_opp_l x y Hn). pose proof (Z.quot_pos (- x) y). lia.
    - rewrite (Z.sgn_pos x), (Z.sgn_neg y) by auto. rewrite (Z.abs_eq x), (Z.abs_neq y) by lia. replace (x * 1) with x by lia. replace (- y * -1) with y by lia.
      pose proof (Z.quot_opp_r x y Hn). pose proof (Z.quot_pos x (- y)). lia.
    - rewrite !Z.sgn_pos by auto. rewrite (Z.abs_eq x), (Z.abs_eq y) by lia. replace (x * 1) with x by lia. replace (y * 1) with y by lia. pose proof (Z.quot_pos x y). lia. }
  destruct (ksigned k) eqn:S.
  - split; [|lia]. destruct (Z.eq_dec (Z.quot x y) (2 ^ (kbits k - 1))) as [E|]; [|lia]. exfalso. apply Hm. split; [auto|].
    assert (Ax : x = - 2 ^ (kbits k - 1)) by lia. split; [|auto]. subst x.
    destruct (Z.eq_dec y (-1)); [auto|exfalso]. destruct (Z.eq_dec y 1) as [->|]; [rewrite Z.quot_1_r in E; lia|].
    assert (Z.abs (Z.quot (- 2 ^ (kbits k - 1)) y) * 2 <= 2 ^ (kbits k - 1)).
    { rewrite <- Z.quot_abs by auto. pose proof (Z.mul_quot_le (Z.abs (- 2 ^ (kbits k - 1))) (Z.abs y) ltac:(lia) ltac:(lia)).
      assert (0 <= Z.quot (Z.abs (- 2 ^ (kbits k - 1))) (Z.abs y)) by (apply Z.quot_pos; lia). nia. }
    lia.
  - destruct (Z.eq_dec x 0) as [->|]; [rewrite Z.quot_0_l, Z.rem_0_l by auto; lia|]. rewrite (Z.sgn_pos x), (Z.sgn_pos y) in * by lia. lia.
Qed.
Lemma simple_exact : forall e z, typed e -> is_simple e = true -> no_unwrap e -> result e z -> exact e z.
Proof.
  induction e; intros z T S U R; cbn [is_simple no_unwrap] in *; try discriminate; try contradiction; try (apply Ex_atom; [exact I|exact R]).
  - assert (D : (op = BDiv \/ op = BMod) /\ is_simple e1 && is_simple e2 = true) by (destruct op; try discriminate; auto). clear S. destruct D as [D S].
    apply andb_true_iff in S. destruct S as [S1 S2]. destruct U as [U1 U2]. cbn [typed] in T. destruct T as (ET & T1 & T2).
    destruct R as (v & E & <-). cbn [eval ty] in *. destruct (eval e1) as [a|] eqn:E1; [|discriminate]. destruct (eval e2) as [b|] eqn:E2; [|discriminate].
    pose proof (eval_bits e1 T1 a E1) as B1. pose proof (eval_bits e2 T2 b E2) as B2. rewrite <- ET in B2.
    assert (X1 : exact e1 (bits_value (ty e1) a)) by (apply IHe1; auto; exists a; auto).
    assert (X2 : exact e2 (bits_value (ty e1) b)) by (apply IHe2; auto; exists b; rewrite ET; auto).
    pose proof (bv_in _ _ B1) as I1. pose proof (bv_in _ _ B2) as I2.
    destruct D as [-> | ->]; unfold bin in E; cbn zeta in E; destruct (_ || _) eqn:G in E; try discriminate; injection E as <-; rewrite bv_mod;
      apply orb_false_iff in G; destruct G as [G1 G2]; apply Z.eqb_neq in G1;
      assert (G3 : ~ (ksigned (ty e1) = true /\ bits_value (ty e1) b = -1 /\ bits_value (ty e1) a = kmin (ty e1)))
        by (intros (A1 & A2 & A3); rewrite A1, A2, A3, !Z.eqb_refl in G2; discriminate);
      destruct (quot_in _ _ _ I1 I2 G1 G3); rewrite wrap_in by auto.
    + apply (Ex_bin BDiv); auto.
    + apply (Ex_bin BMod); auto.
  - apply andb_true_iff in S. destruct S as [S1 S2]. destruct U as [U1 U2]. cbn [typed] in T. destruct T as (ET & T1 & T2). destruct R as (v & E & <-). cbn [eval ty] in *.
    destruct ok; [apply Ex_else_l, IHe1; auto; exists v; auto|apply Ex_else_r, IHe2; auto; exists v; rewrite ET; auto].
  - apply andb_true_iff in S. destruct S as [S1 S2]. destruct U as [U1 U2]. cbn [typed] in T. destruct T as (ET & T1 & T2). destruct R as (v & E & <-). cbn [eval ty] in *.
    destruct c; [apply Ex_then, IHe1; auto; exists v; auto|apply Ex_otherwise, IHe2; auto; exists v; rewrite ET; auto].
  - destruct R as (v & E & <-). cbn [eval ty typed] in *. apply Ex_rethrow, IHe; auto. exists v; auto.
Qed.
