(** Switch statements. *)
From Coq Require Import ZArith Lia Bool List ZifyBool.
From Verif Require Import Mach Word Int128Model Int128Spec Int128Proofs Int128Proofs2 Int128Proofs4 CmpModel CmpSpec CmpProofs SwitchModel SwitchSpec.
Import ListNotations.
Open Scope Z_scope.

(** ** Values *)
Lemma kbits_pos k : 8 <= kbits k <= 128. Proof. destruct k; cbn; lia. Qed.
Lemma kind_bits k n : in_kind k n -> bits_value k (n mod 2 ^ kbits k) = n.
Proof.
  intros H. pose proof (kbits_pos k). unfold bits_value, in_kind, kmin, kmax in *. destruct (ksigned k).
  - rewrite swrap_mod by lia. apply swrap_small; lia.
  - apply Z.mod_small. lia.
Qed.
Lemma bits_kind k v : is_bits k v -> in_kind k (bits_value k v) /\ bits_value k v mod 2 ^ kbits k = v.
Proof.
  intros H. pose proof (kbits_pos k). unfold bits_value, in_kind, kmin, kmax, is_bits in *. pose proof (half (kbits k) ltac:(lia)) as Hh. destruct (ksigned k).
  - rewrite swrap_bits by lia. destruct (Z.ltb_spec v (2 ^ (kbits k - 1))); [split; [lia|apply Z.mod_small; lia]|]. split; [lia|].
    replace (v - 2 ^ kbits k) with (v + (-1) * 2 ^ kbits k) by lia. rewrite Z.mod_add by lia. apply Z.mod_small. lia.
  - split; [lia|apply Z.mod_small; lia].
Qed.
Lemma mod_is_bits k n : is_bits k (n mod 2 ^ kbits k).
Proof. pose proof (kbits_pos k). apply Z.mod_pos_bound, Z.pow_pos_nonneg; lia. Qed.
Lemma kind_inj k x y : in_kind k x -> in_kind k y -> x mod 2 ^ kbits k = y mod 2 ^ kbits k -> x = y.
Proof. intros Hx Hy E. rewrite <- (kind_bits k x Hx), <- (kind_bits k y Hy), E. reflexivity. Qed.
Lemma const_facts t c : enum_ok t -> const_ok t c -> let k := lowered t in
  in_kind k (number c) /\ bits_of (kbits k) c = number c mod 2 ^ kbits k /\ valid (table_value k c) /\ itype (table_value k c) = k /\ value (table_value k c) = number c.
Proof.
  intros HE HC k. destruct t as [k0|k0 n]; cbn [lowered] in k; subst k; destruct c as [x|o]; cbn [const_ok number bits_of table_value] in *; try contradiction.
  - destruct HC as [V <-]. destruct V as [W V]. split; [exact V|]. split; [|repeat split; assumption || apply W || apply V].
    pose proof (value_mod x W) as E. unfold uval in E. rewrite <- E. pose proof (kbits_pos (itype x)). symmetry. apply Znumtheory.Zmod_div_mod; [apply Z.pow_pos_nonneg; lia|apply Z.pow_pos_nonneg; lia|].
    exists (2 ^ (128 - kbits (itype x))). rewrite <- Z.pow_add_r by lia. f_equal. lia.
  - cbn [enum_ok] in HE. assert (kmin k0 <= 0) as Hm by (destruct k0; vm_compute; discriminate).
    assert (in_kind k0 o) as IK by (unfold in_kind; lia).
    assert (value (mkInt (mk128 0 o) k0) = o) as EV.
    { unfold value, sval, uval. cbn [ival itype high low]. replace (0 * 2 ^ 64 + o) with o by lia. rewrite p127. replace (o <? _) with true by lia. destruct (ksigned k0); reflexivity. }
    split; [exact IK|]. split; [reflexivity|]. split; [|split; [reflexivity|exact EV]].
    split; [|cbn [itype]; rewrite EV; exact IK]. unfold wf128, word. cbn [ival high low]. rewrite W_val. lia.
Qed.
Lemma comp_const_spec k c v op n : in_kind k n -> c = n mod 2 ^ kbits k -> is_bits k v -> comp_const k c v op = zcmp op n (bits_value k v).
Proof.
  intros Hn -> Hv. unfold comp_const. pose proof (kbits_pos k). rewrite emit_any_width; try reflexivity; [|lia|apply mod_is_bits|exact Hv].
  fold (bits_value k (n mod 2 ^ kbits k)). fold (bits_value k v). rewrite kind_bits by exact Hn. reflexivity.
Qed.
Lemma comp_dynamic_spec k c v op : is_bits k c -> is_bits k v -> comp_dynamic k c v op = zcmp op (bits_value k c) (bits_value k v).
Proof. intros Hn Hv. unfold comp_dynamic. pose proof (kbits_pos k). rewrite emit_any_width; try reflexivity; [lia|exact Hn|exact Hv]. Qed.

Lemma case_value t f to b : enum_ok t -> case_ok t (mkCase (Value f to) b) -> let k := lowered t in
  const_ok t f /\ const_ok t (hi_of f to) /\ number f <= number (hi_of f to).
Proof. intros HE HC k. cbn in HC. destruct HC as [H1 H2]. destruct to as [to|]; cbn [hi_of]; [intuition|]. split; [exact H1|]. split; [exact H1|lia]. Qed.

(** ** Blocks *)
Lemma backend_length cs : forall i, length (backend_blocks i cs) = length cs.
Proof. induction cs as [|c cs IH]; intros i; [reflexivity|]. cbn [backend_blocks length]. rewrite IH. reflexivity. Qed.
Lemma nth_at {A} (pre l : list A) j : nth_error (pre ++ l) (length pre + j) = nth_error l j.
Proof. rewrite nth_error_app2 by lia. f_equal. lia. Qed.
Lemma backend_falls : forall cs pre j b, nth_error (backend_blocks (length pre) cs) j = Some b -> falls (pre ++ cs) (length pre + j) b.
Proof.
  induction cs as [|c cs IH]; intros pre j b H; [destruct j; discriminate|]. cbn [backend_blocks] in H.
  assert (forall j b, nth_error (backend_blocks (S (length pre)) cs) j = Some b -> falls (pre ++ c :: cs) (length pre + S j) b) as IH'.
  { intros j0 b0 H0. specialize (IH (pre ++ [c]) j0 b0). rewrite app_length in IH. cbn [length] in IH. rewrite Nat.add_1_r in IH. specialize (IH H0). rewrite <- app_assoc in IH. cbn [app] in IH. replace (length pre + S j0)%nat with (S (length pre) + j0)%nat by lia. exact IH. }
  destruct j as [|j]; cbn [nth_error] in H; [|apply IH'; exact H]. injection H as <-. rewrite Nat.add_0_r.
  assert (nth_error (pre ++ c :: cs) (length pre) = Some c) as E by (rewrite <- (Nat.add_0_r (length pre)) at 1; rewrite nth_at; reflexivity).
  destruct (body c) eqn:Eb; [apply (Falls_body _ _ c E Eb)|]. apply (Falls_next _ _ c _ E Eb).
  assert (forall b0, falls (pre ++ c :: cs) (length pre + 1) b0 -> falls (pre ++ c :: cs) (S (length pre)) b0) as SH by (intros b0 H0; replace (S (length pre)) with (length pre + 1)%nat by lia; exact H0). apply SH.
  destruct (backend_blocks (S (length pre)) cs) as [|x bs] eqn:EB.
  - apply Falls_end. rewrite nth_at. destruct cs; [reflexivity|]. pose proof (backend_length (c0 :: cs) (S (length pre))) as L. rewrite EB in L. discriminate.
  - apply IH'. reflexivity.
Qed.
Lemma falls_block cs j b : nth_error (backend_blocks 0 cs) j = Some b -> falls cs j b.
Proof. exact (backend_falls cs [] j b). Qed.
Lemma falls_det cs i b : falls cs i b -> forall b', falls cs i b' -> b = b'.
Proof.
  induction 1 as [i c H1 H2|i c b H1 H2 H3 IH|i H1]; intros b' H; inversion H; subst; try reflexivity; try congruence.
  apply IH. assumption.
Qed.
Lemma nth_body cs j c : nth_error cs j = Some c -> body c = true -> nth_error (backend_blocks 0 cs) j = Some (At j).
Proof.
  intros H Hb. destruct (nth_error (backend_blocks 0 cs) j) as [b|] eqn:E.
  - f_equal. apply falls_block in E. inversion E; subst; congruence.
  - exfalso. apply nth_error_None in E. rewrite backend_length in E. apply nth_error_None in E. congruence.
Qed.
Lemma default_case_spec : forall cs bs, length bs = length cs ->
  match default_case cs bs with
  | Some (c, b) => exists j, nth_error cs j = Some c /\ label c = Default /\ nth_error bs j = Some b
  | None => forall j c, nth_error cs j = Some c -> label c <> Default
  end.
Proof.
  induction cs as [|c cs IH]; intros bs HL; [intros j c H; destruct j; discriminate|]. destruct bs as [|b bs]; [discriminate|]. cbn [default_case].
  injection HL as HL. specialize (IH bs HL). destruct (default_case cs bs) as [[c' b']|].
  - destruct IH as (j & H1 & H2 & H3). exists (S j). auto.
  - destruct (label c) eqn:EL; [exists 0%nat; auto| |]; intros [|j] d H; cbn [nth_error] in H; try (injection H as <-; congruence); exact (IH j d H).
Qed.

(** ** The compare chain *)
Lemma chain_loop_spec t v : enum_ok t -> let k := lowered t in is_bits k v -> forall cs bs, length bs = length cs -> Forall (case_ok t) cs ->
  match chain_loop k cs bs v with
  | Some b => exists j c, nth_error cs j = Some c /\ covers k c (bits_value k v) /\ nth_error bs j = Some b /\ (forall i d, (i < j)%nat -> nth_error cs i = Some d -> ~ covers k d (bits_value k v))
  | None => forall j c, nth_error cs j = Some c -> ~ covers k c (bits_value k v)
  end.
Proof.
  intros HE k Hv. induction cs as [|c cs IH]; intros bs HL HF; [intros j c H; destruct j; discriminate|]. destruct bs as [|b bs]; [discriminate|]. injection HL as HL.
  apply Forall_cons_iff in HF as [HC HF]. specialize (IH bs HL HF). destruct c as [l bd]. cbn [chain_loop label].
  assert (forall P : Prop, (~ covers k (mkCase l bd) (bits_value k v)) ->
     match chain_loop k cs bs v with Some b0 => exists j c, nth_error (mkCase l bd :: cs) j = Some c /\ covers k c (bits_value k v) /\ nth_error (b :: bs) j = Some b0 /\ (forall i d, (i < j)%nat -> nth_error (mkCase l bd :: cs) i = Some d -> ~ covers k d (bits_value k v)) | None => forall j c, nth_error (mkCase l bd :: cs) j = Some c -> ~ covers k c (bits_value k v) end) as Skip.
  { intros _ N. destruct (chain_loop k cs bs v) as [b0|].
    - destruct IH as (j & c & H1 & H2 & H3 & H4). exists (S j), c. repeat (split; [assumption|]). intros [|i] d Hi Hd; [injection Hd as <-; exact N|apply (H4 i d); [lia|exact Hd]].
    - intros [|j] c H; cbn [nth_error] in H; [injection H as <-; exact N|exact (IH j c H)]. }
  destruct l as [|f [to|]|x].
  - apply (Skip True). intros [].
  - destruct (case_value t f (Some to) bd HE HC) as (C1 & C2 & C3). cbn [hi_of] in *.
    destruct (const_facts t f HE C1) as (K1 & E1 & _). destruct (const_facts t to HE C2) as (K2 & E2 & _).
    fold k in K1, E1, K2, E2. rewrite (comp_const_spec k _ v OpLE _ K1 E1 Hv), (comp_const_spec k _ v OpGE _ K2 E2 Hv). cbn [zcmp].
    destruct ((number f <=? bits_value k v) && (bits_value k v <=? number to)) eqn:E.
    + exists 0%nat, (mkCase (Value f (Some to)) bd). split; [reflexivity|]. split; [cbn; lia|]. split; [reflexivity|intros; lia].
    + apply (Skip True). cbn. lia.
  - destruct (case_value t f None bd HE HC) as (C1 & _ & _). destruct (const_facts t f HE C1) as (K1 & E1 & _). fold k in K1, E1.
    rewrite (comp_const_spec k _ v OpEQ _ K1 E1 Hv). cbn [zcmp]. destruct (Z.eqb_spec (number f) (bits_value k v)) as [E|E].
    + exists 0%nat, (mkCase (Value f None) bd). split; [reflexivity|]. split; [cbn; lia|]. split; [reflexivity|intros; lia].
    + apply (Skip True). cbn. lia.
  - cbn in HC. rewrite (comp_dynamic_spec k x v OpEQ HC Hv). cbn [zcmp]. destruct (Z.eqb_spec (bits_value k x) (bits_value k v)) as [E|E].
    + exists 0%nat, (mkCase (Dynamic x) bd). split; [reflexivity|]. split; [cbn; congruence|]. split; [reflexivity|intros; lia].
    + apply (Skip True). cbn. congruence.
Qed.
Lemma chain_ok t cs v : enum_ok t -> Forall (case_ok t) cs -> default_last cs -> is_bits (lowered t) v ->
  exists b, run_chain (lowered t) cs v = Runs b /\ does (lowered t) cs (bits_value (lowered t) v) b.
Proof.
  intros HE HF HD Hv. unfold run_chain. pose proof (chain_loop_spec t v HE Hv cs (backend_blocks 0 cs) (backend_length cs 0) HF) as H.
  destruct (chain_loop (lowered t) cs (backend_blocks 0 cs) v) as [b|].
  - destruct H as (j & c & H1 & H2 & H3 & H4). exists b. split; [reflexivity|]. apply (Does_case _ _ _ j c b H1 H2 H4). apply falls_block, H3.
  - pose proof (default_case_spec cs (backend_blocks 0 cs) (backend_length cs 0)) as D. destruct (default_case cs (backend_blocks 0 cs)) as [[c b]|].
    + destruct D as (j & H1 & H2 & H3). apply falls_block in H3. destruct (body c) eqn:Eb.
      * exists b. split; [reflexivity|]. exact (Does_default _ _ _ j c b H H1 H2 H3).
      * exists Exit. split; [reflexivity|]. apply (Does_default _ _ _ j c Exit H H1 H2). exact (HD j c H1 H2 Eb).
    + exists Exit. split; [reflexivity|]. exact (Does_nothing _ _ _ H D).
Qed.
Lemma does_det k cs z : one_default cs -> forall b b', does k cs z b -> does k cs z b' -> b = b'.
Proof.
  intros HO b b' H H'. destruct H as [i c b H1 H2 L H3|i c b N H1 H2 H3|N1 N2]; destruct H' as [i' c' b' H1' H2' L' H3'|i' c' b' N' H1' H2' H3'|N1' N2'].
  - assert (i = i') as <-. { destruct (Nat.lt_trichotomy i i') as [E|[E|E]]; [destruct (L' i c E H1 H2)|exact E|destruct (L i' c' E H1' H2')]. } exact (falls_det cs i b H3 b' H3').
  - destruct (N' i c H1 H2).
  - destruct (N1' i c H1 H2).
  - destruct (N i' c' H1' H2').
  - assert (i = i') as <- by exact (HO i i' c c' H1 H1' H2 H2'). exact (falls_det cs i b H3 b' H3').
  - destruct (N2' i c H1 H2).
  - destruct (N1 i' c' H1' H2').
  - destruct (N2 i' c' H1' H2').
  - reflexivity.
Qed.
Lemma does_disjoint k cs z i c b : disjoint k cs -> nth_error cs i = Some c -> covers k c z -> falls cs i b -> does k cs z b.
Proof. intros HD H1 H2 H3. apply (Does_case _ _ _ i c b H1 H2); [|exact H3]. intros j d Hj Hd C. specialize (HD i j c d z H1 Hd H2 C). lia. Qed.

(** ** The LLVM switch *)
Definition zrange (lo : Z) (n : nat) : list Z := map (fun i => lo + Z.of_nat i) (seq 0 n).
Lemma zrange_S lo n : zrange lo (S n) = lo :: zrange (lo + 1) n.
Proof.
  unfold zrange. cbn [seq map]. f_equal; [lia|]. rewrite <- seq_shift, map_map. apply map_ext. intros i. lia.
Qed.
Lemma in_zrange lo n x : In x (zrange lo n) <-> lo <= x < lo + Z.of_nat n.
Proof.
  unfold zrange. rewrite in_map_iff. split.
  - intros (i & <- & H). apply in_seq in H. lia.
  - intros H. exists (Z.to_nat (x - lo)). split; [lia|]. apply in_seq. lia.
Qed.
Lemma zrange_nodup n : forall lo, NoDup (zrange lo n).
Proof.
  induction n as [|n IH]; intros lo; [constructor|]. rewrite zrange_S. constructor; [|apply IH]. rewrite in_zrange. lia.
Qed.
Lemma zrange_length lo n : length (zrange lo n) = n.
Proof. unfold zrange. rewrite map_length, seq_length. reflexivity. Qed.
Lemma range_values_ok k : forall n fuel lo, (n <= fuel)%nat -> in_kind k lo -> in_kind k (lo + Z.of_nat n) ->
  range_values fuel (kbits k) (lo mod 2 ^ kbits k) ((lo + Z.of_nat n) mod 2 ^ kbits k) = Some (map (fun x => x mod 2 ^ kbits k) (zrange (lo + 1) n)).
Proof.
  induction n as [|n IH]; intros fuel lo Hf H1 H2.
  - replace (lo + Z.of_nat 0) with lo by lia. destruct fuel; cbn [range_values]; rewrite Z.eqb_refl; reflexivity.
  - destruct fuel as [|fuel]; [lia|]. cbn [range_values]. destruct (Z.eqb_spec ((lo + Z.of_nat (S n)) mod 2 ^ kbits k) (lo mod 2 ^ kbits k)) as [E|E].
    + apply (kind_inj k _ _ H2 H1) in E. lia.
    + rewrite Z.add_mod_idemp_l by (pose proof (kbits_pos k); apply Z.pow_nonzero; lia).
      replace (lo + Z.of_nat (S n)) with (lo + 1 + Z.of_nat n) in * by lia. rewrite IH; [rewrite zrange_S; reflexivity|lia|unfold in_kind in *; lia|exact H2].
Qed.
Definition keys (c : Case) : list Z := match label c with Value f t => zrange (number f) (Z.to_nat (number (hi_of f t) - number f + 1)) | _ => [] end.
Lemma in_keys k c x : constant c -> In x (keys c) <-> covers k c x.
Proof.
  intros HC. unfold keys, covers, constant in *. destruct (label c) as [|f to|y]; [tauto| |tauto]. rewrite in_zrange. fold (hi_of f to). lia.
Qed.
Lemma add_cases_ok t fuel : enum_ok t -> let k := lowered t in forall cs bs, length bs = length cs -> Forall (case_ok t) cs -> Forall (fuel_for fuel) cs ->
  add_cases fuel (kbits k) cs bs = Some (flat_map (fun p => map (fun x => (x mod 2 ^ kbits k, snd p)) (keys (fst p))) (combine cs bs)).
Proof.
  intros HE k. induction cs as [|c cs IH]; intros bs HL HF HU; [reflexivity|]. destruct bs as [|b bs]; [discriminate|]. injection HL as HL.
  apply Forall_cons_iff in HF as [HC HF]. apply Forall_cons_iff in HU as [U HU]. cbn [add_cases combine flat_map fst snd]. rewrite (IH bs HL HF HU). destruct c as [l bd]. cbn [label].
  destruct l as [|f to|x]; [reflexivity| |reflexivity].
  destruct (case_value t f to bd HE HC) as (C1 & C2 & C3). destruct (const_facts t f HE C1) as (K1 & E1 & _). destruct (const_facts t _ HE C2) as (K2 & E2 & _). fold k in K1, E1, K2, E2.
  replace (match to with Some t0 => bits_of (kbits k) t0 | None => bits_of (kbits k) f end) with (bits_of (kbits k) (hi_of f to)) by (destruct to; reflexivity). rewrite E1, E2.
  unfold fuel_for in U. cbn [label] in U. set (d := Z.to_nat (number (hi_of f to) - number f)).
  change (keys (mkCase (Value f to) bd)) with (zrange (number f) (Z.to_nat (number (hi_of f to) - number f + 1))).
  replace (number (hi_of f to)) with (number f + Z.of_nat d) in * by (unfold d; lia). rewrite range_values_ok by (assumption || lia).
  replace (Z.to_nat (number f + Z.of_nat d - number f + 1)) with (S d) by lia. rewrite zrange_S. cbn [map app]. f_equal. f_equal. f_equal. rewrite map_map. reflexivity.
Qed.
Lemma distinct_nodup l : NoDup l -> distinct l = true.
Proof.
  induction 1 as [|x l N H IH]; [reflexivity|]. cbn [distinct]. rewrite IH, andb_true_r. apply negb_true_iff, not_true_iff_false. intros E.
  apply existsb_exists in E as (y & I & E). apply Z.eqb_eq in E. subst. exact (N I).
Qed.
Lemma nodup_map {A B} (f : A -> B) l : NoDup l -> (forall x y, In x l -> In y l -> f x = f y -> x = y) -> NoDup (map f l).
Proof.
  induction 1 as [|x l N H IH]; intros Hf; [constructor|]. cbn [map]. constructor.
  - intros I. apply in_map_iff in I as (y & E & I). apply Hf in E; [subst; exact (N I)|right; exact I|left; reflexivity].
  - apply IH. intros y z Hy Hz. apply Hf; right; assumption.
Qed.
Lemma disjoint_tl k c cs : disjoint k (c :: cs) -> disjoint k cs.
Proof. intros H i j a b z H1 H2 H3 H4. specialize (H (S i) (S j) a b z H1 H2 H3 H4). lia. Qed.
Lemma keys_nodup k cs : Forall constant cs -> disjoint k cs -> NoDup (flat_map keys cs).
Proof.
  induction cs as [|c cs IH]; intros HF HD; [constructor|]. apply Forall_cons_iff in HF as [HC HF]. cbn [flat_map].
  assert (NoDup (keys c)) as N1 by (unfold keys; destruct (label c); try constructor; apply zrange_nodup).
  specialize (IH HF (disjoint_tl k c cs HD)).
  assert (forall x, In x (keys c) -> ~ In x (flat_map keys cs)) as NI.
  { intros x I I2. apply in_flat_map in I2 as (d & Id & I2). apply In_nth_error in Id as (j & Ej). apply (in_keys k) in I; [|exact HC].
    assert (constant d) as Hd by (rewrite Forall_forall in HF; apply HF; exact (nth_error_In _ _ Ej)). apply (in_keys k) in I2; [|exact Hd].
    specialize (HD 0%nat (S j) c d x eq_refl Ej I I2). lia. }
  clear HD. induction (keys c) as [|x l IHl]; [exact IH|]. inversion N1; subst. cbn [app]. constructor.
  - rewrite in_app_iff. intros [I|I]; [contradiction|exact (NI x (or_introl eq_refl) I)].
  - apply IHl; [assumption|intros y I; apply NI; right; exact I].
Qed.
Lemma keys_kind t c x : enum_ok t -> case_ok t c -> In x (keys c) -> in_kind (lowered t) x.
Proof.
  intros HE HC I. destruct c as [[|f to|y] bd]; cbn [keys label] in I; try destruct I.
  destruct (case_value t f to bd HE HC) as (C1 & C2 & C3). destruct (const_facts t f HE C1) as (K1 & _). destruct (const_facts t _ HE C2) as (K2 & _).
  unfold keys in I. cbn [label] in I. apply in_zrange in I. unfold in_kind in *. lia.
Qed.
Lemma combine_fst {A B} (l : list A) (m : list B) : length m = length l -> map fst (combine l m) = l.
Proof. revert m. induction l as [|a l IH]; intros [|b m] H; try discriminate; [reflexivity|]. cbn [combine map fst]. f_equal. apply IH. injection H as H. exact H. Qed.
Lemma in_combine_nth {A B} (l : list A) (m : list B) a b : In (a, b) (combine l m) -> exists j, nth_error l j = Some a /\ nth_error m j = Some b.
Proof.
  revert m. induction l as [|x l IH]; intros [|y m] H; try destruct H as [H|H]; try contradiction.
  - injection H as -> ->. exists 0%nat. auto.
  - destruct (IH m H) as (j & H1 & H2). exists (S j). auto.
Qed.
Lemma nth_combine_in {A B} (l : list A) (m : list B) j a b : nth_error l j = Some a -> nth_error m j = Some b -> In (a, b) (combine l m).
Proof.
  revert m j. induction l as [|x l IH]; intros [|y m] [|j] H1 H2; try discriminate; cbn [nth_error combine] in *.
  - left. congruence.
  - right. exact (IH m j H1 H2).
Qed.
Lemma nth_same_length {A B} (l : list A) (m : list B) j a : length m = length l -> nth_error l j = Some a -> exists b, nth_error m j = Some b.
Proof.
  intros HL H. destruct (nth_error m j) as [b|] eqn:E; [eauto|]. exfalso. apply nth_error_None in E. rewrite HL in E. apply nth_error_None in E. congruence.
Qed.
Lemma llvm_switch_ok t cs v fuel : enum_ok t -> Forall (case_ok t) cs -> Forall constant cs -> disjoint (lowered t) cs -> Forall (fuel_for fuel) cs -> is_bits (lowered t) v ->
  exists b, run_llvm_switch fuel (lowered t) cs v = Runs b /\ does (lowered t) cs (bits_value (lowered t) v) b.
Proof.
  intros HE HF HK HD HU Hv. set (k := lowered t) in *. unfold run_llvm_switch. set (bs := backend_blocks 0 cs). assert (length bs = length cs) as HL by apply backend_length.
  pose proof (add_cases_ok t fuel HE cs bs HL HF HU) as EA. cbn zeta in EA. fold k in EA. rewrite EA. clear EA. set (table := flat_map _ _).
  assert (map fst table = map (fun x => x mod 2 ^ kbits k) (flat_map keys cs)) as EK.
  { unfold table. rewrite <- (combine_fst cs bs HL) at 2. generalize (combine cs bs). intros l. induction l as [|p l IH]; [reflexivity|]. cbn [flat_map map]. rewrite !map_app, IH, map_map. reflexivity. }
  assert (distinct (map fst table) = true) as ED.
  { rewrite EK. apply distinct_nodup, nodup_map; [apply (keys_nodup k); assumption|]. intros x y Ix Iy E. apply in_flat_map in Ix as (c & Ic & Ix). apply in_flat_map in Iy as (d & Id & Iy).
    rewrite Forall_forall in HF. apply (kind_inj k x y); [apply (keys_kind t c x); auto|apply (keys_kind t d y); auto|exact E]. }
  rewrite ED. cbn [negb]. destruct (find (fun p => fst p =? v) table) as [p|] eqn:EF.
  - apply find_some in EF as [I E]. apply Z.eqb_eq in E. unfold table in I. apply in_flat_map in I as ([c b] & Ic & I). cbn [fst snd] in I. apply in_map_iff in I as (x & E2 & Ix). subst p. cbn [fst snd] in *.
    destruct (in_combine_nth cs bs c b Ic) as (j & H1 & H2). exists b. split; [reflexivity|]. apply (does_disjoint _ _ _ j c b HD H1); [|apply falls_block, H2].
    pose proof (nth_error_In _ _ H1) as Hc. rewrite Forall_forall in HF, HK. pose proof (keys_kind t c x HE (HF c Hc) Ix) as KX. fold k in KX. rewrite <- E, kind_bits by exact KX. apply in_keys; [apply HK, Hc|exact Ix].
  - assert (forall j d, nth_error cs j = Some d -> ~ covers k d (bits_value k v)) as N.
    { intros j d Hd C. destruct (nth_same_length cs bs j d HL Hd) as (b & Hb). rewrite Forall_forall in HK. apply (in_keys k) in C; [|apply HK, (nth_error_In _ _ Hd)].
      pose proof (find_none _ _ EF (bits_value k v mod 2 ^ kbits k, b)) as F. destruct (bits_kind k v Hv) as [_ EB]. rewrite EB in F. cbn [fst] in F. rewrite Z.eqb_refl in F.
      enough (true = false) by discriminate. apply F. unfold table. apply in_flat_map. exists (d, b). split; [exact (nth_combine_in _ _ _ _ _ Hd Hb)|]. cbn [fst snd].
      apply in_map_iff. exists (bits_value k v). split; [rewrite EB; reflexivity|exact C]. }
    pose proof (default_case_spec cs bs HL) as D. destruct (default_case cs bs) as [[c b]|].
    + destruct D as (j & H1 & H2 & H3). exists b. split; [reflexivity|]. apply (Does_default _ _ _ j c b N H1 H2). apply falls_block, H3.
    + exists Exit. split; [reflexivity|]. exact (Does_nothing _ _ _ N D).
Qed.

(** ** The jump table *)
Lemma table_values_ok t f to bd : enum_ok t -> case_ok t (mkCase (Value f to) bd) -> let k := lowered t in exists va vb, table_values k f to = (va, vb) /\
  valid va /\ valid vb /\ itype va = k /\ itype vb = k /\ value va = number f /\ value vb = number (hi_of f to).
Proof.
  intros HE HC k. destruct (case_value t f to bd HE HC) as (C1 & C2 & C3). destruct (const_facts t f HE C1) as (_ & _ & A1 & A2 & A3). destruct (const_facts t _ HE C2) as (_ & _ & B1 & B2 & B3).
  exists (table_value k f), (table_value k (hi_of f to)). split; [destruct to; reflexivity|]. repeat (split; [assumption|]). assumption.
Qed.
Lemma low_sub a b k : valid a -> valid b -> itype a = k -> itype b = k -> in_kind k (value a - value b) -> 0 <= value a - value b < 2 ^ 64 ->
  low (ival (int_sub a b)) = value a - value b /\ high (ival (int_sub a b)) = 0.
Proof.
  intros Va Vb Ta Tb IK HR. destruct (int_sub_spec a b Va Vb ltac:(congruence)) as ([W _] & _ & E). rewrite Ta, wrap_small in E by exact IK.
  pose proof (value_mod _ W) as M. rewrite E, Z.mod_small in M by lia. unfold uval in M. unfold wf128, word in W. rewrite W_val in W. lia.
Qed.
Definition bounds_inv (t : SwType) (seen : list Case) (mm : option (Int * Int * Const)) : Prop :=
  let k := lowered t in
  match mm with
  | None => Forall (fun c => ~ is_value c) seen
  | Some (mn, mx, mf) =>
    valid mn /\ valid mx /\ itype mn = k /\ itype mx = k /\ const_ok t mf /\ value mn = number mf /\ (exists c, In c seen /\ covers k c (value mn)) /\ (exists c, In c seen /\ covers k c (value mx)) /\
    (forall c x, In c seen -> covers k c x -> value mn <= x <= value mx)
  end.
Lemma disjoint_mid k seen c rest d x : disjoint k (seen ++ c :: rest) -> In d seen -> covers k d x -> covers k c x -> False.
Proof.
  intros HD I H1 H2. apply In_nth_error in I as (j & Ej). assert (j < length seen)%nat as L by (apply nth_error_Some; congruence).
  assert (nth_error (seen ++ c :: rest) j = Some d) as E1 by (rewrite nth_error_app1; assumption).
  assert (nth_error (seen ++ c :: rest) (length seen) = Some c) as E2 by (rewrite <- (Nat.add_0_r (length seen)) at 1; rewrite nth_at; reflexivity).
  specialize (HD j (length seen) d c x E1 E2 H1 H2). lia.
Qed.
Lemma bounds_step t seen c rest f to bd mm : enum_ok t -> c = mkCase (Value f to) bd -> case_ok t c -> Forall constant seen -> disjoint (lowered t) (seen ++ c :: rest) -> bounds_inv t seen mm ->
  bounds_inv t (seen ++ [c])
    (let '(value, to_value) := table_values (lowered t) f to in
     match mm with
     | None => Some (value, to_value, f)
     | Some (mn, mx, mf) => if int_comp value mn OpLT then Some (value, mx, f) else if int_comp to_value mx OpGT then Some (mn, to_value, mf) else Some (mn, mx, mf)
     end).
Proof.
  intros HE -> HC HK HD HI. set (k := lowered t) in *. set (c := mkCase (Value f to) bd) in *.
  destruct (table_values_ok t f to bd HE HC) as (va & vb & ET & Va & Vb & Ta & Tb & Na & Nb). fold k in ET, Ta, Tb. rewrite ET.
  destruct (case_value t f to bd HE HC) as (C1 & C2 & C3).
  assert (forall x, covers k c x <-> value va <= x <= value vb) as CV by (intros x; unfold covers, c; cbn [label]; fold (hi_of f to); rewrite Na, Nb; reflexivity).
  assert (In c (seen ++ [c])) as Ic by (apply in_or_app; right; left; reflexivity).
  assert (forall d, In d seen -> In d (seen ++ [c])) as Is by (intros d Hd; apply in_or_app; left; exact Hd).
  assert (forall d, In d (seen ++ [c]) -> In d seen \/ d = c) as Ii by (intros d Hd; apply in_app_or in Hd as [Hd|[Hd|[]]]; auto).
  destruct mm as [[[mn mx] mf]|].
  - destruct HI as (V1 & V2 & T1 & T2 & CO & E1 & (c1 & I1 & H1) & (c2 & I2 & H2) & HA).
    rewrite !int_comp_spec by (apply Va || apply Vb || apply V1 || apply V2). cbn [zcmp].
    assert (value mn <= value mx) as LE by (pose proof (HA c2 _ I2 H2); lia).
    destruct (Z.ltb_spec (value va) (value mn)) as [L|L].
    + assert (value vb < value mn) as NB. { destruct (Z.lt_ge_cases (value vb) (value mn)); [assumption|]. exfalso. apply (disjoint_mid k seen c rest c1 (value mn) HD I1 H1). apply CV. lia. }
      unfold bounds_inv. fold k. repeat (split; [assumption|]). split; [exists c; split; [exact Ic|apply CV; lia]|]. split; [exists c2; auto|].
      intros d x Hd Hx. destruct (Ii d Hd) as [Hd'| ->]; [specialize (HA d x Hd' Hx); lia|apply CV in Hx; lia].
    + destruct (Z.ltb_spec (value mx) (value vb)) as [M|M]; unfold bounds_inv; fold k; repeat (split; [assumption|]).
      * split; [exists c1; auto|]. split; [exists c; split; [exact Ic|apply CV; lia]|].
        intros d x Hd Hx. destruct (Ii d Hd) as [Hd'| ->]; [specialize (HA d x Hd' Hx); lia|apply CV in Hx; lia].
      * split; [exists c1; auto|]. split; [exists c2; auto|].
        intros d x Hd Hx. destruct (Ii d Hd) as [Hd'| ->]; [specialize (HA d x Hd' Hx); lia|apply CV in Hx; lia].
  - cbn [bounds_inv] in HI. unfold bounds_inv. fold k. repeat (split; [assumption|]).
    split; [exists c; split; [exact Ic|apply CV; lia]|]. split; [exists c; split; [exact Ic|apply CV; lia]|].
    intros d x Hd Hx. destruct (Ii d Hd) as [Hd'| ->]; [|apply CV in Hx; lia]. exfalso. rewrite Forall_forall in HI, HK. specialize (HI d Hd'). specialize (HK d Hd').
    unfold covers, is_value, constant in *. destruct (label d); auto.
Qed.
Lemma table_bounds_ok t : enum_ok t -> forall cs bs seen mm dflt, length bs = length cs -> Forall (case_ok t) (seen ++ cs) -> Forall constant (seen ++ cs) -> disjoint (lowered t) (seen ++ cs) -> bounds_inv t seen mm ->
  bounds_inv t (seen ++ cs) (fst (table_bounds (lowered t) cs bs mm dflt)).
Proof.
  intros HE. induction cs as [|c cs IH]; intros bs seen mm dflt HL HF HK HD HI; [rewrite app_nil_r; destruct bs; exact HI|].
  destruct bs as [|b bs]; [discriminate|]. injection HL as HL. cbn [table_bounds].
  assert (case_ok t c /\ constant c /\ Forall constant seen) as (C1 & C2 & C3).
  { rewrite Forall_app in HF, HK. destruct HF as [_ HF], HK as [K1 HK]. apply Forall_cons_iff in HF as [HF _]. apply Forall_cons_iff in HK as [HK _]. auto. }
  pose proof (IH bs (seen ++ [c])) as IH'. rewrite <- app_assoc in IH'. cbn [app] in IH'.
  destruct c as [[|f to|x] bd]; cbn [label body]; [| |destruct C2].
  - apply IH'; auto. destruct mm as [[[mn mx] mf]|].
    + destruct HI as (V1 & V2 & T1 & T2 & CO & E1 & (c1 & I1 & H1) & (c2 & I2 & H2) & HA). unfold bounds_inv. repeat (split; [assumption|]).
      split; [exists c1; split; [apply in_or_app; auto|exact H1]|]. split; [exists c2; split; [apply in_or_app; auto|exact H2]|].
      intros d x Hd Hx. apply in_app_or in Hd as [Hd|[<-|[]]]; [exact (HA d x Hd Hx)|destruct Hx].
    + cbn [bounds_inv] in *. apply Forall_app. split; [exact HI|]. constructor; [exact (fun x => x)|constructor].
  - pose proof (bounds_step t seen (mkCase (Value f to) bd) cs f to bd mm HE eq_refl C1 C3 HD HI) as ST. destruct (table_values (lowered t) f to) as [va vb]. apply IH'; auto.
Qed.
Lemma table_default k : forall cs bs mm dflt, length bs = length cs -> Forall constant cs ->
  let d := snd (table_bounds k cs bs mm dflt) in
  (exists j c, nth_error cs j = Some c /\ label c = Default /\ body c = true /\ nth_error bs j = Some d) \/
  (d = dflt /\ forall j c, nth_error cs j = Some c -> label c = Default -> body c = false).
Proof.
  induction cs as [|c cs IH]; intros bs mm dflt HL HK; [right; split; [destruct bs; reflexivity|intros [|j] c H; discriminate]|].
  destruct bs as [|b bs]; [discriminate|]. injection HL as HL. apply Forall_cons_iff in HK as [KC HK]. cbn [table_bounds]. unfold constant in KC. destruct (label c) as [|f to|x] eqn:EL; [| |destruct KC].
  - destruct (IH bs mm (if body c then b else dflt) HL HK) as [(j & d & H1 & H2 & H3 & H4)|[E N]].
    + left. exists (S j), d. auto.
    + destruct (body c) eqn:Eb.
      * left. exists 0%nat, c. repeat (split; [auto|]). cbn [nth_error]. f_equal. symmetry. exact E.
      * right. split; [exact E|]. intros [|j] d H1 H2; [cbn in H1; congruence|exact (N j d H1 H2)].
  - destruct (table_values k f to) as [va vb].
    destruct (IH bs (match mm with None => Some (va, vb, f) | Some (mn, mx, mf) => if int_comp va mn OpLT then Some (va, mx, f) else if int_comp vb mx OpGT then Some (mn, vb, mf) else Some (mn, mx, mf) end) dflt HL HK) as [(j & d & H1 & H2 & H3 & H4)|[E N]].
    + left. exists (S j), d. auto.
    + right. split; [exact E|]. intros [|j] d H1 H2; [cbn in H1; congruence|exact (N j d H1 H2)].
Qed.
Lemma fill_ok b : forall n refs j, 0 <= j -> j + Z.of_nat n <= zlen refs ->
  exists refs', fill n refs j b = Ok refs' /\ zlen refs' = zlen refs /\ forall x, get refs' x = if (j <=? x) && (x <? j + Z.of_nat n) then Ok (Some b) else get refs x.
Proof.
  induction n as [|n IH]; intros refs j H1 H2.
  - exists refs. split; [reflexivity|]. split; [reflexivity|]. intros x. replace ((j <=? x) && (x <? j + Z.of_nat 0)) with false by lia. reflexivity.
  - cbn [fill]. destruct (set_ok refs j (Some b) ltac:(lia)) as (r1 & E1). rewrite E1. cbn [bind]. pose proof (set_zlen _ _ _ _ E1) as L1.
    destruct (IH r1 (j + 1) ltac:(lia) ltac:(lia)) as (r2 & E2 & L2 & G2). exists r2. split; [exact E2|]. split; [lia|]. intros x. rewrite G2, (get_set _ _ _ _ _ E1).
    destruct (Z.eqb_spec x j); destruct ((j + 1 <=? x) && (x <? j + 1 + Z.of_nat n)) eqn:A; destruct ((j <=? x) && (x <? j + Z.of_nat (S n))) eqn:B; try reflexivity; lia.
Qed.
(** What an entry of the table holds after the cases [seen] with the blocks [sb]. *)
Definition table_inv (k : IKind) (mn : Z) (seen : list Case) (sb : list Block) (refs : list (option Block)) : Prop :=
  forall x, 0 <= x < zlen refs ->
    (exists j c b, nth_error seen j = Some c /\ nth_error sb j = Some b /\ covers k c (mn + x) /\ get refs x = Ok (Some b)) \/
    ((forall j c, nth_error seen j = Some c -> ~ covers k c (mn + x)) /\ get refs x = Ok None).
Lemma fill_table_ok t mn size : enum_ok t -> let k := lowered t in valid mn -> itype mn = k -> size <= 2 ^ 20 -> forall cs bs seen sb refs dests, length bs = length cs -> length sb = length seen ->
  Forall (case_ok t) cs -> Forall constant cs ->
  (forall c x, In c cs -> covers k c x -> value mn <= x < value mn + size /\ x - value mn <= kmax k) -> zlen refs = size ->
  table_inv k (value mn) seen sb refs ->
  exists refs' dests', fill_table k mn cs bs refs dests = Ok (refs', dests') /\ zlen refs' = size /\ table_inv k (value mn) (seen ++ cs) (sb ++ bs) refs' /\
    (forall b, In b dests -> In b dests') /\ (forall j c b, nth_error cs j = Some c -> nth_error bs j = Some b -> is_value c -> body c = true -> In b dests').
Proof.
  intros HE k Vm Tm HS. induction cs as [|c cs IH]; intros bs seen sb refs dests HL HL2 HF HK HB HZ HI.
  - destruct bs; [|discriminate]. exists refs, dests. rewrite !app_nil_r. split; [reflexivity|]. split; [exact HZ|]. split; [exact HI|]. split; [auto|]. intros [|j] c b H; discriminate.
  - destruct bs as [|b bs]; [discriminate|]. injection HL as HL. apply Forall_cons_iff in HF as [CO HF]. apply Forall_cons_iff in HK as [KO HK].
    assert (forall refs1 dests1, zlen refs1 = size -> table_inv k (value mn) (seen ++ [c]) (sb ++ [b]) refs1 ->
      (forall b, In b dests -> In b dests1) -> (is_value c -> body c = true -> In b dests1) ->
      exists refs' dests', fill_table k mn cs bs refs1 dests1 = Ok (refs', dests') /\ zlen refs' = size /\ table_inv k (value mn) (seen ++ c :: cs) (sb ++ b :: bs) refs' /\
      (forall b, In b dests -> In b dests') /\ (forall j d b0, nth_error (c :: cs) j = Some d -> nth_error (b :: bs) j = Some b0 -> is_value d -> body d = true -> In b0 dests')) as Go.
    { intros refs1 dests1 Z1 I1 D1 D2. destruct (IH bs (seen ++ [c]) (sb ++ [b]) refs1 dests1 HL ltac:(rewrite !app_length; cbn; lia) HF HK ltac:(intros d x Hd; apply HB; right; exact Hd) Z1 I1) as (r & ds & E & Z2 & I2 & A1 & A2).
      rewrite <- !app_assoc in I2. cbn [app] in I2. exists r, ds. repeat (split; [auto|]). intros [|j] d b0 H1 H2 H3 H4; cbn [nth_error] in *.
      - apply A1. injection H1 as <-. injection H2 as <-. auto.
      - exact (A2 j d b0 H1 H2 H3 H4). }
    assert (forall refs1, (forall x, 0 <= x < zlen refs -> ~ covers k c (value mn + x)) -> refs1 = refs -> table_inv k (value mn) (seen ++ [c]) (sb ++ [b]) refs1) as Skip.
    { intros refs1 N ->. intros x Hx. destruct (HI x Hx) as [(j & d & b0 & H1 & H2 & H3 & H4)|[H1 H2]].
      - left. exists j, d, b0. rewrite !nth_error_app1; [auto| |]; apply nth_error_Some; congruence.
      - right. split; [|exact H2]. intros j d Hj. destruct (Nat.lt_ge_cases j (length seen)) as [L|L].
        + rewrite nth_error_app1 in Hj by exact L. exact (H1 j d Hj).
        + rewrite nth_error_app2 in Hj by exact L. destruct (j - length seen)%nat as [|n]; [cbn in Hj; injection Hj as <-; exact (N x Hx)|destruct n; discriminate]. }
    cbn [fill_table]. destruct c as [[|f to|x] bd]; cbn [label body]; [| |destruct KO].
    + apply Go; [exact HZ|apply Skip; [intros x Hx []|reflexivity]|auto|intros []].
    + destruct (table_values_ok t f to bd HE CO) as (va & vb & ET & Va & Vb & Ta & Tb & Na & Nb). fold k in ET, Ta, Tb. rewrite ET.
      destruct (case_value t f to bd HE CO) as (C1 & C2 & C3). set (c := mkCase (Value f to) bd) in *.
      assert (forall x, covers k c x <-> value va <= x <= value vb) as CV by (intros x; unfold covers, c; cbn [label]; fold (hi_of f to); rewrite Na, Nb; reflexivity).
      assert (kmin k <= 0) as KM by (destruct k; vm_compute; discriminate).
      pose proof (HB c (value va) (or_introl eq_refl) ltac:(apply CV; lia)) as Ba. pose proof (HB c (value vb) (or_introl eq_refl) ltac:(apply CV; lia)) as Bb.
      destruct (low_sub va mn k Va Vm Ta Tm ltac:(unfold in_kind; lia) ltac:(lia)) as [-> _]. destruct (low_sub vb mn k Vb Vm Tb Tm ltac:(unfold in_kind; lia) ltac:(lia)) as [-> _].
      set (n := Z.to_nat _). assert (Z.of_nat n = value vb - value va + 1) as En by (unfold n; lia).
      destruct (fill_ok b n refs (value va - value mn) ltac:(lia) ltac:(lia)) as (r1 & E1 & Z1 & G1). rewrite E1. cbn [bind]. apply Go; [lia| |intros b0 H0; destruct bd; [apply in_or_app; auto|exact H0]|intros _ E; cbn in E; subst bd; apply in_or_app; right; left; reflexivity].
      intros x Hx. rewrite Z1 in Hx. rewrite G1. destruct ((value va - value mn <=? x) && (x <? value va - value mn + Z.of_nat n)) eqn:EX.
      * left. exists (length seen), c, b. rewrite (nth_error_app2 seen) by lia. rewrite (nth_error_app2 sb) by lia. rewrite HL2, Nat.sub_diag. repeat (split; [reflexivity|]). split; [apply CV; lia|reflexivity].
      * assert (~ covers k c (value mn + x)) as NC by (rewrite CV; lia).
        destruct (HI x Hx) as [(j & d & b0 & H1 & H2 & H3 & H4)|[H1 H2]].
        -- left. exists j, d, b0. rewrite !nth_error_app1; [auto| |]; apply nth_error_Some; congruence.
        -- right. split; [|exact H2]. intros j d Hj. destruct (Nat.lt_ge_cases j (length seen)) as [L|L].
           ++ rewrite nth_error_app1 in Hj by exact L. exact (H1 j d Hj).
           ++ rewrite nth_error_app2 in Hj by exact L. destruct (j - length seen)%nat as [|n']; [cbn in Hj; injection Hj as <-; exact NC|destruct n'; discriminate].
Qed.

Lemma falls_at cs i b : falls cs i b -> forall j, b = At j -> exists d, nth_error cs j = Some d /\ body d = true.
Proof. induction 1 as [i c H1 H2|i c b H1 H2 H3 IH|i H1]; intros j E; [injection E as <-; eauto|auto|discriminate]. Qed.
Lemma get_complete dflt refs i : get (complete dflt refs) i = match get refs i with Ok (Some b) => Ok b | Ok None => Ok dflt | Oob => Oob | Fuel => Fuel end.
Proof. unfold get, complete. destruct (i <? 0); [reflexivity|]. rewrite nth_error_map. destruct (nth_error refs (Z.to_nat i)) as [[b|]|]; reflexivity. Qed.
Lemma get_firstn {A} (l : list A) n i : 0 <= i < n -> get (firstn (Z.to_nat n) l) i = get l i.
Proof.
  intros H. unfold get. destruct (Z.ltb_spec i 0); [reflexivity|]. rewrite <- (firstn_skipn (Z.to_nat n) l) at 2.
  destruct (Nat.lt_ge_cases (Z.to_nat i) (length (firstn (Z.to_nat n) l))) as [L|L].
  - rewrite nth_error_app1 by exact L. reflexivity.
  - assert (length l <= Z.to_nat i)%nat as L2 by (rewrite firstn_length in L; lia). rewrite (proj2 (nth_error_None (firstn (Z.to_nat n) l) (Z.to_nat i)) L).
    rewrite firstn_skipn. rewrite (proj2 (nth_error_None l (Z.to_nat i)) L2). reflexivity.
Qed.
Lemma gap_in refs i : get refs i = Ok None -> has_gap refs = true.
Proof. intros H. apply get_inv in H as [_ H]. apply existsb_exists. exists None. split; [exact (nth_error_In _ _ H)|reflexivity]. Qed.
Lemma block_eqb_refl b : block_eqb b b = true. Proof. destruct b; [apply Nat.eqb_refl|reflexivity]. Qed.
Lemma in_dests b ds : In b ds -> existsb (block_eqb b) ds = true.
Proof. intros H. apply existsb_exists. exists b. split; [exact H|apply block_eqb_refl]. Qed.
Lemma get_repeat {A} (x : A) n i : 0 <= i < Z.of_nat n -> get (repeat x n) i = Ok x.
Proof. intros H. rewrite (get_nth _ _ x) by (unfold zlen; rewrite repeat_length; lia). f_equal. apply nth_repeat. Qed.
Lemma kmax_lt k : kmax k < 2 ^ kbits k. Proof. destruct k; reflexivity. Qed.
Lemma default_block k cs z : Forall constant cs -> default_last cs -> one_default cs -> (forall j d, nth_error cs j = Some d -> ~ covers k d z) ->
  does k cs z (snd (table_bounds k cs (backend_blocks 0 cs) None Exit)).
Proof.
  intros HK HD HO N. destruct (table_default k cs (backend_blocks 0 cs) None Exit (backend_length cs 0) HK) as [(j & c & H1 & H2 & H3 & H4)|[E H]].
  - apply (Does_default _ _ _ j c _ N H1 H2). apply falls_block, H4.
  - rewrite E. pose proof (default_case_spec cs (backend_blocks 0 cs) (backend_length cs 0)) as D. destruct (default_case cs (backend_blocks 0 cs)) as [[c b]|].
    + destruct D as (j & H1 & H2 & _). apply (Does_default _ _ _ j c _ N H1 H2). apply (HD j c H1 H2). exact (H j c H1 H2).
    + exact (Does_nothing _ _ _ N D).
Qed.
Lemma jump_ok t cs v : enum_ok t -> Forall (case_ok t) cs -> Forall constant cs -> Exists is_value cs -> disjoint (lowered t) cs -> small_span (lowered t) cs -> lands cs -> default_last cs -> one_default cs -> is_bits (lowered t) v ->
  exists b, run_jump_table (lowered t) cs v = Runs b /\ does (lowered t) cs (bits_value (lowered t) v) b.
Proof.
  intros HE HF HK HX HD HS HLa HDf HO Hv. set (k := lowered t) in *. unfold run_jump_table. set (bs := backend_blocks 0 cs). assert (length bs = length cs) as HL by apply backend_length.
  pose proof (table_bounds_ok t HE cs bs [] None Exit HL HF HK HD (Forall_nil _)) as TB. cbn [app] in TB. fold k in TB.
  pose proof (fun z N => default_block k cs z HK HDf HO N) as DB. fold bs in DB.
  destruct (table_bounds k cs bs None Exit) as [[[[mn mx] mf]|] dflt]; cbn [fst snd] in TB, DB.
  2:{ cbn [bounds_inv] in TB. exfalso. apply Exists_exists in HX as (c & I & H). rewrite Forall_forall in TB. exact (TB c I H). }
  destruct TB as (V1 & V2 & T1 & T2 & CO & E1 & (c1 & I1 & H1) & (c2 & I2 & H2) & HA). fold k in T1, T2, H1, H2, HA.
  apply In_nth_error in I1 as (n1 & N1). apply In_nth_error in I2 as (n2 & N2). pose proof (HS n1 n2 c1 c2 _ _ N1 N2 H1 H2) as [SP1 SP2].
  pose proof (HA c1 _ (nth_error_In _ _ N1) H1) as LE. assert (kmin k <= 0) as KM by (destruct k; vm_compute; discriminate).
  destruct (low_sub mx mn k V2 V1 T2 T1 ltac:(unfold in_kind; lia) ltac:(lia)) as [-> ->]. set (d := value mx - value mn) in *.
  replace (d <=? 65535) with true by lia. cbn [negb]. replace (0 =? 0) with true by reflexivity. cbn [negb]. replace (d + 1 <? 0x3FFF + 1) with true by lia. cbn [negb].
  set (size := if 16 <? d + 1 then d + 1 else 16). assert (d + 1 <= size <= 2 ^ 20) as SZ by (unfold size; destruct (Z.ltb_spec 16 (d + 1)); lia).
  destruct (fill_table_ok t mn size HE V1 T1 ltac:(lia) cs bs [] [] (repeat None (Z.to_nat size)) [] HL eq_refl HF HK) as (refs & dests & EF & ZR & TI & _ & DS).
  { intros c x I C. fold k in C. pose proof (HA c x I C). fold k. lia. }
  { unfold zlen. rewrite repeat_length. lia. }
  { intros x Hx. right. split; [intros [|j] c H; discriminate|]. apply get_repeat. unfold zlen in Hx. rewrite repeat_length in Hx. exact Hx. }
  fold k in EF, TI. cbn [app] in TI. rewrite EF. clear EF.
  destruct (const_facts t mf HE CO) as (KF & BF & _). fold k in KF, BF. rewrite BF, <- E1. rewrite <- E1 in KF. pose proof (kbits_pos k) as KP. pose proof (kmax_lt k) as KL.
  destruct (bits_kind k v Hv) as [KV EV]. set (z := bits_value k v) in *. set (w := kbits k) in *.
  assert (0 < 2 ^ w) as PW by (apply Z.pow_pos_nonneg; lia).
  assert ((if value mn mod 2 ^ w =? 0 then v else (v - value mn mod 2 ^ w) mod 2 ^ w) = (z - value mn) mod 2 ^ w) as ->.
  { rewrite <- EV at 2. rewrite <- EV at 1. destruct (Z.eqb_spec (value mn mod 2 ^ w) 0) as [E|E].
    - rewrite Zminus_mod, E, Z.sub_0_r, Z.mod_mod by lia. reflexivity.
    - rewrite <- Zminus_mod. reflexivity. }
  replace (d + 1 - 1) with d by lia. rewrite (Z.mod_small d) by lia. pose proof (Z.mod_pos_bound (z - value mn) (2 ^ w) PW) as MB.
  destruct (Z.ltb_spec d ((z - value mn) mod 2 ^ w)) as [L|L].
  - exists dflt. split; [reflexivity|]. apply DB. intros j c Hj C. pose proof (HA c z (nth_error_In _ _ Hj) C). rewrite Z.mod_small in L by lia. lia.
  - assert (z = value mn + (z - value mn) mod 2 ^ w) as EZ.
    { apply (kind_inj k); [exact KV|pose proof (proj2 V2) as K2; rewrite T2 in K2; unfold in_kind in *; lia|]. fold w. rewrite Z.add_mod_idemp_r by lia. f_equal. lia. }
    set (i := (z - value mn) mod 2 ^ w) in *.
    replace (if ksigned k then swrap w i else i) with i.
    2:{ destruct (ksigned k) eqn:SG; [|reflexivity]. symmetry. apply swrap_small; [lia|]. unfold kmax in SP2. rewrite SG in SP2. fold w in SP2. lia. }
    rewrite get_complete, get_firstn by lia. destruct (TI i ltac:(lia)) as [(j & c & b & J1 & J2 & J3 & J4)|[J1 J2]].
    + rewrite J4. assert (In b dests) as ID.
      { pose proof (falls_block cs j b J2) as FB. assert (is_value c) as IV. { rewrite Forall_forall in HK. specialize (HK c (nth_error_In _ _ J1)). unfold covers, is_value, constant in *. destruct (label c); auto. }
        destruct (HLa j c b J1 IV FB) as (j' & d' & -> & G1 & G2). destruct (falls_at cs j (At j') FB j' eq_refl) as (d2 & G3 & G4). assert (d2 = d') as -> by congruence.
        apply (DS j' d' (At j') G1); [|exact G2|exact G4]. exact (nth_body cs j' d' G1 G4). }
      exists b. split; [rewrite in_dests; [reflexivity|destruct (has_gap _); [apply in_or_app; left|]; exact ID]|]. rewrite EZ. exact (does_disjoint k cs _ j c b HD J1 J3 (falls_block cs j b J2)).
    + rewrite J2. rewrite <- EZ in J1. exists dflt. split; [|apply DB, J1].
      rewrite (gap_in _ i) by (rewrite get_firstn by lia; exact J2). rewrite in_dests; [reflexivity|apply in_or_app; right; left; reflexivity].
Qed.

(** ** The checks *)
Lemma const_comp_spec t a b op : const_ok t a -> const_ok t b -> const_comp a b op = zcmp op (number a) (number b).
Proof.
  destruct t, a, b; cbn [const_ok const_comp number]; try contradiction; intros H1 H2.
  - apply int_comp_spec; [apply H1|apply H2].
  - destruct op; cbn [zcmp]; reflexivity.
Qed.
Lemma in_range_spec t c f to bd : const_ok t c -> case_ok t (mkCase (Value f to) bd) -> const_in_range c f to = true <-> covers (lowered t) (mkCase (Value f to) bd) (number c).
Proof.
  intros H1 [H2 H3]. unfold const_in_range, covers. cbn [label]. destruct to as [to|].
  - destruct H3 as [H3 _]. rewrite (const_comp_spec t) by assumption. rewrite (const_comp_spec t) by assumption. cbn [zcmp]. lia.
  - rewrite (const_comp_spec t) by assumption. cbn [zcmp]. lia.
Qed.
Lemma seen_before_spec t f earlier : const_ok t f -> Forall (case_ok t) earlier ->
  seen_before f earlier = true <-> exists c, In c earlier /\ is_value c /\ covers (lowered t) c (number f).
Proof.
  intros HC HF. induction earlier as [|c cs IH]; [split; [discriminate|intros (c & [] & _)]|]. apply Forall_cons_iff in HF as [C1 HF]. specialize (IH HF). destruct c as [[|f' to|x] bd]; cbn [seen_before].
  - rewrite IH. split; [intros (c & I & H); exists c; split; [right|]; assumption|]. intros (c & [<-|I] & V & H); [destruct V|]. exists c. auto.
  - rewrite orb_true_iff, IH, (in_range_spec t f f' to bd HC C1). split.
    + intros [H|(c & I & H)]; [eexists; split; [left; reflexivity|split; [exact I|exact H]]|exists c; split; [right|]; assumption].
    + intros (c & [<-|I] & V & H); [left; exact H|right; exists c; auto].
  - rewrite IH. split; [intros (c & I & H); exists c; split; [right|]; assumption|]. intros (c & [<-|I] & V & H); [destruct V|]. exists c. auto.
Qed.
Lemma check_cases_seen : forall cs earlier hd s r, check_cases cs earlier hd s = Some r ->
  forall a c b f to, cs = a ++ c :: b -> label c = Value f to -> seen_before f (earlier ++ a) = false.
Proof.
  induction cs as [|d cs IH]; intros earlier hd s r H a c b f to E EL; [destruct a; discriminate|]. cbn [check_cases] in H. destruct a as [|a0 a]; cbn [app] in E; injection E as -> ->.
  - rewrite app_nil_r. rewrite EL in H. destruct (check_value_case (Value f to) earlier s) as [s'|] eqn:EC; [|discriminate]. unfold check_value_case in EC.
    destruct (match to with Some t => _ | None => _ end); [|discriminate]. destruct (seen_before f earlier); [discriminate|reflexivity].
  - replace (earlier ++ a0 :: a) with ((earlier ++ [a0]) ++ a) by (rewrite <- app_assoc; reflexivity). 
    destruct (label a0) as [|f0 t0|x0]; [destruct hd; [discriminate|]|destruct (check_value_case (Value f0 t0) earlier s); [|discriminate]|destruct (check_value_case (Dynamic x0) earlier s); [|discriminate]];
      exact (IH _ _ _ _ H a c b f to eq_refl EL).
Qed.
Lemma start_seen t cs jump i j a b f to : Forall (case_ok t) cs -> (i < j)%nat -> nth_error cs i = Some a -> nth_error cs j = Some b -> is_value a -> label b = Value f to -> covers (lowered t) a (number f) ->
  check_switch t cs jump = Rejected.
Proof.
  intros HF HI Ha Hb Va EL HC. unfold check_switch. destruct (check_cases cs [] false _) as [[s hd]|] eqn:E; [|reflexivity]. exfalso.
  destruct (nth_error_split _ _ Hb) as (l1 & l2 & E1 & E2). pose proof (check_cases_seen _ _ _ _ _ E l1 b l2 f to E1 EL) as S. cbn [app] in S.
  enough (seen_before f l1 = true) by congruence.
  assert (In a l1) as Ia. { rewrite E1, nth_error_app1 in Ha by lia. exact (nth_error_In _ _ Ha). }
  rewrite E1 in HF. apply Forall_app in HF as [F1 F2]. apply Forall_cons_iff in F2 as [F2 _]. unfold case_ok in F2. rewrite EL in F2.
  apply (seen_before_spec t); [apply F2|exact F1|]. exists a. auto.
Qed.
Lemma second_default_check : forall cs earlier hd s, (hd = true -> exists c, In c cs /\ label c = Default) -> (hd = false -> ~ one_default cs) -> check_cases cs earlier hd s = None.
Proof.
  induction cs as [|c cs IH]; intros earlier hd s H1 H2.
  - destruct hd; [destruct (H1 eq_refl) as (c & [] & _)|]. exfalso. apply (H2 eq_refl). intros [|i] j a b H; discriminate.
  - cbn [check_cases]. assert (forall hd s, (hd = true -> exists c0, In c0 cs /\ label c0 = Default) -> (hd = false -> ~ one_default cs) -> check_cases cs (earlier ++ [c]) hd s = None) as IH' by (intros; apply IH; assumption).
    assert (label c <> Default -> (hd = true -> exists c0, In c0 cs /\ label c0 = Default) /\ (hd = false -> ~ one_default cs)) as Next.
    { intros N. split.
      - intros E. destruct (H1 E) as (d & [<-|I] & L); [contradiction|]. exists d. auto.
      - intros E O. apply (H2 E). intros [|i] [|j] a b Ha Hb La Lb; cbn [nth_error] in *; try reflexivity; try congruence. f_equal. exact (O i j a b Ha Hb La Lb). }
    destruct (label c) as [|f to|x] eqn:EL.
    + destruct hd; [reflexivity|]. apply IH'; [|discriminate]. intros _. 
      destruct (existsb (fun d => match label d with Default => true | _ => false end) cs) eqn:EX.
      * apply existsb_exists in EX as (d & I & L). exists d. split; [exact I|]. destruct (label d); congruence.
      * exfalso. apply (H2 eq_refl). assert (forall i d, nth_error cs i = Some d -> label d <> Default) as ND.
        { intros i d Hd L. apply not_true_iff_false in EX. apply EX. apply existsb_exists. exists d. split; [exact (nth_error_In _ _ Hd)|]. rewrite L. reflexivity. }
        intros [|i] [|j] a b Ha Hb La Lb; cbn [nth_error] in *; try reflexivity; exfalso; eapply ND; eassumption.
    + destruct (check_value_case (Value f to) earlier s); [|reflexivity]. destruct (Next ltac:(discriminate)) as [A B]. apply IH'; assumption.
    + destruct (check_value_case (Dynamic x) earlier s); [|reflexivity]. destruct (Next ltac:(discriminate)) as [A B]. apply IH'; assumption.
Qed.
Lemma check_range_total t f to s : const_ok t f -> const_ok t to -> number f <= number to -> exists s', check_range f to s = Some s'.
Proof.
  intros H1 H2 H3. unfold check_range. destruct (max_ranged s); [eauto|]. destruct t, f, to; cbn [const_ok number] in *; try contradiction.
  - rewrite int_comp_spec by (apply H1 || apply H2). cbn [zcmp]. replace (value x0 <? value x) with false by lia. eauto.
  - replace (ord0 <? ord) with false by lia. eauto.
Qed.
Lemma check_cases_total t : forall cs earlier hd s, Forall (case_ok t) (earlier ++ cs) -> disjoint (lowered t) (earlier ++ cs) -> one_default cs -> (hd = true -> Forall (fun c => label c <> Default) cs) ->
  exists r, check_cases cs earlier hd s = Some r.
Proof.
  induction cs as [|c cs IH]; intros earlier hd s HF HD HO HH; [eexists; reflexivity|]. cbn [check_cases].
  assert (case_ok t c /\ Forall (case_ok t) earlier) as [CO CE]. { apply Forall_app in HF as [A B]. apply Forall_cons_iff in B as [B _]. auto. }
  assert (one_default cs) as HO'. { intros i j a b Ha Hb La Lb. specialize (HO (S i) (S j) a b Ha Hb La Lb). lia. }
  assert (forall hd s, (hd = true -> Forall (fun c => label c <> Default) cs) -> exists r, check_cases cs (earlier ++ [c]) hd s = Some r) as Go.
  { intros hd' s' H'. apply IH; [rewrite <- app_assoc; exact HF|rewrite <- app_assoc; exact HD|exact HO'|exact H']. }
  assert (hd = true -> Forall (fun c => label c <> Default) cs) as HH' by (intros E; specialize (HH E); apply Forall_cons_iff in HH; apply HH).
  destruct c as [[|f to|x] bd]; cbn [label].
  - destruct hd; [specialize (HH eq_refl); apply Forall_cons_iff in HH as [HH _]; cbn in HH; congruence|]. apply Go. intros _. apply Forall_forall. intros d I L. apply In_nth_error in I as (j & Ej).
    specialize (HO 0%nat (S j) _ d eq_refl Ej eq_refl L). lia.
  - cbn [check_value_case]. set (s1 := update_bounds _ _ _). assert (seen_before f earlier = false) as NS.
    { apply not_true_iff_false. intros E. apply (seen_before_spec t) in E; [|apply CO|exact CE]. destruct E as (d & I & V & C). apply (disjoint_mid _ _ _ _ d (number f) HD I C).
      destruct CO as [_ CO]. unfold covers. cbn [label]. destruct to; lia. }
    destruct to as [to|].
    + destruct CO as (C1 & C2 & C3). destruct (check_range_total t f to s1 C1 C2 C3) as (s2 & E). rewrite E, NS. apply Go, HH'.
    + rewrite NS. apply Go, HH'.
  - cbn [check_value_case]. apply Go, HH'.
Qed.
Lemma overlap_start t cs i j a b z : Forall (case_ok t) cs -> Forall constant cs -> nth_error cs i = Some a -> nth_error cs j = Some b -> covers (lowered t) a z -> covers (lowered t) b z ->
  exists f to f' to', label a = Value f to /\ label b = Value f' to' /\ (number f <= number f' -> covers (lowered t) a (number f')) /\ (number f' <= number f -> covers (lowered t) b (number f)).
Proof.
  intros HF HK Ha Hb C1 C2. rewrite Forall_forall in HK. pose proof (HK a (nth_error_In _ _ Ha)) as K1. pose proof (HK b (nth_error_In _ _ Hb)) as K2.
  unfold covers, constant in *. destruct (label a) as [|f to|x]; [destruct C1| |destruct K1]. destruct (label b) as [|f' to'|x]; [destruct C2| |destruct K2]. exists f, to, f', to'. repeat (split; [reflexivity|]). split; lia.
Qed.

(** ** Counting *)
Lemma check_range_count t f to s s' : enum_ok t -> is_enum t = true -> const_ok t f -> const_ok t to -> max_ranged s = false -> number to - number f <= 256 -> check_range f to s = Some s' ->
  max_ranged s' = false /\ actual_cases s' = w64 (actual_cases s + (number to - number f)).
Proof.
  intros HE EN H1 H2 HM HN. destruct t; [discriminate|]. destruct f as [|a]; [destruct H1|]. destruct to as [|b]; [destruct H2|]. unfold check_range. rewrite HM. destruct (b <? a); [discriminate|]. intros [= <-]. cbn [max_ranged actual_cases number] in *.
  split; [unfold switchrange_max_size; lia|reflexivity].
Qed.
Lemma w64_small x : 0 <= x < 2 ^ 64 -> w64 x = x.
Proof. intros H. unfold w64. rewrite W_val. apply Z.mod_small. exact H. Qed.
Lemma count_ok t : enum_ok t -> is_enum t = true -> forall cs earlier hd s s' hd', Forall (case_ok t) cs -> Forall constant cs -> Forall narrow cs ->
  max_ranged s = false -> 0 <= actual_cases s -> actual_cases s + zlen (flat_map keys cs) < 2 ^ 64 ->
  check_cases cs earlier hd s = Some (s', hd') -> actual_cases s' = actual_cases s + zlen (flat_map keys cs) /\ (no_default cs -> hd' = hd).
Proof.
  intros HE EN. induction cs as [|c cs IH]; intros earlier hd s s' hd' HF HK HN HM H0 HB H.
  - cbn in H. injection H as <- <-. cbn. split; [lia|auto].
  - apply Forall_cons_iff in HF as [CO HF]. apply Forall_cons_iff in HK as [KC HK]. apply Forall_cons_iff in HN as [NC HN]. cbn [check_cases] in H. cbn [flat_map] in *.
    assert (forall l1 l2 : list Z, zlen (l1 ++ l2) = zlen l1 + zlen l2) as ZA by (intros; unfold zlen; rewrite app_length; lia). rewrite ZA in *. pose proof (zlen_nonneg (keys c)). pose proof (zlen_nonneg (flat_map keys cs)).
    destruct c as [[|f to|x] bd]; cbn [label] in H; [| |destruct KC].
    + destruct hd; [discriminate|]. change (keys (mkCase Default bd)) with (@nil Z) in *. change (zlen (@nil Z)) with 0 in *.
      destruct (IH _ _ _ _ _ HF HK HN HM H0 ltac:(lia) H) as [A B]. split; [lia|]. intros N. apply Forall_cons_iff in N as [N _]. cbn in N. congruence.
    + destruct (case_value t f to bd HE CO) as (C1 & C2 & C3).
      assert (zlen (keys (mkCase (Value f to) bd)) = number (hi_of f to) - number f + 1) as ZK by (unfold keys; cbn [label]; unfold zlen; rewrite zrange_length; lia). rewrite ZK in *.
      unfold check_value_case in H.
      assert (update_bounds f (match to with Some t0 => t0 | None => f end) (mkChecks (if_chained s) (max_ranged s) (w64 (actual_cases s + 1)) (lowest s) (highest s)) = mkChecks (if_chained s) (max_ranged s) (w64 (actual_cases s + 1)) (lowest s) (highest s)) as EU.
      { destruct t; [discriminate|]. destruct f; [destruct C1|]. reflexivity. }
      rewrite EU in H. clear EU. set (s1 := mkChecks _ _ _ _ _) in H. assert (actual_cases s1 = actual_cases s + 1) as A1 by (unfold s1; cbn [actual_cases]; apply w64_small; lia).
      assert (exists s2, match to with Some t0 => check_range f t0 s1 | None => Some s1 end = Some s2 /\ max_ranged s2 = false /\ actual_cases s2 = actual_cases s + (number (hi_of f to) - number f + 1)) as (s2 & E2 & M2 & A2).
      { destruct to as [to|]; cbn [hi_of] in *.
        - destruct (check_range_total t f to s1 C1 C2 C3) as (s2 & E). exists s2. split; [exact E|]. unfold narrow in NC. cbn [label hi_of] in NC.
          destruct (check_range_count t f to s1 s2 HE EN C1 C2 HM NC E) as [M A]. split; [exact M|]. rewrite A, A1. rewrite w64_small by lia. lia.
        - exists s1. split; [reflexivity|]. split; [exact HM|]. lia. }
      rewrite E2 in H. destruct (seen_before f earlier); [discriminate|].
      destruct (IH _ _ _ _ _ HF HK HN M2 ltac:(lia) ltac:(lia) H) as [A B]. split; [lia|]. intros N. apply Forall_cons_iff in N as [_ N]. exact (B N).
Qed.
Lemma count_cover (l : list Z) (n : nat) : NoDup l -> (forall x, In x l -> 0 <= x < Z.of_nat n) -> (length l = n <-> forall x, 0 <= x < Z.of_nat n -> In x l).
Proof.
  intros ND HB. assert (incl l (zrange 0 n)) as IL by (intros x I; apply in_zrange; specialize (HB x I); lia). split.
  - intros E x Hx. apply (NoDup_length_incl ND (l' := zrange 0 n)); [rewrite zrange_length; lia|exact IL|]. apply in_zrange. lia.
  - intros H. assert (incl (zrange 0 n) l) as IR by (intros x I; apply H; apply in_zrange in I; lia).
    pose proof (NoDup_incl_length ND IL) as L1. pose proof (NoDup_incl_length (zrange_nodup n 0) IR) as L2. rewrite zrange_length in *. lia.
Qed.
Lemma exhaustive_ok k n cs : enum_ok (SEnum k n) -> Forall (case_ok (SEnum k n)) cs -> Forall constant cs -> Forall narrow cs -> no_default cs -> disjoint k cs ->
  (forall o, 0 <= o < n -> exists c, In c cs /\ covers k c o) <-> check_switch (SEnum k n) cs false <> Rejected.
Proof.
  intros HE HF HK HN HD HJ. pose proof (keys_nodup k cs HK HJ) as ND.
  assert (forall x, In x (flat_map keys cs) -> 0 <= x < Z.of_nat (Z.to_nat n)) as HB.
  { intros x I. apply in_flat_map in I as (c & Ic & I). rewrite Forall_forall in HF. specialize (HF c Ic). destruct c as [[|f to|y] bd]; try destruct I. unfold keys in I. cbn [label] in I. apply in_zrange in I.
    destruct (case_value _ f to bd HE HF) as (C1 & C2 & C3). destruct f as [|a]; [destruct C1|]. destruct (hi_of (CEnum a) to) as [|b]; [destruct C2|]. cbn [const_ok number] in *. lia. }
  assert (zlen (flat_map keys cs) <= n) as LN.
  { assert (incl (flat_map keys cs) (zrange 0 (Z.to_nat n))) as IL by (intros x I; apply in_zrange; specialize (HB x I); lia). pose proof (NoDup_incl_length ND IL) as L. rewrite zrange_length in L. unfold zlen. destruct HE as [HE _]. lia. }
  destruct (check_cases_total (SEnum k n) cs [] false (mkChecks false false 0 None None)) as ([s hd] & E).
  { exact HF. } { exact HJ. } { intros i j a b Ha Hb La Lb. unfold no_default in HD. rewrite Forall_forall in HD. destruct (HD a (nth_error_In _ _ Ha) La). } { discriminate. }
  destruct (count_ok (SEnum k n) HE eq_refl cs [] false (mkChecks false false 0 None None) s hd HF HK HN eq_refl ltac:(cbn; lia) ltac:(cbn [actual_cases enum_ok] in *; lia) E) as [A B]. cbn [actual_cases] in A. specialize (B HD). subst hd.
  unfold check_switch. rewrite E. cbn [is_enum andb].
  assert ((forall o, 0 <= o < n -> exists c, In c cs /\ covers k c o) <-> length (flat_map keys cs) = Z.to_nat n) as ->.
  { rewrite (count_cover _ _ ND HB). cbn [enum_ok] in HE. split.
    - intros H x Hx. destruct (H x ltac:(lia)) as (c & Ic & C). apply in_flat_map. exists c. split; [exact Ic|]. apply (in_keys k); [|exact C]. rewrite Forall_forall in HK. exact (HK c Ic).
    - intros H o Ho. specialize (H o ltac:(lia)). apply in_flat_map in H as (c & Ic & C). exists c. split; [exact Ic|]. apply in_keys; [|exact C]. rewrite Forall_forall in HK. exact (HK c Ic). }
  unfold zlen in A. rewrite Z.add_0_l in A. cbn [enum_ok] in HE. destruct (Z.eqb_spec (actual_cases s) n) as [EQ|NE]; cbn [negb].
  - split; [intros _; discriminate|intros _; lia].
  - split; [lia|intros H; destruct (H eq_refl)].
Qed.
