(** Proofs about the table of global declarations. *)
From Coq Require Import ZArith Bool List Lia ZifyBool Permutation.
From Verif Require Import Mach ListAux TabModel TabSpec TabProbe TabProofs.
Import ListNotations.
Open Scope Z_scope.

Lemma first_result_spec hist : forall rs text, Forall2 (fun p r => first_type hist (fst p) = Some (snd r)) hist rs -> length rs = length hist ->
  first_result hist rs text = match first_type hist text with
        | None => None
        | Some ty => Some (nth 0 (map (fun pr => fst (snd pr)) (filter (fun pr => if list_eq_dec Z.eq_dec (fst (fst pr)) text then true else false) (combine hist rs))) 0, ty) end.
Proof.
  intros rs text F0 L. assert (F : Forall2 (fun p r => fst p = text -> first_type hist text = Some (snd r)) hist rs).
  { clear L. revert F0. generalize hist at 1 3. intros h0 F0. induction F0; constructor; [|assumption]. intros <-. assumption. }
  assert (G : first_type hist text = None -> ~ In text (map fst hist)) by apply first_type_none.
  assert (G2 : forall ty, first_type hist text = Some ty -> In text (map fst hist)).
  { intros ty H. destruct (in_dec (list_eq_dec Z.eq_dec) text (map fst hist)) as [|N]; [assumption|]. apply first_type_none in N. congruence. }
  revert G G2 F. clear F0 L. generalize (first_type hist text). intros o G G2 F. revert G G2. induction F as [|p r hist rs H F IH]; intros G G2.
  - cbn. destruct o as [ty|]; [exfalso; apply (G2 ty eq_refl)|reflexivity].
  - destruct p as (t, ty0). cbn [first_result combine filter fst]. cbn [fst] in H.
    destruct (list_eq_dec Z.eq_dec t text) as [E|E].
    + rewrite (H E). cbn [map nth snd]. destruct r; reflexivity.
    + apply IH; [intros X Y; apply (G X); cbn; auto|]. intros ty X. destruct (G2 ty X) as [Y|Y]; [cbn in Y; contradiction|exact Y].
Qed.

Definition dem (id : Z) : bool := id =? 0.
Definition dhome (heap : list decl) (id : Z) : Z := khash (name_of heap id).
Definition dcont := contents dem.
Notation "'dpinv' h" := (pinv dem (dhome h) 0) (at level 10).
Notation "'dsl'" := (sl 0).

Lemma nodup_key_gen {S} (emp : S -> bool) (e0 : S) (key : S -> Z) (t : list S) i j : NoDup (map key (contents emp t)) -> 0 <= i < zlen t -> 0 <= j < zlen t ->
  emp (sl e0 t i) = false -> emp (sl e0 t j) = false -> key (sl e0 t i) = key (sl e0 t j) -> i = j.
Proof.
  intros ND Hi Hj Ei Ej E. rewrite !sl_small in * by assumption.
  assert (Ln : (Z.to_nat i < length t)%nat) by (unfold zlen in Hi; lia).
  assert (Lm : (Z.to_nat j < length t)%nat) by (unfold zlen in Hj; lia).
  assert (X : Z.to_nat i = Z.to_nat j); [|lia]. revert Ei Ej E Ln Lm. generalize (Z.to_nat i) (Z.to_nat j). clear Hi Hj i j.
  unfold contents in ND. induction t as [|s t IH]; intros n m Ei Ej E Ln Lm; cbn [length] in *; [lia|].
  cbn [filter] in ND. destruct n as [|n], m as [|m]; cbn [nth] in *; [reflexivity| | |].
  - rewrite Ei in ND. cbn [negb map] in ND. inversion ND as [|x y NI _]. exfalso. apply NI. rewrite E. apply in_map. apply filter_In.
    split; [apply nth_In; lia|rewrite Ej; reflexivity].
  - rewrite Ej in ND. cbn [negb map] in ND. inversion ND as [|x y NI _]. exfalso. apply NI. rewrite <- E. apply in_map. apply filter_In.
    split; [apply nth_In; lia|rewrite Ei; reflexivity].
  - f_equal. apply IH; try assumption; try lia. destruct (emp s); cbn [negb map] in ND; [exact ND|inversion ND; assumption].
Qed.

Record dwf (heap : list decl) (t : list Z) (c : Z) : Prop := DWF {
  q_len : zlen t = 2 ^ c; q_c : 0 <= c; q_inv : dpinv heap t; q_nd : NoDup (map (name_of heap) (dcont t));
  q_room : (length (dcont t) < length t)%nat }.

Lemma declentry_find_spec heap t c name : dwf heap t c ->
  exists i, declentry_find heap t (2 ^ c) name = Done i /\ 0 <= i < zlen t /\
    ((dem (dsl t i) = false /\ name_of heap (dsl t i) = name) \/
     (dem (dsl t i) = true /\ ~ In name (map (name_of heap) (dcont t)) /\
      (forall id, id <> 0 -> name_of heap id = name -> dpinv heap (upd t (Z.to_nat i) id)))).
Proof.
  intros [L C I ND R]. unfold declentry_find, ptr_index. rewrite land_mask by lia. fold (khash name).
  change (fun id => (id =? 0) || (name_of heap id =? name)) with (fun id => dem id || (name_of heap id =? name)).
  destruct (in_dec Z.eq_dec name (map (name_of heap) (dcont t))) as [H|H].
  - apply in_map_iff in H. destruct H as (s & F & H). apply (in_contents dem 0) in H. destruct H as (i & Hi & Si & E).
    exists i. rewrite (probe_finds dem (dhome heap) 0 (fun id => name_of heap id =? name) t c (khash name) i L C I Hi); try (rewrite Si).
    + split; [reflexivity|]. split; [exact Hi|]. left. auto.
    + exact E.
    + rewrite F. apply Z.eqb_refl.
    + unfold dhome. rewrite F. reflexivity.
    + intros j Hj Ej Q. apply (nodup_key_gen dem 0 (name_of heap) t); try assumption; [rewrite Si; exact E|]. rewrite Si, F. lia.
  - destruct (has_empty dem 0 t R) as (i0 & Hi0 & E0).
    destruct (probe_misses dem (dhome heap) 0 (fun id => name_of heap id =? name) t c (khash name) i0 L C I Hi0 E0) as (i & P & Hi & E & U).
    { intros j Hj Ej. apply Z.eqb_neq. intros Q. apply H. rewrite <- Q. apply in_map. apply (in_contents dem 0). exists j. auto. }
    exists i. split; [exact P|]. split; [exact Hi|]. right. split; [exact E|]. split; [exact H|].
    intros id NZ F. apply U; [apply Z.eqb_neq; exact NZ|unfold dhome; rewrite F; reflexivity].
Qed.

Lemma dcont_cons s t : dcont (s :: t) = if dem s then dcont t else s :: dcont t.
Proof. unfold dcont, contents. cbn [filter]. destruct (dem s); reflexivity. Qed.

Lemma drehash_spec heap c : 0 <= c -> forall old new count,
  Forall (fun id => 0 <= id < zlen heap) old ->
  dwf heap new c -> (length (dcont new) + length (dcont old) < length new)%nat ->
  NoDup (map (name_of heap) (dcont old ++ dcont new)) ->
  exists new', drehash heap old new (2 ^ c) count = Done (new', count + zlen (dcont old)) /\ dwf heap new' c /\
    zlen new' = zlen new /\ Permutation (dcont new') (dcont old ++ dcont new).
Proof.
  intros C old. induction old as [|s old IH]; intros new count FH W R ND.
  - exists new. cbn. rewrite Z.add_0_r. auto.
  - inversion FH as [|x y F1 F2]. subst. cbn [drehash]. rewrite dcont_cons in *. change (s =? 0) with (dem s). destruct (dem s) eqn:E.
    + apply IH; assumption.
    + cbn [app map length] in *. inversion ND as [|x y NI ND']. subst.
      assert (NM : exists d, fetch heap s = Done d /\ d_name d = name_of heap s).
      { rewrite (fetch_nth _ _ (Dcl 0 None)) by lia. eexists. split; [reflexivity|]. unfold name_of. rewrite (get_nth _ _ (Dcl 0 None)) by lia. reflexivity. }
      destruct NM as (d & FD & Nd). rewrite FD. cbn [obind]. rewrite Nd.
      destruct (declentry_find_spec heap new c (name_of heap s) W) as (i & F & Hi & [[E1 K1]|(E1 & K1 & U)]).
      { exfalso. apply NI. rewrite map_app. apply in_or_app. right. rewrite <- K1. apply in_map.
        apply (in_contents dem 0). exists i. auto. }
      rewrite F. cbn [obind]. rewrite store_ok by exact Hi. cbn [obind].
      pose proof (contents_insert dem 0 new i s Hi E1 E) as PM. fold dcont in PM.
      destruct W as [L0 C0 I0 ND0 R0].
      assert (W' : dwf heap (upd new (Z.to_nat i) s) c).
      { constructor; try assumption.
        - unfold zlen in *. rewrite upd_length. exact L0.
        - apply U; [apply Z.eqb_neq; exact E|reflexivity].
        - apply (Permutation_NoDup (l := map (name_of heap) (s :: dcont new))); [apply Permutation_map; symmetry; exact PM|].
          cbn [map]. constructor; [exact K1|exact ND0].
        - rewrite upd_length, (Permutation_length PM). cbn [length]. lia. }
      destruct (IH (upd new (Z.to_nat i) s) (count + 1) F2 W') as (new' & Q & Wn & Ln & Pn).
      * rewrite upd_length, (Permutation_length PM). cbn [length]. lia.
      * apply (Permutation_NoDup (l := map (name_of heap) (s :: dcont old ++ dcont new))); [|exact ND].
        apply Permutation_map. etransitivity; [apply Permutation_middle|]. apply Permutation_app_head. symmetry. exact PM.
      * exists new'. split; [rewrite Q, zlen_cons; f_equal; f_equal; lia|]. split; [exact Wn|].
        split; [rewrite Ln; unfold zlen; rewrite upd_length; reflexivity|].
        rewrite Pn, PM. symmetry. apply Permutation_middle.
Qed.

(** What one name stands for: nothing, one declaration, or a list of at least two. *)
Definition entry_for (heap : list decl) (id : Z) (l : list Z) : Prop :=
  exists d, fetch heap id = Done d /\
    match d_list d with Some l' => l = l' | None => l = [id] end.
Definition known (names ids : list Z) (heap : list decl) (t : list Z) : Prop :=
  forall name, (exists id, In id (dcont t) /\ name_of heap id = name /\ entry_for heap id (declared_as names ids name)) \/
               (declared_as names ids name = [] /\ ~ In name (map (name_of heap) (dcont t))).

Record dinv (t : dtable) (names ids : list Z) : Prop := DINV {
  d_c : exists c, 0 <= c <= 30 /\ dt_capacity t = 2 ^ c /\ dwf (dt_heap t) (dt_entries t) c;
  d_load : dt_max_load t = half (dt_capacity t);
  d_cnt : dt_count t = zlen (dcont (dt_entries t));
  d_small : dt_count t = 0 \/ dt_count t < dt_max_load t;
  d_heap : Forall (fun id => 0 <= id < zlen (dt_heap t)) (dt_entries t);
  d_pos : 1 <= zlen (dt_heap t);
  d_ids : Forall (fun id => 0 < id < zlen (dt_heap t)) ids;
  d_len : length ids = length names;
  d_known : known names ids (dt_heap t) (dt_entries t) }.

Lemma declared_snoc names ids n id name : length ids = length names ->
  declared_as (names ++ [n]) (ids ++ [id]) name = declared_as names ids name ++ (if n =? name then [id] else []).
Proof.
  intros L. unfold declared_as. assert (E : combine (names ++ [n]) (ids ++ [id]) = combine names ids ++ [(n, id)]).
  { revert ids L. induction names as [|x names IH]; intros [|y ids] L; cbn in *; try discriminate; [reflexivity|]. f_equal. apply IH. congruence. }
  rewrite E, filter_app, map_app. cbn [filter fst]. destruct (n =? name); reflexivity.
Qed.
Lemma name_of_app heap d id : 0 <= id < zlen heap -> name_of (heap ++ d) id = name_of heap id.
Proof. intros H. unfold name_of. rewrite get_app_l by lia. reflexivity. Qed.
Lemma fetch_app_l {A} (a b : list A) i : 0 <= i < zlen a -> fetch (a ++ b) i = fetch a i.
Proof. intros H. unfold fetch. rewrite get_app_l by lia. reflexivity. Qed.
Lemma fetch_app_last {A} (a : list A) x : fetch (a ++ [x]) (zlen a) = Done x.
Proof. unfold fetch. rewrite (get_app a [] x) by reflexivity. reflexivity. Qed.

Lemma dwf_heap h1 h2 t c : (forall id, In id (dcont t) -> name_of h1 id = name_of h2 id) -> dwf h1 t c -> dwf h2 t c.
Proof.
  intros H [L C I ND R]. constructor; try assumption.
  - apply (pinv_home dem (dhome h1) (dhome h2)); [|reflexivity|exact I]. intros s Hs. unfold dhome. rewrite (H s Hs). reflexivity.
  - rewrite <- (map_ext_in (name_of h1)); [exact ND|exact H].
Qed.

Lemma in_dcont t id : In id (dcont t) -> In id t /\ id <> 0.
Proof. unfold dcont, contents. rewrite filter_In. unfold dem. intros [H1 H2]. split; [exact H1|]. lia. Qed.

Lemma decltable_resize_spec t names ids c : 0 <= c < 29 -> dt_capacity t = 2 ^ c -> zlen (dt_entries t) = 2 ^ c ->
  NoDup (map (name_of (dt_heap t)) (dcont (dt_entries t))) -> zlen (dcont (dt_entries t)) <= 2 ^ c ->
  Forall (fun id => 0 <= id < zlen (dt_heap t)) (dt_entries t) -> 1 <= zlen (dt_heap t) ->
  Forall (fun id => 0 < id < zlen (dt_heap t)) ids -> length ids = length names ->
  known names ids (dt_heap t) (dt_entries t) ->
  exists t', decltable_resize t = Done t' /\ dinv t' names ids /\ dt_count t' = zlen (dcont (dt_entries t)).
Proof.
  intros C Q L ND R FH HP FI LN KN. unfold decltable_resize. rewrite Q.
  assert (P : 2 ^ c <= 2 ^ 28) by (apply Z.pow_le_mono_r; lia).
  assert (P0 : 0 < 2 ^ c) by (apply Z.pow_pos_nonneg; lia).
  assert (P2 : 2 ^ (c + 2) = 2 ^ c * 4) by (rewrite Z.pow_add_r by lia; lia).
  unfold MAX_HASH. replace (2 ^ 29 <=? 2 ^ c) with false by lia. replace (2 ^ c =? 0) with false by lia.
  rewrite (Z.mod_small (2 ^ c * 4)) by lia. rewrite <- P2.
  set (E := repeat 0 (Z.to_nat (2 ^ (c + 2)))).
  assert (CE : dcont E = []) by (apply contents_empty; reflexivity).
  assert (LE : zlen E = 2 ^ (c + 2)) by (apply repeat_zlen; lia).
  assert (WE : dwf (dt_heap t) E (c + 2)).
  { constructor; try lia.
    - apply pinv_empty. reflexivity.
    - rewrite CE. constructor.
    - rewrite CE. unfold zlen in LE. cbn [length]. lia. }
  destruct (drehash_spec (dt_heap t) (c + 2) ltac:(lia) (dt_entries t) E 0 FH WE) as (es & H & W & Le & PM).
  - rewrite CE. unfold zlen in *. cbn [length]. lia.
  - rewrite CE, app_nil_r. exact ND.
  - rewrite H. cbn [obind]. eexists. split; [reflexivity|]. rewrite CE, app_nil_r in PM. split; [|cbn; lia].
    constructor; cbn [dt_capacity dt_entries dt_count dt_max_load dt_heap]; try assumption.
    + exists (c + 2). split; [lia|auto].
    + reflexivity.
    + unfold zlen. rewrite (Permutation_length PM). lia.
    + right. rewrite half_pow by lia. replace (c + 2 - 1) with (c + 1) by lia. rewrite Z.pow_add_r by lia. lia.
    + apply Forall_forall. intros id X. destruct (Z.eq_dec id 0) as [->|NZ]; [lia|].
      assert (Y : In id (dcont es)) by (unfold dcont, contents; apply filter_In; split; [exact X|]; unfold dem; lia).
      apply (Permutation_in _ PM) in Y. apply in_dcont in Y. rewrite Forall_forall in FH. apply FH, Y.
    + intros name. destruct (KN name) as [(id & K1 & K2 & K3)|[K1 K2]].
      * left. exists id. split; [apply (Permutation_in _ (Permutation_sym PM)); exact K1|auto].
      * right. split; [exact K1|]. intros X. apply K2. apply in_map_iff in X. destruct X as (id & X1 & X2). apply in_map_iff. exists id. split; [exact X1|].
        apply (Permutation_in _ PM). exact X2.
Qed.

Lemma declare_spec t names ids name : dinv t names ids -> dt_count t + 1 < 2 ^ 28 ->
  exists t', declare t name = Done (t', zlen (dt_heap t)) /\ dinv t' (names ++ [name]) (ids ++ [zlen (dt_heap t)]) /\
    dt_count t' <= dt_count t + 1 /\ zlen (dt_heap t) < zlen (dt_heap t').
Proof.
  intros [(c & C & Q & W) TL TC TS TH HP FI LN KN] B.
  set (id := zlen (dt_heap t)). set (heap1 := dt_heap t ++ [Dcl name None]).
  assert (LH : zlen heap1 = id + 1) by (unfold heap1; rewrite zlen_app, zlen_cons, zlen_nil; lia).
  assert (NO : forall x, In x (dcont (dt_entries t)) -> name_of (dt_heap t) x = name_of heap1 x).
  { intros x X. apply in_dcont in X. rewrite Forall_forall in TH. symmetry. apply name_of_app, TH, X. }
  assert (W1 : dwf heap1 (dt_entries t) c) by (apply (dwf_heap (dt_heap t)); assumption).
  assert (NI : name_of heap1 id = name) by (unfold name_of, heap1, id; rewrite (get_app (dt_heap t) [] (Dcl name None)) by reflexivity; reflexivity).
  assert (TH1 : Forall (fun x => 0 <= x < zlen heap1) (dt_entries t)) by (eapply Forall_impl; [|exact TH]; cbn; intros; lia).
  assert (FI1 : Forall (fun x => 0 < x < zlen heap1) (ids ++ [id])).
  { apply Forall_app. split; [eapply Forall_impl; [|exact FI]; cbn; intros; lia|]. constructor; [lia|constructor]. }
  assert (LN1 : length (ids ++ [id]) = length (names ++ [name])) by (rewrite !app_length; cbn; lia).
  assert (EF1 : forall x l, 0 <= x < zlen (dt_heap t) -> entry_for (dt_heap t) x l -> entry_for heap1 x l).
  { intros x l Hx (d & D1 & D2). exists d. split; [unfold heap1; rewrite fetch_app_l by lia; exact D1|exact D2]. }
  assert (RNG : forall x, In x (dcont (dt_entries t)) -> 0 <= x < zlen (dt_heap t)).
  { intros x X. apply in_dcont in X. rewrite Forall_forall in TH. apply TH, X. }
  (* the state of every other name is unchanged *)
  assert (KN1 : forall nm, nm <> name ->
     (exists x, In x (dcont (dt_entries t)) /\ name_of heap1 x = nm /\ entry_for heap1 x (declared_as (names ++ [name]) (ids ++ [id]) nm)) \/
     (declared_as (names ++ [name]) (ids ++ [id]) nm = [] /\ ~ In nm (map (name_of heap1) (dcont (dt_entries t))))).
  { intros nm NE. rewrite declared_snoc by exact LN. replace (name =? nm) with false by lia. rewrite app_nil_r.
    rewrite <- (map_ext_in _ _ _ NO).
    destruct (KN nm) as [(x & K1 & K2 & K3)|K]; [left|right; exact K]. exists x. split; [exact K1|]. rewrite <- (NO x K1). split; [exact K2|]. apply EF1; [apply RNG, K1|exact K3]. }
  unfold declare. fold id heap1. unfold decltable_set. cbn [dt_heap dt_entries dt_capacity dt_count dt_max_load].
  unfold heap1 at 1. unfold id at 1. rewrite fetch_app_last. cbn [obind d_name]. fold heap1.
  rewrite Q. destruct (declentry_find_spec heap1 (dt_entries t) c name W1) as (i & F & Hi & D). rewrite F. cbn [obind].
  rewrite (fetch_nth _ _ 0) by exact Hi. rewrite <- (sl_small 0) by exact Hi. cbn [obind].
  assert (SR : 0 <= dsl (dt_entries t) i < id).
  { rewrite Forall_forall in TH. apply TH. rewrite sl_small by exact Hi. apply nth_In. unfold zlen in Hi. lia. }
  replace (dsl (dt_entries t) i =? id) with false by lia.
  assert (POS : 1 <= id) by exact HP.
  destruct W1 as [L1 C1 I1 ND1 R1].
  destruct D as [[E1 K1]|(E1 & K1 & U)].
  - set (old := dsl (dt_entries t) i) in *. fold (dem old). rewrite E1.
    assert (IN : In old (dcont (dt_entries t))) by (apply (in_contents dem 0); exists i; auto).
    destruct (KN name) as [(x & X1 & X2 & X3)|[_ X]]; [|exfalso; apply X; rewrite <- K1, <- (NO old IN); apply in_map; exact IN].
    assert (OX : x = old).
    { apply (in_contents dem 0) in X1. destruct X1 as (j & Hj & Sj & Ej). assert (j = i); [|subst j; unfold old; congruence].
      apply (nodup_key_gen dem 0 (name_of heap1) (dt_entries t)); try assumption; [rewrite Sj; exact Ej|].
      rewrite Sj. fold old. rewrite K1. rewrite <- NO; [exact X2|]. apply (in_contents dem 0). exists j. auto. }
    subst x. destruct X3 as (d & D1 & D2).
    assert (DN : d_name d = name).
    { rewrite <- X2. unfold name_of. unfold fetch in D1. destruct (get (dt_heap t) old); congruence. }
    unfold heap1 at 1. rewrite fetch_app_l by lia. rewrite D1. cbn [obind]. destruct (d_list d) as [l|] eqn:DL.
    + rewrite store_ok by lia. cbn [obind]. eexists. split; [reflexivity|].
      set (heap2 := upd heap1 (Z.to_nat old) (Dcl (d_name d) (Some (l ++ [id])))).
      assert (LH2 : zlen heap2 = zlen heap1) by (unfold heap2, zlen; rewrite upd_length; reflexivity).
      assert (N2 : forall x, 0 <= x < zlen heap1 -> name_of heap2 x = name_of heap1 x).
      { intros x X. unfold name_of. rewrite !(get_nth _ _ (Dcl 0 None)) by lia. unfold heap2. rewrite nth_upd by (unfold zlen in *; lia).
        destruct (Nat.eqb_spec (Z.to_nat x) (Z.to_nat old)) as [E|E]; [|reflexivity]. rewrite E. cbn [d_name].
        unfold name_of in K1. rewrite (get_nth _ _ (Dcl 0 None)) in K1 by lia. congruence. }
      assert (N2' : forall x, In x (dcont (dt_entries t)) -> name_of heap1 x = name_of heap2 x).
      { intros x X. symmetry. apply N2. apply RNG in X. lia. }
      split; [|split; [cbn; lia|cbn [dt_heap]; rewrite LH2; lia]].
      constructor; cbn [dt_heap dt_entries dt_capacity dt_count dt_max_load]; try (rewrite ?LH2; assumption).
      * exists c. split; [exact C|]. split; [reflexivity|]. apply (dwf_heap heap1); [exact N2'|constructor; assumption].
      * rewrite <- Q. exact TL.
      * rewrite LH2. lia.
      * intros nm. destruct (Z.eq_dec nm name) as [->|NE].
        -- left. exists old. split; [exact IN|]. split; [rewrite N2 by lia; exact K1|].
           exists (Dcl (d_name d) (Some (l ++ [id]))). split.
           ++ unfold heap2. rewrite (fetch_nth _ _ (Dcl 0 None)) by (unfold zlen in *; rewrite upd_length; lia). rewrite nth_upd by (unfold zlen in *; lia). rewrite Nat.eqb_refl. reflexivity.
           ++ cbn [d_list]. rewrite declared_snoc by exact LN. rewrite Z.eqb_refl, D2. reflexivity.
        -- rewrite <- (map_ext_in _ _ _ N2'). destruct (KN1 nm NE) as [(x & Y1 & Y2 & Y3)|Y]; [left|right; exact Y].
           exists x. split; [exact Y1|]. rewrite <- (N2' x Y1). split; [exact Y2|]. destruct Y3 as (dx & Z1 & Z2). exists dx. split; [|exact Z2].
           assert (x <> old) by (intros ->; congruence). pose proof (RNG x Y1).
           unfold heap2. rewrite (fetch_nth _ _ (Dcl 0 None)) by (unfold zlen in *; rewrite upd_length; lia). rewrite nth_upd by (unfold zlen in *; lia).
           destruct (Nat.eqb_spec (Z.to_nat x) (Z.to_nat old)); [lia|]. rewrite (fetch_nth _ _ (Dcl 0 None)) in Z1 by lia. exact Z1.
    + rewrite store_ok by exact Hi. cbn [obind]. eexists. split; [reflexivity|].
      set (lid := zlen heap1). set (heap2 := heap1 ++ [Dcl name (Some [old; id])]).
      assert (LH2 : zlen heap2 = lid + 1) by (unfold heap2, lid; rewrite zlen_app, zlen_cons, zlen_nil; lia).
      assert (N2 : forall x, 0 <= x < zlen heap1 -> name_of heap2 x = name_of heap1 x) by (intros x X; apply name_of_app; exact X).
      assert (N2' : forall x, In x (dcont (dt_entries t)) -> name_of heap1 x = name_of heap2 x).
      { intros x X. symmetry. apply N2. apply RNG in X. lia. }
      assert (NL : name_of heap2 lid = name) by (unfold name_of, heap2, lid; rewrite (get_app heap1 [] (Dcl name (Some [old; id]))) by reflexivity; reflexivity).
      assert (LZ : dem lid = false) by (apply Z.eqb_neq; unfold lid; lia).
      destruct (contents_replace dem 0 (dt_entries t) i lid Hi E1 LZ) as (a & b & Ca & Cb). fold dcont in Ca, Cb. fold old in Ca.
      assert (W2 : dwf heap2 (dt_entries t) c) by (apply (dwf_heap heap1); [exact N2'|constructor; assumption]).
      destruct W2 as [L2 C2 I2 ND2 R2].
      assert (NO2 : name_of heap2 old = name) by (rewrite N2 by lia; exact K1).
      assert (MF : map (name_of heap2) (dcont (upd (dt_entries t) (Z.to_nat i) lid)) = map (name_of heap2) (dcont (dt_entries t))).
      { rewrite Ca, Cb, !map_app. cbn [map]. rewrite NO2, NL. reflexivity. }
      assert (LNN : length (dcont (upd (dt_entries t) (Z.to_nat i) lid)) = length (dcont (dt_entries t))) by (rewrite Ca, Cb, !app_length; reflexivity).
      split; [|split; [cbn; lia|cbn [dt_heap]; rewrite LH2; unfold lid; lia]].
      constructor; cbn [dt_heap dt_entries dt_capacity dt_count dt_max_load]; try assumption.
      * exists c. split; [exact C|]. split; [reflexivity|]. constructor; try assumption.
        -- unfold zlen in *. rewrite upd_length. exact L1.
        -- apply (pinv_replace dem (dhome heap2) 0 (dt_entries t) c); try assumption; [|reflexivity]. unfold dhome. fold old. rewrite NL, NO2. reflexivity.
        -- rewrite MF. exact ND2.
        -- rewrite LNN, upd_length. exact R2.
      * rewrite <- Q. exact TL.
      * unfold zlen in *. rewrite LNN. exact TC.
      * apply Forall_upd; [eapply Forall_impl; [|exact TH1]; cbn; intros; lia|]. unfold lid in *. lia.
      * unfold lid in *. lia.
      * eapply Forall_impl; [|exact FI1]. cbn. intros. unfold lid in *. lia.
      * intros nm. destruct (Z.eq_dec nm name) as [->|NE].
        -- left. exists lid. split; [rewrite Cb; apply in_or_app; cbn; auto|]. split; [exact NL|].
           exists (Dcl name (Some [old; id])). split; [apply fetch_app_last|]. cbn [d_list]. rewrite declared_snoc by exact LN. rewrite Z.eqb_refl, D2. reflexivity.
        -- rewrite MF, <- (map_ext_in _ _ _ N2'). destruct (KN1 nm NE) as [(x & Y1 & Y2 & Y3)|Y]; [left|right; exact Y].
           exists x. rewrite <- (N2' x Y1). split; [|split; [exact Y2|]].
           ++ rewrite Cb. rewrite Ca in Y1. apply in_app_or in Y1. cbn [In] in Y1. apply in_or_app. cbn [In]. destruct Y1 as [Y1|[Y1|Y1]]; auto. subst x. congruence.
           ++ destruct Y3 as (dx & Z1 & Z2). exists dx. split; [|exact Z2]. pose proof (RNG x Y1). unfold heap2. rewrite fetch_app_l by lia. exact Z1.
  - assert (O0 : dsl (dt_entries t) i = 0) by (unfold dem in E1; lia). rewrite O0. change (0 =? 0) with true. cbn iota.
    rewrite store_ok by exact Hi. cbn [obind].
    assert (IZ : dem id = false) by (apply Z.eqb_neq; lia).
    pose proof (contents_insert dem 0 (dt_entries t) i id Hi E1 IZ) as PM. fold dcont in PM.
    assert (ND' : NoDup (map (name_of heap1) (dcont (upd (dt_entries t) (Z.to_nat i) id)))).
    { apply (Permutation_NoDup (l := map (name_of heap1) (id :: dcont (dt_entries t)))); [apply Permutation_map; symmetry; exact PM|]. cbn [map]. rewrite NI. constructor; [exact K1|exact ND1]. }
    assert (LNN : zlen (dcont (upd (dt_entries t) (Z.to_nat i) id)) = dt_count t + 1).
    { unfold zlen. rewrite (Permutation_length PM). cbn [length]. unfold zlen in TC. lia. }
    assert (TH2 : Forall (fun x => 0 <= x < zlen heap1) (upd (dt_entries t) (Z.to_nat i) id)) by (apply Forall_upd; [exact TH1|lia]).
    assert (NONE : declared_as names ids name = []).
    { destruct (KN name) as [(x & X1 & X2 & X3)|[X _]]; [|exact X]. exfalso. apply K1. rewrite <- X2, (NO x X1). apply in_map. exact X1. }
    assert (KN2 : known (names ++ [name]) (ids ++ [id]) heap1 (upd (dt_entries t) (Z.to_nat i) id)).
    { intros nm. destruct (Z.eq_dec nm name) as [->|NE].
      - left. exists id. split; [apply (Permutation_in _ (Permutation_sym PM)); left; reflexivity|]. split; [exact NI|].
        exists (Dcl name None). split; [apply fetch_app_last|]. cbn [d_list]. rewrite declared_snoc by exact LN. rewrite Z.eqb_refl, NONE. reflexivity.
      - destruct (KN1 nm NE) as [(x & Y1 & Y2 & Y3)|[Y1 Y2]].
        + left. exists x. split; [apply (Permutation_in _ (Permutation_sym PM)); right; exact Y1|auto].
        + right. split; [exact Y1|]. intros X. apply in_map_iff in X. destruct X as (x & X1 & X2). apply (Permutation_in _ PM) in X2. destruct X2 as [<-|X2]; [congruence|].
          apply Y2. rewrite <- X1. apply in_map. exact X2. }
    destruct (Z.leb_spec (dt_max_load t) (dt_count t + 1)) as [LD|LD].
    + assert (C29 : c < 29).
      { destruct (Z.lt_ge_cases c 29) as [|G]; [assumption|]. exfalso. rewrite TL, Q, half_pow in LD by lia.
        assert (2 ^ 28 <= 2 ^ (c - 1)) by (apply Z.pow_le_mono_r; lia). lia. }
      destruct (decltable_resize_spec (DT (dt_count t + 1) (2 ^ c) (dt_max_load t) (upd (dt_entries t) (Z.to_nat i) id) heap1) (names ++ [name]) (ids ++ [id]) c) as (t' & G1 & G2 & G3);
        cbn [dt_heap dt_entries dt_capacity]; try assumption; try lia; try reflexivity.
      * unfold zlen in *. rewrite upd_length. exact L1.
      * rewrite LNN. unfold zlen, dcont in *. lia.
      * rewrite G1. cbn [obind]. exists t'. split; [reflexivity|]. split; [exact G2|]. split; [rewrite G3; cbn [dt_entries]; lia|].
        assert (HH : dt_heap t' = heap1).
        { unfold decltable_resize in G1. cbn [dt_capacity dt_entries dt_heap] in G1. destruct (MAX_HASH <=? 2 ^ c); [discriminate|]. cbv zeta in G1.
          destruct (drehash heap1 _ _ _ 0) as [[es cnt]| | |]; try discriminate. cbn [obind] in G1. injection G1 as <-. reflexivity. }
        rewrite HH. lia.
    + cbn [obind]. eexists. split; [reflexivity|]. split; [|split; [cbn; lia|cbn [dt_heap]; lia]].
      constructor; cbn [dt_heap dt_entries dt_capacity dt_count dt_max_load]; try assumption.
      * exists c. split; [exact C|]. split; [reflexivity|]. constructor; try assumption.
        -- unfold zlen in *. rewrite upd_length. exact L1.
        -- apply U; [lia|exact NI].
        -- rewrite upd_length. rewrite TL, Q in LD. unfold half in LD. unfold zlen in *. assert (2 ^ c / 2 <= 2 ^ c) by (apply Z.div_le_upper_bound; lia). lia.
      * rewrite <- Q. exact TL.
      * symmetry. exact LNN.
      * right. exact LD.
      * lia.
Qed.

Lemma decltable_init_inv c : 0 <= c <= 28 -> dinv (decltable_init (2 ^ c)) [] [].
Proof.
  intros C. assert (P : 0 < 2 ^ c) by (apply Z.pow_pos_nonneg; lia).
  assert (L : zlen (repeat 0 (Z.to_nat (2 ^ c))) = 2 ^ c) by (apply repeat_zlen; lia).
  assert (CE : dcont (repeat 0 (Z.to_nat (2 ^ c))) = []) by (apply contents_empty; reflexivity).
  constructor; cbn [decltable_init dt_heap dt_entries dt_capacity dt_count dt_max_load].
  - exists c. split; [lia|]. split; [reflexivity|]. constructor; try assumption; try lia.
    + apply pinv_empty. reflexivity.
    + rewrite CE. constructor.
    + rewrite CE. cbn [length]. unfold zlen in L. lia.
  - reflexivity.
  - rewrite CE. reflexivity.
  - auto.
  - apply Forall_forall. intros s H. apply repeat_spec in H. subst s. cbn. lia.
  - cbn. lia.
  - constructor.
  - reflexivity.
  - intros name. right. rewrite CE. cbn. auto.
Qed.

Lemma decltable_get_spec t names ids name : dinv t names ids -> exists id, decltable_get t name = Done id /\ decls_of (dt_heap t) id = declared_as names ids name.
Proof.
  intros [(c & C & Q & W) TL TC TS TH HP FI LN KN]. unfold decltable_get. rewrite Q.
  destruct (declentry_find_spec (dt_heap t) (dt_entries t) c name W) as (i & F & Hi & D). rewrite F. cbn [obind].
  rewrite (fetch_nth _ _ 0) by exact Hi. rewrite <- (sl_small 0) by exact Hi. eexists. split; [reflexivity|].
  destruct W as [L1 C1 I1 ND1 R1]. destruct D as [[E1 K1]|(E1 & K1 & _)].
  - assert (IN : In (dsl (dt_entries t) i) (dcont (dt_entries t))) by (apply (in_contents dem 0); exists i; auto).
    destruct (KN name) as [(x & X1 & X2 & X3)|[_ X]]; [|exfalso; apply X; rewrite <- K1; apply in_map; exact IN].
    assert (OX : x = dsl (dt_entries t) i).
    { apply (in_contents dem 0) in X1. destruct X1 as (j & Hj & Sj & Ej). assert (j = i); [|subst j; congruence].
      apply (nodup_key_gen dem 0 (name_of (dt_heap t)) (dt_entries t)); try assumption; [rewrite Sj; exact Ej|]. rewrite Sj. congruence. }
    rewrite <- OX in *. destruct X3 as (d & D1 & D2). unfold decls_of. fold (dem x). rewrite E1. unfold fetch in D1.
    destruct (get (dt_heap t) x) as [d'| |]; try discriminate. injection D1 as ->. destruct d as [nm [l|]]; cbn [d_list] in D2; congruence.
  - destruct (KN name) as [(x & X1 & X2 & X3)|[X _]]; [exfalso; apply K1; rewrite <- X2; apply in_map; exact X1|].
    rewrite X. unfold decls_of. fold (dem (dsl (dt_entries t) i)). rewrite E1. reflexivity.
Qed.

Lemma declare_all_spec : forall todo names ids t,
  dinv t names ids -> dt_count t <= zlen names -> zlen names + zlen todo < 2 ^ 28 ->
  exists t' new, declare_all t todo = Done (t', new) /\ dinv t' (names ++ todo) (ids ++ new) /\ length new = length todo /\
    NoDup new /\ Forall (fun id => zlen (dt_heap t) <= id) new.
Proof.
  induction todo as [|n todo IH]; intros names ids t I N B.
  - exists t, []. rewrite !app_nil_r. cbn. split; [reflexivity|]. split; [exact I|]. split; [reflexivity|]. split; constructor.
  - rewrite zlen_cons in B. pose proof (zlen_nonneg todo).
    destruct (declare_spec t names ids n I ltac:(lia)) as (t1 & S1 & I1 & N1 & G1).
    destruct (IH (names ++ [n]) (ids ++ [zlen (dt_heap t)]) t1 I1) as (t2 & new & R & I2 & L2 & ND & F).
    + rewrite zlen_app, zlen_cons, zlen_nil. lia.
    + rewrite zlen_app, zlen_cons, zlen_nil. lia.
    + exists t2, (zlen (dt_heap t) :: new). cbn [declare_all]. rewrite S1. cbn [obind]. rewrite R. cbn [obind]. split; [reflexivity|].
      rewrite <- !app_assoc in I2. split; [exact I2|]. split; [cbn; lia|]. split.
      * constructor; [|exact ND]. intros X. rewrite Forall_forall in F. apply F in X. lia.
      * constructor; [lia|]. eapply Forall_impl; [|exact F]. cbn. intros. lia.
Qed.
