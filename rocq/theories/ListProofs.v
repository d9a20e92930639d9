(** Lemmas about the list model. *)
From Coq Require Import ZArith Bool List Lia ZifyBool.
From Verif Require Import Mach ListAux ListModel ListSpec.
Import ListNotations.
Open Scope Z_scope.
Ltac Zify.zify_post_hook ::= Z.to_euclidean_division_equations.

Lemma np2_spec fuel : forall k x, 0 <= k <= 61 -> x <= 2 ^ 61 -> (k = 0 \/ 2 ^ (k - 1) < x) -> 61 - k < Z.of_nat fuel ->
  exists y, np2_loop fuel (2 ^ k) x = Ok y /\ x <= y <= 2 ^ 61 /\ 1 <= y.
Proof.
  induction fuel as [|f IH]; intros k x Hk Hx H Hf; [lia|]. cbn [np2_loop].
  assert (P : 1 <= 2 ^ k <= 2 ^ 61) by (split; [pose proof (Z.pow_pos_nonneg 2 k); lia|apply Z.pow_le_mono_r; lia]).
  destruct (Z.ltb_spec (2 ^ k) x).
  - assert (k <> 61) by (intros ->; lia).
    assert (E : 2 ^ (k + 1) = 2 ^ k + 2 ^ k) by (rewrite Z.pow_add_r by lia; lia).
    unfold w64. rewrite Z.mod_small by lia. rewrite <- E. apply IH; [lia|lia| |lia]. right. replace (k + 1 - 1) with k by lia. lia.
  - exists (2 ^ k). split; [reflexivity|lia].
Qed.
Lemma np2_ok x : x <= 2 ^ 61 -> exists y, next_power_of_2 x = Ok y /\ x <= y <= 2 ^ 61 /\ 1 <= y.
Proof. intros H. apply (np2_spec 70 0 x); lia. Qed.
Lemma grow_spec fuel : forall c n, 1 <= c <= 2 ^ 61 -> n <= 2 ^ 60 -> 2 ^ 61 < c * 2 ^ Z.of_nat fuel ->
  exists y, grow_loop fuel c n = Ok y /\ n <= y <= 2 ^ 61 /\ c <= y.
Proof.
  induction fuel as [|f IH]; intros c n Hc Hn Hf. { cbn [Z.of_nat] in Hf. change (2 ^ 0) with 1 in Hf. lia. }
  cbn [grow_loop]. destruct (Z.ltb_spec c n).
  - unfold w64. rewrite Z.mod_small by lia. destruct (IH (c * 2) n) as (y & E & H1 & H2); [lia|lia| |exists y; rewrite E; split; [reflexivity|lia]].
    rewrite Nat2Z.inj_succ, Z.pow_succ_r in Hf by lia. lia.
  - exists c. split; [reflexivity|lia].
Qed.

Section P.
Context {A : Type}.
Implicit Types (l a b : list A) (s : lst A) (c g : list (option A)).

Definition rep s l : Prop := size s = zlen l /\ zlen (cells s) = cap s /\ cap s <= 2 ^ 61 /\ exists g, cells s = map Some l ++ g.
Lemma zlen_map {B C} (f : B -> C) (l : list B) : zlen (map f l) = zlen l.
Proof. unfold zlen. rewrite map_length. reflexivity. Qed.
Lemma zlen_repeat {B} (x : B) n : zlen (repeat x n) = Z.of_nat n.
Proof. unfold zlen. rewrite repeat_length. reflexivity. Qed.
Lemma rd_at a x b g i : i = zlen a -> rd (map Some (a ++ x :: b) ++ g) i = Ok x.
Proof. intros ->. unfold rd. rewrite map_app. cbn [map]. rewrite <- app_assoc. cbn [app]. rewrite get_app by (rewrite zlen_map; reflexivity). reflexivity. Qed.
Lemma rd_0 x b g : rd (map Some (x :: b) ++ g) 0 = Ok x.
Proof. reflexivity. Qed.
Lemma rd_in l g i x : get l i = Ok x -> rd (map Some l ++ g) i = Ok x.
Proof.
  intros H. apply get_inv in H. destruct H as (Hi & H). destruct (split_at l i Hi) as (a & y & b & -> & <-).
  rewrite rd_at by reflexivity. unfold zlen in H. rewrite Nat2Z.id, nth_error_app2, Nat.sub_diag in H by lia. cbn in H. congruence.
Qed.
Lemma wr_at a (o : option A) g i x : i = zlen a -> wr (map Some a ++ o :: g) i x = Ok (map Some (a ++ [x]) ++ g).
Proof. intros ->. unfold wr. rewrite set_app by (rewrite zlen_map; reflexivity). rewrite map_app, <- app_assoc. reflexivity. Qed.
Lemma wr_in a y b g i x : i = zlen a -> wr (map Some (a ++ y :: b) ++ g) i x = Ok (map Some (a ++ x :: b) ++ g).
Proof.
  intros ->. rewrite !map_app. cbn [map]. rewrite <- !app_assoc. cbn [app]. unfold wr. rewrite set_app by (rewrite zlen_map; reflexivity). reflexivity.
Qed.
Lemma rep_size s l : rep s l -> size s = zlen l. Proof. intros H; apply H. Qed.
Lemma rep_cap s l : rep s l -> zlen l <= cap s.
Proof. intros (_ & E & _ & g & H). rewrite H, zlen_app, zlen_map in E. pose proof (zlen_nonneg g). lia. Qed.
(** A capacity above the size means a spare cell. *)
Lemma rep_spare s l : rep s l -> zlen l < cap s -> exists o g, cells s = map Some l ++ o :: g.
Proof.
  intros (_ & E & _ & g & H) Hc. rewrite H, zlen_app, zlen_map in E. destruct g as [|o g]; [rewrite zlen_nil in E; lia|]. eauto.
Qed.

Lemma ensure_ok s l n : rep s l -> 0 < n <= 2 ^ 61 -> cap s < n -> exists s', ensure_capacity s n = Ok s' /\ rep s' l /\ n <= cap s'.
Proof.
  intros R Hn Hc. unfold ensure_capacity. destruct (Z.eqb_spec n 0); [lia|]. destruct (Z.leb_spec n (cap s)); [lia|].
  destruct (np2_ok n ltac:(lia)) as (y & -> & Hy & _). cbn [bind]. eexists. split; [reflexivity|]. cbn [cap]. split; [|lia].
  destruct R as (R1 & R2 & R3 & g & R4). unfold rep. cbn [size cap cells].
  rewrite firstn_all2 by (unfold zlen in R2; lia).
  split; [exact R1|]. split; [|split; [lia|]].
  - rewrite zlen_app, zlen_repeat. unfold zlen in *. lia.
  - exists (g ++ repeat None (Z.to_nat y - length (cells s))). rewrite R4 at 1. rewrite app_assoc. reflexivity.
Qed.
Lemma reserve_ok s l n : rep s l -> 0 <= n -> zlen l + n <= 2 ^ 60 -> exists s', reserve s n = Ok s' /\ rep s' l /\ zlen l + n <= cap s' /\ cap s <= cap s'.
Proof.
  intros R Hn Hb. pose proof (zlen_nonneg l). unfold reserve. rewrite (rep_size _ _ R). unfold w64. rewrite Z.mod_small by lia.
  destruct (Z.leb_spec (zlen l + n) (cap s)); [exists s; repeat split; auto; try apply R; lia|].
  change ((2 ^ 64 - 1) / 2) with 9223372036854775807. destruct (Z.leb_spec 9223372036854775807 (zlen l + n)); [lia|].
  pose proof (rep_cap _ _ R) as Hc.
  set (c0 := if cap s =? 0 then 16 else _). assert (C0 : 1 <= c0 <= 2 ^ 61 /\ cap s < c0).
  { subst c0. destruct (Z.eqb_spec (cap s) 0); [lia|]. rewrite Z.mod_small by lia. lia. }
  destruct (grow_spec 70 c0 (zlen l + n) ltac:(lia) Hb) as (y & E & Y1 & Y2). { change (2 ^ Z.of_nat 70) with 1180591620717411303424. lia. }
  rewrite E. cbn [bind]. destruct (ensure_ok s l y R ltac:(lia) ltac:(lia)) as (s' & E' & R' & Hc'). exists s'. split; [exact E'|]. split; [exact R'|lia].
Qed.
Lemma set_size_ok s n : (n = 0 \/ cap s <> 0) -> set_size s n = Ok (mk n (cap s) (cells s)).
Proof. intros H. unfold set_size. replace ((n =? 0) || negb (cap s =? 0)) with true by lia. reflexivity. Qed.
Lemma rep_make n cp c l g : n = zlen l -> cp <= 2 ^ 61 -> zlen c = cp -> c = map Some l ++ g -> rep (mk n cp c) l.
Proof. intros. split; [exact H|]. split; [exact H1|]. split; [exact H0|]. exists g. exact H2. Qed.

Lemma push_ok s l x : rep s l -> zlen l + 1 <= 2 ^ 60 -> exists s', push s x = Ok s' /\ rep s' (l ++ [x]).
Proof.
  intros R Hb. pose proof (zlen_nonneg l). unfold push. destruct (reserve_ok s l 1 R ltac:(lia) Hb) as (s1 & -> & R1 & Hc & _). cbn [bind].
  rewrite set_size_ok by lia. cbn [bind cells]. destruct (rep_spare s1 l R1 ltac:(lia)) as (o & g & E). rewrite E.
  rewrite wr_at by (apply (rep_size _ _ R1)). cbn [bind]. eexists. split; [reflexivity|]. unfold put. cbn [size cap].
  destruct R1 as (Q1 & Q2 & Q3 & _). apply (rep_make _ _ _ _ g); [rewrite zlen_app, Q1; reflexivity|exact Q3| |reflexivity].
  rewrite <- Q2, E, !zlen_app, !zlen_map, zlen_app, !zlen_cons, zlen_nil. lia.
Qed.
(** The same storage seen with fewer elements. *)
Lemma rep_prefix n cp c a b g : n = zlen a -> zlen c = cp -> cp <= 2 ^ 61 -> c = map Some (a ++ b) ++ g -> rep (mk n cp c) a.
Proof. intros. apply (rep_make _ _ _ _ (map Some b ++ g)); auto. rewrite app_assoc, <- map_app. auto. Qed.
Lemma rep_cap0 s l : rep s l -> l <> [] -> cap s <> 0.
Proof. intros R H. pose proof (rep_cap _ _ R). destruct l; [congruence|]. rewrite zlen_cons in H0. pose proof (zlen_nonneg l). lia. Qed.
Lemma pop_ok s l : rep s l -> exists s', pop s = Ok (hd_error (rev l), s') /\ rep s' (removelast l).
Proof.
  intros R. unfold pop. rewrite (rep_size _ _ R). destruct (exists_last_or l) as [->|(u & x & ->)].
  - exists s. split; [reflexivity|exact R].
  - pose proof (rep_cap0 _ _ R) as C0. destruct R as (Q1 & Q2 & Q3 & g & Q4). rewrite zlen_app, zlen_cons, zlen_nil. pose proof (zlen_nonneg u).
    destruct (Z.eqb_spec (zlen u + (1 + 0)) 0); [lia|]. rewrite Q4, rd_at by lia. cbn [bind].
    rewrite set_size_ok by (right; apply C0; destruct u; discriminate). cbn [bind].
    rewrite rev_unit, removelast_last. cbn [hd_error]. eexists. split; [reflexivity|].
    apply (rep_prefix _ _ _ u [x] g); auto; lia.
Qed.
Lemma clear_ok s l : rep s l -> exists s', clear s = Ok s' /\ rep s' [].
Proof.
  intros (Q1 & Q2 & Q3 & g & Q4). unfold clear. rewrite set_size_ok by (left; reflexivity). eexists. split; [reflexivity|]. apply (rep_prefix _ _ _ [] l g); auto.
Qed.
Lemma firstn_map_app a c n : n = zlen a -> firstn (Z.to_nat n) (map Some a ++ c) = map Some a.
Proof. intros ->. apply firstn_app_len. rewrite map_length. unfold zlen. lia. Qed.
Lemma skipn_map_app a c n : n = zlen a -> skipn (Z.to_nat n) (map Some a ++ c) = c.
Proof. intros ->. apply skipn_app_len. rewrite map_length. unfold zlen. lia. Qed.
(** Moving the end of the elements over a removed part. *)
Lemma move_ok a d b g : exists g', move (map Some (a ++ d ++ b) ++ g) (zlen a) (zlen a + zlen d) (zlen b) = Ok (map Some (a ++ b) ++ g') /\ zlen g' = zlen d + zlen g.
Proof.
  unfold move. rewrite zlen_app, zlen_map, !zlen_app. pose proof (zlen_nonneg a). pose proof (zlen_nonneg b). pose proof (zlen_nonneg d). pose proof (zlen_nonneg g).
  match goal with |- context [if ?t then _ else _] => replace t with true by lia end.
  eexists. split.
  - f_equal. replace (map Some (a ++ d ++ b) ++ g) with (map Some (a ++ d) ++ (map Some b ++ g)) at 2 by (rewrite !map_app, <- !app_assoc; reflexivity).
    rewrite skipn_map_app by (rewrite zlen_app; reflexivity). rewrite (firstn_map_app b g) by reflexivity.
    replace (map Some (a ++ d ++ b) ++ g) with (map Some a ++ (map Some (d ++ b) ++ g)) at 1 by (rewrite (map_app _ a), <- app_assoc; reflexivity).
    rewrite firstn_map_app by reflexivity. rewrite (map_app _ a b), <- (app_assoc (map Some a)). reflexivity.
  - rewrite skipn_zlen by (rewrite !zlen_app, !zlen_map, !zlen_app; lia). rewrite !zlen_app, !zlen_map, !zlen_app. lia.
Qed.
Lemma without_split a x b : without (a ++ x :: b) (zlen a) = a ++ b.
Proof.
  unfold without, before, after. rewrite firstn_app_len by (unfold zlen; lia). f_equal.
  replace (a ++ x :: b) with ((a ++ [x]) ++ b) by (rewrite <- app_assoc; reflexivity). apply skipn_app_len. rewrite app_length. unfold zlen. cbn [length]. lia.
Qed.
Lemma remove_at_ok s l i : rep s l -> 0 <= i < zlen l -> exists s', remove_at s i = Ok s' /\ rep s' (without l i).
Proof.
  intros R Hi. destruct (split_at l i Hi) as (a & x & b & -> & <-). rewrite without_split. pose proof (rep_cap0 _ _ R) as C0.
  destruct R as (Q1 & Q2 & Q3 & g & Q4). unfold remove_at. pose proof (zlen_nonneg a). pose proof (zlen_nonneg b). rewrite zlen_app, zlen_cons in *.
  replace (negb ((0 <=? zlen a) && (zlen a <? size s))) with false by lia. rewrite set_size_ok by (right; apply C0; destruct a; discriminate). cbn [bind size].
  destruct ((size s - 1 =? 0) || (zlen a =? size s - 1)) eqn:T.
  - assert (zlen b = 0) by lia. destruct b as [|y b]; [|rewrite zlen_cons in *; pose proof (zlen_nonneg b); lia].
    eexists. split; [reflexivity|]. rewrite app_nil_r. apply (rep_prefix _ _ _ a [x] g); auto. lia.
  - cbn [cells]. rewrite Q4. change (x :: b) with ([x] ++ b). destruct (move_ok a [x] b g) as (g' & E & Hg).
    rewrite zlen_cons, zlen_nil in *. replace (zlen a + (1 + 0)) with (zlen a + 1) in E by lia. replace (size s - 1 - zlen a) with (zlen b) by lia. rewrite E. cbn [bind].
    eexists. split; [reflexivity|]. unfold put. cbn [size cap]. apply (rep_make _ _ _ _ g'); auto.
    + rewrite zlen_app. lia.
    + rewrite zlen_app, zlen_map, zlen_app, Hg, <- Q2, Q4, zlen_app, zlen_map, zlen_app, zlen_cons. lia.
Qed.
Lemma pop_first_ok s l : rep s l -> exists s', pop_first s = Ok (hd_error l, s') /\ rep s' (tl l).
Proof.
  intros R. unfold pop_first. rewrite (rep_size _ _ R). destruct l as [|x l]; [exists s; split; [reflexivity|exact R]|].
  rewrite zlen_cons. pose proof (zlen_nonneg l). destruct (Z.eqb_spec (1 + zlen l) 0); [lia|].
  destruct (remove_at_ok s (x :: l) 0 R ltac:(rewrite zlen_cons; lia)) as (s' & E & R'). destruct R as (_ & _ & _ & g & ->).
  rewrite rd_0. cbn [bind]. rewrite E. cbn [bind]. exists s'. split; [reflexivity|]. exact R'.
Qed.
Lemma remove_first_ok s l : rep s l -> exists s', remove_first s = Ok (0 <? zlen l, s') /\ rep s' (tl l).
Proof.
  intros R. unfold remove_first. rewrite (rep_size _ _ R). destruct l as [|x l]; [exists s; split; [reflexivity|exact R]|].
  pose proof (zlen_nonneg l). destruct (Z.eqb_spec (zlen (x :: l)) 0) as [e|_]; [rewrite zlen_cons in e; lia|].
  destruct (remove_at_ok s (x :: l) 0 R ltac:(rewrite zlen_cons; lia)) as (s' & E & R'). rewrite E. cbn [bind]. exists s'. split; [|exact R'].
  replace (0 <? zlen (x :: l)) with true by (rewrite zlen_cons; lia). reflexivity.
Qed.
Lemma remove_last_ok s l : rep s l -> exists s', remove_last s = Ok (0 <? zlen l, s') /\ rep s' (removelast l).
Proof.
  intros R. unfold remove_last. rewrite (rep_size _ _ R). destruct (exists_last_or l) as [->|(u & x & ->)].
  - exists s. split; [reflexivity|exact R].
  - pose proof (rep_cap0 _ _ R) as C0. destruct R as (Q1 & Q2 & Q3 & g & Q4). rewrite removelast_last. rewrite zlen_app, zlen_cons, zlen_nil in *. pose proof (zlen_nonneg u).
    destruct (Z.eqb_spec (zlen u + (1 + 0)) 0); [lia|]. rewrite set_size_ok by (right; apply C0; destruct u; discriminate). cbn [bind].
    replace (0 <? zlen u + (1 + 0)) with true by lia. eexists. split; [reflexivity|]. apply (rep_prefix _ _ _ u [x] g); auto. lia.
Qed.
(** The copy loop of add_all. *)
Lemma add_loop_ok : forall b pre l g xs oc,
  oc = map Some (pre ++ b) ++ xs -> exists g', zlen b <= zlen g ->
  add_loop (fun _ => oc) (length b) (map Some l ++ g) (zlen pre) (zlen l) = Ok (map Some (l ++ b) ++ g') /\ zlen g' = zlen g - zlen b.
Proof.
  induction b as [|x b IH]; intros pre l g xs oc Hoc.
  - exists g. intros _. rewrite app_nil_r. split; [reflexivity|]. rewrite zlen_nil. lia.
  - destruct g as [|o g]; [exists []; rewrite zlen_cons; intros H; rewrite zlen_nil in H; pose proof (zlen_nonneg b); lia|].
    destruct (IH (pre ++ [x]) (l ++ [x]) g xs oc) as (g' & H). { rewrite Hoc, <- app_assoc. reflexivity. }
    exists g'. rewrite !zlen_cons. intros Hz. destruct H as (E & H); [lia|]. split; [|lia].
    cbn [length add_loop]. rewrite Hoc at 1. rewrite rd_at by reflexivity. cbn [bind]. rewrite wr_at by reflexivity. cbn [bind].
    rewrite !zlen_app, zlen_cons, zlen_nil in E. replace (zlen pre + 1) with (zlen pre + (1 + 0)) by lia. replace (zlen l + 1) with (zlen l + (1 + 0)) by lia.
    rewrite E. rewrite <- app_assoc. reflexivity.
Qed.
Lemma add_all_ok s l other xs : rep s l -> rep other xs -> zlen l + zlen xs <= 2 ^ 60 -> exists s', add_all false s other = Ok s' /\ rep s' (l ++ xs).
Proof.
  intros R Ro Hb. pose proof (zlen_nonneg l). unfold add_all. rewrite (rep_size _ _ Ro). destruct (Z.eqb_spec (zlen xs) 0) as [e|e].
  - destruct xs; [|rewrite zlen_cons in e; pose proof (zlen_nonneg xs); lia]. rewrite app_nil_r. eauto.
  - pose proof (zlen_nonneg xs). destruct (reserve_ok s l (zlen xs) R ltac:(lia) Hb) as (s1 & -> & R1 & Hc & _). cbn [bind].
    rewrite set_size_ok by lia. cbn [bind cells]. pose proof (rep_size _ _ R1) as Z1. destruct R1 as (Q1 & Q2 & Q3 & g & Q4).
    destruct Ro as (_ & _ & _ & go & Qo). destruct (add_loop_ok xs [] l g go (cells other) Qo) as (g' & H1).
    rewrite Q4, zlen_app, zlen_map in Q2. destruct H1 as (E & Hg); [lia|]. rewrite Q4, Q1. replace (Z.to_nat (zlen xs)) with (length xs) by (unfold zlen; lia).
    rewrite zlen_nil in E. rewrite E. cbn [bind]. eexists. split; [reflexivity|]. unfold put. cbn [size cap]. apply (rep_make _ _ _ _ g'); auto.
    + rewrite zlen_app. reflexivity.
    + rewrite zlen_app, zlen_map, zlen_app, Hg. lia.
Qed.
Lemma add_array_ok s l xs : rep s l -> zlen l + zlen xs <= 2 ^ 60 -> exists s', add_array s xs = Ok s' /\ rep s' (l ++ xs).
Proof.
  intros R Hb. pose proof (zlen_nonneg l). unfold add_array. destruct (Z.eqb_spec (zlen xs) 0) as [e|e].
  - destruct xs; [|rewrite zlen_cons in e; pose proof (zlen_nonneg xs); lia]. rewrite app_nil_r. eauto.
  - pose proof (zlen_nonneg xs). destruct (reserve_ok s l (zlen xs) R ltac:(lia) Hb) as (s1 & -> & R1 & Hc & _). cbn [bind].
    rewrite set_size_ok by lia. cbn [bind cells]. destruct R1 as (Q1 & Q2 & Q3 & g & Q4). unfold copy_in.
    rewrite Q1. replace ((0 <=? zlen l) && (zlen l + zlen xs <=? zlen (cells s1))) with true by lia. cbn [bind].
    eexists. split; [reflexivity|]. unfold put. cbn [size cap]. apply (rep_make _ _ _ _ (skipn (Z.to_nat (zlen l + zlen xs)) (cells s1))); auto.
    + rewrite zlen_app. reflexivity.
    + rewrite !zlen_app, zlen_map, skipn_zlen, firstn_zlen by lia. lia.
    + rewrite Q4 at 1. rewrite firstn_map_app by reflexivity. rewrite map_app, <- app_assoc. reflexivity.
Qed.
Lemma rep_nil : rep (mk 0 0 []) []. Proof. apply (rep_make _ _ _ _ []); (reflexivity || lia). Qed.
Lemma init_with_array_ok xs : zlen xs <= 2 ^ 60 -> exists s, init_with_array xs = Ok s /\ rep s xs.
Proof.
  intros H. pose proof (zlen_nonneg xs). unfold init_with_array, init. destruct (reserve_ok _ _ (zlen xs) rep_nil ltac:(lia)) as (s1 & -> & R1 & _).
  { rewrite zlen_nil. lia. } cbn [bind]. destruct (add_array_ok s1 [] xs R1) as (s & E & R). { rewrite zlen_nil. lia. } exists s. auto.
Qed.
Lemma ins_loop_ok : forall b a (x : A) g i, i = zlen a + zlen b ->
  exists y, forall o, ins_loop (length b) (map Some (a ++ b) ++ o :: g) i = Ok (map Some a ++ (match b with [] => o | _ => Some y end) :: map Some b ++ g).
Proof.
  intros b. induction b as [|z b IH] using rev_ind; intros a x g i ->.
  - exists x. intros o. rewrite app_nil_r. reflexivity.
  - destruct (IH a x (Some z :: g) (zlen a + zlen b) eq_refl) as (y & H).
    exists (match b with [] => z | _ => y end). intros o. rewrite app_length. cbn [length]. rewrite Nat.add_1_r. cbn [ins_loop].
    rewrite !zlen_app, zlen_cons, zlen_nil. replace (zlen a + (zlen b + (1 + 0)) - 1) with (zlen a + zlen b) by lia.
    rewrite app_assoc, rd_at by (rewrite zlen_app; reflexivity). cbn [bind].
    assert (Z1 : zlen a + (zlen b + (1 + 0)) = zlen ((a ++ b) ++ [z])) by (rewrite !zlen_app, (zlen_cons z), (@zlen_nil A); lia).
    rewrite (wr_at _ o g _ z Z1). cbn [bind].
    replace (map Some (((a ++ b) ++ [z]) ++ [z]) ++ g) with (map Some (a ++ b) ++ Some z :: Some z :: g) by (rewrite !map_app, <- !app_assoc; reflexivity).
    rewrite H. f_equal. f_equal. rewrite map_app, <- app_assoc. cbn [map app]. destruct b; reflexivity.
Qed.
Lemma insert_at_ok s l i x : rep s l -> 0 <= i <= zlen l -> zlen l + 1 <= 2 ^ 60 -> exists s', insert_at s i x = Ok s' /\ rep s' (before l i ++ x :: after l i).
Proof.
  intros R Hi Hb. unfold insert_at. rewrite (rep_size _ _ R). replace (negb ((0 <=? i) && (i <=? zlen l))) with false by lia.
  destruct (reserve_ok s l 1 R ltac:(lia) Hb) as (s1 & -> & R1 & Hc & _). cbn [bind].
  rewrite set_size_ok by lia. cbn [bind cells size]. rewrite (rep_size _ _ R1).
  destruct (split_len l i Hi) as (a & b & -> & <-). rewrite zlen_app in *.
  destruct (rep_spare s1 (a ++ b) R1) as (o & g & E). { rewrite zlen_app. lia. } rewrite E.
  replace (zlen a + zlen b + 1 - 1) with (zlen a + zlen b) by lia. replace (Z.to_nat (zlen a + zlen b - zlen a)) with (length b) by (unfold zlen; lia).
  destruct (ins_loop_ok b a x g (zlen a + zlen b) eq_refl) as (y & ->). cbn [bind].
  rewrite wr_at by reflexivity. cbn [bind]. eexists. split; [reflexivity|]. unfold put. cbn [size cap]. destruct R1 as (Q1 & Q2 & Q3 & _).
  unfold before, after. rewrite firstn_app_len, skipn_app_len by (unfold zlen; lia).
  apply (rep_make _ _ _ _ g).
  - rewrite zlen_app, zlen_cons. lia.
  - exact Q3.
  - rewrite !zlen_app, !zlen_map, !zlen_app, zlen_cons, zlen_nil. rewrite <- Q2, E, zlen_app, zlen_map, zlen_app, zlen_cons. lia.
  - rewrite !map_app, <- !app_assoc. reflexivity.
Qed.
Lemma put_at_split a y b x : put_at (a ++ y :: b) (zlen a) x = a ++ x :: b.
Proof.
  unfold put_at, before, after. rewrite firstn_app_len by (unfold zlen; lia). do 2 f_equal.
  replace (a ++ y :: b) with ((a ++ [y]) ++ b) by (rewrite <- app_assoc; reflexivity). apply skipn_app_len. rewrite app_length. unfold zlen. cbn [length]. lia.
Qed.
Lemma zlen_put_at l i x : 0 <= i < zlen l -> zlen (put_at l i x) = zlen l.
Proof. intros H. destruct (split_at l i H) as (a & y & b & -> & <-). rewrite put_at_split, !zlen_app, !zlen_cons. reflexivity. Qed.
Lemma wr_put l g i x : 0 <= i < zlen l -> wr (map Some l ++ g) i x = Ok (map Some (put_at l i x) ++ g).
Proof. intros H. destruct (split_at l i H) as (a & y & b & -> & <-). rewrite put_at_split. apply wr_in. reflexivity. Qed.
Lemma rep_same s l l' g : rep s l -> zlen l' = zlen l -> cells s = map Some l ++ g -> rep (put s (map Some l' ++ g)) l'.
Proof.
  intros (Q1 & Q2 & Q3 & _) H E. unfold put. apply (rep_make _ _ _ _ g); auto; [lia|]. rewrite E, zlen_app, zlen_map in Q2. rewrite zlen_app, zlen_map. lia.
Qed.
Lemma set_at_ok s l i x : rep s l -> 0 <= i < zlen l -> exists s', set_at s i x = Ok s' /\ rep s' (put_at l i x).
Proof.
  intros R Hi. unfold set_at. rewrite (rep_size _ _ R). replace (negb ((0 <=? i) && (i <? zlen l))) with false by lia.
  pose proof R as (_ & _ & _ & g & E). rewrite E, wr_put by exact Hi. cbn [bind]. eexists. split; [reflexivity|].
  eapply rep_same; [exact R|apply zlen_put_at; exact Hi|exact E].
Qed.
Lemma get_at_ok s l i : rep s l -> 0 <= i < zlen l -> exists x, at_ l i = Some x /\ get_at s i = Ok x.
Proof.
  intros R Hi. unfold get_at. rewrite (rep_size _ _ R). replace (negb ((0 <=? i) && (i <? zlen l))) with false by lia.
  destruct R as (_ & _ & _ & g & ->). destruct (get_ok l i Hi) as (x & E). exists x. split; [|apply rd_in; exact E].
  apply get_inv in E. unfold at_. destruct (Z.ltb_spec i 0); [lia|]. apply E.
Qed.
Lemma at_inside l i x : at_ l i = Some x -> 0 <= i < zlen l /\ get l i = Ok x.
Proof.
  unfold at_. destruct (Z.ltb_spec i 0); [discriminate|]. intros E. split; [|rewrite nth_error_get, E by lia; reflexivity].
  assert (nth_error l (Z.to_nat i) <> None) by congruence. apply nth_error_Some in H0. unfold zlen. lia.
Qed.
Lemma swap_cells_ok l g i j x y : at_ l i = Some x -> at_ l j = Some y -> swap_cells (map Some l ++ g) i j = Ok (map Some (put_at (put_at l i y) j x) ++ g).
Proof.
  intros Hi Hj. apply at_inside in Hi, Hj. destruct Hi as (Bi & Hi), Hj as (Bj & Hj). unfold swap_cells.
  rewrite (rd_in l g i x Hi), (rd_in l g j y Hj). cbn [bind]. rewrite wr_put by exact Bi. cbn [bind]. apply wr_put. rewrite zlen_put_at; auto.
Qed.
Lemma swap_ok s l i j x y : rep s l -> at_ l i = Some x -> at_ l j = Some y -> exists s', swap s i j = Ok s' /\ rep s' (put_at (put_at l i y) j x).
Proof.
  intros R Hi Hj. pose proof (at_inside _ _ _ Hi) as (Bi & _). pose proof (at_inside _ _ _ Hj) as (Bj & _). unfold swap. rewrite (rep_size _ _ R).
  replace (negb _) with false by lia. pose proof R as (_ & _ & _ & g & E). rewrite E, (swap_cells_ok _ _ _ _ x y Hi Hj). cbn [bind].
  eexists. split; [reflexivity|]. eapply rep_same; [exact R| |exact E]. rewrite zlen_put_at; rewrite zlen_put_at; auto.
Qed.
Lemma at_app a x b i : i = zlen a -> at_ (a ++ x :: b) i = Some x.
Proof. intros ->. unfold at_. pose proof (zlen_nonneg a). destruct (Z.ltb_spec (zlen a) 0); [lia|]. unfold zlen. rewrite Nat2Z.id, nth_error_app2, Nat.sub_diag by lia. reflexivity. Qed.
Lemma rev_loop_ok : forall n m a b g i e, zlen m = 2 * Z.of_nat n \/ zlen m = 2 * Z.of_nat n + 1 -> zlen a = i -> zlen b = i -> e = 2 * i + zlen m - 1 ->
  rev_loop n (map Some (a ++ m ++ b) ++ g) i e = Ok (map Some (a ++ rev m ++ b) ++ g).
Proof.
  induction n as [|n IH]; intros m a b g i e Hm Ha Hb He.
  - cbn [rev_loop]. destruct m as [|x [|y m]]; [reflexivity|reflexivity|]. rewrite !zlen_cons in Hm. pose proof (zlen_nonneg m). lia.
  - destruct m as [|x m]; [rewrite zlen_nil in Hm; lia|]. destruct (exists_last_or m) as [->|(u & y & ->)].
    { rewrite zlen_cons, zlen_nil in Hm. lia. }
    rewrite zlen_cons, zlen_app, zlen_cons, zlen_nil in *. cbn [rev_loop].
    replace (a ++ (x :: u ++ [y]) ++ b) with ((a ++ x :: u) ++ y :: b) by (cbn [app]; rewrite <- !app_assoc; cbn [app]; rewrite <- ?app_assoc; reflexivity).
    rewrite (swap_cells_ok _ _ _ _ x y).
    + cbn [bind]. replace ((a ++ x :: u) ++ y :: b) with (a ++ x :: u ++ y :: b) by (rewrite <- app_assoc; reflexivity).
      rewrite <- Ha at 1. rewrite put_at_split. replace (a ++ y :: u ++ y :: b) with ((a ++ y :: u) ++ y :: b) by (rewrite <- app_assoc; reflexivity).
      replace (e - i) with (zlen (a ++ y :: u)) by (rewrite zlen_app, zlen_cons; lia). rewrite put_at_split.
      replace ((a ++ y :: u) ++ x :: b) with ((a ++ [y]) ++ u ++ (x :: b)) by (rewrite <- !app_assoc; reflexivity).
      rewrite IH; [|lia|rewrite zlen_app, zlen_cons, zlen_nil; lia|rewrite zlen_cons; lia|lia].
      do 3 f_equal. cbn [rev]. rewrite rev_unit. cbn [app]. rewrite <- !app_assoc. reflexivity.
    + rewrite <- app_assoc. apply at_app. auto.
    + apply at_app. rewrite zlen_app, zlen_cons. lia.
Qed.
Lemma zlen_rev l : zlen (rev l) = zlen l. Proof. unfold zlen. rewrite rev_length. reflexivity. Qed.
Lemma reverse_ok s l : rep s l -> exists s', reverse s = Ok s' /\ rep s' (rev l).
Proof.
  intros R. unfold reverse. rewrite (rep_size _ _ R). destruct (Z.ltb_spec (zlen l) 2).
  - exists s. split; [reflexivity|]. destruct l as [|x [|y l]]; [exact R|exact R|]. rewrite !zlen_cons in H. pose proof (zlen_nonneg l). lia.
  - pose proof R as (_ & _ & _ & g & E). rewrite E.
    assert (X := rev_loop_ok (Z.to_nat (zlen l / 2)) l [] [] g 0 (zlen l - 1)). cbn [app] in X. rewrite !app_nil_r in X. rewrite X; [|lia|reflexivity|reflexivity|lia].
    cbn [bind]. eexists. split; [reflexivity|]. eapply rep_same; [exact R|apply zlen_rev|exact E].
Qed.
Lemma to_array_ok s l : rep s l -> to_array s = Ok l.
Proof.
  intros R. unfold to_array. rewrite (rep_size _ _ R). destruct R as (_ & _ & _ & g & ->).
  match goal with |- ?F _ _ = _ => set (go := F) end.
  assert (X : forall b a, l = a ++ b -> go (length b) (zlen a) = Ok b).
  { induction b as [|x b IH]; intros a H; [reflexivity|]. cbn [length]. cbn. change (x0 <- rd (map Some l ++ g) (zlen a);; t <- go (length b) (zlen a + 1);; Ok (x0 :: t) = Ok (x :: b)).
    rewrite H, rd_at by reflexivity. cbn [bind]. specialize (IH (a ++ [x])). rewrite zlen_app, zlen_cons, zlen_nil in IH. replace (zlen a + 1) with (zlen a + (1 + 0)) by lia.
    rewrite IH; [reflexivity|]. rewrite <- app_assoc. exact H. }
  replace (Z.to_nat (zlen l)) with (length l) by (unfold zlen; lia). apply (X l []). reflexivity.
Qed.
Lemma first_ok s l : rep s l -> first s = Ok (hd_error l).
Proof.
  intros R. unfold first. rewrite (rep_size _ _ R). destruct R as (_ & _ & _ & g & ->). destruct l as [|x l]; [reflexivity|].
  destruct (Z.eqb_spec (zlen (x :: l)) 0) as [e|_]; [rewrite zlen_cons in e; pose proof (zlen_nonneg l); lia|].
  rewrite rd_0. reflexivity.
Qed.
Lemma last_ok s l : rep s l -> last s = Ok (hd_error (rev l)).
Proof.
  intros R. unfold last. rewrite (rep_size _ _ R). destruct R as (_ & _ & _ & g & ->). destruct (exists_last_or l) as [->|(u & x & ->)]; [reflexivity|].
  rewrite rev_unit, zlen_app, zlen_cons, zlen_nil. pose proof (zlen_nonneg u). destruct (Z.eqb_spec (zlen u + (1 + 0)) 0); [lia|]. rewrite rd_at by lia. reflexivity.
Qed.
Lemma free_ok s l : rep s l -> rep (free s) [].
Proof.
  intros R. unfold free. destruct (Z.eqb_spec (cap s) 0); [|apply rep_nil]. pose proof (rep_cap _ _ R). destruct l; [exact R|]. rewrite zlen_cons in H. pose proof (zlen_nonneg l). lia.
Qed.

(** *** Filtering *)
Lemma scan_ok (p : A -> bool) : forall a b g, exists a1 a2, a = a1 ++ a2 /\ scan p (map Some (a ++ b) ++ g) (length a) = Ok (length a1) /\
  forallb p a2 = true /\ (a1 = [] \/ exists u x, a1 = u ++ [x] /\ p x = false).
Proof.
  intros a. induction a as [|x a IH] using rev_ind; intros b g.
  - exists [], []. repeat split. left. reflexivity.
  - rewrite app_length. cbn [length]. rewrite Nat.add_1_r. cbn [scan]. rewrite <- (app_assoc a [x] b). cbn [app]. rewrite rd_at by reflexivity. cbn [bind].
    destruct (p x) eqn:P.
    + destruct (IH (x :: b) g) as (a1 & a2 & Ea & E & F & L). exists a1, (a2 ++ [x]). split; [rewrite Ea, <- app_assoc; reflexivity|]. split; [exact E|].
      split; [|exact L]. rewrite forallb_app, F. cbn. rewrite P. reflexivity.
    + exists (a ++ [x]), []. split; [rewrite app_nil_r; reflexivity|]. split; [rewrite app_length; cbn [length]; rewrite Nat.add_1_r; reflexivity|].
      split; [reflexivity|]. right. eauto.
Qed.
Lemma others_app (p : A -> bool) a b : others p (a ++ b) = others p a ++ others p b.
Proof. unfold others. apply filter_app. Qed.
Lemma others_all (p : A -> bool) a : forallb p a = true -> others p a = [].
Proof. induction a as [|x a IH]; cbn [forallb]; [reflexivity|]. intros H. apply andb_true_iff in H. destruct H as (H & H1). unfold others. cbn [filter]. rewrite H. apply IH. exact H1. Qed.
Lemma others_none (p : A -> bool) a : forallb (fun x => negb (p x)) a = true -> others p a = a.
Proof. induction a as [|x a IH]; cbn [forallb]; [reflexivity|]. intros H. apply andb_true_iff in H. destruct H as (H & H1). unfold others. cbn [filter]. rewrite H. f_equal. apply IH. exact H1. Qed.
Lemma remove_loop_ok (p : A -> bool) : forall fuel pre kept s, rep s (pre ++ kept) -> (length pre < fuel)%nat ->
  exists s', remove_loop fuel p s (length pre) = Ok s' /\ rep s' (others p pre ++ kept) /\ cap s' = cap s.
Proof.
  induction fuel as [|f IH]; intros pre kept s R Hf; [lia|]. cbn [remove_loop].
  destruct (Nat.eqb_spec (length pre) 0) as [e|e]. { destruct pre; [|discriminate]. exists s. auto. }
  pose proof R as (Q1 & Q2 & Q3 & g & Q4).
  destruct (scan_ok p pre kept g) as (p1 & D & Ep & E1 & F & L). rewrite Q4, E1. cbn [bind].
  destruct (move_ok p1 D kept g) as (g' & E2 & Hg). subst pre.
  replace (Z.of_nat (length (p1 ++ D))) with (zlen p1 + zlen D) by (rewrite app_length; unfold zlen; lia).
  replace (size s - (zlen p1 + zlen D)) with (zlen kept) by (rewrite Q1, !zlen_app; lia). rewrite <- (app_assoc p1 D kept).
  change (Z.of_nat (length p1)) with (zlen p1). rewrite E2. cbn [bind cells].
  destruct (scan_ok (fun x => negb (p x)) p1 kept g') as (p2 & K & Ek & E3 & F3 & L3). rewrite E3. cbn [bind].
  assert (Hl : (length p2 < length (p1 ++ D))%nat).
  { destruct D as [|d D]; [|subst p1; rewrite !app_length; cbn [length]; lia].
    destruct L as [->|(u & x & -> & Px)]; [cbn in e; congruence|]. rewrite Ek, app_nil_r, app_length. destruct K as [|y K]; [|cbn [length]; lia].
    rewrite app_nil_r in Ek. destruct L3 as [->|(u' & x' & -> & Px')]; [destruct u; discriminate|]. apply app_inj_tail in Ek. destruct Ek as (_ & <-). rewrite Px in Px'. discriminate. }
  set (s1 := mk _ _ _). assert (R1 : rep s1 (p2 ++ K ++ kept)).
  { subst s1. apply (rep_make _ _ _ _ g'); auto.
    - rewrite !zlen_app. rewrite Q1, !zlen_app. subst p1. rewrite !zlen_app. lia.
    - rewrite zlen_app, zlen_map, zlen_app, Hg, <- Q2, Q4, zlen_app, zlen_map, !zlen_app. lia.
    - subst p1. rewrite <- app_assoc. reflexivity. }
  destruct (IH p2 (K ++ kept) s1 R1 ltac:(lia)) as (s' & E & R' & Hc). exists s'. split; [exact E|]. split; [|exact Hc].
  rewrite others_app, (others_all p D F), app_nil_r. subst p1. rewrite others_app, (others_none p K F3), <- app_assoc. exact R'.
Qed.
Lemma remove_if_ok fuel (p : A -> bool) s l : rep s l -> zlen l < Z.of_nat fuel -> exists s', list_remove_if fuel p s = Ok (zlen l - zlen (others p l), s') /\ rep s' (others p l).
Proof.
  intros R Hf. unfold list_remove_if. rewrite (rep_size _ _ R). replace (Z.to_nat (zlen l)) with (length l) by (unfold zlen; lia).
  destruct (remove_loop_ok p fuel l [] s) as (s' & -> & R' & _). { rewrite app_nil_r. exact R. } { unfold zlen in Hf. lia. }
  rewrite app_nil_r in R'. cbn [bind]. rewrite (rep_size _ _ R'). eauto.
Qed.
Lemma shift_down_ok : forall b a x g, exists y, shift_down (length b) (map Some (a ++ x :: b) ++ g) (zlen a + 1) = Ok (map Some (a ++ b) ++ Some y :: g).
Proof.
  induction b as [|z b IH]; intros a x g.
  - exists x. cbn [length shift_down]. rewrite map_app, <- app_assoc, app_nil_r. reflexivity.
  - destruct (IH (a ++ [z]) z g) as (y & E). exists y. cbn [length shift_down].
    replace (a ++ x :: z :: b) with ((a ++ [x]) ++ z :: b) by (rewrite <- app_assoc; reflexivity). rewrite rd_at by (rewrite zlen_app, zlen_cons, zlen_nil; lia). cbn [bind].
    rewrite <- app_assoc. cbn [app]. rewrite wr_in by lia. cbn [bind].
    rewrite zlen_app, zlen_cons, zlen_nil in E. replace (zlen a + 1 + 1) with (zlen a + (1 + 0) + 1) by lia. rewrite <- !app_assoc in E. cbn [app] in E. exact E.
Qed.
Variable null : A -> bool.
Lemma compact_loop_ok orig : forall pre kept junk g s,
  size s = zlen (pre ++ kept) -> zlen (cells s) = cap s -> cap s <= 2 ^ 61 -> cells s = map Some (pre ++ kept ++ junk) ++ g -> zlen (pre ++ kept ++ junk) = orig ->
  exists s', compact_loop null (length pre) orig s = Ok s' /\ rep s' (others null pre ++ kept).
Proof.
  induction pre as [|x pre IH] using rev_ind; intros kept junk g s Q1 Q2 Q3 Q4 Ho.
  - exists s. split; [reflexivity|]. split; [exact Q1|]. split; [exact Q2|]. split; [exact Q3|]. exists (map Some junk ++ g). rewrite Q4. cbn [app others filter]. rewrite map_app, <- app_assoc. reflexivity.
  - rewrite app_length. cbn [length]. rewrite Nat.add_1_r. cbn [compact_loop]. rewrite <- !(app_assoc pre [x]) in *. cbn [app] in *.
    rewrite Q4, rd_at by reflexivity. cbn [bind]. rewrite others_app. unfold others at 2. cbn [filter]. destruct (null x) eqn:P; cbn [negb].
    + rewrite app_nil_r. replace (Z.of_nat (S (length pre))) with (zlen pre + 1) by (unfold zlen; lia).
      replace (Z.to_nat (orig - (zlen pre + 1))) with (length (kept ++ junk)) by (rewrite <- Ho, zlen_app, zlen_cons; unfold zlen; lia).
      destruct (shift_down_ok (kept ++ junk) pre x g) as (y & E). rewrite E. cbn [bind].
      apply (IH kept (junk ++ [y]) g).
      * cbn [size]. rewrite Q1, !zlen_app, zlen_cons. lia.
      * cbn [cells cap]. rewrite <- Q2, Q4, !zlen_app, !zlen_map, !zlen_app, !zlen_cons, zlen_app. lia.
      * exact Q3.
      * cbn [cells]. rewrite !map_app, <- !app_assoc. reflexivity.
      * rewrite <- Ho, !zlen_app, !zlen_cons, zlen_nil, zlen_app. lia.
    + rewrite <- app_assoc. cbn [app]. apply (IH (x :: kept) junk g); auto.
Qed.
Lemma compact_ok s l : rep s l -> exists s', compact null s = Ok (zlen l - zlen (others null l), s') /\ rep s' (others null l).
Proof.
  intros R. pose proof R as (Q1 & Q2 & Q3 & g & Q4). unfold compact. rewrite (rep_size _ _ R). replace (Z.to_nat (zlen l)) with (length l) by (unfold zlen; lia).
  destruct (compact_loop_ok (zlen l) l [] [] g s) as (s' & -> & R'); rewrite ?app_nil_r; auto.
  rewrite app_nil_r in R'. cbn [bind]. rewrite (rep_size _ _ R'). eauto.
Qed.
Variable eqb : A -> A -> bool.
Lemma item_loop_ok v : forall pre kept s, rep s (pre ++ kept) -> exists s', item_loop eqb (length pre) v s = Ok s' /\ rep s' (others (matches eqb v) pre ++ kept).
Proof.
  induction pre as [|x pre IH] using rev_ind; intros kept s R; [exists s; split; [reflexivity|exact R]|].
  rewrite app_length. cbn [length]. rewrite Nat.add_1_r. cbn [item_loop]. pose proof R as (Q1 & Q2 & Q3 & g & Q4). rewrite <- (app_assoc pre [x] kept) in *. cbn [app] in *.
  rewrite Q4, rd_at by reflexivity. cbn [bind]. rewrite others_app. unfold others at 2. cbn [filter]. unfold matches at 2. destruct (eqb x v) eqn:P; cbn [negb].
  - rewrite app_nil_r. change (Z.of_nat (S (length pre))) with (Z.of_nat (1 + length pre)). replace (Z.of_nat (1 + length pre)) with (zlen pre + 1) by (unfold zlen; lia).
    replace (Z.to_nat (size s - (zlen pre + 1))) with (length kept) by (rewrite Q1, zlen_app, zlen_cons; unfold zlen; lia).
    destruct (shift_down_ok kept pre x g) as (y & E). rewrite E. cbn [bind]. apply IH. apply (rep_make _ _ _ _ (Some y :: g)); auto.
    + rewrite Q1, !zlen_app, zlen_cons. lia.
    + rewrite zlen_app, zlen_map, zlen_app, zlen_cons, <- Q2, Q4, zlen_app, zlen_map, !zlen_app, zlen_cons. lia.
  - rewrite <- app_assoc. cbn [app]. apply IH. exact R.
Qed.
Lemma remove_item_ok s l v : rep s l -> exists s', remove_item eqb s v = Ok (zlen l - zlen (others (matches eqb v) l), s') /\ rep s' (others (matches eqb v) l).
Proof.
  intros R. unfold remove_item. rewrite (rep_size _ _ R). replace (Z.to_nat (zlen l)) with (length l) by (unfold zlen; lia).
  destruct (item_loop_ok v l [] s) as (s' & -> & R'). { rewrite app_nil_r. exact R. } rewrite app_nil_r in R'. cbn [bind]. rewrite (rep_size _ _ R'). eauto.
Qed.

(** *** Searching *)
Lemma index_loop_ok v g : forall b a, index_loop eqb (length b) (map Some (a ++ b) ++ g) (zlen a) v = Ok (option_map (Z.add (zlen a)) (find_first (matches eqb v) b)).
Proof.
  induction b as [|x b IH]; intros a; [reflexivity|]. cbn [length index_loop]. rewrite rd_at by reflexivity. cbn [bind find_first]. unfold matches at 1.
  destruct (eqb x v); [cbn [option_map]; do 2 f_equal; lia|]. specialize (IH (a ++ [x])). rewrite zlen_app, zlen_cons, zlen_nil, <- app_assoc in IH. cbn [app] in IH.
  replace (zlen a + 1) with (zlen a + (1 + 0)) by lia. rewrite IH. destruct (find_first (matches eqb v) b); cbn [option_map]; [do 2 f_equal; lia|reflexivity].
Qed.
Lemma index_of_ok s l v : rep s l -> index_of eqb s v = Ok (find_first (matches eqb v) l).
Proof.
  intros R. unfold index_of. rewrite (rep_size _ _ R). destruct R as (_ & _ & _ & g & ->). replace (Z.to_nat (zlen l)) with (length l) by (unfold zlen; lia).
  assert (X := index_loop_ok v g l []). cbn [app] in X. rewrite zlen_nil in X. rewrite X. destruct (find_first _ l); reflexivity.
Qed.
Lemma rindex_loop_ok v : forall a b g, rindex_loop eqb (length a) (map Some (a ++ b) ++ g) v = Ok (find_last (matches eqb v) a).
Proof.
  induction a as [|x a IH] using rev_ind; intros b g; [reflexivity|]. rewrite app_length. cbn [length]. rewrite Nat.add_1_r. cbn [rindex_loop].
  rewrite <- app_assoc. cbn [app]. rewrite rd_at by reflexivity. cbn [bind]. unfold find_last. rewrite rev_unit. cbn [find_first]. unfold matches at 1. destruct (eqb x v).
  - cbn [option_map]. rewrite zlen_app, zlen_cons, zlen_nil. unfold zlen. do 2 f_equal. lia.
  - rewrite IH. unfold find_last. rewrite zlen_app, zlen_cons, zlen_nil. destruct (find_first _ (rev a)); cbn [option_map]; [do 2 f_equal; lia|reflexivity].
Qed.
Lemma rindex_of_ok s l v : rep s l -> rindex_of eqb s v = Ok (find_last (matches eqb v) l).
Proof.
  intros R. unfold rindex_of. rewrite (rep_size _ _ R). destruct R as (_ & _ & _ & g & ->). replace (Z.to_nat (zlen l)) with (length l) by (unfold zlen; lia).
  assert (X := rindex_loop_ok v l [] g). rewrite app_nil_r in X. exact X.
Qed.
Lemma find_first_exists (p : A -> bool) l : found (find_first p l) = existsb p l.
Proof. induction l as [|x l IH]; [reflexivity|]. cbn. destruct (p x); [reflexivity|]. cbn [orb]. rewrite <- IH. destruct (find_first p l); reflexivity. Qed.
Lemma find_first_bound (p : A -> bool) l i : find_first p l = Some i -> 0 <= i < zlen l.
Proof.
  revert i. induction l as [|x l IH]; intros i; [discriminate|]. cbn [find_first]. rewrite zlen_cons. pose proof (zlen_nonneg l). destruct (p x); [intros [= <-]; lia|].
  destruct (find_first p l) as [j|]; [|discriminate]. cbn [option_map]. intros [= <-]. specialize (IH j eq_refl). lia.
Qed.
Lemma existsb_rev (p : A -> bool) l : existsb p (rev l) = existsb p l.
Proof. induction l as [|x l IH]; [reflexivity|]. cbn. rewrite existsb_app, IH. cbn. rewrite orb_false_r. apply orb_comm. Qed.
Lemma find_last_exists (p : A -> bool) l : found (find_last p l) = existsb p l.
Proof. unfold find_last. rewrite <- existsb_rev, <- find_first_exists. destruct (find_first p (rev l)); reflexivity. Qed.
Lemma find_last_bound (p : A -> bool) l i : find_last p l = Some i -> 0 <= i < zlen l.
Proof. unfold find_last. destruct (find_first p (rev l)) as [j|] eqn:E; [|discriminate]. cbn. intros [= <-]. apply find_first_bound in E. rewrite zlen_rev in E. lia. Qed.
Lemma remove_found_ok s l o : rep s l -> (forall i, o = Some i -> 0 <= i < zlen l) -> exists s', remove_found s o = Ok (found o, s') /\ rep s' (removed_at l o).
Proof.
  intros R H. destruct o as [i|]; [|exists s; split; [reflexivity|exact R]]. cbn [remove_found found removed_at].
  destruct (remove_at_ok s l i R (H i eq_refl)) as (s' & -> & R'). exists s'. split; [reflexivity|exact R'].
Qed.
Lemma equals_loop_ok g h : forall b d a e, length b = length d -> length a = length e ->
  equals_loop eqb (length b) (map Some (a ++ b) ++ g) (map Some (e ++ d) ++ h) (zlen a) = Ok (same eqb b d).
Proof.
  induction b as [|x b IH]; intros [|y d] a e Hl He; try discriminate; [reflexivity|]. cbn [length equals_loop same].
  rewrite rd_at by reflexivity. rewrite rd_at by (unfold zlen; lia). cbn [bind]. destruct (eqb x y); [|reflexivity]. cbn [negb andb].
  specialize (IH d (a ++ [x]) (e ++ [y])). rewrite <- !app_assoc, zlen_app, zlen_cons, zlen_nil in IH. cbn [app] in IH.
  replace (zlen a + 1) with (zlen a + (1 + 0)) by lia. apply IH; [cbn in Hl; lia|rewrite !app_length; cbn [length]; lia].
Qed.
Lemma same_length l m : same eqb l m = true -> length l = length m.
Proof. revert m. induction l as [|x l IH]; intros [|y m]; cbn; try discriminate; [reflexivity|]. intros H. apply andb_true_iff in H. f_equal. apply IH, H. Qed.
Lemma equals_ok s l other xs : rep s l -> rep other xs -> equals eqb s other = Ok (same eqb l xs).
Proof.
  intros R Ro. unfold equals. rewrite (rep_size _ _ R), (rep_size _ _ Ro). destruct (Z.eqb_spec (zlen l) (zlen xs)) as [e|e]; cbn [negb].
  - destruct R as (_ & _ & _ & g & ->), Ro as (_ & _ & _ & h & ->). replace (Z.to_nat (zlen l)) with (length l) by (unfold zlen; lia).
    apply (equals_loop_ok g h l xs [] []); [unfold zlen in e; lia|reflexivity].
  - destruct (same eqb l xs) eqn:E; [|reflexivity]. apply same_length in E. unfold zlen in e. lia.
Qed.
Lemma others_others (p q : A -> bool) l : others p (others q l) = others (fun x => q x || p x) l.
Proof.
  unfold others. induction l as [|x l IH]; [reflexivity|]. cbn [filter]. destruct (q x) eqn:Q; cbn [negb orb]; [exact IH|]. cbn [filter]. destruct (p x); cbn [negb]; [exact IH|f_equal; exact IH].
Qed.
Lemma others_ext (p q : A -> bool) l : (forall x, p x = q x) -> others p l = others q l.
Proof. intros H. unfold others. apply filter_ext. intros x. rewrite H. reflexivity. Qed.
Lemma remove_from_ok : forall b a h s l, rep s l -> exists s', remove_from_loop eqb (length b) s (map Some (a ++ b) ++ h) (zlen a) = Ok s' /\
  rep s' (others (fun y => existsb (fun x => eqb y x) b) l).
Proof.
  induction b as [|x b IH]; intros a h s l R.
  - exists s. split; [reflexivity|]. rewrite (others_ext _ (fun _ => false)) by reflexivity. rewrite others_none; [exact R|]. apply forallb_forall. reflexivity.
  - cbn [length remove_from_loop]. rewrite rd_at by reflexivity. cbn [bind]. destruct (remove_item_ok s l x R) as (s1 & -> & R1). cbn [bind].
    destruct (IH (a ++ [x]) h s1 _ R1) as (s' & E & R'). rewrite <- app_assoc, zlen_app, zlen_cons, zlen_nil in E. cbn [app] in E.
    replace (zlen a + 1) with (zlen a + (1 + 0)) by lia. rewrite E. exists s'. split; [reflexivity|]. rewrite others_others in R'. exact R'.
Qed.
Lemma remove_all_from_ok s l other xs : rep s l -> rep other xs -> exists s', remove_all_from eqb s other = Ok s' /\ rep s' (others (fun y => existsb (fun x => eqb y x) xs) l).
Proof.
  intros R Ro. unfold remove_all_from. rewrite (rep_size _ _ Ro). destruct Ro as (_ & _ & _ & h & ->). destruct (remove_from_ok xs [] h s l R) as (s' & E & R').
  replace (Z.to_nat (zlen xs)) with (length xs) by (unfold zlen; lia). cbn [app] in E. rewrite zlen_nil in E. rewrite E.
  destruct (Z.eqb_spec (zlen xs) 0) as [e|e]; [|eauto]. destruct xs; [|rewrite zlen_cons in e; pose proof (zlen_nonneg xs); lia].
  cbn in E. injection E as <-. exists s. split; [reflexivity|exact R'].
Qed.
Lemma count_loop_ok g : forall b a n, count_loop null (length b) (map Some (a ++ b) ++ g) (zlen a) n = Ok (n + zlen (others null b)).
Proof.
  induction b as [|x b IH]; intros a n; [cbn [length count_loop]; f_equal; cbn; lia|]. cbn [length count_loop]. rewrite rd_at by reflexivity. cbn [bind].
  specialize (IH (a ++ [x]) (if negb (null x) then n + 1 else n)). rewrite <- app_assoc, zlen_app, zlen_cons, zlen_nil in IH. cbn [app] in IH.
  replace (zlen a + 1) with (zlen a + (1 + 0)) by lia. rewrite IH. f_equal. unfold others. cbn [filter]. destruct (null x); cbn [negb]; [lia|]. rewrite zlen_cons. lia.
Qed.
Lemma compact_count_ok s l : rep s l -> compact_count null s = Ok (zlen (others null l)).
Proof.
  intros R. unfold compact_count. rewrite (rep_size _ _ R). destruct R as (_ & _ & _ & g & ->). replace (Z.to_nat (zlen l)) with (length l) by (unfold zlen; lia).
  assert (X := count_loop_ok g l [] 0). cbn [app] in X. rewrite zlen_nil in X. rewrite X. reflexivity.
Qed.

(** *** Histories *)
Lemma zlen_others (p : A -> bool) l : zlen (others p l) <= zlen l.
Proof. unfold others. induction l as [|x l IH]; [reflexivity|]. cbn [filter]. rewrite (zlen_cons x l). destruct (negb (p x)); [rewrite zlen_cons; lia|lia]. Qed.
Lemma zlen_removelast l : zlen (removelast l) <= zlen l.
Proof. destruct (exists_last_or l) as [->|(u & x & ->)]; [reflexivity|]. rewrite removelast_last, zlen_app, zlen_cons, zlen_nil. lia. Qed.
Lemma zlen_tl l : zlen (tl l) <= zlen l.
Proof. destruct l; [reflexivity|]. cbn [tl]. rewrite zlen_cons. lia. Qed.
Lemma zlen_without l i : 0 <= i < zlen l -> zlen (without l i) = zlen l - 1.
Proof. intros H. destruct (split_at l i H) as (a & y & b & -> & <-). rewrite without_split, !zlen_app, zlen_cons. lia. Qed.
Lemma zlen_insert l i x : 0 <= i <= zlen l -> zlen (before l i ++ x :: after l i) = zlen l + 1.
Proof. intros H. unfold before, after. rewrite zlen_app, zlen_cons, firstn_zlen, skipn_zlen by lia. lia. Qed.
Lemma filter_others (p : A -> bool) l : filter p l = others (fun x => negb (p x)) l.
Proof. unfold others. apply filter_ext. intros x. rewrite negb_involutive. reflexivity. Qed.
Lemma others_neg (p : A -> bool) l : others (fun x => negb (p x)) l = filter p l. Proof. symmetry. apply filter_others. Qed.
Lemma removed_len l o : (forall i, o = Some i -> 0 <= i < zlen l) -> zlen (removed_at l o) <= zlen l.
Proof. intros H. destruct o as [i|]; [|reflexivity]. cbn [removed_at]. rewrite zlen_without by (apply H; reflexivity). lia. Qed.
Ltac fin := eexists; split; [cbn [bind unit_ keep]; reflexivity|split; [eassumption|]].
Ltac size_ := cbn [adds]; rewrite ?zlen_app, ?zlen_cons, ?zlen_nil; lia.
Lemma step fuel o s l v l' : rep s l -> ideal eqb null o l = Some (v, l') -> zlen l + adds o <= 2 ^ 60 -> zlen l < Z.of_nat fuel ->
  exists s', l_step eqb null fuel s o = Ok (v, s') /\ rep s' l' /\ zlen l' <= zlen l + adds o.
Proof.
  intros R I Hb Hf. pose proof (zlen_nonneg l) as Hl. destruct o; cbn [ideal l_step] in *; cbn [adds] in Hb;
  try (injection I as <- <-).
  - destruct (push_ok s l x R Hb) as (s' & -> & R'). fin. size_.
  - destruct (pop_ok s l R) as (s' & -> & R'). fin. pose proof (zlen_removelast l). size_.
  - destruct (clear_ok s l R) as (s' & -> & R'). fin. size_.
  - destruct (pop_first_ok s l R) as (s' & -> & R'). fin. pose proof (zlen_tl l). size_.
  - unfold inside in I. destruct ((0 <=? i) && (i <? zlen l)) eqn:T; [|discriminate]. injection I as <- <-.
    destruct (remove_at_ok s l i R ltac:(lia)) as (s' & -> & R'). fin. rewrite zlen_without by lia. size_.
  - destruct (add_array_ok s l xs R Hb) as (s' & -> & R'). fin. size_.
  - destruct (init_with_array_ok xs ltac:(lia)) as (o & -> & Ro). cbn [bind]. destruct (add_all_ok s l o xs R Ro Hb) as (s' & -> & R'). fin. size_.
  - unfold push_front. destruct (insert_at_ok s l 0 x R ltac:(lia) Hb) as (s' & -> & R'). fin. size_.
  - destruct ((0 <=? i) && (i <=? zlen l)) eqn:T; [|discriminate]. injection I as <- <-.
    destruct (insert_at_ok s l i x R ltac:(lia) Hb) as (s' & -> & R'). fin. rewrite zlen_insert by lia. size_.
  - unfold inside in I. destruct ((0 <=? i) && (i <? zlen l)) eqn:T; [|discriminate]. injection I as <- <-.
    destruct (set_at_ok s l i x R ltac:(lia)) as (s' & -> & R'). fin. rewrite zlen_put_at by lia. size_.
  - unfold inside in I. destruct ((0 <=? i) && (i <? zlen l)) eqn:T; [|discriminate]. injection I as <- <-.
    destruct (get_at_ok s l i R ltac:(lia)) as (x & -> & ->). fin. size_.
  - destruct (at_ l i) as [x|] eqn:Ei; [|discriminate]. destruct (at_ l j) as [y|] eqn:Ej; [|discriminate]. injection I as <- <-.
    destruct (swap_ok s l i j x y R Ei Ej) as (s' & -> & R'). fin. apply at_inside in Ei, Ej. rewrite zlen_put_at; rewrite zlen_put_at; try lia. size_.
  - destruct (reverse_ok s l R) as (s' & -> & R'). fin. rewrite zlen_rev. size_.
  - rewrite (first_ok s l R). fin. size_.
  - rewrite (last_ok s l R). fin. size_.
  - destruct (remove_last_ok s l R) as (s' & -> & R'). fin. pose proof (zlen_removelast l). size_.
  - destruct (remove_first_ok s l R) as (s' & -> & R'). fin. pose proof (zlen_tl l). size_.
  - rewrite (rep_size _ _ R). fin. size_.
  - rewrite (to_array_ok s l R). fin. size_.
  - eexists. split; [reflexivity|]. split; [apply (free_ok s l R)|size_].
  - destruct (Z.leb_spec 0 n); [|discriminate]. injection I as <- <-. destruct (reserve_ok s l n R ltac:(lia) ltac:(lia)) as (s' & -> & R' & _). fin. size_.
  - destruct (remove_if_ok fuel p s l R Hf) as (s' & E & R'). unfold remove_if. rewrite E. fin. pose proof (zlen_others p l). size_.
  - destruct (remove_if_ok fuel (fun x => negb (p x)) s l R Hf) as (s' & E & R'). unfold retain_if. rewrite E. rewrite others_neg in *. fin.
    pose proof (zlen_others (fun x => negb (p x)) l). rewrite others_neg in *. size_.
  - destruct (compact_ok s l R) as (s' & -> & R'). fin. pose proof (zlen_others null l). size_.
  - rewrite (compact_count_ok s l R). fin. size_.
  - rewrite (index_of_ok s l x R). fin. size_.
  - rewrite (rindex_of_ok s l x R). fin. size_.
  - unfold contains. rewrite (index_of_ok s l x R). cbn [bind keep]. exists s. rewrite <- find_first_exists. split; [reflexivity|]. split; [exact R|size_].
  - destruct (init_with_array_ok xs ltac:(lia)) as (o & -> & Ro). cbn [bind]. rewrite (equals_ok s l o xs R Ro). pose proof (zlen_nonneg xs). fin. size_.
  - destruct (remove_item_ok s l x R) as (s' & -> & R'). fin. pose proof (zlen_others (matches eqb x) l). size_.
  - unfold remove_first_item. rewrite (index_of_ok s l x R). cbn [bind]. assert (B := find_first_bound (matches eqb x) l).
    destruct (remove_found_ok s l _ R B) as (s' & -> & R'). rewrite <- find_first_exists. fin. pose proof (removed_len l _ B). size_.
  - unfold remove_last_item. rewrite (rindex_of_ok s l x R). cbn [bind]. assert (B := find_last_bound (matches eqb x) l).
    destruct (remove_found_ok s l _ R B) as (s' & -> & R'). rewrite <- find_last_exists. fin. pose proof (removed_len l _ B). size_.
  - destruct (init_with_array_ok xs ltac:(lia)) as (o & -> & Ro). cbn [bind]. destruct (remove_all_from_ok s l o xs R Ro) as (s' & -> & R'). pose proof (zlen_nonneg xs). fin.
    match type of R' with rep _ (others ?p l) => pose proof (zlen_others p l) end. size_.
Qed.
Lemma adds_nonneg (o : lop A) : 0 <= adds o. Proof. destruct o; cbn [adds]; try lia; apply zlen_nonneg. Qed.
Lemma grows_nonneg (os : list (lop A)) : 0 <= grows os.
Proof. induction os as [|o os IH]; cbn [grows fold_right]; [lia|]. pose proof (adds_nonneg o). unfold grows in IH. lia. Qed.
Lemma history fuel : forall os s l vs l', rep s l -> ideal_run eqb null l os = Some (vs, l') -> zlen l + grows os <= 2 ^ 60 -> zlen l + grows os < Z.of_nat fuel ->
  exists s', l_run eqb null fuel s os = Ok (vs, s') /\ rep s' l'.
Proof.
  induction os as [|o os IH]; intros s l vs l' R I Hb Hf; cbn [ideal_run l_run] in *. { injection I as <- <-. exists s. auto. }
  destruct (ideal eqb null o l) as [(v, l1)|] eqn:E; [|discriminate]. destruct (ideal_run eqb null l1 os) as [(vs1, l2)|] eqn:E2; [|discriminate]. injection I as <- <-.
  pose proof (adds_nonneg o). pose proof (grows_nonneg os). change (grows (o :: os)) with (adds o + grows os) in *.
  destruct (step fuel o s l v l1 R E ltac:(lia) ltac:(lia)) as (s1 & -> & R1 & Hl). cbn [bind].
  destruct (IH s1 l1 vs1 l2 R1 E2 ltac:(lia) ltac:(lia)) as (s2 & -> & R2). cbn [bind]. eauto.
Qed.
End P.
