(** Proofs about elastic arrays. *)
From Coq Require Import ZArith Bool List Lia ZifyBool.
From Verif Require Import Mach ListAux ListModel ListSpec ListProofs ElasModel ElasSpec.
Import ListNotations.
Local Open Scope Z_scope.

Section P.
Context {A : Type}.
Variable eqb : A -> A -> bool.
Variable null : A -> bool.
Variable max : Z.
Hypothesis max_pos : 1 <= max.
Hypothesis max_top : max <= 2 ^ 60.
Implicit Types (l a b xs : list A) (s : lst A) (c g : list (option A)).

Definition erep s l : Prop := rep s l /\ cap s = max.

(** *** The size of the storage never changes *)
Ltac step_ H := match type of H with
  | bind ?r _ = Ok _ => let E := fresh "E" in destruct r eqn:E; cbn [bind] in H; [|discriminate H|discriminate H]
  | (let (_, _) := ?p in _) = Ok _ => destruct p
  | (if ?b then _ else _) = Ok _ => destruct b
  | Ok _ = Ok _ => injection H; clear H; intros; subst
  | Oob = _ => discriminate H
  | Fuel = _ => discriminate H
  end.
Ltac steps H := repeat (cbv zeta in H; step_ H).
Lemma remove_at_cap s i s' : ElasModel.remove_at s i = Ok s' -> cap s' = cap s.
Proof. unfold ElasModel.remove_at. intros H. steps H; reflexivity. Qed.
Lemma remove_loop_cap fuel : forall (p : A -> bool) s i s', remove_loop fuel p s i = Ok s' -> cap s' = cap s.
Proof.
  induction fuel as [|f IH]; intros p s i s' H; [discriminate|]. cbn [remove_loop] in H. destruct (i =? 0)%nat; [injection H; intros; subst; reflexivity|]. cbv zeta in H.
  step_ H. step_ H. step_ H. apply IH in H. exact H.
Qed.
Lemma compact_loop_cap orig : forall i s s', compact_loop null i orig s = Ok s' -> cap s' = cap s.
Proof.
  induction i as [|k IH]; intros s s' H; [injection H; intros; subst; reflexivity|]. cbn [compact_loop] in H. step_ H. step_ H; [exact (IH _ _ H)|]. step_ H. exact (IH _ _ H).
Qed.
Lemma item_loop_cap v : forall i s s', item_loop eqb i v s = Ok s' -> cap s' = cap s.
Proof.
  induction i as [|k IH]; intros s s' H; [injection H; intros; subst; reflexivity|]. cbn [item_loop] in H. step_ H. step_ H; [exact (IH _ _ H)|]. step_ H. exact (IH _ _ H).
Qed.
Lemma remove_item_cap s v n s' : remove_item eqb s v = Ok (n, s') -> cap s' = cap s.
Proof. unfold remove_item. intros H. step_ H. step_ H. eapply item_loop_cap; eauto. Qed.
Lemma remove_from_cap d : forall n s i s', remove_from_loop eqb n s d i = Ok s' -> cap s' = cap s.
Proof.
  induction n as [|k IH]; intros s i s' H; [injection H; intros; subst; reflexivity|]. cbn [remove_from_loop] in H. step_ H. step_ H. destruct a0 as [m t].
  rewrite (IH _ _ _ H). eapply remove_item_cap; eauto.
Qed.
Lemma reverse_cap s s' : reverse s = Ok s' -> cap s' = cap s.
Proof. unfold reverse. intros H. steps H; reflexivity. Qed.
Lemma remove_if_cap fuel (p : A -> bool) s n s' : list_remove_if fuel p s = Ok (n, s') -> cap s' = cap s.
Proof. unfold list_remove_if. intros H. step_ H. step_ H. eapply remove_loop_cap; eauto. Qed.
Lemma compact_cap s n s' : compact null s = Ok (n, s') -> cap s' = cap s.
Proof. unfold compact. intros H. step_ H. step_ H. eapply compact_loop_cap; eauto. Qed.
Lemma remove_all_from_cap s o s' : remove_all_from eqb s o = Ok s' -> cap s' = cap s.
Proof. unfold remove_all_from. intros H. step_ H; [step_ H; reflexivity|]. eapply remove_from_cap; eauto. Qed.

(** *** What is the same as for lists *)
Lemma set_size_cap s n : cap s <> 0 -> set_size s n = Ok (mk n (cap s) (cells s)).
Proof. intros H. apply set_size_ok. right. exact H. Qed.
Lemma remove_at_same s i : cap s <> 0 -> ElasModel.remove_at s i = ListModel.remove_at s i.
Proof. intros H. unfold ElasModel.remove_at, ListModel.remove_at. destruct (negb _); [reflexivity|]. rewrite set_size_cap by exact H. reflexivity. Qed.
Lemma e_remove_at s l i : erep s l -> 0 <= i < zlen l -> exists s', ElasModel.remove_at s i = Ok s' /\ erep s' (without l i).
Proof.
  intros [R C] H. destruct (remove_at_ok s l i R H) as (s' & E & R'). rewrite <- remove_at_same in E by lia. exists s'. split; [exact E|]. split; [exact R'|].
  rewrite (remove_at_cap _ _ _ E). exact C.
Qed.
Lemma e_size s l : erep s l -> size s = zlen l. Proof. intros [R _]. exact (rep_size _ _ R). Qed.
Lemma e_bound s l : erep s l -> zlen l <= max. Proof. intros [R <-]. exact (rep_cap _ _ R). Qed.
Lemma empty_rep : erep (empty max) [].
Proof.
  split; [|reflexivity]. split; [reflexivity|]. unfold empty. cbn [cells cap]. split; [rewrite zlen_repeat; lia|]. split; [lia|]. eexists. reflexivity.
Qed.
Lemma e_append s l x : erep s l -> zlen l < max -> exists s', append s x = Ok s' /\ erep s' (l ++ [x]).
Proof.
  intros [R C] H. destruct (rep_spare s l R ltac:(lia)) as (o & g & E). unfold append. rewrite (rep_size _ _ R), E, wr_at by reflexivity. cbn [bind].
  eexists. split; [reflexivity|]. split; [|exact C]. destruct R as (Q1 & Q2 & Q3 & _). apply (rep_make _ _ _ _ g); auto.
  - rewrite zlen_app, zlen_cons, zlen_nil. lia.
  - rewrite <- Q2, E, !zlen_app, !zlen_map, zlen_app, !zlen_cons, zlen_nil. lia.
Qed.
(** Dropping the last elements. *)
Lemma e_prefix s a b : erep s (a ++ b) -> erep (mk (zlen a) (cap s) (cells s)) a.
Proof. intros [(Q1 & Q2 & Q3 & g & Q4) C]. split; [|exact C]. apply (rep_prefix _ _ _ a b g); auto. Qed.
Lemma e_pop s l : erep s l -> exists s', ElasModel.pop s = Ok (hd_error (rev l), s') /\ erep s' (removelast l).
Proof.
  intros R. unfold ElasModel.pop. rewrite (e_size _ _ R). destruct (exists_last_or l) as [->|(u & x & ->)]; [exists s; split; [reflexivity|exact R]|].
  pose proof (e_prefix _ _ _ R) as P. rewrite removelast_last, rev_app_distr, zlen_app, zlen_cons, zlen_nil. pose proof (zlen_nonneg u).
  destruct (Z.eqb_spec (zlen u + (1 + 0)) 0); [lia|]. replace (zlen u + (1 + 0) - 1) with (zlen u) by lia.
  destruct R as [(_ & _ & _ & g & Q) _]. rewrite Q, rd_at by reflexivity. cbn [bind]. rewrite <- Q. eexists. split; [reflexivity|exact P].
Qed.
Lemma e_remove_last s l : erep s l -> exists s', ElasModel.remove_last s = Ok (0 <? zlen l, s') /\ erep s' (removelast l).
Proof.
  intros R. unfold ElasModel.remove_last. rewrite (e_size _ _ R). destruct (exists_last_or l) as [->|(u & x & ->)]; [exists s; split; [reflexivity|exact R]|].
  pose proof (e_prefix _ _ _ R) as P. rewrite removelast_last, zlen_app, zlen_cons, zlen_nil. pose proof (zlen_nonneg u).
  destruct (Z.eqb_spec (zlen u + (1 + 0)) 0); [lia|]. replace (zlen u + (1 + 0) - 1) with (zlen u) by lia. replace (0 <? zlen u + (1 + 0)) with true by lia.
  eexists. split; [reflexivity|exact P].
Qed.
Lemma e_clear s l : erep s l -> erep (ElasModel.clear s) []. Proof. intros R. apply (e_prefix s [] l R). Qed.
Lemma without_0 (x : A) l : without (x :: l) 0 = l. Proof. reflexivity. Qed.
Lemma e_pop_first s x l : erep s (x :: l) -> exists s', ElasModel.pop_first s = Ok (Some x, s') /\ erep s' l.
Proof.
  intros R. unfold ElasModel.pop_first. destruct (e_remove_at s (x :: l) 0 R) as (s' & E & R'); [rewrite zlen_cons; pose proof (zlen_nonneg l); lia|].
  rewrite (e_size _ _ R), zlen_cons. pose proof (zlen_nonneg l). replace (0 <? 1 + zlen l) with true by lia. cbn [negb]. destruct (Z.eqb_spec (1 + zlen l) 0); [lia|].
  assert (X : rd (cells s) 0 = Ok x) by (destruct R as [(_ & _ & _ & g & ->) _]; apply rd_0). rewrite X. cbn [bind]. rewrite E. cbn [bind].
  exists s'. split; [reflexivity|exact R'].
Qed.
Lemma e_remove_first s l : erep s l -> exists s', ElasModel.remove_first s = Ok (0 <? zlen l, s') /\ erep s' (tl l).
Proof.
  intros R. unfold ElasModel.remove_first. rewrite (e_size _ _ R). destruct l as [|x l]; [exists s; split; [reflexivity|exact R]|].
  pose proof (zlen_nonneg l). destruct (e_remove_at s (x :: l) 0 R) as (s' & E & R'); [rewrite zlen_cons; lia|]. rewrite zlen_cons.
  destruct (Z.eqb_spec (1 + zlen l) 0); [lia|]. rewrite E. cbn [bind]. replace (0 <? 1 + zlen l) with true by lia. exists s'. split; [reflexivity|exact R'].
Qed.
Lemma e_insert s l i x : erep s l -> 0 <= i <= zlen l -> zlen l < max -> exists s', ElasModel.insert_at s i x = Ok s' /\ erep s' (before l i ++ x :: after l i).
Proof.
  intros [R C] Hi Hb. unfold ElasModel.insert_at. rewrite (rep_size _ _ R), C. replace (negb ((zlen l <? max) && (0 <=? i) && (i <=? zlen l))) with false by lia.
  destruct (split_len l i Hi) as (a & b & -> & <-). rewrite zlen_app in *.
  destruct (rep_spare s (a ++ b) R) as (o & g & E). { rewrite zlen_app. lia. } rewrite E.
  replace (Z.to_nat (zlen a + zlen b - zlen a)) with (length b) by (unfold zlen; lia).
  destruct (ins_loop_ok b a x g (zlen a + zlen b) eq_refl) as (y & ->). cbn [bind]. rewrite wr_at by reflexivity. cbn [bind]. eexists. split; [reflexivity|]. split; [|reflexivity].
  destruct R as (Q1 & Q2 & Q3 & _). unfold before, after. rewrite firstn_app_len, skipn_app_len by (unfold zlen; lia). apply (rep_make _ _ _ _ g).
  - rewrite zlen_app, zlen_cons. lia.
  - lia.
  - rewrite !zlen_app, !zlen_map, !zlen_app, zlen_cons, zlen_nil. rewrite <- C, <- Q2, E, zlen_app, zlen_map, zlen_app, zlen_cons. lia.
  - rewrite !map_app, <- !app_assoc. reflexivity.
Qed.
Lemma e_same s l l' g : erep s l -> zlen l' = zlen l -> cells s = map Some l ++ g -> erep (mk (size s) (cap s) (map Some l' ++ g)) l'.
Proof. intros [R C] H E. split; [|exact C]. exact (rep_same s l l' g R H E). Qed.
Lemma e_set s l i x : erep s l -> 0 <= i < zlen l -> exists s', ElasModel.set s i x = Ok s' /\ erep s' (put_at l i x).
Proof.
  intros R H. assert (R0 := R). destruct R0 as [(_ & _ & _ & g & E) _]. unfold ElasModel.set. rewrite E, wr_put by exact H. cbn [bind]. eexists. split; [reflexivity|].
  apply (e_same s l); [exact R|apply zlen_put_at; exact H|exact E].
Qed.
Lemma e_swap s l i j x y : erep s l -> at_ l i = Some x -> at_ l j = Some y -> exists s', ElasModel.swap s i j = Ok s' /\ erep s' (put_at (put_at l i y) j x).
Proof.
  intros R Hi Hj. assert (R0 := R). destruct R0 as [(_ & _ & _ & g & E) _]. unfold ElasModel.swap. rewrite E, (swap_cells_ok l g i j x y Hi Hj). cbn [bind]. eexists.
  split; [reflexivity|]. apply at_inside in Hi, Hj. apply (e_same s l); [exact R| |exact E]. rewrite zlen_put_at; rewrite zlen_put_at; lia.
Qed.
Lemma e_get s l i : erep s l -> 0 <= i < zlen l -> exists x, at_ l i = Some x /\ ElasModel.get_at s i = Ok x.
Proof.
  intros [R _] H. destruct (get_at_ok s l i R H) as (x & E1 & E2). exists x. split; [exact E1|]. unfold ListModel.get_at in E2. rewrite (rep_size _ _ R) in E2.
  replace (negb ((0 <=? i) && (i <? zlen l))) with false in E2 by lia. exact E2.
Qed.
(** *** Adding another array *)
Lemma e_add_loop from : forall b a s l, erep s l -> zlen l + zlen b <= max -> (forall t m, erep t (l ++ m) -> exists h, from (cells t) = map Some (a ++ b) ++ h) ->
  exists s', add_loop from (length b) s (zlen a) = Ok s' /\ erep s' (l ++ b).
Proof.
  induction b as [|x b IH]; intros a s l R H F; [exists s; rewrite app_nil_r; split; [reflexivity|exact R]|]. cbn [length add_loop]. rewrite zlen_cons in H. pose proof (zlen_nonneg b).
  destruct (F s []) as (h & ->); [rewrite app_nil_r; exact R|]. rewrite rd_at by reflexivity. cbn [bind].
  destruct (e_append s l x R ltac:(lia)) as (s1 & -> & R1). cbn [bind]. destruct (IH (a ++ [x]) s1 (l ++ [x]) R1) as (s' & E & R').
  - rewrite zlen_app, zlen_cons, zlen_nil. lia.
  - intros t m Rt. rewrite <- app_assoc in Rt. destruct (F t _ Rt) as (h' & E). exists h'. rewrite E, <- app_assoc. reflexivity.
  - rewrite zlen_app, zlen_cons, zlen_nil in E. replace (zlen a + (1 + 0)) with (zlen a + 1) in E by lia. rewrite E. exists s'. split; [reflexivity|].
    rewrite <- app_assoc in R'. exact R'.
Qed.
Lemma len_nat l : Z.to_nat (zlen l) = length l. Proof. unfold zlen. lia. Qed.
Lemma zlen_0 l : zlen l = 0 -> l = []. Proof. destruct l as [|x l]; [reflexivity|]. rewrite zlen_cons. pose proof (zlen_nonneg l). lia. Qed.
Lemma e_add_array s l xs : erep s l -> zlen l + zlen xs <= max -> exists s', ElasModel.add_array s xs = Ok s' /\ erep s' (l ++ xs).
Proof.
  intros R H. unfold ElasModel.add_array. rewrite (e_size _ _ R), (proj2 R). replace (negb (zlen xs + zlen l <=? max)) with false by lia.
  destruct (Z.eqb_spec (zlen xs) 0) as [e|e]; [rewrite (zlen_0 _ e), app_nil_r; exists s; split; [reflexivity|exact R]|]. rewrite len_nat.
  apply (e_add_loop _ xs [] s l R H). intros t m _. exists []. rewrite app_nil_r. reflexivity.
Qed.
Lemma e_other xs : zlen xs <= max -> exists s, other max xs = Ok s /\ erep s xs.
Proof. intros H. apply (e_add_array _ [] xs empty_rep). rewrite zlen_nil. lia. Qed.
Lemma e_add_all s l o xs : erep s l -> erep o xs -> zlen l + zlen xs <= max -> exists s', ElasModel.add_all false s o = Ok s' /\ erep s' (l ++ xs).
Proof.
  intros R Ro H. unfold ElasModel.add_all. rewrite (e_size _ _ R), (proj2 R), (e_size _ _ Ro). replace (negb (zlen xs + zlen l <=? max)) with false by lia.
  destruct (Z.eqb_spec (zlen xs) 0) as [e|e]; [rewrite (zlen_0 _ e), app_nil_r; exists s; split; [reflexivity|exact R]|]. rewrite len_nat.
  apply (e_add_loop _ xs [] s l R H). intros t m _. destruct Ro as [(_ & _ & _ & g & E) _]. exists g. exact E.
Qed.
Lemma e_add_self s l : erep s l -> zlen l + zlen l <= max -> exists s', ElasModel.add_all true s s = Ok s' /\ erep s' (l ++ l).
Proof.
  intros R H. unfold ElasModel.add_all. rewrite (e_size _ _ R), (proj2 R). replace (negb (zlen l + zlen l <=? max)) with false by lia.
  destruct (Z.eqb_spec (zlen l) 0) as [e|e]; [apply zlen_0 in e; subst l; exists s; split; [reflexivity|exact R]|]. rewrite len_nat.
  apply (e_add_loop _ l [] s l R H). intros t m [(_ & _ & _ & g & E) _]. exists (map Some m ++ g). rewrite E, map_app, <- app_assoc. reflexivity.
Qed.
Lemma limit_nil l : zlen l <= max -> left_over max l [] = 0 /\ fitting max l [] = [].
Proof. intros H. unfold left_over, fitting. split; [change (zlen (@nil A)) with 0; lia|apply firstn_nil]. Qed.
Lemma e_limit_loop from len : forall b a s l, erep s l -> (forall t m, erep t (l ++ m) -> exists h, from (cells t) = map Some (a ++ b) ++ h) ->
  (forall t, len t = zlen (a ++ b)) ->
  exists s', limit_loop from len (length b) s (zlen a) = Ok (left_over max l b, s') /\ erep s' (l ++ fitting max l b).
Proof.
  induction b as [|x b IH]; intros a s l R F L; pose proof (e_bound _ _ R) as B; pose proof (zlen_nonneg l).
  - exists s. destruct (limit_nil l B) as [-> ->]. split; [reflexivity|]. rewrite (app_nil_r l). exact R.
  - cbn [length limit_loop]. rewrite (e_size _ _ R), (proj2 R). unfold left_over, fitting. rewrite zlen_cons. pose proof (zlen_nonneg b).
    destruct (Z.eqb_spec (zlen l) max) as [e|e].
    + exists s. rewrite L, zlen_app, zlen_cons. replace (Z.to_nat (max - zlen l)) with O by lia. cbn [firstn]. rewrite app_nil_r. split; [f_equal; f_equal; lia|exact R].
    + destruct (F s []) as (h & ->); [rewrite app_nil_r; exact R|]. rewrite rd_at by reflexivity. cbn [bind].
      destruct (e_append s l x R ltac:(lia)) as (s1 & -> & R1). cbn [bind]. destruct (IH (a ++ [x]) s1 (l ++ [x]) R1) as (s' & E & R').
      * intros t m Rt. rewrite <- app_assoc in Rt. destruct (F t _ Rt) as (h' & E). exists h'. rewrite E, <- app_assoc. reflexivity.
      * intros t. rewrite L, <- app_assoc. reflexivity.
      * unfold left_over, fitting in *. rewrite !zlen_app, !zlen_cons, !zlen_nil in E. rewrite zlen_app, zlen_cons, zlen_nil in R'.
        replace (zlen a + (1 + 0)) with (zlen a + 1) in E by lia. rewrite E. exists s'. split; [f_equal; f_equal; lia|].
        replace (Z.to_nat (max - zlen l)) with (S (Z.to_nat (max - (zlen l + (1 + 0))))) by lia. cbn [firstn]. rewrite <- app_assoc in R'. exact R'.
Qed.
Lemma e_array_limit s l xs : erep s l -> exists s', add_array_to_limit s xs = Ok (left_over max l xs, s') /\ erep s' (l ++ fitting max l xs).
Proof.
  intros R. unfold add_array_to_limit. destruct (Z.eqb_spec (zlen xs) 0) as [e|e].
  - rewrite (zlen_0 _ e). destruct (limit_nil l (e_bound _ _ R)) as [-> ->]. rewrite app_nil_r. exists s. split; [reflexivity|exact R].
  - rewrite len_nat. apply (e_limit_loop _ _ xs [] s l R); [|reflexivity]. intros t m _. exists []. rewrite app_nil_r. reflexivity.
Qed.
Lemma e_all_limit s l o xs : erep s l -> erep o xs -> exists s', add_all_to_limit false s o = Ok (left_over max l xs, s') /\ erep s' (l ++ fitting max l xs).
Proof.
  intros R Ro. unfold add_all_to_limit. rewrite (e_size _ _ Ro). destruct (Z.eqb_spec (zlen xs) 0) as [e|e].
  - rewrite (zlen_0 _ e). destruct (limit_nil l (e_bound _ _ R)) as [-> ->]. rewrite app_nil_r. exists s. split; [reflexivity|exact R].
  - rewrite len_nat. apply (e_limit_loop _ _ xs [] s l R); [|reflexivity]. intros t m _. destruct Ro as [(_ & _ & _ & g & E) _]. exists g. exact E.
Qed.
Lemma e_found s l o : erep s l -> (forall i, o = Some i -> 0 <= i < zlen l) -> exists s', ElasModel.remove_found s o = Ok (found o, s') /\ erep s' (removed_at l o).
Proof.
  intros R H. destruct o as [i|]; [|exists s; split; [reflexivity|exact R]]. cbn [ElasModel.remove_found found removed_at].
  destruct (e_remove_at s l i R (H i eq_refl)) as (s' & -> & R'). exists s'. split; [reflexivity|exact R'].
Qed.

Ltac fin := eexists; split; [cbn [bind unit_ keep num_ bool_ item_]; reflexivity|eassumption].
Lemma e_step_ok fuel o s l v l' : erep s l -> arg_fits max o -> max < Z.of_nat fuel -> bounded eqb null max o l = Some (v, l') ->
  exists s', e_step eqb null max fuel s o = Ok (v, s') /\ erep s' l'.
Proof.
  intros R Hf Hm I. pose proof (zlen_nonneg l) as Hl. pose proof (e_bound _ _ R) as B. assert (R0 := R). destruct R0 as [R0 C].
  assert (Fu : zlen l < Z.of_nat fuel) by lia.
  destruct o; cbn [bounded e_step ideal arg_fits] in *; unfold fits, inside in *.
  - destruct (Z.leb_spec (zlen l + 1) max); [|discriminate]. injection I as <- <-. unfold ElasModel.push. rewrite (e_size _ _ R), C.
    replace (negb (zlen l <? max)) with false by lia. destruct (e_append s l x R ltac:(lia)) as (s' & -> & R'). fin.
  - unfold push_try. rewrite (e_size _ _ R), C. destruct (Z.leb_spec (zlen l + 1) max); injection I as <- <-.
    + replace (zlen l =? max) with false by lia. destruct (e_append s l x R ltac:(lia)) as (s' & -> & R'). fin.
    + replace (zlen l =? max) with true by lia. fin.
  - injection I as <- <-. destruct (e_pop s l R) as (s' & -> & R'). fin.
  - injection I as <- <-. eexists. split; [reflexivity|exact (e_clear s l R)].
  - destruct l as [|x l]; [discriminate|]. injection I as <- <-. destruct (e_pop_first s x l R) as (s' & -> & R'). fin.
  - destruct ((0 <=? i) && (i <? zlen l)) eqn:T; [|discriminate]. injection I as <- <-. destruct (e_remove_at s l i R ltac:(lia)) as (s' & -> & R'). fin.
  - destruct (Z.leb_spec (zlen l + zlen xs) max); [|discriminate]. injection I as <- <-. destruct (e_add_array s l xs R ltac:(lia)) as (s' & -> & R'). fin.
  - destruct (Z.leb_spec (zlen l + zlen xs) max); [|discriminate]. injection I as <- <-. destruct (e_other xs Hf) as (d & -> & Rd). cbn [bind].
    destruct (e_add_all s l d xs R Rd ltac:(lia)) as (s' & -> & R'). fin.
  - destruct (Z.leb_spec (zlen l + zlen l) max); [|discriminate]. injection I as <- <-. destruct (e_add_self s l R ltac:(lia)) as (s' & -> & R'). fin.
  - injection I as <- <-. destruct (e_array_limit s l xs R) as (s' & -> & R'). fin.
  - injection I as <- <-. destruct (e_other xs Hf) as (d & -> & Rd). cbn [bind]. destruct (e_all_limit s l d xs R Rd) as (s' & -> & R'). fin.
  - destruct (Z.leb_spec (zlen l + 1) max); [|discriminate]. injection I as <- <-. unfold ElasModel.push_front. rewrite (e_size _ _ R), C.
    replace (negb (zlen l <? max)) with false by lia. destruct (e_insert s l 0 x R ltac:(lia) ltac:(lia)) as (s' & -> & R'). fin.
  - destruct (Z.leb_spec (zlen l + 1) max); [|discriminate]. injection I as <- <-. unfold push_front_try, insert_at_try. rewrite (e_size _ _ R), C.
    replace (negb (zlen l <? max)) with false by lia. replace (negb ((0 <=? 0) && (0 <=? zlen l))) with false by lia. replace (zlen l =? max) with false by lia.
    destruct (e_insert s l 0 x R ltac:(lia) ltac:(lia)) as (s' & -> & R'). fin.
  - destruct (Z.leb_spec (zlen l + 1) max); [|discriminate]. destruct ((0 <=? i) && (i <=? zlen l)) eqn:T; [|discriminate]. injection I as <- <-.
    destruct (e_insert s l i x R ltac:(lia) ltac:(lia)) as (s' & -> & R'). fin.
  - unfold insert_at_try. rewrite (e_size _ _ R), C. destruct ((0 <=? i) && (i <=? zlen l)) eqn:T; [|discriminate]. cbn [negb].
    destruct (Z.leb_spec (zlen l + 1) max); injection I as <- <-.
    + replace (zlen l =? max) with false by lia. destruct (e_insert s l i x R ltac:(lia) ltac:(lia)) as (s' & -> & R'). fin.
    + replace (zlen l =? max) with true by lia. fin.
  - destruct ((0 <=? i) && (i <? zlen l)) eqn:T; [|discriminate]. injection I as <- <-. unfold ElasModel.set_at. rewrite (e_size _ _ R), T. cbn [negb].
    destruct (e_set s l i x R ltac:(lia)) as (s' & E & R'). unfold ElasModel.set in E. rewrite <- (e_size _ _ R). rewrite E. fin.
  - destruct ((0 <=? i) && (i <? zlen l)) eqn:T; [|discriminate]. injection I as <- <-. destruct (e_set s l i x R ltac:(lia)) as (s' & -> & R'). fin.
  - destruct ((0 <=? i) && (i <? zlen l)) eqn:T; [|discriminate]. injection I as <- <-. destruct (e_get s l i R ltac:(lia)) as (x & -> & ->). fin.
  - destruct (at_ l i) as [x|] eqn:Ei; [|discriminate]. destruct (at_ l j) as [y|] eqn:Ej; [|discriminate]. injection I as <- <-.
    destruct (e_swap s l i j x y R Ei Ej) as (s' & -> & R'). fin.
  - injection I as <- <-. destruct (reverse_ok s l R0) as (s' & E & R'). assert (erep s' (rev l)) by (split; [exact R'|rewrite (reverse_cap _ _ E); exact C]). rewrite E. fin.
  - injection I as <- <-. change (ElasModel.first s) with (ListModel.first s). rewrite (first_ok s l R0). fin.
  - injection I as <- <-. change (ElasModel.last s) with (ListModel.last s). rewrite (last_ok s l R0). fin.
  - injection I as <- <-. destruct (e_remove_last s l R) as (s' & -> & R'). fin.
  - injection I as <- <-. destruct (e_remove_first s l R) as (s' & -> & R'). fin.
  - injection I as <- <-. rewrite (e_size _ _ R). fin.
  - injection I as <- <-. rewrite (to_array_ok s l R0). fin.
  - injection I as <- <-. destruct (remove_if_ok fuel p s l R0 Fu) as (s' & E & R'). assert (erep s' (others p l)) by (split; [exact R'|rewrite (remove_if_cap _ _ _ _ _ E); exact C]).
    unfold remove_if. rewrite E. fin.
  - injection I as <- <-. destruct (remove_if_ok fuel (fun x => negb (p x)) s l R0 Fu) as (s' & E & R').
    assert (erep s' (others (fun x => negb (p x)) l)) by (split; [exact R'|rewrite (remove_if_cap _ _ _ _ _ E); exact C]). unfold retain_if. rewrite E. rewrite others_neg in *. fin.
  - injection I as <- <-. destruct (compact_ok null s l R0) as (s' & E & R'). assert (erep s' (others null l)) by (split; [exact R'|rewrite (compact_cap _ _ _ E); exact C]). rewrite E. fin.
  - injection I as <- <-. rewrite (compact_count_ok null eqb s l R0). fin.
  - injection I as <- <-. rewrite (index_of_ok null eqb s l x R0). fin.
  - injection I as <- <-. rewrite (rindex_of_ok null eqb s l x R0). fin.
  - injection I as <- <-. unfold contains. rewrite (index_of_ok null eqb s l x R0). cbn [bind keep]. exists s. rewrite <- find_first_exists. split; [reflexivity|exact R].
  - injection I as <- <-. destruct (e_other xs Hf) as (d & -> & Rd). cbn [bind]. rewrite (equals_ok null eqb s l d xs R0 (proj1 Rd)). fin.
  - injection I as <- <-. destruct (remove_item_ok null eqb s l x R0) as (s' & E & R').
    assert (erep s' (others (matches eqb x) l)) by (split; [exact R'|rewrite (remove_item_cap _ _ _ _ E); exact C]). rewrite E. fin.
  - injection I as <- <-. unfold ElasModel.remove_first_item. rewrite (index_of_ok null eqb s l x R0). cbn [bind]. rewrite <- find_first_exists.
    destruct (e_found s l (find_first (matches eqb x) l) R (find_first_bound null eqb _ _)) as (s' & -> & R'). fin.
  - injection I as <- <-. unfold ElasModel.remove_last_item. rewrite (rindex_of_ok null eqb s l x R0). cbn [bind]. rewrite <- find_last_exists.
    destruct (e_found s l (find_last (matches eqb x) l) R (find_last_bound null eqb _ _)) as (s' & -> & R'). fin.
  - injection I as <- <-. destruct (e_other xs Hf) as (d & -> & Rd). cbn [bind]. destruct (remove_all_from_ok null eqb s l d xs R0 (proj1 Rd)) as (s' & E & R').
    assert (erep s' (others (fun y => existsb (fun x => eqb y x) xs) l)) by (split; [exact R'|rewrite (remove_all_from_cap _ _ _ E); exact C]). rewrite E. fin.
Qed.
Lemma e_history fuel : max < Z.of_nat fuel -> forall os s l vs l', erep s l -> Forall (arg_fits max) os -> bounded_run eqb null max l os = Some (vs, l') ->
  exists s', e_run eqb null max fuel s os = Ok (vs, s') /\ erep s' l'.
Proof.
  intros Hm. induction os as [|o os IH]; intros s l vs l' R F I; cbn [bounded_run e_run] in *; [injection I as <- <-; exists s; split; [reflexivity|exact R]|].
  inversion F as [|? ? F1 F2]; subst. destruct (bounded eqb null max o l) as [[v l1]|] eqn:E; [|discriminate]. destruct (bounded_run eqb null max l1 os) as [[vs1 l2]|] eqn:E2; [|discriminate].
  injection I as <- <-. destruct (e_step_ok fuel o s l v l1 R F1 Hm E) as (s1 & -> & R1). cbn [bind]. destruct (IH s1 l1 vs1 l2 R1 F2 E2) as (s' & -> & R'). cbn [bind].
  exists s'. split; [reflexivity|exact R'].
Qed.
(** What overfilling and removing from nothing do. *)
Lemma e_reject fuel o s l : erep s l -> arg_fits max o -> bounded eqb null max o l = None ->
  match o with ESet _ _ | EGet _ | ESwap _ _ => True | _ => e_step eqb null max fuel s o = Oob end.
Proof.
  intros R Hf I. pose proof (zlen_nonneg l) as Hl. pose proof (e_bound _ _ R) as B. assert (C := proj2 R).
  destruct o; cbn [bounded e_step ideal arg_fits] in *; unfold fits, inside in *; try discriminate I; try trivial.
  - destruct (Z.leb_spec (zlen l + 1) max); [discriminate|]. unfold ElasModel.push. rewrite (e_size _ _ R), C. replace (negb (zlen l <? max)) with true by lia. reflexivity.
  - destruct (zlen l + 1 <=? max); discriminate.
  - destruct l; [|discriminate]. unfold ElasModel.pop_first. rewrite (e_size _ _ R). reflexivity.
  - destruct ((0 <=? i) && (i <? zlen l)) eqn:T; [discriminate|]. unfold ElasModel.remove_at. rewrite (e_size _ _ R), T. reflexivity.
  - destruct (Z.leb_spec (zlen l + zlen xs) max); [discriminate|]. unfold ElasModel.add_array. rewrite (e_size _ _ R), C. replace (negb (zlen xs + zlen l <=? max)) with true by lia. reflexivity.
  - destruct (Z.leb_spec (zlen l + zlen xs) max); [discriminate|]. destruct (e_other xs Hf) as (d & -> & Rd). cbn [bind]. unfold ElasModel.add_all.
    rewrite (e_size _ _ R), C, (e_size _ _ Rd). replace (negb (zlen xs + zlen l <=? max)) with true by lia. reflexivity.
  - destruct (Z.leb_spec (zlen l + zlen l) max); [discriminate|]. unfold ElasModel.add_all. rewrite (e_size _ _ R), C. replace (negb (zlen l + zlen l <=? max)) with true by lia. reflexivity.
  - destruct (Z.leb_spec (zlen l + 1) max); [discriminate|]. unfold ElasModel.push_front. rewrite (e_size _ _ R), C. replace (negb (zlen l <? max)) with true by lia. reflexivity.
  - destruct (Z.leb_spec (zlen l + 1) max); [discriminate|]. unfold push_front_try. rewrite (e_size _ _ R), C. replace (negb (zlen l <? max)) with true by lia. reflexivity.
  - unfold ElasModel.insert_at. rewrite (e_size _ _ R), C. destruct (Z.leb_spec (zlen l + 1) max).
    + destruct ((0 <=? i) && (i <=? zlen l)) eqn:T; [discriminate|]. replace (negb ((zlen l <? max) && (0 <=? i) && (i <=? zlen l))) with true by lia. reflexivity.
    + replace (negb ((zlen l <? max) && (0 <=? i) && (i <=? zlen l))) with true by lia. reflexivity.
  - unfold insert_at_try. rewrite (e_size _ _ R). destruct ((0 <=? i) && (i <=? zlen l)); [destruct (zlen l + 1 <=? max); discriminate|]. reflexivity.
  - destruct ((0 <=? i) && (i <? zlen l)) eqn:T; [discriminate|]. unfold ElasModel.set_at. rewrite (e_size _ _ R), T. reflexivity.
Qed.
End P.
