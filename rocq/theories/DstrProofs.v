(** Proofs about the dynamic string. *)
From Coq Require Import ZArith List Bool Lia ZifyBool.
From Verif Require Import Mach ListAux LexSpec UtfModel UtfSpec UtfProofs StrModel StrSpec StrProofs DstrModel DstrSpec.
Import ListNotations.
Open Scope Z_scope.

Notation sm := (map (@Some Z)).
Ltac la := cbn [app]; rewrite <- ?app_assoc; cbn [app]; rewrite <- ?app_assoc; cbn [app]; reflexivity.
Lemma zlen_map {A B} (f : A -> B) l : zlen (map f l) = zlen l. Proof. unfold zlen. now rewrite map_length. Qed.
Lemma zlen0 {A} (l : list A) : zlen l = 0 -> l = []. Proof. destruct l; [reflexivity|]. rewrite zlen_cons. pose proof (zlen_nonneg l). lia. Qed.
Lemma read_app (a x b : list (option Z)) i n : zlen a = i -> zlen x = n -> read_range (a ++ x ++ b) i n = Ok x.
Proof.
  intros Ha Hx. unfold read_range. pose proof (zlen_nonneg a). pose proof (zlen_nonneg x). pose proof (zlen_nonneg b).
  rewrite !zlen_app. replace ((0 <=? i) && (0 <=? n) && (i + n <=? zlen a + (zlen x + zlen b))) with true by lia.
  rewrite skipn_app_len by (unfold zlen in Ha; lia). rewrite firstn_app_len by (unfold zlen in Hx; lia). reflexivity.
Qed.
Lemma write_app (a x y b : list (option Z)) i : zlen a = i -> zlen x = zlen y -> write_range (a ++ x ++ b) i y = Ok (a ++ y ++ b).
Proof.
  intros Ha Hx. unfold write_range. pose proof (zlen_nonneg a). pose proof (zlen_nonneg x). pose proof (zlen_nonneg b).
  rewrite !zlen_app. replace ((0 <=? i) && (i + zlen y <=? zlen a + (zlen x + zlen b))) with true by lia.
  rewrite firstn_app_len by (unfold zlen in Ha; lia). rewrite (app_assoc a x b), skipn_app_len by (rewrite app_length; unfold zlen in *; lia). reflexivity.
Qed.
Lemma bytes_sm t : bytes (sm t) = Ok t. Proof. induction t as [|x t IH]; [reflexivity|]. cbn [map bytes]. now rewrite IH. Qed.

(** The block holds the text. *)
Definition RepB (b : block) (t : list Z) : Prop := exists rest, cells b = sm t ++ rest /\ blen b = zlen t /\ cap b < 2 ^ 63.
Definition Rep (d : dstring) (t : list Z) : Prop := match d with None => t = [] | Some b => RepB b t end.
Lemma rep_view d t : Rep d t -> str_view d = Ok t /\ dlen d = zlen t.
Proof.
  destruct d as [b|]; [|intros ->; split; reflexivity]. intros (rest & E & L & _). cbn [str_view dlen]. split; [|exact L].
  rewrite E, L. rewrite (read_app [] (sm t) rest) by (reflexivity || apply zlen_map). cbn [bind]. apply bytes_sm.
Qed.
Lemma with_capacity_rep n : 0 <= n < 2 ^ 62 -> cells (with_capacity n) = sm [] ++ cells (with_capacity n) /\ blen (with_capacity n) = 0 /\ n <= cap (with_capacity n) < 2 ^ 63 /\ 16 <= cap (with_capacity n).
Proof.
  intros Hn. split; [reflexivity|]. split; [reflexivity|]. unfold cap, with_capacity, zlen. cbn [cells]. rewrite repeat_length. destruct (n <? 16) eqn:E; lia.
Qed.
Lemma grow_ok len : 0 <= len < 2 ^ 62 -> forall k c, 0 < c -> (c < 2 ^ 63) -> len <= c * 2 ^ Z.of_nat k -> exists c', grow k c len = Ok c' /\ len <= c' /\ c <= c' < 2 ^ 63.
Proof.
  intros Hl. induction k as [|k IH]; intros c Hc Hc' Hk; cbn [grow].
  - replace (c <? len) with false by lia. exists c. split; [reflexivity|lia].
  - destruct (c <? len) eqn:E; [|exists c; split; [reflexivity|lia]]. rewrite Z.mod_small by lia.
    destruct (IH (c * 2)) as (c' & H1 & H2 & H3); [lia|lia| |exists c'; split; [exact H1|lia]].
    rewrite Nat2Z.inj_succ, Z.pow_succ_r in Hk by lia. nia.
Qed.
Lemma reserve_ok d t n : Rep d t -> 0 <= n -> zlen t + n < 2 ^ 62 ->
  exists b rest, reserve d n = Ok b /\ cells b = sm t ++ rest /\ blen b = zlen t /\ n <= zlen rest /\ cap b < 2 ^ 63.
Proof.
  intros H Hn Hs. pose proof (zlen_nonneg t) as Ht. destruct d as [b|]; cbn [reserve].
  - destruct H as (rest & E & L & C). rewrite L, Z.mod_small by lia. assert (Hcap : cap b = zlen t + zlen rest) by (unfold cap; now rewrite E, zlen_app, zlen_map).
    pose proof (zlen_nonneg rest).
    destruct (zlen t + n <=? cap b) eqn:Ec; [exists b, rest; repeat split; auto; lia|]. cbv zeta. rewrite Z.mod_small by lia.
    set (c := if cap b * 2 <? 16 then 16 else cap b * 2).
    assert (Hc : 16 <= c < 2 ^ 63 /\ cap b <= c) by (unfold c; destruct (cap b * 2 <? 16) eqn:E1; lia).
    destruct (grow_ok (zlen t + n)) with (k := 64%nat) (c := c) as (c' & -> & H1 & H2); [lia|lia|lia|change (2 ^ Z.of_nat 64) with (2 ^ 64); nia|].
    cbn [bind]. eexists. exists (rest ++ repeat None (Z.to_nat (c' - cap b))). split; [reflexivity|]. cbn [cells blen]. rewrite E, <- app_assoc. split; [reflexivity|]. split; [reflexivity|].
    unfold cap at 2. cbn [cells]. rewrite !zlen_app, zlen_map. unfold zlen at 2 5. rewrite !repeat_length. lia.
  - cbn in H. subst t. change (zlen (@nil Z)) with 0 in *. destruct (with_capacity_rep n) as (H1 & H2 & H3 & _); [lia|]. exists (with_capacity n), (cells (with_capacity n)). split; [reflexivity|]. split; [exact H1|]. split; [exact H2|]. unfold cap in H3 |- *. lia.
Qed.
Lemma split_rest {A} (rest : list A) n : 0 <= n <= zlen rest -> exists r1 r2, rest = r1 ++ r2 /\ zlen r1 = n.
Proof. intros H. destruct (split_len rest n H) as (a & b & -> & Ha). eauto. Qed.
(** Writing behind the text. *)
Lemma put_end b t rest u : cells b = sm t ++ rest -> blen b = zlen t -> cap b < 2 ^ 63 -> zlen u <= zlen rest ->
  exists m, write_range (cells b) (blen b) (sm u) = Ok m /\ RepB (Block m (blen b + zlen u)) (t ++ u).
Proof.
  intros E L C H. pose proof (zlen_nonneg u). destruct (split_rest rest (zlen u)) as (r1 & r2 & -> & Hr); [lia|].
  rewrite E, L. rewrite write_app; [|apply zlen_map|rewrite zlen_map; exact Hr]. eexists. split; [reflexivity|]. exists r2. cbn [cells blen]. unfold cap in *. cbn [cells].
  rewrite map_app, <- app_assoc, zlen_app. split; [reflexivity|]. split; [lia|]. rewrite E in C. rewrite !zlen_app, !zlen_map in *. lia.
Qed.
Lemma push_ok b t rest c : cells b = sm t ++ rest -> blen b = zlen t -> cap b < 2 ^ 63 -> 1 <= zlen rest ->
  exists b' r2, push b c = Ok b' /\ cells b' = sm (t ++ [c]) ++ r2 /\ blen b' = zlen (t ++ [c]) /\ cap b' < 2 ^ 63 /\ zlen r2 = zlen rest - 1.
Proof.
  intros E L C H. destruct rest as [|x rest]; [cbn in H; lia|]. unfold push. rewrite E, L, set_app by (now rewrite zlen_map). cbn [bind].
  eexists. exists rest. split; [reflexivity|]. cbn [cells blen]. unfold cap in *. cbn [cells]. rewrite map_app, <- app_assoc, zlen_app.
  split; [reflexivity|]. split; [reflexivity|]. rewrite E in C. rewrite !zlen_app, !zlen_cons in *. split; [exact C|lia].
Qed.
Lemma push_times_ok c : forall k b t rest, cells b = sm t ++ rest -> blen b = zlen t -> cap b < 2 ^ 63 -> Z.of_nat k <= zlen rest ->
  exists b', push_times b c k = Ok b' /\ RepB b' (t ++ repeat c k).
Proof.
  induction k as [|k IH]; intros b t rest E L C H; cbn [push_times repeat].
  - exists b. split; [reflexivity|]. exists rest. rewrite app_nil_r. auto.
  - destruct (push_ok b t rest c) as (b' & r2 & -> & E' & L' & C' & H'); auto; [lia|]. cbn [bind].
    destruct (IH b' (t ++ [c]) r2) as (b2 & E2 & R2); auto; [lia|]. exists b2. split; [exact E2|]. now rewrite <- app_assoc in R2.
Qed.
(** Opening a gap in the middle. *)
Lemma gap_ok (a z : list Z) (rest : list (option Z)) n : 0 <= n <= zlen rest ->
  exists g r2, move_range (sm (a ++ z) ++ rest) (zlen a + n) (zlen a) (zlen z) = Ok (sm a ++ g ++ sm z ++ r2) /\ zlen g = n /\ zlen r2 = zlen rest - n.
Proof.
  intros H. destruct (split_rest rest n H) as (r1 & r2 & -> & Hr). unfold move_range. rewrite map_app, <- app_assoc.
  rewrite read_app; [|apply zlen_map|apply zlen_map]. cbn [bind].
  destruct (split_rest (sm z ++ r1) n) as (g & h & E & Hg); [rewrite zlen_app, zlen_map; pose proof (zlen_nonneg z); lia|].
  assert (Hh : zlen h = zlen z) by (apply (f_equal zlen) in E; rewrite !zlen_app, zlen_map in E; lia).
  replace (sm a ++ sm z ++ r1 ++ r2) with ((sm a ++ g) ++ h ++ r2) by (rewrite <- app_assoc, (app_assoc g), <- E, <- app_assoc; reflexivity).
  rewrite write_app; [|rewrite zlen_app, zlen_map; lia|rewrite zlen_map; exact Hh]. exists g, r2. rewrite <- app_assoc. rewrite zlen_app. split; [reflexivity|lia].
Qed.
Lemma insert_ok b (a z u : list Z) rest : cells b = sm (a ++ z) ++ rest -> blen b = zlen (a ++ z) -> cap b < 2 ^ 63 -> zlen u <= zlen rest ->
  exists m m', move_range (cells b) (zlen a + zlen u) (zlen a) (blen b - zlen a) = Ok m /\ write_range m (zlen a) (sm u) = Ok m' /\ RepB (Block m' (blen b + zlen u)) (a ++ u ++ z).
Proof.
  intros E L C H. destruct (gap_ok a z rest (zlen u)) as (g & r2 & Hg & Lg & Lr); [pose proof (zlen_nonneg u); lia|].
  rewrite E, L. replace (zlen (a ++ z) - zlen a) with (zlen z) by (rewrite zlen_app; lia). rewrite Hg. eexists. eexists. split; [reflexivity|].
  rewrite write_app; [|apply zlen_map|rewrite zlen_map; exact Lg]. split; [reflexivity|]. exists r2. cbn [cells blen]. unfold cap in *. cbn [cells].
  rewrite !map_app, <- !app_assoc. split; [reflexivity|]. rewrite E in C. rewrite !zlen_app, !zlen_map, ?zlen_app in *. lia.
Qed.
Lemma cut_at (t : list Z) i : 0 <= i <= zlen t -> exists a z, t = a ++ z /\ zlen a = i /\ take i t = a /\ drop i t = z.
Proof.
  intros H. destruct (split_len t i H) as (a & z & -> & Ha). exists a, z. unfold take, drop. rewrite firstn_app_len, skipn_app_len by (unfold zlen in Ha; lia). auto.
Qed.
Lemma char32_bytes_ok c : code_point c -> char32_bytes c = Ok (utf8 c) /\ 1 <= zlen (utf8 c) <= 4.
Proof.
  intros H. unfold char32_bytes. rewrite <- enc8_utf8 by exact H. pose proof (enc8_bounds c) as B. split; [|exact B].
  change (char32_to_utf8_unsafe c [0; 0; 0; 0] 0) with (char32_to_utf8_unsafe c ([] ++ [0; 0; 0; 0]) (zlen (@nil Z))). rewrite to8_one by (change (zlen [0; 0; 0; 0]) with 4; lia). cbn [bind app]. rewrite firstn_app_len by (unfold zlen; lia). reflexivity.
Qed.
Lemma append_chars_ok d t u : Rep d t -> zlen t + zlen u < 2 ^ 62 -> exists d', append_chars d u = Ok d' /\ Rep d' (t ++ u).
Proof.
  intros H Hs. unfold append_chars. pose proof (zlen_nonneg u). pose proof (zlen_nonneg t). destruct (zlen u =? 0) eqn:E.
  { exists d. split; [reflexivity|]. assert (u = []) by (apply zlen0; lia). subst u. now rewrite app_nil_r. }
  destruct d as [b|].
  - destruct (reserve_ok _ _ (zlen u) H) as (b' & rest & -> & E' & L & R & C); [lia|lia|]. cbn [bind].
    destruct (put_end b' t rest u) as (m & -> & Hm); auto. cbn [bind]. eexists. split; [reflexivity|exact Hm].
  - cbn in H. subst t. cbn [app]. unfold new. rewrite E. destruct (with_capacity_rep (zlen u)) as (W1 & W2 & W3 & _); [cbn in Hs; lia|].
    destruct (put_end (with_capacity (zlen u)) [] (cells (with_capacity (zlen u))) u) as (m & Em & Hm); auto; [unfold cap in *; lia|unfold cap in W3; lia|].
    rewrite W2 in Em. cbv zeta. rewrite Em. cbn [bind]. eexists. split; [reflexivity|]. rewrite W2 in Hm. exact Hm.
Qed.
Lemma append_char32_ok d t c : Rep d t -> code_point c -> zlen t + zlen (utf8 c) < 2 ^ 62 -> exists b, append_char32 d c = Ok (Some b) /\ RepB b (t ++ utf8 c).
Proof.
  intros H Hc Hs. unfold append_char32. destruct (char32_bytes_ok c Hc) as [-> B]. cbn [bind].
  destruct (reserve_ok _ _ (zlen (utf8 c)) H) as (b' & rest & -> & E' & L & R & C); [lia|lia|]. cbn [bind].
  destruct (put_end b' t rest (utf8 c)) as (m & -> & Hm); auto. cbn [bind]. eexists. split; [reflexivity|exact Hm].
Qed.
Lemma append_all32_ok : forall cs b t, RepB b t -> Forall code_point cs -> zlen t + zlen (utf8s cs) < 2 ^ 62 -> exists b', append_all32 (Some b) cs = Ok (Some b') /\ RepB b' (t ++ utf8s cs).
Proof.
  induction cs as [|c cs IH]; intros b t H Hc Hs; cbn [append_all32 utf8s flat_map] in *; [exists b; rewrite app_nil_r; auto|].
  inversion Hc; subst. fold (utf8s cs) in *. rewrite zlen_app in Hs. pose proof (zlen_nonneg (utf8s cs)).
  destruct (append_char32_ok (Some b) t c) as (b1 & -> & R1); auto; [lia|]. cbn [bind].
  destruct (IH b1 (t ++ utf8 c)) as (b2 & -> & R2); auto; [rewrite zlen_app; lia|]. exists b2. rewrite <- app_assoc in R2. auto.
Qed.
Lemma utf8s_len cs : Forall code_point cs -> zlen cs <= zlen (utf8s cs) /\ zlen (utf8s cs) <= 4 * zlen cs /\ flat_map enc8 cs = utf8s cs.
Proof.
  induction 1 as [|c cs Hc H (I1 & I2 & I3)]; [split; [reflexivity|split; reflexivity]|]. cbn [utf8s flat_map]. fold (utf8s cs). rewrite zlen_cons, zlen_app.
  destruct (char32_bytes_ok c Hc) as [_ B]. rewrite I3, enc8_utf8 by exact Hc. split; [lia|]. split; [lia|reflexivity].
Qed.
Lemma insert_all32_ok : forall cs (a : list (option Z)) g z, Forall code_point cs -> zlen g = zlen (utf8s cs) ->
  insert_all32 (a ++ g ++ z) (zlen a) cs = Ok (a ++ sm (utf8s cs) ++ z).
Proof.
  induction cs as [|c cs IH]; intros a g z Hc Hg; cbn [insert_all32 utf8s flat_map] in *.
  - destruct g; [reflexivity|rewrite zlen_cons in Hg; pose proof (zlen_nonneg g); change (zlen (@nil Z)) with 0 in Hg; lia].
  - inversion Hc; subst. fold (utf8s cs) in *. destruct (char32_bytes_ok c H1) as [-> B]. cbn [bind]. rewrite zlen_app in Hg. pose proof (zlen_nonneg (utf8s cs)).
    destruct (split_rest g (zlen (utf8 c))) as (g1 & g2 & -> & Hg1); [lia|]. rewrite zlen_app in Hg. rewrite <- app_assoc.
    rewrite write_app; [|reflexivity|rewrite zlen_map; exact Hg1]. cbn [bind].
    replace (a ++ sm (utf8 c) ++ g2 ++ z) with ((a ++ sm (utf8 c)) ++ g2 ++ z) by now rewrite <- app_assoc.
    replace (zlen a + zlen (utf8 c)) with (zlen (a ++ sm (utf8 c))) by (rewrite zlen_app, zlen_map; lia).
    rewrite IH; auto; [|lia]. rewrite map_app, <- !app_assoc. reflexivity.
Qed.
(** Deleting from the middle. *)
Lemma delete_ok b (a x z : list Z) : RepB b (a ++ x ++ z) -> a ++ x ++ z <> [] ->
  exists d', delete (Some b) (zlen a) (zlen x) = Ok d' /\ Rep d' (a ++ z).
Proof.
  intros (rest & E & L & C) Hne. unfold delete. pose proof (zlen_nonneg a). pose proof (zlen_nonneg x). pose proof (zlen_nonneg z).
  destruct (zlen x =? 0) eqn:Ex.
  { exists (Some b). split; [reflexivity|]. assert (x = []) by (apply zlen0; lia). subst x. exists rest. auto. }
  cbv zeta. rewrite L, !zlen_app. destruct (zlen a + (zlen x + zlen z) - zlen x =? 0) eqn:E0.
  { eexists. split; [reflexivity|]. assert (a = []) by (apply zlen0; lia). assert (z = []) by (apply zlen0; lia). subst.
    exists (cells b). auto. }
  replace (zlen a + (zlen x + zlen z) - zlen a - zlen x) with (zlen z) by lia. destruct (0 <? zlen z) eqn:Ez.
  - unfold move_range. rewrite E, !map_app, <- !app_assoc.
    assert (Er : read_range (sm a ++ sm x ++ sm z ++ rest) (zlen a + zlen x) (zlen z) = Ok (sm z)).
    { replace (sm a ++ sm x ++ sm z ++ rest) with ((sm a ++ sm x) ++ sm z ++ rest) by now rewrite <- app_assoc.
      apply read_app; [rewrite zlen_app, !zlen_map; reflexivity|apply zlen_map]. }
    rewrite Er. cbn [bind].
    destruct (split_rest (sm x ++ sm z) (zlen z)) as (g & h & Eg & Hg); [rewrite zlen_app, !zlen_map; lia|].
    replace (sm a ++ sm x ++ sm z ++ rest) with (sm a ++ g ++ (h ++ rest)) by (rewrite (app_assoc g), <- Eg, <- !app_assoc; reflexivity).
    rewrite write_app; [|apply zlen_map|rewrite zlen_map; exact Hg]. cbn [bind]. eexists. split; [reflexivity|]. exists (h ++ rest). cbn [cells blen].
    rewrite map_app, <- app_assoc, zlen_app. split; [reflexivity|]. split; [lia|]. unfold cap in *. cbn [cells]. rewrite E in C. apply (f_equal zlen) in Eg. rewrite !zlen_app, !zlen_map, ?zlen_app in *. lia.
  - assert (z = []) by (apply zlen0; lia). subst z. cbn [bind]. eexists. split; [reflexivity|]. rewrite app_nil_r in *. exists (sm x ++ rest). cbn [cells blen].
    unfold cap in *. cbn [cells]. rewrite E, map_app, <- app_assoc. split; [reflexivity|]. split; [cbn; lia|rewrite E, map_app, <- app_assoc in C; exact C].
Qed.
(** Reversing. *)
Lemma reverse_loop_ok : forall k (p q m rest : list (option Z)), length p = length q -> (k = Nat.div (length m) 2)%nat ->
  reverse_loop (p ++ m ++ q ++ rest) (zlen (p ++ m ++ q)) (zlen p) k = Ok (p ++ rev m ++ q ++ rest).
Proof.
  induction k as [|k IH]; intros p q m rest Hpq Hk; cbn [reverse_loop].
  - destruct m as [|x [|y m]]; [reflexivity|reflexivity|]. cbn [length] in Hk. assert (Hm : (S (S (length m)) >= 2)%nat) by lia. pose proof (Nat.div_le_mono 2 (S (S (length m))) 2 ltac:(lia) Hm). change (2 / 2)%nat with 1%nat in *. lia.
  - destruct m as [|x m]; [discriminate|]. destruct (exists_last_or m) as [-> | (u & y & ->)]; [discriminate|].
    assert (Hk' : (k = Nat.div (length u) 2)%nat).
    { cbn [length] in Hk. rewrite app_length in Hk. cbn [length] in Hk. replace (S (length u + 1)) with (length u + 1 * 2)%nat in Hk by lia. rewrite Nat.div_add in Hk by lia. lia. }
    replace (zlen (p ++ (x :: u ++ [y]) ++ q) - 1 - zlen p) with (zlen (p ++ [x] ++ u)) by (rewrite !zlen_app, !zlen_cons, !zlen_app; change (zlen [y]) with 1; change (zlen (@nil (option Z))) with 0; unfold zlen in *; lia).
    replace (p ++ (x :: u ++ [y]) ++ q ++ rest) with (p ++ x :: (u ++ [y] ++ q ++ rest)) by la.
    rewrite get_app by reflexivity. cbn [bind].
    assert (Eg : get (p ++ x :: u ++ [y] ++ q ++ rest) (zlen (p ++ [x] ++ u)) = Ok y).
    { replace (p ++ x :: u ++ [y] ++ q ++ rest) with ((p ++ [x] ++ u) ++ y :: (q ++ rest)) by la. now apply get_app. }
    rewrite Eg. cbn [bind]. rewrite set_app by reflexivity. cbn [bind].
    replace (p ++ y :: u ++ [y] ++ q ++ rest) with ((p ++ [y] ++ u) ++ y :: (q ++ rest)) by la.
    rewrite set_app by (rewrite !zlen_app; reflexivity). cbn [bind].
    replace ((p ++ [y] ++ u) ++ x :: q ++ rest) with ((p ++ [y]) ++ u ++ (x :: q) ++ rest) by la.
    replace (zlen (p ++ (x :: u ++ [y]) ++ q)) with (zlen ((p ++ [y]) ++ u ++ (x :: q))) by (unfold zlen; rewrite !app_length; cbn [length]; rewrite !app_length; cbn [length]; lia).
    replace (zlen p + 1) with (zlen (p ++ [y])) by (rewrite zlen_app; reflexivity).
    rewrite IH; [|rewrite app_length; cbn [length]; lia|exact Hk']. cbn [rev]. rewrite rev_app_distr. cbn [rev app]. rewrite <- !app_assoc. reflexivity.
Qed.
Lemma reverse_ok d t : Rep d t -> exists d', reverse d = Ok d' /\ Rep d' (rev t).
Proof.
  destruct d as [b|]; [|intros ->; exists None; split; reflexivity]. intros (rest & E & L & C). cbn [reverse]. rewrite E, L.
  pose proof (reverse_loop_ok (Nat.div (length (sm t)) 2) [] [] (sm t) rest eq_refl eq_refl) as H. cbn [app] in H. rewrite app_nil_r in H. rewrite zlen_map in H. change (zlen (@nil (option Z))) with 0 in H.
  replace (Z.to_nat (zlen t / 2)) with (Nat.div (length (sm t)) 2) by (rewrite map_length; unfold zlen; change 2 with (Z.of_nat 2); rewrite <- Nat2Z.inj_div, Nat2Z.id; reflexivity).
  rewrite H. cbn [bind]. eexists. split; [reflexivity|]. exists rest. cbn [cells blen]. unfold cap in *. cbn [cells]. rewrite map_rev. split; [reflexivity|].
  assert (Hr : forall A (l : list A), zlen (rev l) = zlen l) by (intros; unfold zlen; now rewrite rev_length).
  rewrite Hr. split; [reflexivity|]. rewrite E in C. rewrite zlen_app, ?Hr in *. exact C.
Qed.
Lemma zstr_view_ok d t : Rep d t -> zlen t + 1 < 2 ^ 62 -> exists d', zstr_view d = Ok (d', t ++ [0]) /\ Rep d' t.
Proof.
  destruct d as [b|]; [|intros Ht _; cbn in Ht; subst t; exists None; split; reflexivity]. intros H Hs. cbn [zstr_view].
  assert (Hb : exists b' rest, (if cap b =? blen b then reserve (Some b) 1 else Ok b) = Ok b' /\ cells b' = sm t ++ rest /\ blen b' = zlen t /\ 1 <= zlen rest /\ cap b' < 2 ^ 63).
  { destruct (cap b =? blen b) eqn:Ec.
    - destruct (reserve_ok _ _ 1 H) as (b' & rest & H1 & H2 & H3 & H4 & H5); [lia|lia|]. eauto 10.
    - destruct H as (rest & E & L & C). exists b, rest. repeat match goal with |- _ /\ _ => split end; auto. unfold cap in Ec. rewrite E, zlen_app, zlen_map in Ec. pose proof (zlen_nonneg rest). lia. }
  destruct Hb as (b' & rest & -> & E & L & R & C). cbn [bind]. destruct rest as [|x rest]; [cbn in R; lia|]. rewrite E, L, set_app by now rewrite zlen_map. cbn [bind].
  assert (Er : read_range (sm t ++ Some 0 :: rest) 0 (zlen t + 1) = Ok (sm (t ++ [0]))).
  { replace (sm t ++ Some 0 :: rest) with ([] ++ sm (t ++ [0]) ++ rest) by (cbn [app]; rewrite map_app, <- app_assoc; reflexivity).
    apply read_app; [reflexivity|rewrite zlen_map, zlen_app; reflexivity]. }
  rewrite Er. cbn [bind]. rewrite bytes_sm. cbn [bind]. eexists. split; [reflexivity|].
  exists (Some 0 :: rest). cbn [cells blen]. unfold cap in *. cbn [cells]. split; [reflexivity|]. split; [reflexivity|]. rewrite E in C. rewrite zlen_app, zlen_cons in *. exact C.
Qed.
Lemma replace_char_ok b t x y : RepB b t -> exists b', replace_char (Some b) x y = Ok (Some b') /\ RepB b' (map (fun c => if c =? x then y else c) t).
Proof.
  intros (rest & E & L & C). cbn [replace_char]. rewrite E, L. rewrite (read_app [] (sm t) rest) by (reflexivity || apply zlen_map). cbn [bind]. rewrite bytes_sm. cbn [bind].
  rewrite (write_app [] (sm t) _ rest) by (rewrite ?zlen_map; reflexivity). cbn [bind]. eexists. split; [reflexivity|]. exists rest. cbn [cells blen app]. unfold cap in *. cbn [cells].
  split; [reflexivity|]. rewrite zlen_map. split; [reflexivity|]. rewrite E in C. rewrite zlen_app, !zlen_map in *. exact C.
Qed.
Lemma append_char_ok d t c : Rep d t -> zlen t + 1 < 2 ^ 62 -> exists b, append_char d c = Ok (Some b) /\ RepB b (t ++ [c]).
Proof.
  intros H Hs. unfold append_char. pose proof (zlen_nonneg t).
  assert (H' : Rep (Some (match d with None => with_capacity 16 | Some b => b end)) t).
  { destruct d as [b|]; [exact H|]. cbn in H. subst. destruct (with_capacity_rep 16) as (H1 & H2 & H3 & _); [lia|]. exists (cells (with_capacity 16)). split; [exact H1|]. split; [exact H2|lia]. }
  cbv zeta. destruct (reserve_ok _ _ 1 H') as (b & rest & -> & E & L & R & C); [lia|lia|]. cbn [bind].
  destruct (push_ok b t rest c) as (b' & r2 & -> & E' & L' & C' & _); auto. cbn [bind]. exists b'. split; [reflexivity|]. exists r2. auto.
Qed.
(** Every operation. *)
Lemma apply_ok d t o : Rep d t -> allowed t o -> exists d', apply d o = Ok d' /\ Rep d' (after t o).
Proof.
  intros H [Hs Ho]. pose proof (zlen_nonneg t) as Ht. change (len (after t o)) with (zlen (after t o)) in Hs. destruct o; cbn [apply after] in *.
  - apply append_chars_ok; auto. rewrite zlen_app in Hs. exact Hs.
  - rewrite zlen_app in Hs. destruct (append_char_ok d t c) as (b & -> & R); auto. exists (Some b). auto.
  - unfold append_repeat. destruct (times =? 0) eqn:E.
    + exists d. split; [reflexivity|]. replace times with 0 by lia. cbn. now rewrite app_nil_r.
    + rewrite zlen_app in Hs. unfold zlen in Hs at 2. rewrite repeat_length in Hs.
      destruct (reserve_ok _ _ times H) as (b & rest & -> & E' & L & R & C); [lia|lia|]. cbn [bind].
      destruct (push_times_ok c (Z.to_nat times) b t rest) as (b' & -> & R'); auto; [lia|]. cbn [bind]. exists (Some b'). auto.
  - rewrite zlen_app in Hs. destruct (append_char32_ok d t c) as (b & -> & R); auto. exists (Some b). auto.
  - rewrite zlen_app in Hs. unfold append_utf32. destruct (utf8s_len cs Ho) as (U1 & U2 & _).
    destruct (reserve_ok _ _ (zlen cs) H) as (b & rest & -> & E & L & R & C); [apply zlen_nonneg|lia|]. cbn [bind].
    destruct (append_all32_ok cs b t) as (b' & -> & R'); auto; [exists rest; auto|]. exists (Some b'). auto.
  - destruct (cut_at t i Ho) as (a & z & -> & Ha & Et & Ed). rewrite Et, Ed in *. unfold insert_chars. destruct (zlen t0 =? 0) eqn:E0.
    + exists d. split; [reflexivity|]. assert (t0 = []) by (apply zlen0; lia). subst t0. exact H.
    + rewrite !zlen_app in Hs. destruct (reserve_ok _ _ (zlen t0) H) as (b & rest & -> & E' & L & R & C); [apply zlen_nonneg|rewrite zlen_app; lia|]. cbn [bind]. cbv zeta.
      destruct (insert_ok b a z t0 rest) as (m & m' & Hm & Hm' & R'); auto.
      rewrite L, zlen_app. pose proof (zlen_nonneg z). replace (Z.min i (zlen a + zlen z)) with (zlen a) by lia. rewrite L, zlen_app in Hm. rewrite Hm. cbn [bind]. rewrite Hm'. cbn [bind].
      eexists. split; [reflexivity|]. rewrite L, zlen_app in R'. exact R'.
  - destruct (cut_at t i Ho) as (a & z & -> & Ha & Et & Ed). rewrite Et, Ed in *. unfold insert_char. rewrite !zlen_app in Hs. change (zlen [c]) with 1 in Hs.
    destruct (reserve_ok _ _ 1 H) as (b & rest & -> & E' & L & R & C); [lia|rewrite zlen_app; lia|]. cbn [bind].
    destruct (gap_ok a z rest 1) as (g & r2 & Hg & Lg & Lr); [lia|]. rewrite E', L, <- Ha. replace (zlen (a ++ z) - zlen a) with (zlen z) by (rewrite zlen_app; lia). rewrite Hg. cbn [bind].
    destruct g as [|x [|x' g]]; [cbn in Lg; lia| |rewrite !zlen_cons in Lg; pose proof (zlen_nonneg g); lia]. cbn [app]. rewrite set_app by now rewrite zlen_map. cbn [bind]. eexists. split; [reflexivity|].
    exists r2. cbn [cells blen]. unfold cap in *. cbn [cells]. rewrite map_app. cbn [map app]. rewrite <- app_assoc. split; [reflexivity|]. rewrite E' in C. rewrite !zlen_app, !zlen_cons, !zlen_map, !zlen_app, ?zlen_map in *. lia.
  - destruct Ho as [Ho Hc]. destruct (cut_at t i Ho) as (a & z & -> & Ha & Et & Ed). rewrite Et, Ed in *. unfold insert_char32. destruct (char32_bytes_ok c Hc) as [-> B]. cbn [bind].
    rewrite !zlen_app in Hs. destruct (reserve_ok _ _ (zlen (utf8 c)) H) as (b & rest & -> & E' & L & R & C); [lia|rewrite zlen_app; lia|]. cbn [bind].
    destruct (insert_ok b a z (utf8 c) rest) as (m & m' & Hm & Hm' & R'); auto. rewrite <- Ha, Hm. cbn [bind]. rewrite Hm'. cbn [bind]. eexists. split; [reflexivity|exact R'].
  - destruct Ho as [Ho Hc]. destruct (cut_at t i Ho) as (a & z & -> & Ha & Et & Ed). rewrite Et, Ed in *. unfold insert_utf32. destruct (utf8s_len cs Hc) as (U1 & U2 & U3). rewrite !zlen_app in Hs.
    pose proof (zlen_nonneg z). pose proof (zlen_nonneg a). pose proof (zlen_nonneg cs). rewrite len32_ok by lia. rewrite U3, Z.add_0_l. cbv zeta.
    destruct (reserve_ok _ _ (zlen (utf8s cs)) H) as (b & rest & -> & E' & L & R & C); [lia|rewrite zlen_app; lia|]. cbn [bind].
    destruct (gap_ok a z rest (zlen (utf8s cs))) as (g & r2 & Hg & Lg & Lr); [lia|]. rewrite E', L, <- Ha. replace (zlen (a ++ z) - zlen a) with (zlen z) by (rewrite zlen_app; lia). rewrite Hg. cbn [bind].
    replace (zlen a) with (zlen (sm a)) by apply zlen_map. rewrite insert_all32_ok; auto. cbn [bind]. eexists. split; [reflexivity|].
    exists r2. cbn [cells blen]. unfold cap in *. cbn [cells]. rewrite !map_app, <- !app_assoc. split; [reflexivity|]. rewrite E' in C. rewrite !zlen_app, !zlen_map, ?zlen_app in *. lia.
  - destruct Ho as (H1 & H2 & H3). change (len t) with (zlen t) in *. destruct d as [b|]; [|cbn in H; subst t; cbn in H1; lia].
    destruct (cut_at t start) as (a & z & -> & Ha & Et & Ed); [lia|]. rewrite zlen_app in H3. destruct (cut_at z n) as (x & z' & -> & Hx & Ex & Ez); [lia|].
    assert (Hd : drop (start + n) (a ++ x ++ z') = z').
    { unfold drop. rewrite app_assoc, skipn_app_len; [reflexivity|]. rewrite app_length. unfold zlen in *. lia. }
    rewrite Et, Hd. rewrite <- Ha, <- Hx. apply delete_ok; auto. intros E0. apply (f_equal zlen) in E0. rewrite E0 in H1. cbn in H1. lia.
  - exists (chop d n). split; [reflexivity|]. destruct d as [b|]; [|cbn in H; subst t; cbn; unfold take; now rewrite firstn_nil].
    destruct H as (rest & E & L & C). destruct (cut_at t n Ho) as (a & z & -> & Ha & Et & Ed). rewrite Et. exists (sm z ++ rest). cbn [cells blen]. unfold cap in *. cbn [cells]. rewrite E in *. rewrite map_app, <- app_assoc in *. auto.
  - exists (clear d). split; [reflexivity|]. destruct d as [b|]; [|reflexivity]. destruct H as (rest & E & L & C). exists (cells b). auto.
  - change (len t) with (zlen t) in Ho. destruct d as [b|]; [|cbn in H; subst t; cbn in Ho; lia]. destruct H as (rest & E & L & C). cbn [set_at].
    destruct (split_at t i Ho) as (a & x & z & -> & Ha). rewrite E, map_app. cbn [map]. rewrite <- app_assoc. cbn [app]. rewrite set_app by (rewrite zlen_map; lia). cbn [bind]. eexists. split; [reflexivity|].
    assert (T : take i (a ++ x :: z) = a) by (unfold take; apply firstn_app_len; unfold zlen in Ha; lia).
    assert (D : drop (i + 1) (a ++ x :: z) = z).
    { unfold drop. replace (a ++ x :: z) with ((a ++ [x]) ++ z) by now rewrite <- app_assoc. apply skipn_app_len. rewrite app_length. cbn [length]. unfold zlen in Ha. lia. }
    rewrite T, D. exists rest. cbn [cells blen]. unfold cap in *. cbn [cells]. rewrite map_app. cbn [map app]. rewrite <- app_assoc. split; [reflexivity|]. rewrite L, !zlen_app, !zlen_cons. split; [reflexivity|].
    rewrite E in C. rewrite !zlen_app, ?zlen_cons, !zlen_map, ?zlen_app, ?zlen_cons in *. cbn [map] in *. rewrite ?zlen_app, ?zlen_cons, ?zlen_map in *. lia.
  - destruct d as [b0|]; [|cbn in H; congruence]. destruct (replace_char_ok b0 t a b H) as (b' & -> & R). exists (Some b'). auto.
  - apply reverse_ok; auto.
  - destruct (reserve_ok _ _ n H) as (b & rest & -> & E & L & R & C); [lia|unfold len, zlen in *; lia|]. cbn [bind]. exists (Some b). split; [reflexivity|]. exists rest. auto.
  - destruct (zstr_view_ok d t H) as (d' & -> & R); [exact Ho|]. cbn [bind]. eauto.
Qed.
