(** More proofs about the dynamic string: histories, copies, comparison, replacing, and views of the string itself. *)
From Coq Require Import ZArith List Bool Lia ZifyBool.
From Verif Require Import Mach ListAux LexSpec UtfModel UtfSpec StrModel StrSpec StrProofs DstrModel DstrSpec DstrProofs.
Import ListNotations.
Open Scope Z_scope.

Lemma run_ok : forall os d t, Rep d t -> history t os -> exists d', run d os = Ok d' /\ Rep d' (text_of t os).
Proof.
  induction os as [|o os IH]; intros d t H Hh; cbn [run text_of history] in *; [eauto|]. destruct Hh as [Ho Hh].
  destruct (apply_ok d t o H Ho) as (d' & -> & R). cbn [bind]. eauto.
Qed.
Lemma copy_ok d t : Rep d t -> exists b, copy d = Ok b /\ RepB b t.
Proof.
  destruct d as [b|]; cbn [copy].
  - intros (rest & E & L & C). rewrite L. assert (Er0 : read_range (cells b) 0 (zlen t) = Ok (sm t)) by (rewrite E; apply (read_app [] (sm t) rest); [reflexivity|apply zlen_map]). rewrite Er0. cbn [bind].
    set (w := with_capacity (cap b)). assert (Hw : zlen t <= zlen (cells w) < 2 ^ 63).
    { assert (Hc : zlen t <= cap b) by (unfold cap; rewrite E, zlen_app, zlen_map; pose proof (zlen_nonneg rest); lia).
      unfold w, with_capacity. cbn [cells]. pose proof (zlen_nonneg t). destruct (cap b <? 16) eqn:E1; unfold zlen at 2; unfold zlen at 2; rewrite repeat_length; lia. }
    cbv zeta. destruct (split_rest (cells w) (zlen t)) as (r1 & r2 & Er & Hr); [pose proof (zlen_nonneg t); lia|]. rewrite Er in *.
    rewrite (write_app [] r1 (sm t) r2) by (rewrite ?zlen_map; reflexivity || exact Hr). cbn [bind]. eexists. split; [reflexivity|]. exists r2. cbn [cells blen app]. unfold cap. cbn [cells].
    rewrite zlen_app, zlen_map in *. split; [reflexivity|]. split; [reflexivity|lia].
  - intros H. cbn in H. subst t. exists (with_capacity 0). split; [reflexivity|]. exists (cells (with_capacity 0)). split; [reflexivity|]. split; [reflexivity|]. reflexivity.
Qed.
Lemma append_string_ok d t e u : Rep d t -> Rep e u -> zlen t + zlen u < 2 ^ 62 -> exists d', append_string d e = Ok d' /\ Rep d' (t ++ u).
Proof.
  intros H He Hs. destruct e as [b|]; cbn [append_string]; [|cbn in He; subst; rewrite app_nil_r; eauto].
  destruct (rep_view _ _ He) as [-> _]. cbn [bind]. now apply append_chars_ok.
Qed.
Lemma with_capacity_RepB n : 0 <= n < 2 ^ 62 -> RepB (with_capacity n) [].
Proof. intros H. destruct (with_capacity_rep n H) as (H1 & H2 & H3 & _). exists (cells (with_capacity n)). split; [exact H1|]. split; [exact H2|lia]. Qed.
Lemma concat_ok d t e u : Rep d t -> Rep e u -> zlen t + zlen u < 2 ^ 62 -> exists d', concat d e = Ok d' /\ Rep d' (t ++ u).
Proof.
  intros H He Hs. unfold concat. rewrite (proj2 (rep_view _ _ H)), (proj2 (rep_view _ _ He)). pose proof (zlen_nonneg t). pose proof (zlen_nonneg u).
  destruct (append_string_ok (Some (with_capacity (zlen t + zlen u))) [] d t) as (d1 & -> & R1); auto; [apply with_capacity_RepB; lia|change (zlen (@nil Z)) with 0; lia|]. cbn [bind].
  apply append_string_ok; auto.
Qed.
Lemma join_rest_ok j : forall ss d t, Rep d t -> zlen t + zlen (flat_map (fun s => j ++ s) ss) < 2 ^ 62 -> exists d', join_rest d ss j = Ok d' /\ Rep d' (t ++ flat_map (fun s => j ++ s) ss).
Proof.
  induction ss as [|s ss IH]; intros d t H Hs; cbn [join_rest flat_map] in *; [rewrite app_nil_r; eauto|].
  rewrite !zlen_app in Hs. pose proof (zlen_nonneg (flat_map (fun s => j ++ s) ss)). pose proof (zlen_nonneg s). pose proof (zlen_nonneg j).
  destruct (append_chars_ok d t j H) as (d1 & -> & R1); [lia|]. cbn [bind]. destruct (append_chars_ok d1 _ s R1) as (d2 & -> & R2); [rewrite zlen_app; lia|]. cbn [bind].
  destruct (IH d2 _ R2) as (d3 & -> & R3); [rewrite !zlen_app; lia|]. exists d3. split; [reflexivity|]. now rewrite <- !app_assoc in *.
Qed.
Lemma glue_flat j s ss : glue j (s :: ss) = s ++ flat_map (fun s => j ++ s) ss.
Proof. revert s. induction ss as [|r ss IH]; intros s; [cbn; now rewrite app_nil_r|]. rewrite glue_cons by discriminate. rewrite IH. cbn [flat_map]. now rewrite <- app_assoc. Qed.
Lemma sizes_ok : forall (ss : list (list Z)) n, fold_left (fun n s => n + zlen s) ss n = n + zlen (List.concat ss).
Proof. induction ss as [|s ss IH]; intros n; cbn [fold_left List.concat]; [change (zlen (@nil Z)) with 0; lia|]. rewrite IH, zlen_app. lia. Qed.
Lemma djoin_ok ss j : zlen j * zlen ss + zlen (List.concat ss) < 2 ^ 62 -> exists d, djoin ss j = Ok d /\ Rep d (glue j ss).
Proof.
  intros Hs. destruct ss as [|s ss]; cbn [djoin].
  - eexists. split; [reflexivity|]. apply (with_capacity_RepB 0). lia.
  - rewrite sizes_ok. assert (Hf : forall l : list (list Z), zlen (flat_map (fun s => j ++ s) l) = zlen j * zlen l + zlen (List.concat l)).
    { induction l as [|x l IH]; [cbn; unfold zlen; cbn; lia|]. cbn [flat_map List.concat]. rewrite !zlen_app, zlen_cons, IH. lia. }
    pose proof (Hf ss) as Hf'. cbn [List.concat] in *. rewrite zlen_cons, zlen_app in *. pose proof (zlen_nonneg s). pose proof (zlen_nonneg j). pose proof (zlen_nonneg ss). pose proof (zlen_nonneg (List.concat ss)).
    destruct (append_chars_ok (Some (with_capacity (zlen j * (1 + zlen ss) + (0 + (zlen s + zlen (List.concat ss)))))) [] s) as (d1 & -> & R1); [apply with_capacity_RepB; nia|change (zlen (@nil Z)) with 0; nia|]. cbn [bind].
    destruct (join_rest_ok j ss d1 _ R1) as (d2 & -> & R2); [cbn [app]; nia|]. exists d2. split; [reflexivity|]. now rewrite glue_flat.
Qed.

(** Comparison. *)
Lemma equal_from_ok (t u : list Z) r r' : forall k i, 0 <= i -> i + Z.of_nat k = zlen t -> zlen t = zlen u ->
  equal_from (sm t ++ r) (sm u ++ r') k i = Ok (eqs (skipn (Z.to_nat i) t) (skipn (Z.to_nat i) u)).
Proof.
  induction k as [|k IH]; intros i Hi Hk Hl; cbn [equal_from].
  - rewrite !skipn_all2 by (unfold zlen in *; lia). reflexivity.
  - destruct (split_at t i) as (a & x & b & -> & Ha); [lia|]. destruct (split_at u i) as (a' & y & b' & -> & Ha'); [lia|].
    rewrite !map_app, <- !app_assoc. cbn [map app]. rewrite !get_app by (rewrite zlen_map; lia). cbn [bind byte_of].
    rewrite !skipn_app_len by (unfold zlen in *; lia). cbn [eqs]. destruct (x =? y) eqn:E; [|reflexivity]. cbn [andb].
    assert (P : forall (l : list Z) v w, zlen l = i -> sm l ++ Some v :: sm w = sm (l ++ v :: w)) by (intros; rewrite map_app; reflexivity).
    replace (sm a ++ Some x :: sm b ++ r) with (sm (a ++ x :: b) ++ r) by (rewrite map_app, <- app_assoc; reflexivity).
    replace (sm a' ++ Some y :: sm b' ++ r') with (sm (a' ++ y :: b') ++ r') by (rewrite map_app, <- app_assoc; reflexivity).
    rewrite IH by lia. replace (a ++ x :: b) with ((a ++ [x]) ++ b) by now rewrite <- app_assoc. replace (a' ++ y :: b') with ((a' ++ [y]) ++ b') by now rewrite <- app_assoc.
    rewrite !skipn_app_len by (rewrite app_length; cbn [length]; unfold zlen in *; lia). reflexivity.
Qed.
Lemma equals_ok d t e u : Rep d t -> Rep e u -> exists b, equals d e = Ok b /\ (b = true <-> t = u).
Proof.
  intros H He. destruct d as [b|], e as [c|]; cbn [equals].
  - destruct H as (r & E & L & _), He as (r' & E' & L' & _). rewrite L, L'. destruct (zlen t =? zlen u) eqn:El.
    + rewrite E, E'. rewrite equal_from_ok by (pose proof (zlen_nonneg t); lia). eexists. split; [reflexivity|]. cbn [skipn Z.to_nat]. apply eqs_spec.
    + exists false. split; [reflexivity|]. split; [discriminate|]. intros ->. lia.
  - cbn in He. subst u. destruct H as (r & E & L & _). rewrite L. eexists. split; [reflexivity|]. split; [intros Hz; apply zlen0; lia|intros ->; reflexivity].
  - cbn in H. subst t. destruct He as (r & E & L & _). rewrite L. eexists. split; [reflexivity|]. split; [intros Hz; symmetry; apply zlen0; lia|intros <-; reflexivity].
  - cbn in *. subst. exists true. split; [reflexivity|tauto].
Qed.
Lemma less_from_ok (t u : list Z) r r' : forall k i, 0 <= i -> i + Z.of_nat k = zlen t -> zlen t = zlen u ->
  exists b, less_from (sm t ++ r) (sm u ++ r') k i = Ok b /\ (b = true <-> Forall2 Z.lt (skipn (Z.to_nat i) t) (skipn (Z.to_nat i) u)).
Proof.
  induction k as [|k IH]; intros i Hi Hk Hl; cbn [less_from].
  - rewrite !skipn_all2 by (unfold zlen in *; lia). exists true. split; [reflexivity|]. split; [constructor|reflexivity].
  - destruct (split_at t i) as (a & x & b & -> & Ha); [lia|]. destruct (split_at u i) as (a' & y & b' & -> & Ha'); [lia|].
    rewrite !map_app, <- !app_assoc. cbn [map app]. rewrite !get_app by (rewrite zlen_map; lia). cbn [bind byte_of].
    rewrite !skipn_app_len by (unfold zlen in *; lia). destruct (x >=? y) eqn:E.
    { exists false. split; [reflexivity|]. split; [discriminate|]. intros F. inversion F; subst. lia. }
    replace (sm a ++ Some x :: sm b ++ r) with (sm (a ++ x :: b) ++ r) by (rewrite map_app, <- app_assoc; reflexivity).
    replace (sm a' ++ Some y :: sm b' ++ r') with (sm (a' ++ y :: b') ++ r') by (rewrite map_app, <- app_assoc; reflexivity).
    destruct (IH (i + 1)) as (o & Eo & Ho); [lia|lia|exact Hl|]. exists o. split; [exact Eo|]. rewrite Ho.
    replace (a ++ x :: b) with ((a ++ [x]) ++ b) by now rewrite <- app_assoc. replace (a' ++ y :: b') with ((a' ++ [y]) ++ b') by now rewrite <- app_assoc.
    rewrite !skipn_app_len by (rewrite app_length; cbn [length]; unfold zlen in *; lia). split; [intros; constructor; [lia|auto]|intros F; inversion F; auto].
Qed.
Lemma forall2_len (t u : list Z) : Forall2 Z.lt t u -> zlen t = zlen u.
Proof. induction 1; [reflexivity|]. rewrite !zlen_cons. lia. Qed.
Lemma less_ok b t c u : RepB b t -> RepB c u -> exists o, less (Some b) (Some c) = Ok o /\ (o = true <-> zlen t < zlen u \/ Forall2 Z.lt t u).
Proof.
  intros (r & E & L & _) (r' & E' & L' & _). cbn [less]. rewrite L, L'. destruct (zlen t =? zlen u) eqn:El.
  - rewrite E, E'. destruct (less_from_ok t u r r' (Z.to_nat (zlen t)) 0) as (o & Eo & Ho); [lia|pose proof (zlen_nonneg t); lia|lia|]. exists o. split; [exact Eo|]. cbn [skipn Z.to_nat] in Ho. rewrite Ho. split; [tauto|]. intros [|]; [lia|auto].
  - eexists. split; [reflexivity|]. split; [lia|]. intros [H|H]; [lia|]. apply forall2_len in H. lia.
Qed.

(** Replacing. *)
Lemma glue_snoc d ps p x : glue d (ps ++ [p ++ x]) = glue d (ps ++ [p]) ++ x.
Proof.
  induction ps as [|q ps IH]; [reflexivity|]. cbn [app]. rewrite !glue_cons by (destruct ps; discriminate). rewrite IH. now rewrite <- !app_assoc.
Qed.
Lemma glue_open d ps p : glue d ((ps ++ [p]) ++ [[]]) = glue d (ps ++ [p]) ++ d.
Proof.
  induction ps as [|q ps IH]; [cbn; now rewrite app_nil_r|]. cbn [app]. rewrite !glue_cons by (destruct ps; discriminate). rewrite IH. now rewrite <- !app_assoc.
Qed.
Lemma replace_loop_ok str needle repl : needle <> [] -> zlen str * (zlen repl + 1) < 2 ^ 62 -> forall rest done mt ps p d,
  str = done ++ mt ++ rest -> (exists nr, needle = mt ++ nr /\ nr <> []) -> done = glue needle (ps ++ [p]) -> Rep d (glue repl (ps ++ [p])) ->
  zlen (glue repl (ps ++ [p])) <= zlen done * (zlen repl + 1) ->
  exists d' t, replace_loop d str needle repl rest (zlen done + zlen mt) (zlen mt) = Ok d' /\ Rep d' t /\ replaced_some needle repl str t.
Proof.
  intros Hn Hb. pose proof (zlen_nonneg repl) as Hrp. induction rest as [|c rest IH]; intros done mt ps p d Es (nr & En & Hnr) Ed Hd Hl; cbn [replace_loop]; pose proof (zlen_nonneg mt) as Hmt; pose proof (zlen_nonneg done) as Hdn.
  - rewrite app_nil_r in Es. destruct (0 <? zlen mt) eqn:E0.
    + assert (Hsl : slice str (zlen str - zlen mt) (zlen mt) = Ok mt) by (rewrite Es; apply slice_suf; rewrite ?zlen_app; lia). rewrite Hsl. cbn [bind].
      destruct (append_chars_ok _ _ mt Hd) as (d' & -> & R); [rewrite Es, zlen_app in Hb; nia|]. exists d', (glue repl (ps ++ [p ++ mt])). split; [reflexivity|]. rewrite glue_snoc. split; [exact R|].
      exists (ps ++ [p ++ mt]). rewrite !glue_snoc. split; [rewrite <- Ed; exact Es|reflexivity].
    + assert (mt = []) by (apply zlen0; lia). subst mt. rewrite app_nil_r in Es. exists d, (glue repl (ps ++ [p])). split; [reflexivity|]. split; [exact Hd|]. exists (ps ++ [p]). split; [congruence|reflexivity].
  - destruct nr as [|n0 nr]; [congruence|]. assert (Gn : get needle (zlen mt) = Ok n0) by (rewrite En; apply get_app; reflexivity). rewrite Gn. cbn [bind]. pose proof (zlen_nonneg rest) as Hrs. pose proof (zlen_nonneg nr) as Hnr0.
    assert (Hsz : zlen str = zlen done + zlen mt + 1 + zlen rest) by (rewrite Es, !zlen_app, zlen_cons; lia).
    destruct (c =? n0) eqn:Ec.
    + assert (c = n0) by lia. subst n0. assert (Ln : zlen needle = zlen mt + (1 + zlen nr)) by (rewrite En, zlen_app, zlen_cons; reflexivity). destruct (zlen mt + 1 =? zlen needle) eqn:El.
      * assert (nr = []) by (apply zlen0; lia). subst nr. destruct (append_chars_ok _ _ repl Hd) as (d' & -> & R); [nia|]. cbn [bind].
        replace (zlen done + zlen mt + 1) with (zlen (done ++ needle) + zlen (@nil Z)) by (rewrite En, !zlen_app; change (zlen [c]) with 1; change (zlen (@nil Z)) with 0; lia).
        apply (IH (done ++ needle) [] (ps ++ [p]) [] d').
        -- rewrite Es, En. cbn [app]. now rewrite <- !app_assoc.
        -- exists needle. split; [reflexivity|exact Hn].
        -- rewrite Ed. symmetry. apply glue_open.
        -- rewrite glue_open. exact R.
        -- rewrite glue_open, !zlen_app. assert (1 <= zlen needle) by (destruct needle; [congruence|rewrite zlen_cons; pose proof (zlen_nonneg needle); lia]). nia.
      * replace (zlen done + zlen mt + 1) with (zlen done + zlen (mt ++ [c])) by (rewrite zlen_app; change (zlen [c]) with 1; lia).
        replace (zlen mt + 1) with (zlen (mt ++ [c])) by (rewrite zlen_app; reflexivity).
        apply (IH done (mt ++ [c]) ps p d); auto.
        -- rewrite Es. now rewrite <- !app_assoc.
        -- exists nr. split; [rewrite <- app_assoc; exact En|]. intros ->. change (zlen (@nil Z)) with 0 in Ln. lia.
    + assert (Hflush : exists d1, (if 0 <? zlen mt then w <- slice str (zlen done + zlen mt - zlen mt) (zlen mt) ;; append_chars d w else Ok d) = Ok d1 /\ Rep d1 (glue repl (ps ++ [p]) ++ mt)).
      { destruct (0 <? zlen mt) eqn:E0.
        - assert (Hsl : slice str (zlen done + zlen mt - zlen mt) (zlen mt) = Ok mt) by (rewrite Es; apply slice_app; lia). rewrite Hsl. cbn [bind]. apply append_chars_ok; auto. nia.
        - assert (mt = []) by (apply zlen0; lia). subst mt. rewrite app_nil_r. eauto. }
      destruct Hflush as (d1 & -> & R1). cbn [bind]. destruct (append_char_ok d1 _ c R1) as (b2 & -> & R2); [rewrite zlen_app; nia|]. cbn [bind].
      replace (zlen done + zlen mt + 1) with (zlen (done ++ mt ++ [c]) + zlen (@nil Z)) by (rewrite !zlen_app; change (zlen [c]) with 1; change (zlen (@nil Z)) with 0; lia).
      apply (IH (done ++ mt ++ [c]) [] ps (p ++ mt ++ [c]) (Some b2)).
      * rewrite Es. cbn [app]. now rewrite <- !app_assoc.
      * exists needle. split; [reflexivity|exact Hn].
      * rewrite glue_snoc, <- Ed. reflexivity.
      * rewrite glue_snoc. rewrite app_assoc. exact R2.
      * rewrite glue_snoc, !zlen_app. change (zlen [c]) with 1. nia.
Qed.
Lemma clear_rep d t : Rep d t -> Rep (clear d) [].
Proof. destruct d as [b|]; [|reflexivity]. intros (rest & E & L & C). exists (cells b). auto. Qed.
Lemma map_glue x y s : exists ps, s = glue [x] ps /\ map (fun c => if c =? x then y else c) s = glue [y] ps /\ ps <> [].
Proof.
  induction s as [|c s (ps & E1 & E2 & Hne)]; [exists [[]]; split; [reflexivity|split; [reflexivity|discriminate]]|]. cbn [map]. destruct (c =? x) eqn:E.
  - exists ([] :: ps). rewrite !glue_cons by exact Hne. replace c with x by lia. cbn [app]. rewrite <- E1, <- E2. split; [reflexivity|split; [reflexivity|discriminate]].
  - destruct ps as [|p ps]; [congruence|]. exists ((c :: p) :: ps). rewrite E2. subst s. destruct ps; (split; [reflexivity|split; [reflexivity|discriminate]]).
Qed.
Lemma replace_ok d s needle repl : Rep d s -> needle <> [] -> zlen s * (zlen repl + 1) < 2 ^ 62 ->
  exists d' t, replace d needle repl = Ok d' /\ Rep d' t /\ replaced_some needle repl s t.
Proof.
  intros H Hn Hs. destruct d as [b|]; cbn [replace].
  - assert (Lb : blen b = zlen s) by (destruct H as (? & _ & L & _); exact L). destruct (blen b <? zlen needle).
    { exists (Some b), s. split; [reflexivity|]. split; [exact H|]. exists [s]. split; reflexivity. }
    destruct ((zlen needle =? 1) && (zlen repl =? 1)) eqn:E1.
    + destruct needle as [|x [|x2 ne]]; [congruence| |rewrite !zlen_cons in E1; pose proof (zlen_nonneg ne); lia].
      destruct repl as [|y [|y2 re]]; [cbn in E1; lia| |rewrite !zlen_cons in E1; pose proof (zlen_nonneg re); lia].
      change (get [x] 0) with (Ok x). change (get [y] 0) with (Ok y). cbn [bind]. destruct (replace_char_ok b s x y H) as (b' & -> & R). exists (Some b'), (map (fun c => if c =? x then y else c) s). split; [reflexivity|]. split; [exact R|].
      destruct (map_glue x y s) as (ps & P1 & P2 & _). exists ps. auto.
    + destruct (rep_view _ _ H) as [-> _]. cbn [bind]. apply (replace_loop_ok s needle repl Hn Hs s [] [] [] [] (clear (Some b))); [reflexivity|exists needle; auto|reflexivity|exact (clear_rep _ _ H)|reflexivity].
  - cbn in H. subst s. exists None, []. split; [reflexivity|]. split; [reflexivity|]. exists [[]]. split; reflexivity.
Qed.
(** One byte: every one of them. *)
Lemma replace_loop_one x repl str : zlen str * (zlen repl + 1) < 2 ^ 62 -> forall rest done d,
  str = done ++ rest -> Rep d (flat_map (fun c => if c =? x then repl else [c]) done) ->
  exists d', replace_loop d str [x] repl rest (zlen done) 0 = Ok d' /\ Rep d' (flat_map (fun c => if c =? x then repl else [c]) str).
Proof.
  intros Hs. assert (Hlen : forall l, zlen (flat_map (fun c => if c =? x then repl else [c]) l) <= zlen l * (zlen repl + 1)).
  { pose proof (zlen_nonneg repl). induction l as [|c l IH]; [reflexivity|]. cbn [flat_map]. rewrite zlen_app, zlen_cons. pose proof (zlen_nonneg l). destruct (c =? x); [|change (zlen [c]) with 1]; nia. }
  induction rest as [|c rest IH]; intros done d E H; cbn [replace_loop].
  - rewrite app_nil_r in E. subst done. exists d. split; [reflexivity|exact H].
  - change (get [x] 0) with (Ok x). cbn [bind]. change (0 + 1 =? zlen [x]) with true. change (0 <? 0) with false. cbn [bind].
    assert (Hd : done ++ [c] ++ rest = str) by (cbn [app]; auto). pose proof (Hlen done) as HLd. pose proof (zlen_nonneg repl). pose proof (zlen_nonneg done). pose proof (zlen_nonneg rest).
    assert (Hsz : zlen str = zlen done + 1 + zlen rest) by (rewrite E, zlen_app, zlen_cons; lia).
    replace (zlen done + 1) with (zlen (done ++ [c])) by (rewrite zlen_app; reflexivity).
    destruct (c =? x) eqn:Ec.
    + destruct (append_chars_ok d _ repl H) as (d' & -> & R); [nia|]. cbn [bind]. apply IH; [now rewrite <- app_assoc|]. rewrite flat_map_app. cbn [flat_map]. rewrite Ec, app_nil_r. exact R.
    + destruct (append_char_ok d _ c H) as (b' & -> & R); [nia|]. cbn [bind]. apply IH; [now rewrite <- app_assoc|]. rewrite flat_map_app. cbn [flat_map]. rewrite Ec, app_nil_r. exact R.
Qed.
Lemma replace_one_ok d s x repl : Rep d s -> zlen s * (zlen repl + 1) < 2 ^ 62 ->
  exists d', replace d [x] repl = Ok d' /\ Rep d' (flat_map (fun c => if c =? x then repl else [c]) s).
Proof.
  intros H Hs. destruct d as [b|]; cbn [replace]; [|cbn in H; subst s; exists None; split; reflexivity].
  assert (Lb : blen b = zlen s) by (destruct H as (? & _ & L & _); exact L). change (zlen [x]) with 1. destruct (blen b <? 1) eqn:E0.
  { assert (s = []) by (apply zlen0; pose proof (zlen_nonneg s); lia). subst s. exists (Some b). split; [reflexivity|exact H]. }
  destruct ((1 =? 1) && (zlen repl =? 1)) eqn:E1.
  - destruct repl as [|y [|y2 re]]; [cbn in E1; lia| |rewrite !zlen_cons in E1; pose proof (zlen_nonneg re); lia].
    change (get [x] 0) with (Ok x). change (get [y] 0) with (Ok y). cbn [bind]. destruct (replace_char_ok b s x y H) as (b' & -> & R). exists (Some b'). split; [reflexivity|].
    assert (Em : flat_map (fun c => if c =? x then [y] else [c]) s = map (fun c => if c =? x then y else c) s).
    { clear. induction s as [|c s IH]; [reflexivity|]. cbn [flat_map map]. rewrite IH. destruct (c =? x); reflexivity. }
    rewrite Em. exact R.
  - destruct (rep_view _ _ H) as [-> _]. cbn [bind]. apply (replace_loop_one x repl s Hs s [] (clear (Some b))); [reflexivity|exact (clear_rep _ _ H)].
Qed.

(** Views of the string itself. *)
Lemma reserve_same b t n : RepB b t -> 0 <= n -> zlen t + n <= cap b -> reserve (Some b) n = Ok b.
Proof.
  intros (rest & E & L & C) Hn Hc. cbn [reserve]. rewrite L, Z.mod_small by (pose proof (zlen_nonneg t); lia). replace (zlen t + n <=? cap b) with true by lia. reflexivity.
Qed.
Lemma append_own_ok b (x v y : list Z) : RepB b (x ++ v ++ y) -> zlen (x ++ v ++ y) + zlen v <= cap b ->
  exists d, append_own (Some b) (zlen x) (zlen v) = Ok d /\ Rep d ((x ++ v ++ y) ++ v).
Proof.
  intros H Hc. unfold append_own. destruct (zlen v =? 0) eqn:E0.
  { assert (v = []) by (apply zlen0; lia). subst v. exists (Some b). rewrite app_nil_r. auto. }
  rewrite (reserve_same b _ (zlen v) H) by (lia || apply zlen_nonneg). cbn [bind]. rewrite Z.eqb_refl. destruct H as (rest & E & L & C). unfold move_range. rewrite E, L.
  replace (sm (x ++ v ++ y) ++ rest) with (sm x ++ sm v ++ (sm y ++ rest)) by (rewrite !map_app, <- !app_assoc; reflexivity). rewrite read_app by apply zlen_map. cbn [bind].
  replace (sm x ++ sm v ++ sm y ++ rest) with (sm (x ++ v ++ y) ++ rest) by (rewrite !map_app, <- !app_assoc; reflexivity).
  destruct (put_end b (x ++ v ++ y) rest v) as (m & Em & R); auto.
  { unfold cap in Hc. rewrite E, (zlen_app (sm (x ++ v ++ y))), zlen_map in Hc. lia. }
  rewrite E, L in Em. rewrite Em. cbn [bind]. rewrite L in R. eexists. split; [reflexivity|exact R].
Qed.
(** The copying loop does what a move does, if the source is not behind the target. *)
Lemma copy_down_get from index : 0 <= from <= index -> forall k m, index + Z.of_nat k <= zlen m ->
  exists m', copy_down m from index k = Ok m' /\ zlen m' = zlen m /\
    forall j, 0 <= j < zlen m -> get m' j = if (index <=? j) && (j <? index + Z.of_nat k) then get m (j - index + from) else get m j.
Proof.
  intros Hf. induction k as [|k IH]; intros m Hk; cbn [copy_down].
  - exists m. split; [reflexivity|]. split; [reflexivity|]. intros j Hj. replace ((index <=? j) && (j <? index + Z.of_nat 0)) with false by lia. reflexivity.
  - destruct (get_ok m (from + Z.of_nat k)) as [x Gx]; [lia|]. rewrite Gx. cbn [bind]. destruct (set_ok m (index + Z.of_nat k) x) as [m1 Sm]; [lia|]. rewrite Sm. cbn [bind].
    pose proof (set_zlen _ _ _ _ Sm) as L1. destruct (IH m1) as (m' & -> & L' & G); [lia|]. exists m'. split; [reflexivity|]. split; [lia|]. intros j Hj. rewrite G by lia.
    destruct ((index <=? j) && (j <? index + Z.of_nat k)) eqn:E1.
    + replace ((index <=? j) && (j <? index + Z.of_nat (S k))) with true by lia. rewrite (get_set _ _ _ _ _ Sm). replace (j - index + from =? index + Z.of_nat k) with false by lia. reflexivity.
    + rewrite (get_set _ _ _ _ _ Sm). destruct (j =? index + Z.of_nat k) eqn:E2.
      * replace ((index <=? j) && (j <? index + Z.of_nat (S k))) with true by lia. rewrite <- Gx. f_equal. lia.
      * replace ((index <=? j) && (j <? index + Z.of_nat (S k))) with false by lia. reflexivity.
Qed.
Lemma get_skip {A} (m : list A) i j : 0 <= i -> 0 <= j -> get (skipn (Z.to_nat i) m) j = get m (i + j).
Proof.
  intros Hi Hj. destruct (Z_le_gt_dec i (zlen m)).
  - assert (L : zlen (firstn (Z.to_nat i) m) = i) by (apply firstn_zlen; lia). rewrite <- (firstn_skipn (Z.to_nat i) m) at 2. rewrite get_app_r by lia. rewrite L. f_equal. lia.
  - rewrite skipn_all2 by (unfold zlen in *; lia). rewrite !get_oob by (change (zlen (@nil A)) with 0; lia); reflexivity.
Qed.
Lemma copy_down_move m from index n : 0 <= from <= index -> 0 <= n -> index + n <= zlen m -> copy_down m from index (Z.to_nat n) = move_range m index from n.
Proof.
  intros Hf Hn Hi. destruct (copy_down_get from index Hf (Z.to_nat n) m) as (m' & -> & L & G); [lia|]. unfold move_range, read_range.
  replace ((0 <=? from) && (0 <=? n) && (from + n <=? zlen m)) with true by lia. cbn [bind]. unfold write_range.
  set (v := firstn (Z.to_nat n) (skipn (Z.to_nat from) m)). assert (Lv : zlen v = n) by (unfold v; rewrite firstn_zlen; [reflexivity|rewrite skipn_zlen by lia; lia]).
  rewrite Lv. replace ((0 <=? index) && (index + n <=? zlen m)) with true by lia. f_equal.
  assert (Lf : zlen (firstn (Z.to_nat index) m) = index) by (apply firstn_zlen; lia).
  apply list_ext_get; [rewrite !zlen_app, Lf, Lv, skipn_zlen by lia; lia|]. intros j Hj. rewrite G by lia. rewrite Z2Nat.id by lia.
  destruct (Z_lt_le_dec j index).
  - replace ((index <=? j) && (j <? index + n)) with false by lia. rewrite get_app_l by lia. rewrite <- (firstn_skipn (Z.to_nat index) m) at 1. rewrite get_app_l by lia. reflexivity.
  - rewrite get_app_r by lia. rewrite Lf. destruct (Z_lt_le_dec j (index + n)).
    + replace ((index <=? j) && (j <? index + n)) with true by lia. rewrite get_app_l by lia. replace (j - index + from) with (from + (j - index)) by lia. rewrite <- get_skip by lia.
      rewrite <- (firstn_skipn (Z.to_nat n) (skipn (Z.to_nat from) m)) at 1. fold v. rewrite get_app_l by lia. reflexivity.
    + replace ((index <=? j) && (j <? index + n)) with false by lia. rewrite get_app_r by lia. rewrite Lv, get_skip by lia. f_equal. lia.
Qed.
Lemma read_prefix (p q q' : list (option Z)) i n : i + n <= zlen p -> read_range (p ++ q) i n = read_range (p ++ q') i n.
Proof.
  intros H. unfold read_range. rewrite !zlen_app. pose proof (zlen_nonneg q). pose proof (zlen_nonneg q'). destruct ((0 <=? i) && (0 <=? n)) eqn:E; [|reflexivity]. cbn [andb].
  replace (i + n <=? zlen p + zlen q) with true by lia. replace (i + n <=? zlen p + zlen q') with true by lia. f_equal. destruct (split_len p i) as (a & b & -> & Ha); [lia|]. rewrite zlen_app in H.
  rewrite <- !app_assoc, !skipn_app_len by (unfold zlen in *; lia). destruct (split_len b n) as (c & d & -> & Hc); [lia|]. rewrite <- !app_assoc, !firstn_app_len by (unfold zlen in *; lia). reflexivity.
Qed.
Lemma insert_own_ok b (x v y : list Z) i : RepB b (x ++ v ++ y) -> x <> [] -> 0 <= i <= zlen (x ++ v ++ y) -> zlen (x ++ v ++ y) + zlen v <= cap b ->
  exists d, insert_own (Some b) i (zlen x) (zlen v) = Ok d /\ Rep d (take i (x ++ v ++ y) ++ v ++ drop i (x ++ v ++ y)).
Proof.
  intros H Hx Hi Hc. unfold insert_own. destruct (zlen v =? 0) eqn:E0.
  { assert (v = []) by (apply zlen0; lia). subst v. exists (Some b). cbn [app]. unfold take, drop. rewrite firstn_skipn. auto. }
  rewrite (reserve_same b _ (zlen v) H) by (lia || apply zlen_nonneg). cbn [bind]. rewrite Z.eqb_refl.
  assert (H0 : 0 < zlen x) by (destruct x; [congruence|rewrite zlen_cons; pose proof (zlen_nonneg x); lia]). replace (zlen x =? 0) with false by lia.
  destruct (cut_at _ i Hi) as (a & z & Et & La & -> & ->). destruct H as (rest & E & L & C). cbv zeta. rewrite L. replace (Z.min i (zlen (x ++ v ++ y))) with i by lia. rewrite E. subst i.
  rewrite Et. replace (zlen (a ++ z) - zlen a) with (zlen z) by (rewrite zlen_app; lia).
  assert (Hr : zlen v <= zlen rest) by (unfold cap in Hc; rewrite E, (zlen_app (sm _)), zlen_map in Hc; lia).
  pose proof (zlen_nonneg v). pose proof (zlen_nonneg y). pose proof (zlen_nonneg z).
  assert (Lt : zlen a + zlen z = zlen x + (zlen v + zlen y)) by (apply (f_equal zlen) in Et; rewrite !zlen_app in Et; lia).
  destruct (split_rest rest (zlen v)) as (r1 & r2 & -> & Hr1); [lia|]. destruct (split_rest (sm z ++ r1) (zlen v)) as (g & h & Eg & Hg); [rewrite zlen_app, zlen_map; lia|].
  assert (Hh : zlen h = zlen z) by (apply (f_equal zlen) in Eg; rewrite !zlen_app, zlen_map in Eg; lia).
  assert (Eo : sm (a ++ z) ++ r1 ++ r2 = (sm a ++ g) ++ h ++ r2) by (rewrite map_app, <- !app_assoc, (app_assoc (sm z)), Eg, <- app_assoc; reflexivity).
  assert (Em : move_range (sm (a ++ z) ++ r1 ++ r2) (zlen a + zlen v) (zlen a) (zlen z) = Ok ((sm a ++ g) ++ sm z ++ r2)).
  { unfold move_range. assert (Er : read_range (sm (a ++ z) ++ r1 ++ r2) (zlen a) (zlen z) = Ok (sm z)) by (rewrite map_app, <- app_assoc; apply read_app; apply zlen_map). rewrite Er. cbn [bind].
    rewrite Eo. apply write_app; [rewrite zlen_app, zlen_map; lia|rewrite zlen_map; exact Hh]. }
  rewrite Em. cbn [bind]. set (m := (sm a ++ g) ++ sm z ++ r2).
  assert (Lm : zlen m = zlen a + zlen v + zlen z + zlen r2) by (unfold m; rewrite !zlen_app, !zlen_map; lia).
  assert (Hput : forall src, read_range m src (zlen v) = Ok (sm v) -> move_range m (zlen a) src (zlen v) = Ok (sm a ++ sm v ++ sm z ++ r2)).
  { intros src Hs. unfold move_range. rewrite Hs. cbn [bind]. unfold m. rewrite <- app_assoc. apply write_app; [apply zlen_map|rewrite zlen_map; exact Hg]. }
  assert (Hfront : zlen x <= zlen a -> read_range m (zlen x) (zlen v) = Ok (sm v)).
  { intros Hxa. unfold m. rewrite (read_prefix (sm a ++ g) _ (h ++ r2)) by (rewrite zlen_app, zlen_map; lia). rewrite <- Eo, <- Et.
    replace (sm (x ++ v ++ y) ++ r1 ++ r2) with (sm x ++ sm v ++ (sm y ++ r1 ++ r2)) by (rewrite !map_app, <- !app_assoc; reflexivity). apply read_app; apply zlen_map. }
  assert (Hres : RepB (Block (sm a ++ sm v ++ sm z ++ r2) (zlen (a ++ z) + zlen v)) (a ++ v ++ z)).
  { exists r2. cbn [cells blen]. rewrite !map_app, <- !app_assoc. split; [reflexivity|]. rewrite !zlen_app. split; [lia|]. unfold cap in *. cbn [cells]. rewrite E in C. rewrite !zlen_app, !zlen_map, !zlen_app in *. lia. }
  assert (Hback : zlen a < zlen x -> read_range m (zlen x + zlen v) (zlen v) = Ok (sm v)).
  { intros Hax. destruct (split_len x (zlen a)) as (a' & x' & -> & La'); [pose proof (zlen_nonneg a); lia|]. rewrite <- app_assoc in Et. destruct (app_inv_len a' a (x' ++ v ++ y) z) as [Ea Ez]; [exact Et|unfold zlen in La'; lia|]; subst a'. unfold m. rewrite <- Ez.
    replace ((sm a ++ g) ++ sm (x' ++ v ++ y) ++ r2) with ((sm a ++ g ++ sm x') ++ sm v ++ (sm y ++ r2)) by (rewrite !map_app, <- !app_assoc; reflexivity).
    apply read_app; [rewrite !zlen_app, !zlen_map; lia|apply zlen_map]. }
  destruct ((zlen x <=? zlen a) && (zlen a <? zlen x + zlen v)) eqn:E1.
  - rewrite copy_down_move by (rewrite ?zlen_app, ?zlen_map; fold m; pose proof (zlen_nonneg a); pose proof (zlen_nonneg r2); rewrite ?Lm; lia). rewrite Hput by (apply Hfront; lia). cbn [bind]. eexists. split; [reflexivity|exact Hres].
  - destruct ((zlen a <=? zlen x) && (zlen x <? zlen a + zlen (a ++ z))) eqn:E2.
    + rewrite Hput by (apply Hback; lia). cbn [bind]. eexists. split; [reflexivity|exact Hres].
    + rewrite zlen_app in E2. rewrite Hput by (apply Hfront; pose proof (zlen_nonneg a); lia). cbn [bind]. eexists. split; [reflexivity|exact Hres].
Qed.

Lemma new_ok t : zlen t < 2 ^ 62 -> exists b, new t = Ok b /\ RepB b t.
Proof.
  intros H. pose proof (zlen_nonneg t). unfold new. destruct (with_capacity_rep (zlen t)) as (H1 & H2 & H3 & _); [lia|]. cbv zeta. destruct (zlen t =? 0) eqn:E.
  - assert (t = []) by (apply zlen0; lia). subst t. exists (with_capacity (zlen (@nil Z))). split; [reflexivity|]. apply with_capacity_RepB. exact (conj (Z.le_refl 0) H).
  - destruct (split_rest (cells (with_capacity (zlen t))) (zlen t)) as (r1 & r2 & Er & Hr); [unfold cap in H3; lia|]. unfold cap in H3. rewrite Er in *.
    rewrite (write_app [] r1 (sm t) r2) by (rewrite ?zlen_map; reflexivity || exact Hr). cbn [bind]. eexists. split; [reflexivity|]. exists r2. cbn [cells blen app]. unfold cap. cbn [cells].
    rewrite zlen_app, zlen_map in *. split; [reflexivity|]. split; [reflexivity|lia].
Qed.
Lemma built_rep d t : built d t -> Rep d t.
Proof.
  induction 1 as [|n Hn|t b Hs E|d t o d' _ IH Ho E|d t b _ IH E|d t e u r _ IH _ IH' Hs E|ss j r Hs E|d s needle repl r t _ IH Hn Hs E Ev].
  - reflexivity.
  - apply with_capacity_RepB. exact Hn.
  - destruct (new_ok t Hs) as (b' & E' & R). assert (b' = b) by congruence. now subst.
  - destruct (apply_ok _ _ _ IH Ho) as (b' & E' & R). assert (b' = d') by congruence. now subst.
  - destruct (copy_ok _ _ IH) as (b' & E' & R). assert (b' = b) by congruence. now subst.
  - destruct (concat_ok _ _ _ _ IH IH' Hs) as (b' & E' & R). assert (b' = r) by congruence. now subst.
  - destruct (djoin_ok ss j Hs) as (b' & E' & R). assert (b' = r) by congruence. now subst.
  - destruct (replace_ok _ _ _ _ IH Hn Hs) as (b' & t' & E' & R & _). assert (b' = r) by congruence. subst b'. destruct (rep_view _ _ R) as [V _]. assert (t' = t) by congruence. now subst.
Qed.
