(** normalize as a whole, and what its work on elements means. *)
From Coq Require Import ZArith List Bool Lia ZifyBool Arith.
From Verif Require Import Mach ListAux StrModel StrSpec StrProofs PathModel PathSpec PathProofs.
Import ListNotations.
Open Scope Z_scope.

(** The algorithm on elements and the places. *)
Definition proper (e : list Z) : Prop := e <> [] /\ e <> dot.
Lemma keeps_app resv root a b rc : keeps resv root rc (a ++ b) = match keeps resv root rc a with Some rc' => keeps resv root rc' b | None => None end.
Proof. revert rc. induction a as [|e a IH]; intros rc; cbn [keeps app]; [reflexivity|]. destruct (keep resv root rc e); [apply IH|reflexivity]. Qed.
Lemma keep_proper resv root rc e rc' : Forall proper rc -> keep resv root rc e = Some rc' -> Forall proper rc'.
Proof.
  intros H. unfold keep. destruct (same e []) eqn:E0; [intros [= <-]; exact H|]. destruct (same e dot) eqn:E1; [intros [= <-]; exact H|]. cbn [orb].
  assert (P : proper e) by (split; intros ->; discriminate).
  destruct (same e dotdot) eqn:E2.
  - destruct rc as [|c r]; [destruct root; [discriminate|]; intros [= <-]; auto|]. destruct (dotty c); intros [= <-]; [auto|now inversion H].
  - destruct (existsb resv e); [discriminate|]. intros [= <-]. auto.
Qed.
Lemma dotdot_dotty e : e = dotdot -> dotty e = true. Proof. intros ->. reflexivity. Qed.
Lemma removelast_snoc {A} (l : list A) x : removelast (l ++ [x]) = l.
Proof. apply removelast_last. Qed.
Lemma walk_name root q c : proper c -> c <> dotdot -> walk root q c = Place (ups q) (names q ++ [c]).
Proof. intros [H1 H2] H3. unfold walk. now rewrite !same_no by assumption. Qed.
Lemma walk_back root q c : walk root (Place (ups q) (names q ++ [c])) dotdot = q.
Proof.
  unfold walk. change (same dotdot [] || same dotdot dot) with false. rewrite same_refl. cbn [names ups]. destruct (names q ++ [c]) eqn:En; [now destruct (names q)|]. rewrite <- En, removelast_snoc. now destruct q.
Qed.
Lemma keep_walk resv root rc e rc' : Forall proper rc -> keep resv root rc e = Some rc' ->
  fold_left (walk root) (rev rc') here = walk root (fold_left (walk root) (rev rc) here) e.
Proof.
  intros H. unfold keep.
  assert (Hpush : forall w, fold_left (walk root) (rev (w :: rc)) here = walk root (fold_left (walk root) (rev rc) here) w) by (intros w; cbn [rev]; rewrite fold_left_app; reflexivity).
  destruct (same e [] || same e dot) eqn:E0; [intros [= <-]; unfold walk at 2; now rewrite E0|].
  destruct (same e dotdot) eqn:E2.
  - destruct rc as [|c r].
    + destruct root; [discriminate|]. intros [= <-]. apply same_iff in E2. subst e. reflexivity.
    + destruct (dotty c) eqn:Ed; intros [= <-]; [apply Hpush|].
      apply same_iff in E2. subst e. cbn [rev]. rewrite fold_left_app. cbn [fold_left]. assert (Hc : proper c) by now inversion H.
      rewrite (walk_name root _ c), walk_back; [reflexivity|exact Hc|intros ->; discriminate].
  - destruct (existsb resv e); [discriminate|]. intros [= <-]. apply Hpush.
Qed.
Lemma keeps_walk resv root : forall es rc rc', Forall proper rc -> keeps resv root rc es = Some rc' ->
  fold_left (walk root) (rev rc') here = fold_left (walk root) es (fold_left (walk root) (rev rc) here) /\ Forall proper rc'.
Proof.
  induction es as [|e es IH]; intros rc rc' H; cbn [keeps fold_left]; [intros [= <-]; auto|]. destruct (keep resv root rc e) as [rc1|] eqn:E; [|discriminate]. intros Hk.
  destruct (IH _ _ (keep_proper _ _ _ _ _ H E) Hk) as [-> Hp]. split; [|exact Hp]. now rewrite (keep_walk _ _ _ _ _ H E).
Qed.
(** Kept names hold no reserved byte. *)
Lemma keeps_clean resv root : resv 46 = false -> forall es rc rc', Forall (fun e => existsb resv e = false) rc -> keeps resv root rc es = Some rc' -> Forall (fun e => existsb resv e = false) rc'.
Proof.
  intros H46. induction es as [|e es IH]; intros rc rc' H; cbn [keeps]; [intros [= <-]; exact H|]. destruct (keep resv root rc e) as [rc1|] eqn:E; [|discriminate]. apply IH. revert E. unfold keep.
  destruct (same e [] || same e dot); [intros [= <-]; exact H|]. destruct (same e dotdot) eqn:E2.
  - apply same_iff in E2. subst e. assert (existsb resv dotdot = false) by (cbn [existsb dotdot]; now rewrite H46). destruct rc as [|c r]; [destruct root; [discriminate|]; intros [= <-]; auto|]. destruct (dotty c); intros [= <-]; [auto|now inversion H].
  - destruct (existsb resv e) eqn:Er; [discriminate|]. intros [= <-]. auto.
Qed.
(** Working on the names kept changes nothing. *)
Definition stable resv root rc := keeps resv root [] (rev rc) = Some rc.
Lemma keep_stable resv root rc e rc' : resv 46 = false -> Forall proper rc -> stable resv root rc -> keep resv root rc e = Some rc' -> stable resv root rc'.
Proof.
  intros H46 Hp Hs Hk. unfold stable in *. assert (Hpush : rc' = e :: rc -> keeps resv root [] (rev rc') = Some rc') by (intros ->; cbn [rev]; rewrite keeps_app, Hs; cbn [keeps]; rewrite Hk; reflexivity).
  revert Hk Hpush. unfold keep. destruct (same e [] || same e dot) eqn:E0; [intros [= <-] _; exact Hs|]. destruct (same e dotdot) eqn:E2.
  - destruct rc as [|c r]; [destruct root; [discriminate|]; intros [= <-]; auto|]. destruct (dotty c) eqn:Ed; intros [= <-] Hpush; [auto|].
    cbn [rev] in Hs. rewrite keeps_app in Hs. destruct (keeps resv root [] (rev r)) as [r1|]; [|discriminate]. cbn [keeps] in Hs. destruct (keep resv root r1 c) as [r2|] eqn:Ek; [|discriminate]. injection Hs as ->.
    unfold keep in Ek. assert (Hc : proper c) by now inversion Hp. destruct Hc as [Hc1 Hc2]. rewrite (same_no c []), (same_no c dot), (same_no c dotdot) in Ek by (assumption || intros ->; discriminate). cbn [orb] in Ek. destruct (existsb resv c); [discriminate|]. now injection Ek as ->.
  - destruct (existsb resv e); [discriminate|]. intros [= <-]. auto.
Qed.
Lemma keeps_stable resv root : resv 46 = false -> forall es rc rc', Forall proper rc -> stable resv root rc -> keeps resv root rc es = Some rc' -> stable resv root rc'.
Proof.
  intros H46. induction es as [|e es IH]; intros rc rc' Hp Hs; cbn [keeps]; [intros [= <-]; exact Hs|]. destruct (keep resv root rc e) as [rc1|] eqn:E; [|discriminate]. apply IH; [eapply keep_proper; eauto|eapply keep_stable; eauto].
Qed.
(** Without names that look like two dots, the names kept are those of the place. *)
Lemma climbs_walk p : ups p = O -> forall e, ups (walk true p e) = O.
Proof. intros H e. unfold walk. destruct (same e [] || same e dot); [exact H|]. destruct (same e dotdot); [destruct (names p)|]; exact H. Qed.
Definition plain (e : list Z) : Prop := proper e /\ dotty e = false.
Lemma keeps_place resv root : resv 46 = false -> forall es p rc, Forall (fun e => ~ looks_like_dotdot e) es -> Forall plain (names p) -> (root = true -> ups p = O) -> rc = rev (repeat dotdot (ups p) ++ names p) ->
  keeps resv root rc es = if existsb (existsb resv) es || (root && climbs p es) then None else Some (rev (repeat dotdot (ups (fold_left (walk root) es p)) ++ names (fold_left (walk root) es p))).
Proof.
  intros H46. induction es as [|e es IH]; intros p rc Hl Hn Hu Hrc; cbn [keeps existsb climbs fold_left].
  { rewrite andb_false_r. now rewrite Hrc. }
  inversion Hl as [|e0 l0 Hle Hl']; subst e0 l0.
  assert (Hup : root = true -> ups (walk root p e) = O) by (intros Hr; rewrite Hr; apply climbs_walk; auto).
  unfold keep. destruct (same e []) eqn:E0.
  { cbn [orb]. apply same_iff in E0. subst e. cbn [existsb orb same]. unfold walk at 3. rewrite same_refl. cbn [orb].
    change (same [] dotdot) with false. cbn [andb orb]. assert (Hw : walk true p [] = p) by reflexivity. rewrite Hw. rewrite (IH p rc Hl' Hn Hu Hrc). reflexivity. }
  destruct (same e dot) eqn:E1.
  { cbn [orb]. apply same_iff in E1. subst e. change (existsb resv dot) with (resv 46 || false). rewrite H46. cbn [orb].
    change (same dot dotdot) with false. cbn [andb orb]. assert (Hw : forall b, walk b p dot = p) by reflexivity. rewrite !Hw. rewrite (IH p rc Hl' Hn Hu Hrc). reflexivity. }
  cbn [orb]. destruct (same e dotdot) eqn:E2.
  { apply same_iff in E2. subst e. change (existsb resv dotdot) with (resv 46 || (resv 46 || false)). rewrite H46. cbn [orb].
    destruct (names p) as [|n0 ns] eqn:En.
    - rewrite app_nil_r in Hrc. destruct (ups p) as [|u] eqn:Eu.
      + cbn [repeat rev] in Hrc. subst rc. cbn [andb orb]. destruct root; [rewrite orb_true_r; reflexivity|]. cbn [andb]. rewrite orb_false_r.
        rewrite (IH (walk false p dotdot) [dotdot]); auto; [cbn [andb]; rewrite orb_false_r; reflexivity|unfold walk; cbn; rewrite En; constructor|unfold walk; cbn; rewrite En, Eu; reflexivity].
      + destruct root; [discriminate (Hu eq_refl)|]. cbn [andb]. rewrite orb_false_r.
        assert (Hr : rev (repeat dotdot (S u)) = dotdot :: rev (repeat dotdot u)). { change (repeat dotdot (S u)) with (dotdot :: repeat dotdot u). rewrite repeat_cons, rev_app_distr. reflexivity. }
        rewrite Hrc, Hr. change (dotty dotdot) with true. cbv iota.
        rewrite (IH (walk false p dotdot) (dotdot :: dotdot :: rev (repeat dotdot u))); auto; [cbn [andb]; rewrite orb_false_r; reflexivity|unfold walk; cbn; rewrite En; constructor|].
        unfold walk. cbn [same]. change (same dotdot [] || same dotdot dot) with false. rewrite same_refl, En, Eu. cbn [ups names]. rewrite app_nil_r, <- Hr. change (repeat dotdot (S (S u))) with (dotdot :: repeat dotdot (S u)). rewrite repeat_cons, rev_app_distr. reflexivity.
    - destruct (exists_last (l := n0 :: ns)) as (l & c & El); [discriminate|]. rewrite El in *. rewrite app_assoc, rev_app_distr in Hrc. cbn [rev app] in Hrc. subst rc.
      apply Forall_app in Hn as [Hn Hc]. pose proof (Forall_inv Hc) as [_ Hd]. rewrite Hd. cbn [andb orb].
      assert (Hw : forall b, walk b p dotdot = Place (ups p) l). { intros b. unfold walk. change (same dotdot [] || same dotdot dot) with false. rewrite same_refl, En. cbv iota. destruct (l ++ [c]) eqn:Elc; [now destruct l|]. rewrite <- Elc, removelast_snoc. reflexivity. }
      rewrite !Hw in *. apply IH; auto. }
  destruct (existsb resv e) eqn:Er; [reflexivity|]. cbn [orb andb].
  assert (Hw : forall b, walk b p e = Place (ups p) (names p ++ [e])) by (intros b; unfold walk; rewrite E0, E1, E2; reflexivity). rewrite !Hw in *. apply IH; auto.
  - cbn [names]. apply Forall_app. split; [exact Hn|]. constructor; [|constructor]. split; [split; intros ->; discriminate|].
    destruct (dotty e) eqn:Ed; [|reflexivity]. exfalso. destruct e as [|a [|b [|]]]; try discriminate. cbn in Ed. apply Hle. exists b. split; [f_equal; lia|]. intros ->. replace a with 46 in E2 by lia. discriminate.
  - cbn [ups names]. rewrite app_assoc, rev_app_distr. cbn [rev app]. now rewrite Hrc.
Qed.

(** Texts of names. *)
Lemma glue_last d l e : l <> [] -> glue d (l ++ [e]) = glue d l ++ d ++ e.
Proof.
  induction l as [|a l IH]; [easy|]. intros _. destruct l as [|b l]; [reflexivity|]. change ((a :: b :: l) ++ [e]) with (a :: ((b :: l) ++ [e])). rewrite glue_cons by (cbn [app]; discriminate). rewrite IH by (cbn [app]; discriminate). rewrite (glue_cons d a (b :: l)) by discriminate. now rewrite <- !app_assoc.
Qed.
Lemma txt_open win e r : txt win r ++ e = glue [separator win] (rev (e :: r)).
Proof.
  revert e. induction r as [|c r IH]; intros e; [reflexivity|]. cbn [txt]. cbn [rev]. rewrite glue_last; [|intros H; apply app_eq_nil in H as [_ H]; discriminate].
  change (rev r ++ [c]) with (rev (c :: r)). rewrite <- IH, <- !app_assoc. reflexivity.
Qed.
(** The work of normalize behind the volume: P is the volume with its separator, or nothing. *)
Definition shown_at (win : bool) (P : list Z) (rc : list (list Z)) : list Z := P ++ glue [separator win] (rev rc).
Lemma txt_shape win rc : good win rc -> rc <> [] -> exists t, txt win rc = t ++ [separator win] /\ t <> [] /\ t = glue [separator win] (rev rc) /\ exists t0 x, t = t0 ++ [x] /\ is_sep win x = false.
Proof.
  intros Hg Hne. destruct rc as [|e r]; [easy|]. pose proof (Forall_inv Hg) as [He Hs]. cbn [txt]. exists (txt win r ++ e). rewrite <- app_assoc. split; [reflexivity|]. split; [destruct (txt win r); [exact He|discriminate]|]. split; [apply txt_open|].
  destruct (exists_last He) as (e0 & x & ->). exists (txt win r ++ e0), x. rewrite app_assoc. split; [reflexivity|]. apply Forall_app in Hs as [_ Hs]. exact (Forall_inv Hs).
Qed.
(** The end of normalize. *)
Definition finish (win : bool) (start n : Z) (mem : list Z) (len : Z) : Res (option (list Z * Z)) :=
  trim <- (if start + 1 <? len then c <- get mem (len - 1) ;; Ok (is_sep win c) else Ok false) ;;
  let len := if trim : bool then len - 1 else len in
  mem <- (if len <? n then set mem len 0 else Ok mem) ;;
  if len =? 0 then mem <- set mem 0 46 ;; Ok (Some (mem, 1)) else Ok (Some (mem, len)).
Definition text_of (t : list Z) : list Z := match t with [] => dot | _ => t end.
Lemma finish_end n t j len : zlen (t ++ j) = n -> 0 < n -> len = zlen t ->
  exists mem2 len2, (mem <- (if len <? n then set (t ++ j) len 0 else Ok (t ++ j)) ;; if len =? 0 then mem <- set mem 0 46 ;; Ok (Some (mem, 1)) else Ok (Some (mem, len))) = Ok (Some (mem2, len2)) /\
    path_string (mem2, len2) = text_of t /\ zlen mem2 = n /\ 0 < len2 <= n /\ (t <> [] -> mem2 = t /\ j = [] \/ exists j', mem2 = t ++ 0 :: j').
Proof.
  intros Hn H0 ->. unfold path_string. cbn [fst snd]. destruct j as [|x j].
  - rewrite app_nil_r in *. replace (zlen t <? n) with false by lia. cbn [bind]. replace (zlen t =? 0) with false by lia. exists t, (zlen t). split; [reflexivity|]. rewrite firstn_all2 by (unfold zlen; lia). split; [destruct t; [cbn in H0; subst n; cbn in H0; lia|reflexivity]|]. repeat split; auto; lia.
  - rewrite zlen_app, zlen_cons in Hn. pose proof (zlen_nonneg j). pose proof (zlen_nonneg t). replace (zlen t <? n) with true by lia. rewrite set_app by reflexivity. cbn [bind]. destruct t as [|y t].
    + change (zlen (@nil Z)) with 0 in *. cbn [Z.eqb app]. change (0 :: j) with ([] ++ 0 :: j). rewrite set_app by reflexivity. cbn [bind app]. exists (46 :: j), 1. split; [reflexivity|]. split; [reflexivity|]. split; [rewrite zlen_cons; lia|]. split; [lia|easy].
    + rewrite zlen_cons in *. pose proof (zlen_nonneg t). replace (1 + zlen t =? 0) with false by lia. exists ((y :: t) ++ 0 :: j), (1 + zlen t). split; [reflexivity|]. split; [cbn [text_of]; apply firstn_app_len; unfold zlen; cbn [length]; lia|]. split; [rewrite zlen_app, !zlen_cons; lia|]. split; [lia|eauto].
Qed.
Lemma finish_ok win (P : list Z) rc mem len n : Fin win P rc mem len -> good win rc -> zlen mem = n -> 0 < n ->
  exists mem2 len2, finish win (zlen P) n mem len = Ok (Some (mem2, len2)) /\ path_string (mem2, len2) = text_of (shown_at win P rc) /\ zlen mem2 = n /\ 0 < len2 <= n /\
    (shown_at win P rc <> [] -> mem2 = shown_at win P rc \/ exists j', mem2 = shown_at win P rc ++ 0 :: j').
Proof.
  intros HF Hg Hn H0. unfold finish. pose proof (zlen_nonneg P).
  assert (Hend : forall t j len, mem = t ++ j -> t = shown_at win P rc -> len = zlen t -> exists mem2 len2, (mem <- (if len <? n then set mem len 0 else Ok mem) ;; if len =? 0 then mem <- set mem 0 46 ;; Ok (Some (mem, 1)) else Ok (Some (mem, len))) = Ok (Some (mem2, len2)) /\
    path_string (mem2, len2) = text_of (shown_at win P rc) /\ zlen mem2 = n /\ 0 < len2 <= n /\ (shown_at win P rc <> [] -> mem2 = shown_at win P rc \/ exists j', mem2 = shown_at win P rc ++ 0 :: j')).
  { intros t j len0 -> <- El. destruct (finish_end n t j len0 Hn H0 El) as (m2 & l2 & A & B & C & D & E). exists m2, l2. repeat match goal with |- _ /\ _ => split end; auto; try lia. intros Ht. destruct (E Ht) as [[-> _] | ?]; auto. }
  destruct HF as [(j & -> & ->) | (e & r & j & -> & -> & ->)].
  - destruct rc as [|e r].
    + cbn [txt] in *. change (zlen (@nil Z)) with 0. replace (zlen P + 1 <? zlen P + 0) with false by lia. cbn [bind]. rewrite Z.add_0_r. apply (Hend P j); [reflexivity|unfold shown_at; cbn; now rewrite app_nil_r|reflexivity].
    + destruct (txt_shape win (e :: r) Hg) as (t & Et & Ht & Eg & _); [discriminate|]. rewrite Et in *. rewrite zlen_app. change (zlen [separator win]) with 1.
      assert (0 < zlen t) by (destruct t; [easy|]; rewrite zlen_cons; pose proof (zlen_nonneg t); lia). replace (zlen P + 1 <? zlen P + (zlen t + 1)) with true by lia.
      assert (G : get (P ++ (t ++ [separator win]) ++ j) (zlen P + (zlen t + 1) - 1) = Ok (separator win)).
      { replace (P ++ (t ++ [separator win]) ++ j) with ((P ++ t) ++ separator win :: j) by (rewrite <- !app_assoc; reflexivity). apply get_app. rewrite zlen_app. lia. }
      assert (Hsp : is_sep win (separator win) = true) by (destruct win; reflexivity). rewrite G. cbn [bind]. rewrite Hsp. apply (Hend (P ++ t) (separator win :: j)); [rewrite <- !app_assoc; reflexivity|unfold shown_at; now rewrite <- Eg|rewrite zlen_app; lia].
  - pose proof (Forall_inv Hg) as [He Hs]. assert (Hend2 := Hend (P ++ txt win r ++ e) j (zlen P + zlen (txt win r) + zlen e)).
    assert (T : (if zlen P + 1 <? zlen P + zlen (txt win r) + zlen e then c <- get (P ++ txt win r ++ e ++ j) (zlen P + zlen (txt win r) + zlen e - 1) ;; Ok (is_sep win c) else Ok false) = Ok false).
    { destruct (zlen P + 1 <? _); [|reflexivity]. destruct (exists_last He) as (e0 & x & ->). apply Forall_app in Hs as [_ Hs]. pose proof (Forall_inv Hs) as Hx. cbv beta in Hx.
      replace (P ++ txt win r ++ (e0 ++ [x]) ++ j) with ((P ++ txt win r ++ e0) ++ x :: j) by (rewrite <- !app_assoc; reflexivity). rewrite (get_app _ _ x) by (rewrite !zlen_app; change (zlen [x]) with 1; lia). cbn [bind]. now rewrite Hx. }
    rewrite T. cbn [bind]. apply Hend2; [rewrite <- !app_assoc; reflexivity|unfold shown_at; now rewrite <- txt_open|rewrite !zlen_app; lia].
Qed.
(** normalize behind the volume. *)
Definition fixed (win : bool) (v : list Z) : list Z := if win then map (fun c => if c =? 47 then 92 else c) v else v.
Lemma fix_volume_ok : forall v a b, fix_volume (length v) (a ++ v ++ b) (zlen a) = Ok (a ++ map (fun c => if c =? 47 then 92 else c) v ++ b).
Proof.
  induction v as [|c v IH]; intros a b; [reflexivity|]. cbn [fix_volume length app map]. rewrite get_app by reflexivity. cbn [bind].
  assert (Hm : (if c =? 47 then set (a ++ c :: v ++ b) (zlen a) 92 else Ok (a ++ c :: v ++ b)) = Ok ((a ++ [if c =? 47 then 92 else c]) ++ v ++ b)) by (destruct (c =? 47); [rewrite set_app by reflexivity|]; now rewrite <- app_assoc).
  rewrite Hm. cbn [bind]. replace (zlen a + 1) with (zlen (a ++ [if c =? 47 then 92 else c])) by (rewrite zlen_app; reflexivity). rewrite IH. now rewrite <- app_assoc.
Qed.
Definition rooted_at (win : bool) (b : list Z) : bool := match b with c :: _ => is_sep win c | [] => false end.
Definition body_at (win : bool) (b : list Z) : list Z := if rooted_at win b then tl b else b.
Lemma normalize_at win v b : b <> [] -> volume_name_len win (v ++ b) = Ok (Some (zlen v)) -> (rooted_at win b = true \/ v = []) ->
  let P := fixed win v ++ (if rooted_at win b then [separator win] else []) in
  match keeps (reserved win) (rooted_at win b) [] (elements (is_sep win) (body_at win b)) with
  | Some rc => exists mem len, normalize win (v ++ b) = Ok (Some (mem, len)) /\ path_string (mem, len) = text_of (shown_at win P rc) /\ good win rc /\ zlen mem = zlen (v ++ b) /\ 0 < len <= zlen (v ++ b) /\
      (shown_at win P rc <> [] -> mem = shown_at win P rc \/ exists j', mem = shown_at win P rc ++ 0 :: j')
  | None => normalize win (v ++ b) = Ok None
  end.
Proof.
  intros Hb Hv Hr P. unfold normalize. assert (H0 : 0 < zlen b) by (destruct b; [easy|]; rewrite zlen_cons; pose proof (zlen_nonneg b); lia). pose proof (zlen_nonneg v).
  assert (Hn : zlen (v ++ b) = zlen v + zlen b) by apply zlen_app. replace (zlen (v ++ b) =? 0) with false by lia. rewrite Hv. cbn [bind].
  assert (Lf : zlen (fixed win v) = zlen v) by (unfold fixed, zlen; destruct win; [now rewrite map_length|reflexivity]).
  assert (Hf : (if (0 <? zlen v) && win then fix_volume (Z.to_nat (zlen v)) (v ++ b) 0 else Ok (v ++ b)) = Ok (fixed win v ++ b)).
  { unfold fixed. destruct win; [|now rewrite andb_false_r]. rewrite andb_true_r. destruct (0 <? zlen v) eqn:E; [|now rewrite (zlen0 v) by lia]. replace (Z.to_nat (zlen v)) with (length v) by (unfold zlen; lia). exact (fix_volume_ok v [] b). }
  rewrite Hf. cbn [bind]. replace (zlen v =? zlen (v ++ b)) with false by lia. destruct b as [|c b']; [easy|]. rewrite <- Lf. rewrite get_app by reflexivity. cbn [bind]. cbn [rooted_at] in *. unfold body_at. cbn [rooted_at tl].
  assert (Hm : (if is_sep win c then set (fixed win v ++ c :: b') (zlen (fixed win v)) (separator win) else Ok (fixed win v ++ c :: b')) = Ok (P ++ (if is_sep win c then b' else c :: b'))).
  { unfold P. destruct (is_sep win c); [rewrite set_app by reflexivity; now rewrite <- app_assoc|now rewrite app_nil_r]. }
  rewrite Hm. cbn [bind].
  assert (Hs : (if is_sep win c then zlen (fixed win v) + 1 else zlen (fixed win v)) = zlen P) by (unfold P; destruct (is_sep win c); rewrite zlen_app; [reflexivity|change (zlen (@nil Z)) with 0; lia]). rewrite Hs.
  assert (LP : zlen (P ++ (if is_sep win c then b' else c :: b')) = zlen (v ++ c :: b')) by (rewrite zlen_app, <- Hs, zlen_app, Lf, zlen_cons; destruct (is_sep win c); rewrite ?zlen_cons; lia).
  assert (HP : if is_sep win c then exists P', P = P' ++ [separator win] else P = []). { unfold P. destruct (is_sep win c); [eauto|]. destruct Hr as [Hr | ->]; [discriminate|]. unfold fixed. now destruct win. }
  pose proof (loop_ok win (is_sep win c) P HP _ (if is_sep win c then b' else c :: b') [] [] (S (length (v ++ c :: b'))) (P ++ (if is_sep win c then b' else c :: b')) (zlen P) (zlen P) eq_refl) as L.
  pose proof (zlen_nonneg P). assert (LA : At win P [] [] (if is_sep win c then b' else c :: b') (P ++ (if is_sep win c then b' else c :: b')) (zlen P) (zlen P)) by (unfold At; cbn [txt app]; change (zlen (@nil Z)) with 0; repeat match goal with |- _ /\ _ => split end; [reflexivity|lia|lia]).
  specialize (L LA (Forall_nil _)). assert (Hk : zlen (P ++ (if is_sep win c then b' else c :: b')) - zlen P < Z.of_nat (S (length (v ++ c :: b')))) by (rewrite LP; unfold zlen; lia). specialize (L Hk). clear Hk LA.
  destruct (keeps (reserved win) (is_sep win c) [] (elements (is_sep win) (if is_sep win c then b' else c :: b'))) as [rc|].
  - destruct L as (mem & len & -> & HF & Lm & Hg). cbn [bind]. destruct (finish_ok win P rc mem len (zlen (v ++ c :: b')) HF Hg) as (m2 & l2 & A & B & C & D & E); [lia|lia|].
    exists m2, l2. split; [exact A|]. auto 6.
  - rewrite L. reflexivity.
Qed.
