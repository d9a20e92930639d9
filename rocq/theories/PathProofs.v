(** Proofs about normalize: it does, element by element, what [keep] says. *)
From Coq Require Import ZArith List Bool Lia ZifyBool Arith Wf_nat.
From Verif Require Import Mach ListAux StrModel StrSpec StrProofs PathModel PathSpec.
Import ListNotations.
Open Scope Z_scope.

Lemma same_iff a b : same a b = true <-> a = b.
Proof. unfold same. destruct (list_eq_dec Z.eq_dec a b); split; congruence. Qed.
Lemma same_refl a : same a a = true. Proof. now apply same_iff. Qed.
Lemma same_no a b : a <> b -> same a b = false. Proof. intros H. destruct (same a b) eqn:E; [|reflexivity]. apply same_iff in E. congruence. Qed.

Lemma zlen0 {A} (l : list A) : zlen l = 0 -> l = [].
Proof. destruct l; [reflexivity|]. rewrite zlen_cons. pose proof (zlen_nonneg l). lia. Qed.
(** Elements. *)
Lemma elements_inv sep s : (exists e, elements sep s = [e] /\ s = e /\ Forall (fun c => sep c = false) e) \/
  (exists e x r, elements sep s = e :: elements sep r /\ s = e ++ x :: r /\ sep x = true /\ Forall (fun c => sep c = false) e).
Proof.
  induction s as [|c s IH]; cbn [elements]; [left; exists []; auto|]. destruct (sep c) eqn:E.
  - right. exists [], c, s. auto.
  - destruct IH as [(e & -> & -> & He)|(e & x & r & -> & -> & Hx & He)]; [left; exists (c :: e)|right; exists (c :: e), x, r]; repeat match goal with |- _ /\ _ => split end; auto.
Qed.
Lemma elements_one sep e : Forall (fun c => sep c = false) e -> elements sep e = [e].
Proof. induction 1 as [|c e Hc He IH]; [reflexivity|]. cbn [elements]. rewrite Hc, IH. reflexivity. Qed.
Lemma elements_cat sep e x r : Forall (fun c => sep c = false) e -> sep x = true -> elements sep (e ++ x :: r) = e :: elements sep r.
Proof. intros He Hx. induction He as [|c e Hc He IH]; cbn [elements app]; [now rewrite Hx|]. rewrite Hc, IH. reflexivity. Qed.
Lemma elements_sep sep s : Forall (Forall (fun c => sep c = false)) (elements sep s).
Proof.
  induction s as [|c s IH]; cbn [elements]; [repeat constructor|]. destruct (sep c) eqn:E; [constructor; auto|]. destruct (elements sep s) as [|e es]; [repeat constructor; auto|]. inversion IH; subst. constructor; auto.
Qed.

(** The algorithm on elements; the names kept so far, the last first. *)
Definition dotty (e : list Z) : bool := match e with [a; _] => a =? 46 | _ => false end.
Section Keep.
Variables (resv : Z -> bool) (root : bool).
Definition keep (rc : list (list Z)) (e : list Z) : option (list (list Z)) :=
  if same e [] || same e dot then Some rc
  else if same e dotdot then
    match rc with [] => if root then None else Some [e] | c :: r => if dotty c then Some (e :: rc) else Some r end
  else if existsb resv e then None else Some (e :: rc).
Fixpoint keeps (rc : list (list Z)) (es : list (list Z)) : option (list (list Z)) :=
  match es with [] => Some rc | e :: r => match keep rc e with Some rc => keeps rc r | None => None end end.
End Keep.

Section Norm.
Variables (win root : bool) (P : list Z).
Let sepb := is_sep win.
Let sp := separator win.
Hypothesis Hroot : if root then exists P', P = P' ++ [sp] else P = [].

Lemma sp_sep : sepb sp = true. Proof. unfold sepb, sp. destruct win; reflexivity. Qed.
Lemma dot_sep : sepb 46 = false. Proof. unfold sepb. destruct win; reflexivity. Qed.
Lemma dot_resv : reserved win 46 = false. Proof. destruct win; reflexivity. Qed.

Fixpoint txt (rc : list (list Z)) : list Z := match rc with [] => [] | c :: r => txt r ++ c ++ [sp] end.
Definition good (rc : list (list Z)) : Prop := Forall (fun c => c <> [] /\ Forall (fun x => sepb x = false) c) rc.

(** State at the start of an element: the text kept, bytes no longer needed, the bytes to be read. *)
Definition At (rc : list (list Z)) (junk rest mem : list Z) (i len : Z) : Prop :=
  mem = P ++ txt rc ++ junk ++ rest /\ i = zlen P + zlen (txt rc) + zlen junk /\ len = zlen P + zlen (txt rc).

(** Copying a name. *)
Lemma copy_name rc : forall e cur junk rest k mem i len,
  mem = P ++ (txt rc ++ cur) ++ junk ++ e ++ rest -> i = zlen P + zlen (txt rc ++ cur) + zlen junk -> len = zlen P + zlen (txt rc ++ cur) ->
  Forall (fun x => sepb x = false) e -> existsb (reserved win) e = false -> zlen mem - i < Z.of_nat k ->
  exists k' junk' mem', loop win root (zlen P) k mem i len false = loop win root (zlen P) k' mem' (i + zlen e) (len + zlen e) false /\
    mem' = P ++ (txt rc ++ cur ++ e) ++ junk' ++ rest /\ zlen junk' = zlen junk /\ zlen mem - (i + zlen e) < Z.of_nat k'.
Proof.
  induction e as [|c e IH]; intros cur junk rest k mem i len Em Ei El Hs Hr Hk.
  - exists k, junk, mem. change (zlen (@nil Z)) with 0. rewrite !Z.add_0_r, app_nil_r. auto.
  - pose proof (Forall_inv Hs) as Hc. pose proof (Forall_inv_tail Hs) as Hs'. cbv beta in Hc. cbn [existsb] in Hr. apply orb_false_iff in Hr as [Hrc Hr]. pose proof (zlen_nonneg junk). pose proof (zlen_nonneg rest). pose proof (zlen_nonneg e). pose proof (zlen_nonneg P). pose proof (zlen_nonneg (txt rc ++ cur)).
    assert (Ln : zlen mem = i + 1 + zlen e + zlen rest) by (rewrite Em, !zlen_app, zlen_cons, Ei, zlen_app; lia).
    destruct k as [|k]; [lia|]. cbn [loop]. replace (zlen mem <=? i) with false by lia.
    assert (G : get mem i = Ok c).
    { rewrite Em. replace (P ++ (txt rc ++ cur) ++ junk ++ (c :: e) ++ rest) with ((P ++ (txt rc ++ cur) ++ junk) ++ c :: (e ++ rest)) by (rewrite <- !app_assoc; reflexivity). apply get_app. rewrite Ei, !zlen_app. lia. }
    rewrite G. cbn [bind]. unfold sepb in Hc. rewrite Hc, Hrc. rewrite andb_false_r. cbn [bind Z.eqb].
    assert (Hm : exists junk1 mem1, (if i =? len then Ok mem else set mem len c) = Ok mem1 /\ mem1 = P ++ (txt rc ++ cur ++ [c]) ++ junk1 ++ e ++ rest /\ zlen junk1 = zlen junk).
    { destruct (i =? len) eqn:E.
      - assert (Hj : junk = []) by (apply zlen0; lia). subst junk. exists [], mem. split; [reflexivity|]. split; [|reflexivity]. rewrite Em. cbn [app]. rewrite <- !app_assoc. reflexivity.
      - destruct junk as [|j junk]; [change (zlen (@nil Z)) with 0 in *; lia|]. exists (junk ++ [c]). eexists. split; [|split; [reflexivity|rewrite zlen_app; change (zlen [c]) with 1; rewrite zlen_cons; lia]].
        rewrite Em. replace (P ++ (txt rc ++ cur) ++ (j :: junk) ++ (c :: e) ++ rest) with ((P ++ txt rc ++ cur) ++ j :: (junk ++ c :: e ++ rest)) by (rewrite <- !app_assoc; reflexivity).
        rewrite set_app by (rewrite El, !zlen_app; lia). f_equal. rewrite <- !app_assoc. reflexivity. }
    destruct Hm as (junk1 & mem1 & -> & Em1 & Lj). cbn [bind].
    assert (Lm : zlen mem1 = zlen mem) by (rewrite Em1, Em, !zlen_app; change (zlen [c]) with 1; rewrite zlen_cons; lia).
    destruct (IH (cur ++ [c]) junk1 rest k mem1 (i + 1) (len + 1)) as (k' & junk' & mem' & -> & Em' & Lj' & Hk'); auto.
    + rewrite Ei, Lj, !zlen_app. change (zlen [c]) with 1. lia.
    + rewrite El, !zlen_app. change (zlen [c]) with 1. lia.
    + lia.
    + exists k', junk', mem'. rewrite zlen_cons. replace (i + (1 + zlen e)) with (i + 1 + zlen e) by lia. replace (len + (1 + zlen e)) with (len + 1 + zlen e) by lia. split; [reflexivity|].
      split; [rewrite Em'; rewrite <- !app_assoc; reflexivity|]. lia.
Qed.

(** What follows an element. *)
Definition ends (tl : list Z) : Prop := tl = [] \/ exists x r, tl = x :: r /\ sepb x = true.
Lemma get1 (A B : list Z) x y i : i = zlen A -> get (A ++ x :: y :: B) (i + 1) = Ok y.
Proof. intros ->. replace (A ++ x :: y :: B) with ((A ++ [x]) ++ y :: B) by now rewrite <- app_assoc. apply get_app. rewrite zlen_app. reflexivity. Qed.
Lemma get2 (A B : list Z) x y z i : i = zlen A -> get (A ++ x :: y :: z :: B) (i + 2) = Ok z.
Proof. intros ->. replace (A ++ x :: y :: z :: B) with ((A ++ [x; y]) ++ z :: B) by now rewrite <- app_assoc. apply get_app. rewrite zlen_app. reflexivity. Qed.
Lemma dots_name A e tl i : i = zlen A -> 46 :: e <> dot -> 46 :: e <> dotdot -> Forall (fun x => sepb x = false) e -> dots_at win (A ++ 46 :: e ++ tl) i = Ok 0.
Proof.
  intros Hi H1 H2 Hs. unfold dots_at. destruct e as [|a e]; [now elim H1|]. cbn [app]. rewrite zlen_app, !zlen_cons, (get1 A _ _ a) by exact Hi. pose proof (zlen_nonneg (e ++ tl)). replace (i =? zlen A + (1 + (1 + zlen (e ++ tl))) - 1) with false by lia. cbn [bind].
  pose proof (Forall_inv Hs) as Ha. cbv beta in Ha. unfold sepb in Ha. destruct (a =? 46) eqn:Ea; [|now rewrite Ha]. destruct e as [|b e]; [elim H2; unfold dotdot; repeat f_equal; lia|]. cbn [app]. rewrite zlen_cons in *.
  rewrite (get2 A _ _ _ b) by exact Hi. pose proof (zlen_nonneg (e ++ tl)). replace (i =? zlen A + (1 + (1 + (1 + zlen (e ++ tl)))) - 2) with false by lia. cbn [bind].
  pose proof (Forall_inv (Forall_inv_tail Hs)) as Hb. cbv beta in Hb. unfold sepb in Hb. now rewrite Hb.
Qed.
Lemma dots_one A tl i : i = zlen A -> ends tl -> dots_at win (A ++ 46 :: tl) i = Ok 1.
Proof.
  intros Hi [-> | (x & r & -> & Hx)]; unfold dots_at; rewrite zlen_app, !zlen_cons.
  - change (zlen (@nil Z)) with 0. now replace (i =? zlen A + (1 + 0) - 1) with true by lia.
  - rewrite (get1 A _ _ x) by exact Hi. pose proof (zlen_nonneg r). replace (i =? zlen A + (1 + (1 + zlen r)) - 1) with false by lia. cbn [bind].
    destruct (x =? 46) eqn:E; [assert (x = 46) by lia; subst; rewrite dot_sep in Hx; discriminate|]. unfold sepb in Hx. now rewrite Hx.
Qed.
Lemma dots_two A tl i : i = zlen A -> ends tl -> dots_at win (A ++ 46 :: 46 :: tl) i = Ok 2.
Proof.
  intros Hi [-> | (x & r & -> & Hx)]; unfold dots_at; rewrite zlen_app, !zlen_cons, (get1 A _ _ 46) by exact Hi; cbn [bind]; change (46 =? 46) with true; cbv iota.
  - change (zlen (@nil Z)) with 0. replace (i =? zlen A + (1 + (1 + 0)) - 1) with false by lia. now replace (i =? zlen A + (1 + (1 + 0)) - 2) with true by lia.
  - pose proof (zlen_nonneg r). rewrite (get2 A _ _ _ x) by exact Hi. replace (i =? zlen A + (1 + (1 + (1 + zlen r))) - 1) with false by lia. replace (i =? zlen A + (1 + (1 + (1 + zlen r))) - 2) with false by lia. cbn [bind]. unfold sepb in Hx. now rewrite Hx.
Qed.

(** A clean start of a name. *)
Lemma name_step rc c e tl junk k mem i len : At rc junk ((c :: e) ++ tl) mem i len -> (c = 46 -> dots_at win mem i = Ok 0) ->
  Forall (fun x => sepb x = false) (c :: e) -> existsb (reserved win) (c :: e) = false -> zlen mem - i < Z.of_nat k ->
  exists k' junk' mem', loop win root (zlen P) k mem i len true = loop win root (zlen P) k' mem' (i + zlen (c :: e)) (len + zlen (c :: e)) false /\
    mem' = P ++ (txt rc ++ c :: e) ++ junk' ++ tl /\ zlen junk' = zlen junk /\ zlen mem' = zlen mem /\ zlen mem - (i + zlen (c :: e)) < Z.of_nat k'.
Proof.
  intros (Em & Ei & El) Hd Hs Hr Hk. pose proof (Forall_inv Hs) as Hc. pose proof (Forall_inv_tail Hs) as Hs'. cbv beta in Hc. cbn [existsb] in Hr. apply orb_false_iff in Hr as [Hrc Hr].
  pose proof (zlen_nonneg junk). pose proof (zlen_nonneg tl). pose proof (zlen_nonneg e). pose proof (zlen_nonneg P). pose proof (zlen_nonneg (txt rc)).
  assert (Ln : zlen mem = i + 1 + zlen e + zlen tl) by (rewrite Em, !zlen_app, zlen_cons, Ei; lia).
  destruct k as [|k]; [lia|]. cbn [loop]. replace (zlen mem <=? i) with false by lia.
  assert (G : get mem i = Ok c).
  { rewrite Em. replace (P ++ txt rc ++ junk ++ (c :: e) ++ tl) with ((P ++ txt rc ++ junk) ++ c :: (e ++ tl)) by (rewrite <- !app_assoc; reflexivity). apply get_app. rewrite Ei, !zlen_app. lia. }
  rewrite G. cbn [bind]. unfold sepb in Hc. rewrite Hc, Hrc. rewrite andb_true_r.
  assert (Hdd : (if c =? 46 then dots_at win mem i else Ok 0) = Ok 0) by (destruct (c =? 46) eqn:E; [apply Hd; lia|reflexivity]). rewrite Hdd. cbn [bind Z.eqb].
  assert (Hm : exists junk1 mem1, (if i =? len then Ok mem else set mem len c) = Ok mem1 /\ mem1 = P ++ (txt rc ++ [c]) ++ junk1 ++ e ++ tl /\ zlen junk1 = zlen junk).
  { destruct (i =? len) eqn:E.
    - assert (Hj : junk = []) by (apply zlen0; lia). subst junk. exists [], mem. split; [reflexivity|]. split; [|reflexivity]. rewrite Em. cbn [app]. rewrite <- !app_assoc. reflexivity.
    - destruct junk as [|j junk]; [change (zlen (@nil Z)) with 0 in *; lia|]. exists (junk ++ [c]). eexists. split; [|split; [reflexivity|rewrite zlen_app; change (zlen [c]) with 1; rewrite zlen_cons; lia]].
      rewrite Em. replace (P ++ txt rc ++ (j :: junk) ++ (c :: e) ++ tl) with ((P ++ txt rc) ++ j :: (junk ++ c :: e ++ tl)) by (rewrite <- !app_assoc; reflexivity).
      rewrite set_app by (rewrite El, !zlen_app; lia). f_equal. rewrite <- !app_assoc. reflexivity. }
  destruct Hm as (junk1 & mem1 & -> & Em1 & Lj). cbn [bind].
  assert (Lm : zlen mem1 = zlen mem) by (rewrite Em1, Em, !zlen_app; change (zlen [c]) with 1; rewrite zlen_cons; lia).
  destruct (copy_name rc e [c] junk1 tl k mem1 (i + 1) (len + 1)) as (k' & junk' & mem' & -> & Em' & Lj' & Hk'); auto.
  - rewrite Ei, Lj, !zlen_app. change (zlen [c]) with 1. lia.
  - rewrite El, !zlen_app. change (zlen [c]) with 1. lia.
  - lia.
  - exists k', junk', mem'. rewrite zlen_cons. replace (i + (1 + zlen e)) with (i + 1 + zlen e) by lia. replace (len + (1 + zlen e)) with (len + 1 + zlen e) by lia. split; [reflexivity|].
    split; [exact Em'|]. split; [lia|]. split; [|lia]. rewrite Em', Ln, Ei. rewrite !zlen_app, zlen_cons. change (zlen (@nil Z)) with 0. lia.
Qed.

(** The text kept ends with its last name; keep_dots looks at that. *)
Lemma keep_dots_ok rc junk rest : good rc -> (root = true -> rc <> []) ->
  keep_dots win (zlen P) (P ++ txt rc ++ junk ++ rest) (zlen P + zlen (txt rc)) = Ok (match rc with [] => true | c :: _ => dotty c end).
Proof.
  intros Hg Hr. unfold keep_dots. destruct rc as [|c rc]; cbn [txt].
  { change (zlen (@nil Z)) with 0. now replace (zlen P + 0 =? zlen P) with true by lia. }
  destruct (Forall_inv Hg) as [Hne Hc]. rewrite !zlen_app. change (zlen [sp]) with 1. pose proof (zlen_nonneg (txt rc)). pose proof (zlen_nonneg c). pose proof (zlen_nonneg P).
  replace (zlen P + (zlen (txt rc) + (zlen c + 1)) =? zlen P) with false by lia.
  assert (G1 : get (P ++ (txt rc ++ c ++ [sp]) ++ junk ++ rest) (zlen P + (zlen (txt rc) + (zlen c + 1)) - 1) = Ok sp).
  { replace (P ++ (txt rc ++ c ++ [sp]) ++ junk ++ rest) with ((P ++ txt rc ++ c) ++ sp :: junk ++ rest) by (rewrite <- !app_assoc; reflexivity). apply get_app. rewrite !zlen_app. lia. }
  destruct c as [|a c]; [congruence|]. destruct c as [|b c].
  - (* one byte: the byte len - 3 is the separator before it, or nothing *)
    destruct (negb (3 <=? zlen P + (zlen (txt rc) + (zlen [a] + 1)) - zlen P)) eqn:E3; [reflexivity|]. rewrite G1. cbn [bind]. fold sp. rewrite Z.eqb_refl. cbn [negb].
    destruct rc as [|c' rc]; [cbn in E3; lia|]. cbn [txt].
    assert (G3 : get (P ++ ((txt rc ++ c' ++ [sp]) ++ [a] ++ [sp]) ++ junk ++ rest) (zlen P + (zlen (txt rc ++ c' ++ [sp]) + (zlen [a] + 1)) - 3) = Ok sp).
    { replace (P ++ ((txt rc ++ c' ++ [sp]) ++ [a] ++ [sp]) ++ junk ++ rest) with ((P ++ txt rc ++ c') ++ sp :: [a] ++ [sp] ++ junk ++ rest) by (rewrite <- !app_assoc; reflexivity). apply get_app. rewrite !zlen_app. change (zlen [a]) with 1. change (zlen [sp]) with 1. lia. }
    rewrite G3. cbn [bind]. destruct (sp =? 46) eqn:E; [assert (E' : sp = 46) by lia; pose proof sp_sep as Hsp; rewrite E', dot_sep in Hsp; discriminate|]. reflexivity.
  - replace (negb (3 <=? zlen P + (zlen (txt rc) + (zlen (a :: b :: c) + 1)) - zlen P)) with false by (rewrite !zlen_cons; pose proof (zlen_nonneg c); lia). rewrite G1. cbn [bind]. fold sp. rewrite Z.eqb_refl. cbn [negb].
    destruct c as [|b2 c].
    + (* two bytes *)
      assert (G3 : get (P ++ (txt rc ++ [a; b] ++ [sp]) ++ junk ++ rest) (zlen P + (zlen (txt rc) + (zlen [a; b] + 1)) - 3) = Ok a).
      { replace (P ++ (txt rc ++ [a; b] ++ [sp]) ++ junk ++ rest) with ((P ++ txt rc) ++ a :: [b] ++ [sp] ++ junk ++ rest) by (rewrite <- !app_assoc; reflexivity). apply get_app. rewrite !zlen_app. change (zlen [a; b]) with 2. lia. }
      rewrite G3. cbn [bind dotty]. destruct (a =? 46); [|reflexivity]. cbn [negb]. change (zlen [a; b]) with 2.
      destruct rc as [|c' rc]; cbn [txt].
      * destruct root; [|rewrite Hroot; reflexivity]. destruct Hroot as [P' HP]. change (zlen (@nil Z)) with 0. destruct (zlen P + (0 + (2 + 1)) - 3 =? 0); [reflexivity|].
        rewrite HP at 1. replace ((P' ++ [sp]) ++ ([] ++ [a; b] ++ [sp]) ++ junk ++ rest) with (P' ++ sp :: [a; b] ++ [sp] ++ junk ++ rest) by (rewrite <- !app_assoc; reflexivity).
        rewrite get_app by (rewrite HP, zlen_app; change (zlen [sp]) with 1; lia). cbn [bind]. now rewrite Z.eqb_refl.
      * rewrite !zlen_app in *. change (zlen [sp]) with 1 in *. pose proof (zlen_nonneg (txt rc)). pose proof (zlen_nonneg c'). replace (zlen P + (zlen (txt rc) + (zlen c' + 1) + (2 + 1)) - 3 =? 0) with false by lia.
        replace (P ++ ((txt rc ++ c' ++ [sp]) ++ [a; b] ++ [sp]) ++ junk ++ rest) with ((P ++ txt rc ++ c') ++ sp :: [a; b] ++ [sp] ++ junk ++ rest) by (rewrite <- !app_assoc; reflexivity).
        rewrite get_app by (rewrite !zlen_app; lia). cbn [bind]. now rewrite Z.eqb_refl.
    + (* more: the bytes len - 4 and len - 3 are both in the name *)
      assert (Hl : exists c0 w x y, a :: b :: b2 :: c = c0 ++ [w; x; y]).
      { destruct (exists_last_or (a :: b :: b2 :: c)) as [|(l & y & E)]; [discriminate|]. destruct (exists_last_or l) as [-> |(l1 & x & ->)]; [discriminate|]. destruct (exists_last_or l1) as [-> |(l2 & w & ->)]; [discriminate|].
        exists l2, w, x, y. rewrite E, <- !app_assoc. reflexivity. }
      destruct Hl as (c0 & w & x & y & E). cbn [dotty]. rewrite E in *. clear E. pose proof (zlen_nonneg c0). rewrite !zlen_app in *. change (zlen [w; x; y]) with 3 in *.
      replace (P ++ (txt rc ++ (c0 ++ [w; x; y]) ++ [sp]) ++ junk ++ rest) with ((P ++ txt rc ++ c0 ++ [w]) ++ x :: y :: sp :: junk ++ rest) by (rewrite <- !app_assoc; reflexivity).
      rewrite get_app by (rewrite !zlen_app; change (zlen [w]) with 1; lia). cbn [bind]. destruct (x =? 46); [|reflexivity]. cbn [negb].
      replace (zlen P + (zlen (txt rc) + (zlen c0 + 3 + 1)) - 3 =? 0) with false by lia.
      replace ((P ++ txt rc ++ c0 ++ [w]) ++ x :: y :: sp :: junk ++ rest) with ((P ++ txt rc ++ c0) ++ w :: x :: y :: sp :: junk ++ rest) by (rewrite <- !app_assoc; reflexivity).
      rewrite get_app by (rewrite !zlen_app; lia). cbn [bind]. apply Forall_app in Hc as [_ Hc]. pose proof (Forall_inv Hc) as Hw. cbv beta in Hw. destruct (w =? sp) eqn:E; [|reflexivity].
      assert (w = sp) by lia. subst w. rewrite sp_sep in Hw. discriminate.
Qed.
Lemma back_ok rc c junk : Forall (fun x => sepb x = false) c -> forall u v k, c = u ++ v -> zlen u < Z.of_nat k ->
  back win k (P ++ (txt rc ++ c) ++ junk) (zlen P) (zlen P + zlen (txt rc) + zlen u) = Ok (zlen P + zlen (txt rc)).
Proof.
  intros Hc u. induction u as [|x u IH] using rev_ind; intros v k E Hk; destruct k as [|k]; try (pose proof (zlen_nonneg (u ++ [x])); lia); try (change (zlen (@nil Z)) with 0 in Hk; lia); cbn [back]; pose proof (zlen_nonneg (txt rc)).
  - change (zlen (@nil Z)) with 0. rewrite Z.add_0_r. destruct rc as [|c' rc]; [change (zlen (txt [])) with 0; now replace (zlen P <? zlen P + 0) with false by lia|]. cbn [txt] in *. rewrite !zlen_app in *. change (zlen [sp]) with 1 in *.
    pose proof (zlen_nonneg (txt rc)). pose proof (zlen_nonneg c'). replace (zlen P <? zlen P + (zlen (txt rc) + (zlen c' + 1))) with true by lia.
    replace (P ++ ((txt rc ++ c' ++ [sp]) ++ c) ++ junk) with ((P ++ txt rc ++ c') ++ sp :: c ++ junk) by (rewrite <- !app_assoc; reflexivity). rewrite get_app by (rewrite !zlen_app; lia). cbn [bind]. pose proof sp_sep as Hsp. unfold sepb in Hsp. now rewrite Hsp.
  - rewrite zlen_app in *. change (zlen [x]) with 1 in *. pose proof (zlen_nonneg u). replace (zlen P <? zlen P + zlen (txt rc) + (zlen u + 1)) with true by lia.
    assert (G : get (P ++ (txt rc ++ c) ++ junk) (zlen P + zlen (txt rc) + (zlen u + 1) - 1) = Ok x).
    { rewrite E. replace (P ++ (txt rc ++ (u ++ [x]) ++ v) ++ junk) with ((P ++ txt rc ++ u) ++ x :: v ++ junk) by (rewrite <- !app_assoc; reflexivity). apply get_app. rewrite !zlen_app. lia. }
    rewrite G. cbn [bind]. assert (Hx : is_sep win x = false). { rewrite E in Hc. apply Forall_app in Hc as [Hc _]. apply Forall_app in Hc as [_ Hc]. exact (Forall_inv Hc). }
    rewrite Hx. replace (zlen P + zlen (txt rc) + (zlen u + 1) - 1) with (zlen P + zlen (txt rc) + zlen u) by lia. apply (IH (x :: v)); [rewrite E, <- app_assoc; reflexivity|lia].
Qed.

(** How the loop ends: with the names kept, each followed by a separator, but perhaps the last. *)
Definition Fin (rc : list (list Z)) (mem : list Z) (len : Z) : Prop :=
  (exists j, mem = P ++ txt rc ++ j /\ len = zlen P + zlen (txt rc)) \/
  (exists e r j, rc = e :: r /\ mem = P ++ txt r ++ e ++ j /\ len = zlen P + zlen (txt r) + zlen e).
Lemma loop_end k mem i len prev : zlen mem <= i -> (0 < k)%nat -> loop win root (zlen P) k mem i len prev = Ok (Some (mem, len)).
Proof. intros H Hk. destruct k; [lia|]. cbn [loop]. now replace (zlen mem <=? i) with true by lia. Qed.
Lemma existsb_split e : existsb (reserved win) e = true -> exists a c b, e = a ++ c :: b /\ existsb (reserved win) a = false /\ reserved win c = true.
Proof.
  induction e as [|c e IH]; cbn [existsb]; [discriminate|]. destruct (reserved win c) eqn:E; [intros _; exists [], c, e; auto|]. cbn [orb]. intros H. destruct (IH H) as (a & x & b & -> & Ha & Hx). exists (c :: a), x, b. cbn [existsb app]. now rewrite E, Ha.
Qed.
(** A bad byte. *)
Lemma name_bad rc e tl junk k mem i len : At rc junk (e ++ tl) mem i len -> e <> dot -> e <> dotdot ->
  Forall (fun x => sepb x = false) e -> existsb (reserved win) e = true -> zlen mem - i < Z.of_nat k -> loop win root (zlen P) k mem i len true = Ok None.
Proof.
  intros HA H1 H2 Hs Hb Hk. destruct (existsb_split e Hb) as (a & x & b & E & Ha & Hx).
  assert (Hxs : is_sep win x = false) by (rewrite E in Hs; apply Forall_app in Hs as [_ Hs]; exact (Forall_inv Hs)).
  pose proof HA as (Em & Ei & El). pose proof (zlen_nonneg junk). pose proof (zlen_nonneg tl). pose proof (zlen_nonneg a). pose proof (zlen_nonneg b). pose proof (zlen_nonneg P). pose proof (zlen_nonneg (txt rc)).
  assert (Ln : zlen mem = i + zlen a + 1 + zlen b + zlen tl) by (rewrite Em, E, !zlen_app, zlen_cons, Ei; lia).
  destruct a as [|c a].
  - cbn [app] in E. subst e. destruct k as [|k]; [lia|]. cbn [loop]. change (zlen (@nil Z)) with 0 in *. replace (zlen mem <=? i) with false by lia.
    assert (G : get mem i = Ok x). { rewrite Em. replace (P ++ txt rc ++ junk ++ (x :: b) ++ tl) with ((P ++ txt rc ++ junk) ++ x :: (b ++ tl)) by (rewrite <- !app_assoc; reflexivity). apply get_app. rewrite Ei, !zlen_app. lia. }
    rewrite G. cbn [bind]. now rewrite Hxs, Hx.
  - assert (HA' : At rc junk ((c :: a) ++ (x :: b ++ tl)) mem i len). { split; [rewrite Em, E, <- !app_assoc; reflexivity|auto]. }
    rewrite E in Hs. apply Forall_app in Hs as [Hs Hs2]. destruct (name_step rc c a (x :: b ++ tl) junk k mem i len HA') as (k' & junk' & mem' & -> & Em' & Lj & Lm & Hk'); auto.
    { intros ->. assert (Em2 : mem = (P ++ txt rc ++ junk) ++ 46 :: (a ++ x :: b) ++ tl) by (rewrite Em, E, <- !app_assoc; cbn [app]; rewrite <- ?app_assoc; reflexivity).
      rewrite Em2. apply dots_name; [rewrite Ei, !zlen_app; lia|intros Q; apply H1; rewrite E; exact Q|intros Q; apply H2; rewrite E; exact Q|]. apply Forall_app. split; [exact (Forall_inv_tail Hs)|exact Hs2]. }
    destruct k' as [|k']; [rewrite zlen_cons in *; lia|]. cbn [loop]. replace (zlen mem' <=? i + zlen (c :: a)) with false by (rewrite zlen_cons in *; lia).
    assert (G : get mem' (i + zlen (c :: a)) = Ok x). { rewrite Em'. replace (P ++ (txt rc ++ c :: a) ++ junk' ++ x :: b ++ tl) with ((P ++ (txt rc ++ c :: a) ++ junk') ++ x :: (b ++ tl)) by (rewrite <- !app_assoc; reflexivity). apply get_app. rewrite Ei, !zlen_app. lia. }
    rewrite G. cbn [bind]. now rewrite Hxs, Hx.
Qed.
Lemma loop_ok : forall es rest rc junk k mem i len, elements sepb rest = es -> At rc junk rest mem i len -> good rc -> zlen mem - i < Z.of_nat k ->
  match keeps (reserved win) root rc es with
  | Some rc' => exists mem' len', loop win root (zlen P) k mem i len true = Ok (Some (mem', len')) /\ Fin rc' mem' len' /\ zlen mem' = zlen mem /\ good rc'
  | None => loop win root (zlen P) k mem i len true = Ok None
  end.
Proof.
  induction es as [|e es IH]; intros rest rc junk k mem i len He HA Hg Hk.
  { destruct (elements_inv sepb rest) as [(e & E & _)|(e & x & r & E & _)]; rewrite E in He; discriminate. }
  assert (Hrest : exists tl, rest = e ++ tl /\ ends tl /\ Forall (fun x => sepb x = false) e /\ (tl = [] /\ es = [] \/ exists x r, tl = x :: r /\ sepb x = true /\ elements sepb r = es)).
  { destruct (elements_inv sepb rest) as [(e' & E & -> & Hs)|(e' & x & r & E & -> & Hx & Hs)]; rewrite E in He; injection He as -> <-.
    - exists []. rewrite app_nil_r. repeat match goal with |- _ /\ _ => split end; auto. now left.
    - exists (x :: r). repeat match goal with |- _ /\ _ => split end; auto; [right; eauto|right; eauto 6]. }
  destruct Hrest as (tl & -> & Hends & Hs & Htl). pose proof HA as (Em & Ei & El).
  pose proof (zlen_nonneg junk). pose proof (zlen_nonneg tl). pose proof (zlen_nonneg e). pose proof (zlen_nonneg P). pose proof (zlen_nonneg (txt rc)).
  assert (Ln : zlen mem = i + zlen e + zlen tl) by (rewrite Em, !zlen_app, Ei; lia).
  cbn [keeps]. unfold keep. destruct (same e []) eqn:Es0.
  { (* an empty element *)
    apply same_iff in Es0. subst e. cbn [orb app] in *. change (zlen (@nil Z)) with 0 in *. destruct Htl as [[-> ->]|(x & r & -> & Hx & Er)].
    - cbn [keeps]. exists mem, len. split; [apply loop_end; change (zlen (@nil Z)) with 0 in *; lia|]. split; [|auto]. left. exists junk. rewrite Em, app_nil_r. auto.
    - destruct k as [|k]; [rewrite zlen_cons in *; pose proof (zlen_nonneg r); lia|]. cbn [loop]. rewrite zlen_cons in *. pose proof (zlen_nonneg r). replace (zlen mem <=? i) with false by lia.
      assert (G : get mem i = Ok x). { rewrite Em. replace (P ++ txt rc ++ junk ++ x :: r) with ((P ++ txt rc ++ junk) ++ x :: r) by (rewrite <- !app_assoc; reflexivity). apply get_app. rewrite Ei, !zlen_app. lia. }
      rewrite G. cbn [bind]. unfold sepb in Hx. rewrite Hx. apply (IH r rc (junk ++ [x])); auto; [|lia]. split; [rewrite Em, <- !app_assoc; reflexivity|]. rewrite zlen_app. change (zlen [x]) with 1. lia. }
  destruct (same e dot) eqn:Es1.
  { (* one dot *)
    apply same_iff in Es1. subst e. cbn [orb]. change (zlen dot) with 1 in *. unfold dot in *. cbn [app] in *. destruct k as [|k]; [lia|]. cbn [loop]. replace (zlen mem <=? i) with false by lia.
    assert (Em2 : mem = (P ++ txt rc ++ junk) ++ 46 :: tl) by (rewrite Em, <- !app_assoc; reflexivity). assert (Ei2 : i = zlen (P ++ txt rc ++ junk)) by (rewrite Ei, !zlen_app; lia).
    assert (G : get mem i = Ok 46) by (rewrite Em2; apply get_app; exact Ei2). assert (D : dots_at win mem i = Ok 1) by (rewrite Em2; apply dots_one; auto).
    rewrite G. cbn [bind]. pose proof dot_sep as Hds. unfold sepb in Hds. rewrite Hds, dot_resv. change (46 =? 46) with true. cbn [andb]. rewrite D. cbn [bind Z.eqb]. change (1 =? 1) with true. cbv iota.
    destruct Htl as [[-> ->]|(x & r & -> & Hx & Er)].
    - cbn [keeps]. exists mem, len. change (zlen (@nil Z)) with 0 in *. split; [apply loop_end; lia|]. split; [|auto]. left. exists (junk ++ [46]). split; [exact Em|exact El].
    - rewrite zlen_cons in *. apply (IH r rc (junk ++ [46; x])); auto; [|lia]. split; [rewrite Em, <- !app_assoc; reflexivity|]. rewrite zlen_app. change (zlen [46; x]) with 2. lia. }
  cbn [orb]. destruct (same e dotdot) eqn:Es2.
  { (* two dots *)
    apply same_iff in Es2. subst e. change (zlen dotdot) with 2 in *. unfold dotdot in *. cbn [app] in *. destruct k as [|k]; [lia|]. cbn [loop]. replace (zlen mem <=? i) with false by lia.
    assert (Em2 : mem = (P ++ txt rc ++ junk) ++ 46 :: 46 :: tl) by (rewrite Em, <- !app_assoc; reflexivity). assert (Ei2 : i = zlen (P ++ txt rc ++ junk)) by (rewrite Ei, !zlen_app; lia).
    assert (G : get mem i = Ok 46) by (rewrite Em2; apply get_app; exact Ei2). assert (D : dots_at win mem i = Ok 2) by (rewrite Em2; apply dots_two; auto).
    rewrite G. cbn [bind]. pose proof dot_sep as Hds. unfold sepb in Hds. rewrite Hds, dot_resv. change (46 =? 46) with true. cbn [andb]. rewrite D. cbn [bind]. change (2 =? 1) with false. change (2 =? 2) with true. cbv iota.
    assert (Hz : (len =? zlen P) = match rc with [] => true | _ => false end).
    { destruct rc as [|c rc]; [change (zlen (txt [])) with 0 in *; lia|]. cbn [txt] in *. rewrite !zlen_app in *. change (zlen [sp]) with 1 in *. pose proof (zlen_nonneg (txt rc)). pose proof (zlen_nonneg c). lia. }
    rewrite Hz. destruct (match rc with [] => true | _ => false end && root) eqn:Ebad.
    { apply andb_true_iff in Ebad as [Hrc Hro]. destruct rc; [|discriminate]. rewrite Hro. reflexivity. }
    assert (Hkd : keep_dots win (zlen P) mem len = Ok (match rc with [] => true | c :: _ => dotty c end)).
    { rewrite Em, El. apply keep_dots_ok; [exact Hg|]. intros Hro ->. rewrite Hro in Ebad. discriminate. }
    rewrite Hkd. cbn [bind].
    assert (Hstep : match match rc with [] => if root then None else Some [[46; 46]] | c :: r => if dotty c then Some ([46; 46] :: rc) else Some r end with Some rc' => match rc with [] => true | c :: _ => dotty c end = true /\ rc' = [46; 46] :: rc \/ exists c r, rc = c :: r /\ dotty c = false /\ rc' = r | None => False end).
    { destruct rc as [|c r]; [destruct root; [discriminate|auto]|]. destruct (dotty c) eqn:Ed; [auto|right; eauto]. }
    destruct (match rc with [] => if root then None else Some [[46; 46]] | c :: r => if dotty c then Some ([46; 46] :: rc) else Some r end) as [rc'|]; [|contradiction].
    destruct Hstep as [[Hkeep ->]|(c & r0 & Hrc & Hd & ->)].
    - rewrite Hkeep. assert (Hg' : good ([46; 46] :: rc)) by (constructor; [split; [discriminate|repeat constructor; apply dot_sep]|exact Hg]).
      assert (Lt : zlen (txt ([46; 46] :: rc)) = zlen (txt rc) + 3) by (cbn [txt]; rewrite !zlen_app; change (zlen [46; 46]) with 2; change (zlen [sp]) with 1; lia).
      destruct junk as [|j0 junk].
      + change (zlen (@nil Z)) with 0 in *. replace (i =? len) with true by lia. cbn [bind]. destruct Htl as [[-> ->]|(x & r & -> & Hx & Er)].
        * change (zlen (@nil Z)) with 0 in *. replace (len + 2 <? zlen mem) with false by lia. cbn [keeps]. exists mem, (len + 2). split; [apply loop_end; lia|]. split; [|auto]. right. exists [46; 46], rc, []. split; [reflexivity|]. split; [exact Em|]. change (zlen [46; 46]) with 2. lia.
        * rewrite zlen_cons in *. pose proof (zlen_nonneg r). replace (len + 2 <? zlen mem) with true by lia.
          assert (Sm : set mem (len + 2) (separator win) = Ok (P ++ txt ([46; 46] :: rc) ++ [] ++ r)).
          { rewrite Em. cbn [app]. replace (P ++ txt rc ++ 46 :: 46 :: x :: r) with ((P ++ txt rc ++ [46; 46]) ++ x :: r) by (rewrite <- !app_assoc; reflexivity). rewrite set_app by (rewrite !zlen_app; change (zlen [46; 46]) with 2; lia).
            cbn [txt]. fold sp. rewrite <- !app_assoc. reflexivity. }
          rewrite Sm. cbn [bind]. set (mem2 := P ++ txt ([46; 46] :: rc) ++ [] ++ r). assert (L2 : zlen mem2 = zlen mem) by (unfold mem2; rewrite (zlen_app P), (zlen_app (txt ([46; 46] :: rc))), Lt; cbn [app]; lia).
          rewrite <- L2. apply (IH r ([46; 46] :: rc) []); auto; [|lia]. split; [reflexivity|]. change (zlen (@nil Z)) with 0. lia.
      + rewrite zlen_cons in *. pose proof (zlen_nonneg junk). replace (i =? len) with false by lia.
        assert (Hq : exists q2 q3 q, junk ++ 46 :: 46 :: tl = q2 :: q3 :: q ++ tl /\ zlen q = zlen junk).
        { destruct junk as [|a [|b junk]]; [exists 46, 46, []; auto|exists a, 46, [46]; auto|]. exists a, b, (junk ++ [46; 46]). split; [cbn [app]; rewrite <- app_assoc; reflexivity|]. rewrite zlen_app. change (zlen [46; 46]) with 2. rewrite !zlen_cons. lia. }
        destruct Hq as (q2 & q3 & q & Eq & Lq).
        assert (Em3 : mem = (P ++ txt rc) ++ j0 :: q2 :: q3 :: q ++ tl) by (rewrite Em, <- !app_assoc; cbn [app]; rewrite Eq; reflexivity).
        assert (S1 : set mem len 46 = Ok ((P ++ txt rc) ++ 46 :: q2 :: q3 :: q ++ tl)) by (rewrite Em3; apply set_app; rewrite zlen_app; lia).
        assert (S2 : set ((P ++ txt rc) ++ 46 :: q2 :: q3 :: q ++ tl) (len + 1) 46 = Ok ((P ++ txt rc) ++ 46 :: 46 :: q3 :: q ++ tl)).
        { replace ((P ++ txt rc) ++ 46 :: q2 :: q3 :: q ++ tl) with ((P ++ txt rc ++ [46]) ++ q2 :: q3 :: q ++ tl) by (rewrite <- !app_assoc; reflexivity). rewrite set_app by (rewrite !zlen_app; change (zlen [46]) with 1; lia). rewrite <- !app_assoc. reflexivity. }
        assert (S3 : set ((P ++ txt rc) ++ 46 :: 46 :: q3 :: q ++ tl) (len + 2) (separator win) = Ok (P ++ txt ([46; 46] :: rc) ++ q ++ tl)).
        { replace ((P ++ txt rc) ++ 46 :: 46 :: q3 :: q ++ tl) with ((P ++ txt rc ++ [46; 46]) ++ q3 :: q ++ tl) by (rewrite <- !app_assoc; reflexivity). rewrite set_app by (rewrite !zlen_app; change (zlen [46; 46]) with 2; lia). cbn [txt]. rewrite <- !app_assoc. reflexivity. }
        rewrite S1. cbn [bind]. rewrite S2. cbn [bind]. replace (len + 2 <? zlen mem) with true by lia. rewrite S3. cbn [bind].
        set (mem2 := P ++ txt ([46; 46] :: rc) ++ q ++ tl). assert (L2 : zlen mem2 = zlen mem) by (unfold mem2; rewrite !zlen_app, Lt, Lq; lia).
        destruct Htl as [[-> ->]|(x & r & -> & Hx & Er)].
        * change (zlen (@nil Z)) with 0 in *. cbn [keeps]. exists mem2, (len + 3). split; [apply loop_end; lia|]. split; [|auto]. left. exists (q ++ []). split; [reflexivity|lia].
        * rewrite zlen_cons in *. rewrite <- L2. apply (IH r ([46; 46] :: rc) (q ++ [x])); auto; [|lia]. split; [unfold mem2; rewrite <- !app_assoc; reflexivity|]. rewrite zlen_app. change (zlen [x]) with 1. lia.
    - rewrite Hrc in *. rewrite Hd. destruct (Forall_inv Hg) as [Hne Hc]. pose proof (Forall_inv_tail Hg) as Hg'. cbn [txt] in *. rewrite !zlen_app in El, Ei. change (zlen [sp]) with 1 in *. pose proof (zlen_nonneg c). pose proof (zlen_nonneg (txt r0)).
      assert (Hb : back win (S (length mem)) mem (zlen P) (len - 1) = Ok (zlen P + zlen (txt r0))).
      { replace (len - 1) with (zlen P + zlen (txt r0) + zlen c) by lia. assert (Em3 : mem = P ++ (txt r0 ++ c) ++ (sp :: junk ++ 46 :: 46 :: tl)) by (rewrite Em, <- !app_assoc; reflexivity).
        assert (Lm : zlen c < Z.of_nat (S (length mem))) by (unfold zlen in *; lia). revert Lm. generalize (S (length mem)). intros kk Lm. rewrite Em3. apply (back_ok r0 c _ Hc c []); [now rewrite app_nil_r|exact Lm]. }
      rewrite Hb. cbn [bind]. destruct Htl as [[-> ->]|(x & r & -> & Hx & Er)].
      + change (zlen (@nil Z)) with 0 in *. cbn [keeps]. exists mem, (zlen P + zlen (txt r0)). split; [apply loop_end; lia|]. split; [|auto]. left. exists (c ++ [sp] ++ junk ++ [46; 46]). split; [rewrite Em, <- !app_assoc; reflexivity|reflexivity].
      + rewrite zlen_cons in *. apply (IH r r0 (c ++ [sp] ++ junk ++ [46; 46; x])); auto; [|lia]. split; [rewrite Em, <- !app_assoc; reflexivity|]. rewrite !zlen_app. change (zlen [sp]) with 1. change (zlen [46; 46; x]) with 3. lia. }
  (* a name *)
  assert (H0n : e <> []) by (intros ->; discriminate). assert (H1' : e <> dot) by (intros ->; discriminate). assert (H2' : e <> dotdot) by (intros ->; discriminate).
  destruct (existsb (reserved win) e) eqn:Eb; [apply (name_bad rc e tl junk k mem i len); auto|].
  destruct e as [|c e]; [congruence|]. destruct (name_step rc c e tl junk k mem i len HA) as (k' & junk' & mem' & -> & Em' & Lj & Lm & Hk'); auto.
  { intros ->. rewrite Em. replace (P ++ txt rc ++ junk ++ (46 :: e) ++ tl) with ((P ++ txt rc ++ junk) ++ 46 :: e ++ tl) by (rewrite <- !app_assoc; reflexivity). apply dots_name; auto; [rewrite Ei, !zlen_app; lia|exact (Forall_inv_tail Hs)]. }
  assert (Hg' : good ((c :: e) :: rc)) by (constructor; auto).
  destruct Htl as [[-> ->]|(x & r & -> & Hx & Er)].
  - change (zlen (@nil Z)) with 0 in *. cbn [keeps]. exists mem', (len + zlen (c :: e)). split; [apply loop_end; lia|]. split; [|auto]. right. exists (c :: e), rc, junk'. split; [reflexivity|]. split; [rewrite Em', app_nil_r, <- !app_assoc; reflexivity|lia].
  - rewrite (zlen_cons x) in *. pose proof (zlen_nonneg r). destruct k' as [|k']; [lia|]. cbn [loop]. replace (zlen mem' <=? i + zlen (c :: e)) with false by lia.
    assert (G : get mem' (i + zlen (c :: e)) = Ok x). { rewrite Em'. replace (P ++ (txt rc ++ c :: e) ++ junk' ++ x :: r) with ((P ++ (txt rc ++ c :: e) ++ junk') ++ x :: r) by (rewrite <- !app_assoc; reflexivity). apply get_app. rewrite Ei, !zlen_app. lia. }
    rewrite G. cbn [bind]. unfold sepb in Hx. rewrite Hx.
    assert (Hq : exists q0 q, junk' ++ x :: r = q0 :: q ++ r /\ zlen q = zlen junk).
    { destruct junk' as [|a junk']; [exists x, []; auto|]. exists a, (junk' ++ [x]). split; [cbn [app]; rewrite <- app_assoc; reflexivity|]. rewrite zlen_app. change (zlen [x]) with 1. rewrite zlen_cons in Lj. lia. }
    destruct Hq as (q0 & q & Eq & Lq).
    assert (Sm : set mem' (len + zlen (c :: e)) (separator win) = Ok (P ++ txt ((c :: e) :: rc) ++ q ++ r)).
    { rewrite Em'. rewrite Eq. replace (P ++ (txt rc ++ c :: e) ++ q0 :: q ++ r) with ((P ++ txt rc ++ c :: e) ++ q0 :: q ++ r) by (rewrite <- !app_assoc; reflexivity). rewrite set_app by (rewrite !zlen_app; lia). cbn [txt]. rewrite <- !app_assoc. reflexivity. }
    rewrite Sm. cbn [bind]. set (mem2 := P ++ txt ((c :: e) :: rc) ++ q ++ r).
    assert (Lt : zlen (txt ((c :: e) :: rc)) = zlen (txt rc) + zlen (c :: e) + 1) by (cbn [txt]; rewrite !zlen_app; change (zlen [sp]) with 1; lia).
    assert (L2 : zlen mem2 = zlen mem) by (unfold mem2; rewrite !zlen_app, Lt, Lq; lia). rewrite <- L2. apply (IH r ((c :: e) :: rc) q); auto; [|lia]. split; [reflexivity|]. lia.
Qed.
End Norm.
