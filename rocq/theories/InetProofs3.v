(** Reading IPv6 texts: soundness, completeness, bounds. *)
From Coq Require Import ZArith Bool List Lia.
From Coq Require Import ZifyBool.
From Verif Require Import Word Mach InetModel InetSpec InetProofs InetProofs2.
Import ListNotations.
Open Scope Z_scope.
Ltac Zify.zify_post_hook ::= Z.to_euclidean_division_equations.

Definition finish (r : Res (option (Z * Z * list Z))) : Res (option inet) :=
  r <- r ;;
  match r with
  | None => Ok None
  | Some (index, current, arr) =>
    if (index =? 8) && (current =? -1) then Ok (Some (Inet true arr)) else
    if negb (index =? 7) || (current <? 0) || (65535 <? current) then Ok None else
    arr <- set arr 7 current ;; Ok (Some (Inet true arr))
  end.
Definition zlof (G : list (list Z)) : Z := i32 (if first58 G || last58 G then 9 - (zlen G - 1) else 8 - (zlen G - 1)).
Notation clean G := (Forall (fun g : list Z => Forall (fun c => c <> 58) g) G).
Lemma from_groups G : G <> [] -> Forall word G -> 2 <= zlen (colon_sep G) ->
  ipv6_from_str (colon_sep G) =
  if (zlof G =? 7) && (zlen (colon_sep G) =? 2) then Ok (Some (Inet true (repeat 0 8))) else
  if 7 <? zlof G then Ok None else finish (grun (zlof G) G 0 false false (repeat 0 8)).
Proof.
  intros Hn HG Hl. assert (HC : clean G) by (revert HG; apply Forall_impl; intros g (_ & H & _); exact H).
  unfold ipv6_from_str. replace (zlen (colon_sep G) <? 2) with false by lia. destruct (first_spec G Hn HC Hl) as (f & -> & Ef). destruct (last_spec G Hn HC Hl) as (l & -> & El).
  cbn [bind]. rewrite Ef, El, colons_sep by assumption. fold (zlof G). rewrite v6_grun by assumption. reflexivity.
Qed.

(** Completeness. *)
Lemma tail_filled zl R : forall i lwc fz d, R <> [] -> filled R -> i = zlen d -> i + zlen R = 8 ->
  finish (grun zl R i lwc fz (d ++ repeat 0 (length R))) = Ok (Some (Inet true (d ++ map hex_value R))).
Proof.
  intros i lwc fz d Hn HR Hi Hl. destruct (exists_last Hn) as (R' & g & ->). apply Forall_app in HR. destruct HR as (HR & Hg). inversion Hg; subst. destruct H1 as (Hne & Hh & Hlen). rewrite zlen_app in Hl. change (zlen [g]) with 1 in Hl. 
  rewrite app_length. cbn [length]. unfold zlen in Hl. rewrite (grun_filled zl R' [g]); auto; [|discriminate|unfold zlen; lia|lia].
  replace (length R' + 1 - length R')%nat with 1%nat by lia. pose proof (hex_value_small g Hh Hlen). apply okb_spec in Hh.
  assert (E : forall lwc arr, grun zl [g] (zlen d + zlen R') lwc fz arr = Ok (Some (7, hex_value g, arr))).
  { intros b arr. cbn [grun]. destruct g; [congruence|]. rewrite Hh. replace (zlen d + zlen R' <=? 7) with true by (unfold zlen; lia). cbn [andb]. do 4 f_equal. unfold zlen. lia. }
  rewrite E. unfold finish. cbn [bind]. replace ((7 =? 8) && (hex_value g =? -1)) with false by lia. replace (negb (7 =? 7) || (hex_value g <? 0) || (65535 <? hex_value g)) with false by lia.
  cbn [repeat]. rewrite set_app; [|rewrite zlen_app; unfold zlen; rewrite map_length; lia]. cbn [bind]. rewrite map_app, <- app_assoc. reflexivity.
Qed.
Lemma repeat_split (a b : nat) : repeat 0 (a + b) = repeat 0 a ++ repeat 0 b. Proof. apply repeat_app. Qed.
Lemma zlen_repeat (k : nat) : zlen (repeat 0 k) = Z.of_nat k. Proof. unfold zlen. rewrite repeat_length. reflexivity. Qed.
Lemma first58_filled L G : filled L -> L <> [] -> first58 (L ++ G) = false.
Proof. destruct L as [|g L]; [congruence|]. intros H _. inversion H; subst. destruct H2 as (Hn & _). cbn [app first58]. destruct g; [congruence|reflexivity]. Qed.
Lemma last58_filled G R : filled R -> R <> [] -> last58 (G ++ R) = false.
Proof.
  intros H Hn. destruct (exists_last Hn) as (R' & g & ->). apply Forall_app in H. destruct H as (_ & H). inversion H; subst. destruct H2 as (Hne & _).
  unfold last58. rewrite app_assoc, rev_app_distr. cbn [rev app]. destruct g; [congruence|reflexivity].
Qed.
Lemma last58_nil G : G <> [] -> last58 (G ++ [[]]) = true.
Proof.
  intros Hn. unfold last58. rewrite rev_app_distr. cbn [rev app]. destruct (rev G) eqn:E; [|reflexivity]. apply (f_equal (@length _)) in E. rewrite rev_length in E. destruct G; [congruence|discriminate].
Qed.
Lemma colon_sep_long A B : A <> [] -> B <> [] -> zlen (colon_sep (A ++ B)) = zlen (colon_sep A) + 1 + zlen (colon_sep B).
Proof. intros. rewrite colon_sep_app, zlen_app, zlen_cons by assumption. lia. Qed.
Lemma filled_long L : filled L -> L <> [] -> 1 <= zlen (colon_sep L).
Proof.
  destruct L as [|g L]; [congruence|]. intros H _. inversion H; subst. destruct H2 as (Hn & _). destruct g as [|c g]; [congruence|]. 
  destruct L as [|g' L]; [change (colon_sep [c :: g]) with (c :: g)|change (colon_sep ((c :: g) :: g' :: L)) with (c :: (g ++ 58 :: colon_sep (g' :: L)))]; rewrite zlen_cons; match goal with |- context [zlen ?x] => pose proof (zlen_nonneg x) end; lia.
Qed.
Lemma v6_complete s gs : v6_text 2 s gs -> ipv6_from_str s = Ok (Some (Inet true gs)).
Proof.
  intros [(L & -> & HL & Hlen)|(l & r & gl & gr & k & -> & Hl & Hr & -> & Hk & Hlen)].
  - apply values_filled in HL. destruct HL as (HL & ->). rewrite map_length in Hlen. assert (Hn : L <> []) by (destruct L; [discriminate|discriminate]).
    assert (H2 : 2 <= zlen (colon_sep L)).
    { destruct L as [|a [|b L]]; try discriminate. pose proof (colon_sep_long [a] (b :: L) ltac:(discriminate) ltac:(discriminate)) as E. cbn [app] in E. rewrite E. inversion HL; subst.
      pose proof (filled_long _ H2 ltac:(discriminate)). pose proof (zlen_nonneg (colon_sep [a])). lia. }
    rewrite from_groups; auto; [|apply filled_word; assumption].
    assert (Ez : zlof L = 1). { unfold zlof. rewrite <- (app_nil_r L) at 1. rewrite first58_filled by assumption. change L with ([] ++ L) at 1. rewrite last58_filled by assumption. unfold zlen. rewrite Hlen. reflexivity. }
    rewrite Ez. cbn [Z.eqb Z.ltb Z.compare andb Pos.compare Pos.compare_cont]. pose proof (tail_filled 1 L 0 false false [] Hn HL eq_refl) as T. unfold zlen in T. rewrite Hlen in T. specialize (T eq_refl). exact T.
  - apply values_filled in Hl. apply values_filled in Hr. destruct Hl as (Hl & ->). destruct Hr as (Hr & ->). rewrite !app_length, repeat_length, !map_length in Hlen.
    assert (Hdec : forall x : list (list Z), x = [] \/ x <> []) by (intros [|? ?]; [left; reflexivity|right; discriminate]).
    destruct (Hdec l) as [->|Nl], (Hdec r) as [->|Nr].
    + cbn in Hlen. replace k with 8%nat by lia. reflexivity.
    + change (colon_sep [] ++ 58 :: 58 :: colon_sep r) with ([] ++ 58 :: [] ++ 58 :: colon_sep r). cbn [length] in Hlen.
      assert (Er : colon_sep ([[]; []] ++ r) = [] ++ 58 :: [] ++ 58 :: colon_sep r) by (rewrite colon_sep_app by (auto; discriminate); reflexivity). rewrite <- Er.
      pose proof (filled_long r Hr Nr). 
      assert (Hlong : 3 <= zlen (colon_sep ([[]; []] ++ r))) by (rewrite colon_sep_long by (auto; discriminate); cbn [colon_sep]; rewrite zlen_app; change (zlen (@nil Z)) with 0; change (zlen [58]) with 1; lia).
      rewrite from_groups; [|discriminate|constructor; [apply word_nil|constructor; [apply word_nil|apply filled_word; assumption]]|lia].
      assert (Ez : zlof ([[]; []] ++ r) = Z.of_nat k). { unfold zlof. cbn [app first58 orb]. rewrite !zlen_cons. unfold zlen. rewrite i32_small by (change (2 ^ 31) with 2147483648; lia). lia. }
      rewrite Ez. replace (zlen (colon_sep ([[]; []] ++ r)) =? 2) with false by lia. rewrite andb_false_r. destruct r as [|g r]; [congruence|]. cbn [length] in Hlen.
      replace (7 <? Z.of_nat k) with false by lia. cbn [map app].
      assert (Es : forall arr, grun (Z.of_nat k) ([] :: [] :: g :: r) 0 false false arr = grun (Z.of_nat k) (g :: r) (0 + Z.of_nat k) false true arr).
      { intros arr. cbn [grun negb]. replace (Z.of_nat k <? 2) with false by lia. reflexivity. }
      rewrite Es.
      replace 8%nat with (k + length (g :: r))%nat by (cbn [length]; lia). rewrite repeat_split. 
      change (hex_value g :: map hex_value r) with (map hex_value (g :: r)). apply tail_filled; auto; [rewrite zlen_repeat; lia|rewrite zlen_cons; unfold zlen; lia].
    + cbn [length] in Hlen. rewrite Nat.add_0_r in Hlen.
      assert (El : colon_sep (l ++ [[]; []]) = colon_sep l ++ 58 :: 58 :: colon_sep []) by (rewrite colon_sep_app by (auto; discriminate); reflexivity). rewrite <- El.
      pose proof (filled_long l Hl Nl).
      assert (Hlong : 3 <= zlen (colon_sep (l ++ [[]; []]))) by (rewrite colon_sep_long by (auto; discriminate); change (zlen (colon_sep [[]; []])) with 1; lia).
      rewrite from_groups; [|destruct l; discriminate|apply Forall_app; split; [apply filled_word; assumption|repeat constructor; apply word_nil]|lia].
      assert (Ez : zlof (l ++ [[]; []]) = Z.of_nat k). { unfold zlof. change [[]; []] with ([@nil Z] ++ [[]]). rewrite app_assoc, last58_nil by (destruct l; discriminate). rewrite orb_true_r, !zlen_app. change (zlen [@nil Z]) with 1. unfold zlen. rewrite i32_small by (change (2 ^ 31) with 2147483648; lia). lia. }
      rewrite Ez. replace (zlen (colon_sep (l ++ [[]; []])) =? 2) with false by lia. rewrite andb_false_r. assert (Nl' : (1 <= length l)%nat) by (destruct l; [congruence|cbn; lia]). replace (7 <? Z.of_nat k) with false by lia.
      change (repeat 0 8) with ([] ++ repeat 0 8). rewrite (grun_filled (Z.of_nat k) l [[]; []] 0 false false [] 8); auto; [|discriminate|lia]. replace (8 - length l)%nat with k by lia. cbn [map app]. rewrite app_nil_r. destruct l as [|g l]; [congruence|].
      cbn [grun negb]. replace (Z.of_nat k <? 2) with false by lia. unfold finish. cbn [bind]. replace (0 + zlen (g :: l) + Z.of_nat k =? 8) with true by (unfold zlen; lia). reflexivity.
    + assert (El : colon_sep (l ++ [] :: r) = colon_sep l ++ 58 :: 58 :: colon_sep r) by (rewrite colon_sep_app by (auto; discriminate); destruct r; [congruence|]; reflexivity). rewrite <- El.
      pose proof (filled_long l Hl Nl). pose proof (filled_long r Hr Nr).
      assert (Hlong : 3 <= zlen (colon_sep (l ++ [] :: r))) by (rewrite El, zlen_app, !zlen_cons; lia).
      rewrite from_groups; [|destruct l; discriminate|apply Forall_app; split; [apply filled_word; assumption|constructor; [apply word_nil|apply filled_word; assumption]]|lia].
      assert (Ez : zlof (l ++ [] :: r) = Z.of_nat k). { unfold zlof. rewrite first58_filled by assumption. change ([] :: r) with ([@nil Z] ++ r). rewrite app_assoc, last58_filled by assumption. cbn [orb]. rewrite !zlen_app. change (zlen [@nil Z]) with 1. unfold zlen. rewrite i32_small by (change (2 ^ 31) with 2147483648; lia). lia. }
      rewrite Ez. replace (zlen (colon_sep (l ++ [] :: r)) =? 2) with false by lia. rewrite andb_false_r. assert (Nl' : (1 <= length l)%nat) by (destruct l; [congruence|cbn; lia]). replace (7 <? Z.of_nat k) with false by lia.
      change (repeat 0 8) with ([] ++ repeat 0 8). rewrite (grun_filled (Z.of_nat k) l ([] :: r) 0 false false [] 8); auto; [|discriminate|lia]. replace (8 - length l)%nat with (k + length r)%nat by lia. cbn [app]. rewrite repeat_split, app_assoc. destruct l as [|g l]; [congruence|]. set (L := g :: l) in *.
      destruct r as [|g' r]; [congruence|]. set (R := g' :: r) in *.
      assert (Es : forall arr, grun (Z.of_nat k) ([] :: R) (0 + zlen L) true false arr = grun (Z.of_nat k) R (0 + zlen L + Z.of_nat k) false true arr).
      { intros arr. unfold R. cbn [grun negb]. replace (Z.of_nat k <? 2) with false by lia. reflexivity. }
      rewrite Es. rewrite tail_filled; auto; [rewrite <- app_assoc; reflexivity|rewrite zlen_app, zlen_repeat; unfold zlen; rewrite map_length; lia|unfold zlen; lia].
Qed.

(** Soundness. *)
Lemma span_groups (G : list (list Z)) : exists L R, G = L ++ R /\ Forall (fun g => g <> []) L /\ (R = [] \/ exists R', R = [] :: R').
Proof.
  induction G as [|g G (L & R & -> & HL & HR)]; [exists [], []; auto|]. destruct g as [|c g].
  - exists [], ([] :: L ++ R). repeat split; eauto.
  - exists ((c :: g) :: L), R. repeat split; auto. constructor; [discriminate|assumption].
Qed.
Lemma grun_mono zl G : forall i lwc arr idx cur a, grun zl G i lwc true arr = Ok (Some (idx, cur, a)) -> i <= idx.
Proof.
  induction G as [|g G IH]; intros i lwc arr idx cur a H; [discriminate|]. cbn [grun] in H. destruct g as [|c g], G as [|g' G].
  - injection H as <- _ _. lia.
  - destruct lwc; cbn [negb] in H; [discriminate|]. apply IH in H. lia.
  - destruct (_ && _); [|discriminate]. injection H as <- _ _. lia.
  - destruct (_ && _); [|discriminate]. destruct (set _ _ _); cbn [bind] in H; try discriminate. apply IH in H. lia.
Qed.
Lemma finish_inv r x : finish r = Ok (Some x) -> exists idx cur a, r = Ok (Some (idx, cur, a)) /\ ((idx = 8 /\ cur = -1) \/ (idx = 7 /\ 0 <= cur <= 65535)).
Proof.
  unfold finish. destruct r as [[((idx & cur) & a)|]| |]; cbn [bind]; try discriminate. intros H. exists idx, cur, a. split; [reflexivity|].
  destruct ((idx =? 8) && (cur =? -1)) eqn:E; [left; lia|]. destruct (negb (idx =? 7) || (cur <? 0) || (65535 <? cur)) eqn:F; [discriminate|]. right. lia.
Qed.
(** Nonempty groups to the end. *)
Lemma run_to_end zl R i lwc fz d x : R <> [] -> Forall (fun g => g <> [] /\ word g) R -> i = zlen d -> i <= 8 ->
  finish (grun zl R i lwc fz (d ++ repeat 0 (Z.to_nat (8 - i)))) = Ok (Some x) -> filled R /\ i + zlen R = 8 /\ x = Inet true (d ++ map hex_value R).
Proof.
  intros Hn HR Hi Hi8 H. destruct (exists_last Hn) as (R' & g & ->). destruct (finish_inv _ _ H) as (idx & cur & a & E & HE).
  apply Forall_app in HR. destruct HR as (HR & Hg). inversion Hg; subst. destruct H2 as (Hne & Hw).
  pose proof E as E0. apply grun_filled_inv in E0; [|exact HR|discriminate|reflexivity|lia]. destruct E0 as (F & Lk).
  rewrite (grun_filled zl R' [g]) in E; auto; try discriminate; try lia.
  cbn [grun] in E. destruct g as [|c g]; [congruence|]. destruct (okb (c :: g) && (zlen d + zlen R' <=? 7)) eqn:Ok; [|discriminate E]. rewrite andb_true_iff, okb_spec in Ok. destruct Ok as (Ok & Ok2).
  destruct Hw as (_ & _ & Hs). specialize (Hs Ok). pose proof (hex_value_small _ Ok Hs). injection E as E1 E2 E3.
  assert (K : zlen d + zlen (R' ++ [c :: g]) = 8) by (rewrite zlen_app; change (zlen [c :: g]) with 1; lia).
  assert (FF : filled (R' ++ [c :: g])) by (apply Forall_app; split; [assumption|constructor; [|constructor]]; repeat split; auto; discriminate).
  split; [assumption|]. split; [exact K|]. pose proof (tail_filled zl (R' ++ [c :: g]) (zlen d) lwc fz d Hn FF eq_refl K) as T.
  replace (length (R' ++ [c :: g])) with (Z.to_nat (8 - zlen d)) in T by (unfold zlen in *; lia). rewrite T in H. congruence.
Qed.
Lemma after_zeros zl G i d x : G <> [] -> Forall word G -> i = zlen d -> i <= 8 ->
  finish (grun zl G i false true (d ++ repeat 0 (Z.to_nat (8 - i)))) = Ok (Some x) ->
  (filled G /\ i + zlen G = 8 /\ x = Inet true (d ++ map hex_value G)) \/
  (G = [[]] /\ i = 8 /\ x = Inet true d) \/
  (exists L, G = [] :: L /\ L <> [] /\ filled L /\ i + zlen L = 8) \/
  (exists L, G = [] :: L ++ [[]] /\ i + zlen L = 8) \/
  (exists L, G = L ++ [[]] /\ L <> [] /\ filled L).
Proof.
  intros Hn HG Hi Hi8 H. destruct (span_groups G) as (L & R & -> & HL & HR). apply Forall_app in HG. destruct HG as (WL & WR).
  assert (HLW : Forall (fun g => g <> [] /\ word g) L) by (apply Forall_forall; intros g Hg; split; [rewrite Forall_forall in HL; auto|rewrite Forall_forall in WL; auto]).
  destruct HR as [->|(R' & ->)].
  - left. rewrite app_nil_r in *. apply (run_to_end _ _ _ _ _ _ _ Hn HLW Hi Hi8 H).
  - inversion WR; subst. destruct L as [|g L].
    + cbn [app] in *. destruct R' as [|g' R'].
      * right; left. cbn [grun] in H. destruct (finish_inv _ _ H) as (idx & cur & a & E & HE). injection E as <- <- <-. assert (K : zlen d = 8) by lia. split; [reflexivity|]. split; [exact K|].
        rewrite K in H. unfold finish in H. cbn in H. rewrite app_nil_r in H. congruence.
      * right; right. cbn [grun negb] in H. destruct (span_groups (g' :: R')) as (L & R & EL & HL' & HR'). rewrite EL in *. apply Forall_app in H3. destruct H3 as (WL' & WR').
        assert (HLW' : Forall (fun g => g <> [] /\ word g) L) by (apply Forall_forall; intros g Hg; split; [rewrite Forall_forall in HL'; auto|rewrite Forall_forall in WL'; auto]).
        change (finish (grun zl (g' :: R') (zlen d) true true (d ++ repeat 0 (Z.to_nat (8 - zlen d)))) = Ok (Some x)) in H. rewrite EL in H.
        destruct HR' as [->|(R'' & ->)].
        -- left. exists L. rewrite app_nil_r in *. assert (L <> []) by (intros ->; discriminate EL). destruct (run_to_end _ _ _ _ _ _ _ H0 HLW' eq_refl Hi8 H) as (A & B & _). auto.
        -- destruct (finish_inv _ _ H) as (idx & cur & a & E & HE). pose proof E as E0. apply grun_filled_inv in E0; [|exact HLW'|discriminate|reflexivity|lia]. destruct E0 as (F & Lk).
           rewrite (grun_filled zl L ([] :: R'')) in E; auto; try discriminate; try lia.
           replace (match L with [] => true | _ => true end) with true in E by (destruct L; reflexivity). cbn [grun negb] in E. destruct R''; [|discriminate E]. injection E as <- <- _. right; left. exists L. split; [reflexivity|lia].
    + destruct (finish_inv _ _ H) as (idx & cur & a & E & HE). pose proof E as E0. apply grun_filled_inv in E0; [|exact HLW|discriminate|reflexivity|lia]. destruct E0 as (F & Lk).
      rewrite (grun_filled zl (g :: L) ([] :: R')) in E; auto; try discriminate; try lia.
      cbn [grun negb] in E. destruct R'; [|discriminate E]. do 4 right. exists (g :: L). repeat split; auto. discriminate.
Qed.
Lemma infix_group G g : In g G -> exists p q, colon_sep G = p ++ g ++ q.
Proof.
  induction G as [|h G IH]; [intros []|]. intros [->|H].
  - destruct G; [exists [], []; cbn; rewrite app_nil_r; reflexivity|]. exists [], (58 :: colon_sep (l :: G)). reflexivity.
  - destruct (IH H) as (p & q & E). destruct G as [|h' G]; [destruct H|]. exists (h ++ 58 :: p), q. change (colon_sep (h :: h' :: G)) with (h ++ 58 :: colon_sep (h' :: G)). rewrite E, <- app_assoc. reflexivity.
Qed.
Lemma groups_words s G : s = colon_sep G -> clean G -> Forall byte s -> short_runs 5 hexes s -> Forall word G.
Proof.
  intros -> HC HB HS. apply Forall_forall. intros g Hg. destruct (infix_group G g Hg) as (p & q & E). repeat split.
  - rewrite E in HB. apply Forall_app in HB. destruct HB as (_ & HB). apply Forall_app in HB. apply HB.
  - rewrite Forall_forall in HC. auto.
  - intros Hh. specialize (HS p g q E Hh). lia.
Qed.
Lemma lone_last A g : g <> [] -> Forall (fun c => c <> 58) g -> lone_colon_at_end (colon_sep (A ++ [g; []])).
Proof.
  intros Hn Hg. right. destruct (exists_last Hn) as (g' & c & ->). apply Forall_app in Hg. destruct Hg as (_ & Hg). inversion Hg; subst.
  destruct A as [|a A].
  - exists c, g'. cbn [app colon_sep]. rewrite <- app_assoc. auto.
  - exists c, (colon_sep (a :: A) ++ 58 :: g'). rewrite colon_sep_app by discriminate. cbn [colon_sep]. rewrite <- !app_assoc. cbn [app]. auto.
Qed.
Lemma lone_last_list L : L <> [] -> Forall (fun g => g <> []) L -> clean L -> forall A, lone_colon_at_end (colon_sep (A ++ L ++ [[]])).
Proof.
  intros Hn HL HC A. destruct (exists_last Hn) as (L' & g & ->). apply Forall_app in HL, HC. destruct HL as (_ & HL), HC as (_ & HC). inversion HL; subst. inversion HC; subst.
  rewrite <- (app_assoc L'). cbn [app]. rewrite app_assoc. apply lone_last; assumption.
Qed.
Lemma v6_sound s x : Forall byte s -> short_runs 5 hexes s -> ~ lone_colon_at_end s -> ipv6_from_str s = Ok (Some x) -> exists gs, v6_text 2 s gs /\ x = Inet true gs.
Proof.
  intros HB HS HLone H. destruct (split_colons s) as (G & -> & Hn & HC). pose proof (groups_words _ _ eq_refl HC HB HS) as HW.
  assert (H2 : 2 <= zlen (colon_sep G)) by (destruct (Z.ltb_spec (zlen (colon_sep G)) 2); [|lia]; unfold ipv6_from_str in H; replace (zlen (colon_sep G) <? 2) with true in H by lia; discriminate H).
  rewrite from_groups in H by assumption. destruct ((zlof G =? 7) && (zlen (colon_sep G) =? 2)) eqn:E1.
  { injection H as <-. exists (repeat 0 8). split; [|reflexivity]. right. exists [], [], [], [], 8%nat. repeat split; try constructor; try lia.
    assert (Ez : zlof G = 7) by lia. assert (El : zlen (colon_sep G) = 2) by lia. clear E1. cbn [colon_sep app].
    assert (Lc : zlen G <= 3).
    { pose proof (colons_sep G Hn HC) as K. unfold colons in K. assert (zlen (filter (Z.eqb 58) (colon_sep G)) <= zlen (colon_sep G)); [|lia]. unfold zlen. clear. generalize (colon_sep G). intros l. induction l as [|a l IH]; [cbn; lia|]. cbn [filter length]. destruct (58 =? a); cbn [length]; lia. }
    unfold zlof in Ez. rewrite i32_small in Ez by (change (2 ^ 31) with 2147483648; pose proof (zlen_nonneg G); destruct (first58 G || last58 G); lia).
    destruct G as [|g1 [|g2 [|g3 [|g4 G]]]]; try (unfold zlen in Lc; cbn in Lc; lia); try congruence.
    - destruct (_ || _); discriminate Ez.
    - destruct g1 as [|c1 g1], g2 as [|c2 g2]; cbn [first58 last58 rev app orb] in Ez; try discriminate Ez. cbn [colon_sep app] in El. rewrite zlen_cons, zlen_app, !zlen_cons in El. pose proof (zlen_nonneg g1). pose proof (zlen_nonneg g2). lia.
    - destruct (_ || _) eqn:EE in Ez; [|discriminate Ez]. cbn [colon_sep] in El. rewrite !zlen_app, !zlen_cons, !zlen_app, !zlen_cons in El.
      destruct g1, g2, g3; try reflexivity; rewrite ?zlen_cons in El; repeat match type of El with context [zlen ?l] => lazymatch goal with H : 0 <= zlen l |- _ => fail | _ => pose proof (zlen_nonneg l) end end; try lia. }
  destruct (Z.ltb_spec 7 (zlof G)) as [|Hz]; [discriminate|]. clear E1.
  destruct (span_groups G) as (L & R & EG & HL & HR). 
  assert (HW' := HW). assert (HC' := HC). rewrite EG in HW', HC'. apply Forall_app in HW', HC'. destruct HW' as (WL & WR), HC' as (CL & CR).
  assert (HLW : Forall (fun g => g <> [] /\ word g) L) by (apply Forall_forall; intros g Hg; split; [rewrite Forall_forall in HL; auto|rewrite Forall_forall in WL; auto]).
  change (repeat 0 8) with ([] ++ repeat 0 8) in H.
  destruct HR as [->|(R' & ->)].
  - rewrite app_nil_r in EG. subst L. destruct (run_to_end _ _ 0 _ _ [] _ Hn HLW eq_refl ltac:(lia) H) as (F & K & ->). exists (map hex_value G). split; [|reflexivity].
    left. exists G. split; [reflexivity|]. split; [apply filled_values; assumption|rewrite map_length; unfold zlen in K; lia].
  - destruct L as [|g0 L0].
    + cbn [app] in EG. destruct R' as [|g1 R']; [subst G; cbn in H2; lia|]. destruct g1 as [|c1 g1].
      2: { exfalso. apply HLone. left. exists c1, (match R' with [] => g1 | _ => g1 ++ 58 :: colon_sep R' end). pose proof (Forall_inv (Forall_inv (Forall_inv_tail CR))) as Hc1. subst G. split; [destruct R'; reflexivity|exact Hc1]. }
      destruct R' as [|g2 R']; [subst G; cbn in H2; lia|]. set (G2 := g2 :: R') in *. pose proof (Forall_inv_tail (Forall_inv_tail WR)) as WG2. subst G.
      cbn [grun negb] in H. destruct (Z.ltb_spec (zlof ([] :: [] :: G2)) 2) as [|Hz2]; [discriminate|]. set (zl := zlof ([] :: [] :: G2)) in *.
      change (finish (grun zl G2 (0 + zl) false true ([] ++ repeat 0 8)) = Ok (Some x)) in H. cbn [app] in H.
      replace (repeat 0 8) with (repeat 0 (Z.to_nat zl) ++ repeat 0 (Z.to_nat (8 - (0 + zl)))) in H by (rewrite <- repeat_split; f_equal; lia).
      apply after_zeros in H; [|discriminate|assumption|rewrite zlen_repeat; lia|lia].
      assert (Ezl : zl = i32 (9 - (1 + zlen G2))) by (unfold zl, zlof; cbn [first58 orb]; rewrite !zlen_cons; f_equal; lia).
      destruct H as [(F & K & ->)|[(-> & K & _)|[(L & EL & NL & FL & K)|[(L & EL & K)|(L & EL & NL & FL)]]]].
      * eexists. split; [|reflexivity]. right. exists [], G2, [], (map hex_value G2), (Z.to_nat zl). repeat split.
        -- constructor.
        -- apply filled_values; assumption.
        -- lia.
        -- rewrite app_length. cbn [app length]. rewrite repeat_length, map_length. unfold zlen in K. lia.
      * exfalso. rewrite Ezl in K. change (i32 (9 - (1 + zlen [@nil Z]))) with 7 in K. lia.
      * exfalso. rewrite EL, zlen_cons in Ezl. rewrite i32_small in Ezl by (change (2 ^ 31) with 2147483648; pose proof (zlen_nonneg L); lia). lia.
      * exfalso. rewrite EL, zlen_cons, zlen_app in Ezl. change (zlen [@nil Z]) with 1 in Ezl. rewrite i32_small in Ezl by (change (2 ^ 31) with 2147483648; pose proof (zlen_nonneg L); lia). lia.
      * exfalso. apply HLone. rewrite EL. apply (lone_last_list L NL) with (A := [[]; []]); [revert FL; apply Forall_impl; intros g (Hne & _); exact Hne|apply filled_no_colon; assumption].
    + set (L := g0 :: L0) in *. assert (NL : L <> []) by discriminate.
      destruct R' as [|g2 R']; [exfalso; apply HLone; rewrite EG; apply (lone_last_list L NL) with (A := []); assumption|]. set (G2 := g2 :: R') in *.
      set (zl := zlof G) in *. destruct (finish_inv _ _ H) as (idx & cur & a & E & HE). rewrite EG in E. pose proof E as E0. apply grun_filled_inv in E0; [|exact HLW|discriminate|reflexivity|lia]. destruct E0 as (F & Lk).
      rewrite EG in H.
      rewrite (grun_filled _ L ([] :: G2)) in H, E; auto; try discriminate; try lia. replace (match L with [] => false | _ => true end) with true in H, E by reflexivity.
      cbn [app] in H, E.
      assert (Es : forall arr, grun zl ([] :: G2) (0 + zlen L) true false arr = if zl <? 2 then Ok None else grun zl G2 (zlen L + zl) false true arr) by reflexivity.
      rewrite Es in H, E. destruct (Z.ltb_spec zl 2) as [|Hz2]; [discriminate|].
      pose proof (grun_mono _ _ _ _ _ _ _ _ E) as Hm. assert (Hi8 : zlen L + zl <= 8) by lia.
      replace (repeat 0 (8 - length L)) with (repeat 0 (Z.to_nat zl) ++ repeat 0 (Z.to_nat (8 - (zlen L + zl)))) in H by (rewrite <- repeat_split; f_equal; unfold zlen in *; lia).
      rewrite app_assoc in H.
      apply after_zeros in H; [|discriminate|inversion WR; assumption|rewrite zlen_app, zlen_repeat; unfold zlen; rewrite map_length; lia|lia].
      assert (Ef : first58 G = false) by (rewrite EG; apply first58_filled; assumption).
      assert (Hlen : zlen G = zlen L + 1 + zlen G2) by (rewrite EG, zlen_app, zlen_cons; lia).
      assert (LL : 0 <= zlen L <= 8) by (unfold zlen; lia).
      destruct H as [(F2 & K & ->)|[(EL & K & ->)|[(M & EL & NM & FM & K)|[(M & EL & K)|(M & EL & NM & FM)]]]].
      * eexists. split; [|reflexivity]. right. exists L, G2, (map hex_value L), (map hex_value G2), (Z.to_nat zl). repeat split.
        -- rewrite EG, colon_sep_app by discriminate. reflexivity.
        -- apply filled_values; assumption.
        -- apply filled_values; assumption.
        -- rewrite <- app_assoc. reflexivity.
        -- lia.
        -- rewrite <- app_assoc. rewrite !app_length, repeat_length, !map_length. unfold zlen in K. lia.
      * eexists. split; [|reflexivity]. right. exists L, [], (map hex_value L), [], (Z.to_nat zl). repeat split.
        -- rewrite EG, EL, colon_sep_app by discriminate. reflexivity.
        -- apply filled_values; assumption.
        -- constructor.
        -- rewrite app_nil_r. reflexivity.
        -- lia.
        -- rewrite !app_length, repeat_length, !map_length. unfold zlen in K. lia.
      * exfalso. assert (El : last58 G = false) by (rewrite EG, EL; change ([] :: [] :: M) with ([[]; @nil Z] ++ M); rewrite app_assoc; apply last58_filled; assumption).
        assert (Ez : zl = i32 (8 - (zlen G - 1))) by (unfold zl, zlof; rewrite Ef, El; reflexivity). rewrite Hlen, EL, zlen_cons in Ez. pose proof (zlen_nonneg M).
        rewrite i32_small in Ez by (change (2 ^ 31) with 2147483648; lia). lia.
      * exfalso. assert (El : last58 G = true) by (rewrite EG, EL; change ([] :: [] :: M ++ [[]]) with (([[]; @nil Z] ++ M) ++ [[]]); rewrite app_assoc; apply last58_nil; discriminate).
        assert (Ez : zl = i32 (9 - (zlen G - 1))) by (unfold zl, zlof; rewrite Ef, El; reflexivity). rewrite Hlen, EL, zlen_cons, zlen_app in Ez. change (zlen [@nil Z]) with 1 in Ez. pose proof (zlen_nonneg M).
        rewrite i32_small in Ez by (change (2 ^ 31) with 2147483648; lia). lia.
      * exfalso. apply HLone. rewrite EG, EL. change ([] :: M ++ [[]]) with ([[]] ++ M ++ [[]]). rewrite app_assoc. apply lone_last_list; auto; [revert FM; apply Forall_impl; intros g (Hne & _); exact Hne|apply filled_no_colon; assumption].
Qed.

(** Never out of bounds, for any bytes. *)
Lemma set_len (l : list Z) i v : 0 <= i < zlen l -> exists l', set l i v = Ok l' /\ zlen l' = zlen l.
Proof. intros H. unfold set. replace ((0 <=? i) && (i <? zlen l)) with true by lia. eexists. split; [reflexivity|]. unfold zlen. rewrite upd_length. reflexivity. Qed.
Lemma v6_loop_safe zl s : forall i lwc fz cur arr, 0 <= i -> (lwc = true -> cur = -1) -> (cur <> -1 -> i <= 7) -> zlen arr = 8 ->
  match v6_loop zl s i lwc fz cur arr with Ok None => True | Ok (Some (i', c', a')) => zlen a' = 8 | _ => False end.
Proof.
  induction s as [|c s IH]; intros i lwc fz cur arr Hi Hl Hc Ha; cbn [v6_loop]; [exact Ha|].
  destruct (c =? 58).
  - destruct lwc; cbn [negb].
    + rewrite (Hl eq_refl). change (-1 =? -1) with true. cbn [negb]. destruct fz; [exact I|]. destruct (Z.ltb_spec zl 2); [exact I|]. apply IH; auto; lia.
    + destruct (Z.eqb_spec cur (-1)) as [->|Hne]; [apply IH; auto|]. destruct ((cur <? 0) || (65535 <? cur)); [exact I|].
      destruct (set_len arr i cur) as (arr' & -> & E); [specialize (Hc Hne); lia|]. cbn [bind]. apply IH; auto; lia.
  - destruct ((7 <? i) || negb (is_xdigit c)) eqn:E; [exact I|]. apply IH; auto; try discriminate. lia.
Qed.
Lemma v6_safe s : match ipv6_from_str s with Ok None => True | Ok (Some x) => is_ipv6 x = true /\ zlen (groups x) = 8 | _ => False end.
Proof.
  unfold ipv6_from_str. destruct (Z.ltb_spec (zlen s) 2); [exact I|]. destruct (get_ok s 0 ltac:(lia)) as (f & ->). destruct (get_ok s (zlen s - 1) ltac:(lia)) as (l & ->). cbn [bind].
  match goal with |- context [v6_loop ?z _ _ _ _ _ _] => set (zl := z) end. clearbody zl. destruct (_ && _); [split; reflexivity|]. destruct (7 <? zl); [exact I|].
  pose proof (v6_loop_safe zl s 0 false false (-1) (repeat 0 8) ltac:(lia) ltac:(discriminate) ltac:(lia) eq_refl) as HS.
  destruct (v6_loop zl s 0 false false (-1) (repeat 0 8)) as [[((i & c) & a)|]| |]; cbn [bind]; try exact I; try contradiction.
  destruct (_ && _); [split; [reflexivity|assumption]|]. destruct (_ || _); [exact I|]. destruct (set_len a 7 c ltac:(lia)) as (a' & -> & E). cbn [bind]. split; [reflexivity|]. cbn. lia.
Qed.

(** Printing. *)
Lemma hexchar_spec d : 0 <= d < 16 -> hex_digit (hexchar d) = Some d.
Proof.
  intros H. unfold hexchar, hex_digit. destruct (Z.ltb_spec d 10).
  - replace ((48 <=? 48 + d) && (48 + d <=? 57)) with true by lia. f_equal. lia.
  - replace ((48 <=? 87 + d) && (87 + d <=? 57)) with false by lia. replace ((97 <=? 87 + d) && (87 + d <=? 102)) with true by lia. f_equal. lia.
Qed.
Lemma hex4_hextet v : 0 <= v < 65536 -> hextet (hex4 v) v.
Proof.
  intros H. unfold hextet, hex4. split; [cbn; lia|]. split.
  - repeat constructor; unfold hexes; rewrite hexchar_spec by lia; discriminate.
  - unfold hex_value. cbn [fold_left]. rewrite !hexchar_spec by lia. lia.
Qed.
Lemma v6_print g : length g = 8%nat -> Forall (fun v => 0 <= v < 65536) g -> v6_text 2 (to_string (Inet true g)) g.
Proof.
  intros Hl Hg. left. exists (map hex4 g). split; [|split; [|assumption]].
  - destruct g as [|g0 [|g1 [|g2 [|g3 [|g4 [|g5 [|g6 [|g7 [|g8 g]]]]]]]]]; try discriminate Hl. reflexivity.
  - clear Hl. induction Hg; cbn [map]; constructor; auto. apply hex4_hextet. assumption.
Qed.
Lemma v6_round g : length g = 8%nat -> Forall (fun v => 0 <= v < 65536) g -> ipv6_from_str (to_string (Inet true g)) = Ok (Some (Inet true g)).
Proof. intros. apply v6_complete, v6_print; assumption. Qed.
