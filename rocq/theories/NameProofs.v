(** Paths as texts: the proofs. *)
From Coq Require Import String ZArith List Bool Lia.
From Verif Require Import NameModel NameSpec.
Import ListNotations.
Open Scope Z_scope.

Lemma text_eqb_eq a : forall b, text_eqb a b = true <-> a = b.
Proof.
  induction a as [|x a IH]; intros [|y b]; cbn [text_eqb]; split; intro H; try reflexivity; try discriminate.
  - apply andb_prop in H. destruct H as [E R]. apply Z.eqb_eq in E. apply IH in R. subst. reflexivity.
  - inversion H. subst. rewrite Z.eqb_refl. cbn. apply IH. reflexivity.
Qed.
Lemma text_eqb_refl a : text_eqb a a = true. Proof. apply text_eqb_eq. reflexivity. Qed.
Lemma text_eqb_neq a b : text_eqb a b = false <-> a <> b.
Proof. rewrite <- not_true_iff_false, text_eqb_eq. reflexivity. Qed.

Lemma dotted_cons x y p : dotted (x :: y :: p) = x ++ [58; 58] ++ dotted (y :: p). Proof. reflexivity. Qed.
Lemma dotted_app p : forall q, p <> [] -> q <> [] -> dotted (p ++ q) = dotted p ++ [58; 58] ++ dotted q.
Proof.
  induction p as [|x p IH]; intros q Hp Hq; [congruence|].
  destruct p as [|y p].
  - destruct q as [|z q]; [congruence|]. reflexivity.
  - change ((x :: y :: p) ++ q) with (x :: y :: (p ++ q)). rewrite !dotted_cons.
    change (y :: p ++ q) with ((y :: p) ++ q). rewrite IH by congruence. rewrite <- !app_assoc. reflexivity.
Qed.
Lemma word_cons x : word x -> exists c t, x = c :: t /\ c <> 58.
Proof. intros [N C]. destruct x as [|c t]; [congruence|]. exists c, t. split; [reflexivity|]. intro E. apply C. left. exact E. Qed.
Lemma dotted_head p : path_ok p -> exists c t, dotted p = c :: t /\ c <> 58.
Proof.
  intros [N F]. destruct p as [|x p]; [congruence|]. apply Forall_inv in F. destruct (word_cons x F) as (c & t & -> & Hc).
  destruct p; cbn [dotted]; eexists; eexists; (split; [cbn; reflexivity | exact Hc]).
Qed.
Lemma dotted_len p : path_ok p -> (length p <= length (dotted p) /\ 0 < length (dotted p))%nat.
Proof.
  intros [N F]. induction p as [|x p IH]; [congruence|]. inversion F as [|? ? Hx Hp]; subst. destruct (word_cons x Hx) as (c & t & -> & _).
  destruct p as [|y p]; [cbn; lia|]. rewrite dotted_cons, !app_length. specialize (IH ltac:(congruence) Hp). cbn [length] in *. lia.
Qed.

(** Where two colons can stand in a path. *)
Lemma split_colons p : forall A B, path_ok p -> (exists c t, B = c :: t /\ c <> 58) -> dotted p = A ++ [58; 58] ++ B ->
  exists r q, r <> [] /\ q <> [] /\ p = r ++ q /\ A = dotted r /\ B = dotted q.
Proof.
  induction p as [|x p IH]; intros A B [N F] HB E; [congruence|].
  inversion F as [|? ? Hx Hp]; subst. destruct Hx as [Nx Cx].
  destruct p as [|y p].
  - exfalso. apply Cx. cbn in E. rewrite E. apply in_or_app. right. left. reflexivity.
  - rewrite dotted_cons in E.
    assert (OKp : path_ok (y :: p)) by (split; [congruence | exact Hp]).
    destruct (dotted_head _ OKp) as (c & t & Ed & Hc).
    destruct (app_eq_app _ _ _ _ E) as (l & [[E1 E2] | [E1 E2]]).
    + destruct l as [|z l].
      * rewrite app_nil_r in E1. subst A. cbn [app] in E2. inversion E2 as [E3]. exists [x], (y :: p). repeat split; try congruence.
      * exfalso. apply Cx. rewrite E1. apply in_or_app. right. cbn [app] in E2. inversion E2. left. reflexivity.
    + destruct l as [|z [|z' l]].
      * rewrite app_nil_r in E1. subst A. cbn [app] in E2. inversion E2 as [E3]. exists [x], (y :: p). repeat split; try congruence.
      * exfalso. cbn [app] in E2. rewrite Ed in E2. inversion E2. congruence.
      * cbn [app] in E2. inversion E2 as [[Ez Ez' E3]]. subst z z'.
        destruct (IH l B OKp HB E3) as (r & q & Hr & Hq & Ep & El & EB).
        exists (x :: r), q. repeat split; try congruence.
        -- rewrite Ep. reflexivity.
        -- rewrite E1. destruct r as [|r0 r]; [congruence|]. rewrite dotted_cons, El. reflexivity.
Qed.
Lemma dotted_inj p q : path_ok p -> path_ok q -> dotted p = dotted q -> p = q.
Proof.
  revert q. induction p as [|x p IH]; intros q [N F] [Nq Fq] E; [congruence|].
  destruct q as [|x' q]; [congruence|]. inversion F as [|? ? Hx Hp]; subst. inversion Fq as [|? ? Hx' Hq]; subst.
  destruct p as [|y p]; destruct q as [|y' q].
  - cbn in E. congruence.
  - exfalso. destruct Hx as [_ C]. apply C. change (dotted [x]) with x in E. rewrite E, dotted_cons. apply in_or_app. right. left. reflexivity.
  - exfalso. destruct Hx' as [_ C]. apply C. rewrite dotted_cons in E. change (dotted [x']) with x' in E. rewrite <- E. apply in_or_app. right. left. reflexivity.
  - rewrite !dotted_cons in E.
    destruct (app_eq_app _ _ _ _ E) as (l & [[E1 E2] | [E1 E2]]).
    + destruct l as [|z l].
      * rewrite app_nil_r in E1. cbn [app] in E2. inversion E2 as [E3]. f_equal; [exact E1|]. apply IH; [split; [congruence|assumption] | split; [congruence|assumption] | symmetry; exact E3].
      * exfalso. destruct Hx as [_ C]. apply C. rewrite E1. apply in_or_app. right. cbn [app] in E2. inversion E2. left. reflexivity.
    + destruct l as [|z l].
      * rewrite app_nil_r in E1. cbn [app] in E2. inversion E2 as [E3]. f_equal; [symmetry; exact E1|]. apply IH; [split; [congruence|assumption] | split; [congruence|assumption] | exact E3].
      * exfalso. destruct Hx' as [_ C]. apply C. rewrite E1. apply in_or_app. right. cbn [app] in E2. inversion E2. left. reflexivity.
Qed.

Lemma skipn_app_exact {A} (a b : list A) n : n = length a -> skipn n (a ++ b) = b.
Proof. intros ->. rewrite skipn_app, Nat.sub_diag, skipn_all. reflexivity. Qed.
(** A written path matches the paths that end with it. *)
Lemma matches_suffix p q : path_ok p -> path_ok q -> matches_subpath (dotted p) (dotted q) = true <-> exists r, p = r ++ q.
Proof.
  intros Hp Hq. unfold matches_subpath. destruct (text_eqb (dotted q) (dotted p)) eqn:E.
  - split; [intros _ | reflexivity]. apply text_eqb_eq in E. exists []. symmetry. apply dotted_inj; assumption.
  - destruct (Z.ltb_spec (Z.of_nat (length (dotted p)) - Z.of_nat (length (dotted q))) 3) as [L|L].
    + split; [discriminate|]. intros [r Er]. exfalso. destruct r as [|x r].
      * cbn in Er. subst. rewrite text_eqb_refl in E. discriminate.
      * assert (R : path_ok (x :: r)) by (split; [congruence|]; destruct Hp as [_ F]; rewrite Er in F; apply Forall_app in F; exact (proj1 F)).
        destruct (dotted_len _ R) as [_ R']. rewrite Er, dotted_app, !app_length in L; [cbn [length] in L; lia | congruence | exact (proj1 Hq)].
    + set (start := (length (dotted p) - length (dotted q))%nat).
      split.
      * intro H. destruct (negb (nth (start - 1) (dotted p) 0 =? 58) || negb (nth (start - 2) (dotted p) 0 =? 58)) eqn:C; [discriminate|].
        apply orb_false_elim in C. destruct C as [C1 C2]. apply negb_false_iff, Z.eqb_eq in C1, C2. apply text_eqb_eq in H.
        assert (S3 : (3 <= start <= length (dotted p))%nat) by lia.
        assert (D : dotted p = firstn (start - 2) (dotted p) ++ [58; 58] ++ dotted q).
        { rewrite <- (firstn_skipn (start - 2) (dotted p)) at 1. f_equal.
          assert (T : forall k (l : text), (k + 2 <= length l)%nat -> skipn k l = nth k l 0 :: nth (k + 1) l 0 :: skipn (k + 2) l).
          { clear. induction k as [|k IH]; intros l Hl.
            - destruct l as [|a [|b l]]; cbn in *; try lia; try reflexivity.
            - destruct l as [|a l]; cbn in Hl; [lia|]. cbn [skipn nth Nat.add]. rewrite IH by lia. replace (k + 1)%nat with (S k) by lia. reflexivity. }
          rewrite T by lia. replace (start - 2 + 1)%nat with (start - 1)%nat by lia. replace (start - 2 + 2)%nat with start by lia.
          rewrite C1, C2, H. reflexivity. }
        destruct (split_colons p _ _ Hp (dotted_head q Hq) D) as (r & q' & Hr & Hq' & Ep & _ & Eq).
        assert (q = q').
        { apply dotted_inj; [exact Hq | | exact Eq]. split; [exact Hq'|]. destruct Hp as [_ F]. rewrite Ep in F. apply Forall_app in F. exact (proj2 F). }
        subst q'. exists r. exact Ep.
      * intros [r Er]. destruct r as [|x r]; [cbn in Er; subst; rewrite text_eqb_refl in E; discriminate|].
        assert (D : dotted p = dotted (x :: r) ++ [58; 58] ++ dotted q) by (rewrite Er; apply dotted_app; [congruence | exact (proj1 Hq)]).
        assert (St : start = (length (dotted (x :: r)) + 2)%nat) by (unfold start; rewrite D, !app_length; cbn [length]; lia).
        rewrite St, D. replace (length (dotted (x :: r)) + 2 - 1)%nat with (length (dotted (x :: r)) + 1)%nat by lia.
        replace (length (dotted (x :: r)) + 2 - 2)%nat with (length (dotted (x :: r)) + 0)%nat by lia.
        rewrite !app_nth2_plus. cbn [nth app]. cbn [Z.eqb negb orb Pos.eqb].
        replace (dotted (x :: r) ++ 58 :: 58 :: dotted q) with ((dotted (x :: r) ++ [58; 58]) ++ dotted q) by (rewrite <- app_assoc; reflexivity).
        rewrite skipn_app_exact by (rewrite app_length; cbn [length]; lia). apply text_eqb_refl.
Qed.

(** Parents. *)
Lemma last_colon_app s : forall t, ~ In 58 t -> last_colon (s ++ t) (length (s ++ t)) = last_colon s (length s).
Proof.
  intros t. induction t as [|c t IH] using rev_ind; intro H.
  - rewrite app_nil_r. reflexivity.
  - rewrite app_assoc, app_length. cbn [length]. replace (length (s ++ t) + 1)%nat with (S (length (s ++ t))) by lia.
    cbn [last_colon]. rewrite app_nth2 by lia. rewrite Nat.sub_diag. cbn [nth].
    destruct (Z.eqb_spec c 58) as [->|_]; [exfalso; apply H, in_or_app; right; left; reflexivity|].
    rewrite <- IH by (intro H'; apply H, in_or_app; left; exact H').
    generalize (le_n (length (s ++ t))). generalize (length (s ++ t)) at 1 3 4 as k. induction k as [|k IHk]; intro L; [reflexivity|].
    cbn [last_colon]. rewrite app_nth1 by lia. destruct (nth k (s ++ t) 0 =? 58); [reflexivity | apply IHk; lia].
Qed.
Lemma last_colon_none s : ~ In 58 s -> last_colon s (length s) = None.
Proof. intro H. apply (last_colon_app [] s H). Qed.
Lemma parent_top x : word x -> parent (dotted [x]) = None.
Proof. intros [_ C]. unfold parent. cbn [dotted]. rewrite last_colon_none by exact C. reflexivity. Qed.
Lemma parent_sub p x : path_ok p -> word x -> parent (dotted (p ++ [x])) = Some (dotted p).
Proof.
  intros Hp [Nx Cx]. unfold parent. rewrite dotted_app by (try congruence; exact (proj1 Hp)). cbn [dotted].
  rewrite app_assoc, (last_colon_app _ x Cx).
  assert (L : last_colon (dotted p ++ [58; 58]) (length (dotted p ++ [58; 58])) = Some (S (length (dotted p)))).
  { rewrite app_length. cbn [length]. replace (length (dotted p) + 2)%nat with (S (S (length (dotted p)))) by lia. cbn [last_colon].
    rewrite app_nth2 by lia. replace (S (length (dotted p)) - length (dotted p))%nat with 1%nat by lia. reflexivity. }
  rewrite L. destruct (dotted_len p Hp) as [_ D].
  replace (S (length (dotted p)) - 1)%nat with (length (dotted p)) by lia.
  destruct (Nat.eqb_spec (length (dotted p)) 0); [lia|].
  rewrite <- app_assoc, firstn_app, Nat.sub_diag, firstn_all, firstn_O, app_nil_r. reflexivity.
Qed.
Lemma path_ok_snoc p x : p <> [] -> path_ok (p ++ [x]) -> path_ok p /\ word x.
Proof. intros N [_ F]. apply Forall_app in F. destruct F as [F1 F2]. split; [split; assumption | exact (Forall_inv F2)]. Qed.
Lemma top_hd p : forall n, path_ok p -> (length p <= n)%nat -> top_module n (dotted p) = hd [] p.
Proof.
  induction p as [|x p IH] using rev_ind; intros n Hp L; [destruct Hp; congruence|].
  rewrite app_length in L. cbn [length] in L. destruct n as [|n]; [lia|]. cbn [top_module].
  destruct p as [|y p].
  - cbn [app]. rewrite parent_top by (destruct Hp as [_ F]; exact (Forall_inv F)). reflexivity.
  - destruct (path_ok_snoc (y :: p) x ltac:(congruence) Hp) as [H1 H2]. rewrite parent_sub by assumption. rewrite IH by (try assumption; lia). reflexivity.
Qed.
(** Climbing from a path to the length of another one. *)
Lemma climb_spec p : forall n k, path_ok p -> (length p <= k)%nat -> (length (hd [] p) <= n)%nat ->
  exists p' r, path_ok p' /\ p = p' ++ r /\ climb k (dotted p) n = Some (dotted p') /\ (length (dotted p') <= n)%nat /\
    (forall a b, p = a ++ b -> a <> [] -> (length (dotted a) <= n)%nat -> (length a <= length p')%nat).
Proof.
  induction p as [|x p IH] using rev_ind; intros n k Hp Lk Lh; [destruct Hp; congruence|].
  destruct k as [|k]; [rewrite app_length in Lk; cbn in Lk; lia|]. cbn [climb].
  destruct (Nat.ltb_spec n (length (dotted (p ++ [x])))) as [L|L].
  - destruct p as [|y p]; [cbn in *; lia|].
    destruct (path_ok_snoc (y :: p) x ltac:(congruence) Hp) as [H1 H2]. rewrite parent_sub by assumption.
    rewrite app_length in Lk. cbn [length] in Lk.
    destruct (IH n k H1 ltac:(cbn [length]; lia) Lh) as (p' & r & A1 & A2 & A3 & A4 & A5).
    exists p', (r ++ [x]). split; [exact A1|]. split; [rewrite A2, <- app_assoc; reflexivity|]. split; [exact A3|]. split; [exact A4|].
    intros a b E Na La. destruct b as [|b0 b] using rev_ind.
    + rewrite app_nil_r in E. subst a. lia.
    + rewrite app_assoc in E. apply app_inj_tail in E. destruct E as [E _]. exact (A5 a b E Na La).
  - exists (p ++ [x]), []. split; [exact Hp|]. split; [rewrite app_nil_r; reflexivity|]. split; [reflexivity|]. split; [exact L|].
    intros a b E _ _. rewrite E, app_length. lia.
Qed.

Lemma dotted_prefix_len p r : path_ok p -> path_ok (p ++ r) -> (length (hd [] p) <= length (dotted p) <= length (dotted (p ++ r)))%nat.
Proof.
  intros Hp Hr. destruct p as [|x p]; [destruct Hp; congruence|]. cbn [hd]. split.
  - destruct p; cbn [dotted]; rewrite ?app_length; lia.
  - destruct r as [|y r]; [rewrite app_nil_r; lia|]. rewrite dotted_app by congruence. rewrite app_length. lia.
Qed.
Lemma climb_match p q : path_ok p -> path_ok q -> hd [] p = hd [] q -> (length (dotted q) <= length (dotted p))%nat ->
  exists c, climb (length (dotted p)) (dotted p) (length (dotted q)) = Some c /\ (text_eqb c (dotted q) = true <-> exists r, p = q ++ r).
Proof.
  intros Hp Hq H L.
  destruct (climb_spec p (length (dotted q)) (length (dotted p)) Hp (proj1 (dotted_len p Hp))) as (p' & r & A1 & A2 & A3 & A4 & A5).
  { rewrite H. pose proof (dotted_prefix_len q [] Hq ltac:(rewrite app_nil_r; exact Hq)). lia. }
  exists (dotted p'). split; [exact A3|]. rewrite text_eqb_eq. split.
  - intro E. apply dotted_inj in E; [|assumption|assumption]. subst p'. exists r. exact A2.
  - intros [s Es]. assert (M : (length q <= length p')%nat) by (apply (A5 q s Es); [exact (proj1 Hq) | lia]).
    assert (E : p' = q ++ skipn (length q) p').
    { rewrite <- (firstn_skipn (length q) p') at 1. f_equal.
      assert (F : firstn (length q) p = q) by (rewrite Es, firstn_app, firstn_all, Nat.sub_diag, firstn_O, app_nil_r; reflexivity).
      rewrite A2, firstn_app in F. replace (length q - length p')%nat with 0%nat in F by lia. rewrite firstn_O, app_nil_r in F. exact F. }
    destruct (skipn (length q) p') as [|z s'] eqn:Sk; [rewrite app_nil_r in E; rewrite E; reflexivity|].
    exfalso. assert (D : dotted p' = dotted q ++ [58; 58] ++ dotted (z :: s')) by (rewrite E; apply dotted_app; [exact (proj1 Hq) | congruence]).
    rewrite D, !app_length in A4. cbn [length] in A4. lia.
Qed.
Lemma related_hd p q : path_ok p -> path_ok q -> related p q -> hd [] p = hd [] q.
Proof.
  intros [Np _] [Nq _] [[r E]|[r E]]; subst.
  - destruct q; [congruence | reflexivity].
  - destruct p; [congruence | reflexivity].
Qed.
(** Two modules of which one is above the other. *)
Lemma inclusion_spec m m' p q : path_ok p -> path_ok q -> base m = dotted p -> base m' = dotted q ->
  exists b, module_inclusion_match m m' = Some b /\ (b = true <-> related p q).
Proof.
  intros Hp Hq Em Em'. unfold module_inclusion_match. rewrite Em, Em'.
  rewrite (top_hd p) by (try assumption; apply dotted_len; assumption). rewrite (top_hd q) by (try assumption; apply dotted_len; assumption).
  destruct (text_eqb (hd [] p) (hd [] q)) eqn:T; cbn [negb].
  - apply text_eqb_eq in T. destruct (Nat.ltb_spec (length (dotted p)) (length (dotted q))) as [L|L].
    + destruct (climb_match q p Hq Hp (eq_sym T)) as (c & -> & C); [lia|].
      eexists. split; [reflexivity|]. rewrite C. split; [intro R; right; exact R|].
      intros [[r E]|R]; [|exact R]. exfalso. pose proof (dotted_prefix_len q r Hq ltac:(rewrite <- E; exact Hp)) as D. rewrite <- E in D. lia.
    + destruct (climb_match p q Hp Hq T L) as (c & -> & C).
      eexists. split; [reflexivity|]. rewrite C. split; [intro R; left; exact R|].
      intros [R|[r E]]; [exact R|]. destruct r as [|z r]; [exists []; rewrite app_nil_r in *; symmetry; exact E|].
      exfalso. rewrite E, dotted_app, !app_length in L by (try congruence; exact (proj1 Hp)). cbn [length] in L. lia.
  - exists false. split; [reflexivity|]. split; [discriminate|]. intro R. apply text_eqb_neq in T. exfalso. apply T, related_hd; assumption.
Qed.
(** The modules below std::core. *)
Lemma core_ok : path_ok [lit "std"; lit "core"].
Proof. split; [congruence|]. repeat constructor; cbn; try congruence; intuition lia. Qed.
Lemma core_text : lit "std::core" = dotted [lit "std"; lit "core"]. Proof. reflexivity. Qed.
Lemma under_core_spec p : forall n, path_ok p -> (length p <= n)%nat -> under_core n (dotted p) = true <-> exists r, p = [lit "std"; lit "core"] ++ r.
Proof.
  induction p as [|x p IH] using rev_ind; intros n Hp L; [destruct Hp; congruence|].
  rewrite app_length in L. cbn [length] in L. destruct n as [|n]; [lia|]. cbn [under_core]. rewrite core_text.
  destruct (text_eqb (dotted (p ++ [x])) (dotted [lit "std"; lit "core"])) eqn:E.
  - split; [intros _ | reflexivity]. apply text_eqb_eq in E. apply dotted_inj in E; [|exact Hp | exact core_ok]. exists []. exact E.
  - apply text_eqb_neq in E. destruct p as [|y p].
    + cbn [app]. rewrite parent_top by (destruct Hp as [_ F]; exact (Forall_inv F)). split; [discriminate|].
      intros [r Er]. destruct r; discriminate.
    + destruct (path_ok_snoc (y :: p) x ltac:(congruence) Hp) as [H1 H2]. rewrite parent_sub by assumption. rewrite IH by (try assumption; lia). split.
      * intros [r Er]. exists (r ++ [x]). rewrite Er, <- app_assoc. reflexivity.
      * intros [r Er]. destruct r as [|r0 r] using rev_ind; [exfalso; apply E; rewrite Er, app_nil_r; reflexivity|].
        rewrite app_assoc in Er. apply app_inj_tail in Er. destruct Er as [Er _]. exists r. exact Er.
Qed.
