(** Proofs about the String functions. *)
From Coq Require Import ZArith List Bool Lia ZifyBool.
From Verif Require Import Mach ListAux StrModel StrSpec.
Import ListNotations.
Open Scope Z_scope.

Lemma slice_app (a m b : list Z) from n : zlen a = from -> zlen m = n -> slice (a ++ m ++ b) from n = Ok m.
Proof.
  intros Ha Hm. unfold slice. pose proof (zlen_nonneg a). pose proof (zlen_nonneg m). pose proof (zlen_nonneg b).
  rewrite !zlen_app. replace ((0 <=? from) && (0 <=? n) && (from + n <=? zlen a + (zlen m + zlen b))) with true by lia.
  rewrite skipn_app_len by (unfold zlen in Ha; lia). rewrite firstn_app_len by (unfold zlen in Hm; lia). reflexivity.
Qed.
Lemma slice_all (s : list Z) : slice s 0 (zlen s) = Ok s.
Proof. rewrite <- (app_nil_r s) at 1. change (s ++ []) with ([] ++ s ++ []). apply slice_app; reflexivity. Qed.
Lemma slice_pre (a b : list Z) n : zlen a = n -> slice (a ++ b) 0 n = Ok a.
Proof. intros H. apply (slice_app [] a b); [reflexivity|exact H]. Qed.
Lemma slice_suf (a b : list Z) from n : zlen a = from -> zlen b = n -> slice (a ++ b) from n = Ok b.
Proof. intros H H'. rewrite <- (app_nil_r b) at 1. now apply slice_app. Qed.
Lemma eqs_spec a : forall b, eqs a b = true <-> a = b.
Proof.
  induction a as [|x a IH]; intros [|y b]; cbn [eqs]; try (split; congruence).
  rewrite andb_true_iff, Z.eqb_eq, IH. split; [intros [-> ->]; reflexivity|intros H; injection H; auto].
Qed.
Lemma occurs_bound sub s i : occurs_at sub s i -> 0 <= i /\ i + zlen sub <= zlen s.
Proof. intros (a & b & -> & <-). rewrite !zlen_app. unfold len. pose proof (zlen_nonneg b). unfold zlen in *. lia. Qed.
Lemma app_inv_len {A} (a a' b b' : list A) : a ++ b = a' ++ b' -> length a = length a' -> a = a' /\ b = b'.
Proof.
  revert a'; induction a as [|x a IH]; intros [|x' a'] H HL; cbn in *; try discriminate; auto.
  injection H; intros; subst. destruct (IH a') as [-> ->]; auto.
Qed.
Lemma slice_split (s : list Z) from n : 0 <= from -> 0 <= n -> from + n <= zlen s -> exists a m b, s = a ++ m ++ b /\ zlen a = from /\ zlen m = n.
Proof.
  intros H1 H2 H3. destruct (split_len s from) as (a & r & -> & Ha); [lia|].
  rewrite zlen_app in H3. destruct (split_len r n) as (m & b & -> & Hm); [lia|]. eauto 6.
Qed.
Lemma occurs_test sub s i : 0 <= i -> i + zlen sub <= zlen s -> exists w, slice s i (zlen sub) = Ok w /\ (w = sub <-> occurs_at sub s i).
Proof.
  intros H1 H2. destruct (slice_split s i (zlen sub)) as (a & m & b & -> & Ha & Hm); auto using zlen_nonneg.
  exists m. split; [now apply slice_app|]. split.
  - intros ->. exists a, b. split; [reflexivity|exact Ha].
  - intros (a' & b' & E & Hl). apply app_inv_len in E as [-> E]; [|unfold len, zlen in *; lia].
    apply app_inv_len in E as [-> _]; [reflexivity|unfold zlen in *; lia].
Qed.
Lemma occurs_first f sub s i c : occurs_at (f :: sub) s i -> get s i = Ok c -> c = f.
Proof. intros (a & b & -> & H) G. rewrite <- app_comm_cons, get_app in G by (symmetry; exact H). congruence. Qed.
Lemma index_loop_ok f sub s : forall k i, 0 <= i -> i + Z.of_nat k = zlen s - zlen (f :: sub) + 1 -> (forall j, occurs_at (f :: sub) s j -> i <= j) ->
  exists r, index_loop s (f :: sub) f k i = Ok r /\ first_index (occurs_at (f :: sub) s) r.
Proof.
  pose proof (zlen_nonneg sub) as Hs.
  induction k as [|k IH]; intros i Hi Hk Hb; cbn [index_loop].
  { exists None. split; [reflexivity|]. intros j Hj. pose proof (Hb j Hj). apply occurs_bound in Hj. lia. }
  destruct (get_ok s i) as [c G]; [rewrite zlen_cons in Hk; lia|]. rewrite G. cbn [bind].
  assert (Hnext : ~ occurs_at (f :: sub) s i -> exists r, index_loop s (f :: sub) f k (i + 1) = Ok r /\ first_index (occurs_at (f :: sub) s) r).
  { intros Hno. apply IH; [lia|lia|]. intros j Hj. pose proof (Hb j Hj). destruct (Z.eq_dec i j) as [->|]; [contradiction|lia]. }
  destruct (c =? f) eqn:Ec.
  - destruct (occurs_test (f :: sub) s i) as (w & Ew & Hw); [lia|lia|]. rewrite Ew. cbn [bind].
    destruct (eqs w (f :: sub)) eqn:Eq.
    + apply eqs_spec in Eq. exists (Some i). split; [reflexivity|]. split; [tauto|exact Hb].
    + apply Hnext. intros Ho. apply Hw in Ho. apply eqs_spec in Ho. congruence.
  - apply Hnext. intros Ho. pose proof (occurs_first _ _ _ _ _ Ho G). lia.
Qed.
Lemma index_of_ok s sub : sub <> [] -> exists r, index_of s sub = Ok r /\ first_index (occurs_at sub s) r.
Proof.
  intros Hn. destruct sub as [|f sub]; [congruence|]. unfold index_of. pose proof (zlen_nonneg sub) as Hs.
  destruct ((0 <? zlen (f :: sub)) && (zlen (f :: sub) <=? zlen s)) eqn:E.
  - change (get (f :: sub) 0) with (Ok f). cbn [bind]. apply index_loop_ok; [lia|lia|]. intros j Hj. apply occurs_bound in Hj. lia.
  - exists None. split; [reflexivity|]. intros j Hj. apply occurs_bound in Hj. rewrite zlen_cons in *. lia.
Qed.
Lemma rindex_loop_ok f sub s : forall k, Z.of_nat k <= zlen s - zlen (f :: sub) + 1 -> (forall j, occurs_at (f :: sub) s j -> j < Z.of_nat k) ->
  exists r, rindex_loop s (f :: sub) f k = Ok r /\ last_index (occurs_at (f :: sub) s) r.
Proof.
  pose proof (zlen_nonneg sub) as Hs.
  induction k as [|k IH]; intros Hk Hb; cbn [rindex_loop].
  { exists None. split; [reflexivity|]. intros j Hj. pose proof (Hb j Hj). apply occurs_bound in Hj. lia. }
  cbv zeta. destruct (get_ok s (Z.of_nat k)) as [c G]; [rewrite zlen_cons in Hk; lia|]. rewrite G. cbn [bind].
  assert (Hnext : ~ occurs_at (f :: sub) s (Z.of_nat k) -> exists r, rindex_loop s (f :: sub) f k = Ok r /\ last_index (occurs_at (f :: sub) s) r).
  { intros Hno. apply IH; [lia|]. intros j Hj. pose proof (Hb j Hj). destruct (Z.eq_dec (Z.of_nat k) j) as [<-|]; [contradiction|lia]. }
  destruct (c =? f) eqn:Ec.
  - destruct (occurs_test (f :: sub) s (Z.of_nat k)) as (w & Ew & Hw); [lia|lia|]. rewrite Ew. cbn [bind].
    destruct (eqs w (f :: sub)) eqn:Eq.
    + apply eqs_spec in Eq. exists (Some (Z.of_nat k)). split; [reflexivity|]. split; [tauto|]. intros j Hj. apply Hb in Hj. lia.
    + apply Hnext. intros Ho. apply Hw in Ho. apply eqs_spec in Ho. congruence.
  - apply Hnext. intros Ho. pose proof (occurs_first _ _ _ _ _ Ho G). lia.
Qed.
Lemma rindex_of_ok s sub : sub <> [] -> exists r, rindex_of s sub = Ok r /\ last_index (occurs_at sub s) r.
Proof.
  intros Hn. destruct sub as [|f sub]; [congruence|]. unfold rindex_of. pose proof (zlen_nonneg sub) as Hs.
  destruct ((0 <? zlen (f :: sub)) && (zlen (f :: sub) <=? zlen s)) eqn:E.
  - change (get (f :: sub) 0) with (Ok f). cbn [bind]. apply rindex_loop_ok; [lia|]. intros j Hj. apply occurs_bound in Hj. lia.
  - exists None. split; [reflexivity|]. intros j Hj. apply occurs_bound in Hj. rewrite zlen_cons in *. lia.
Qed.
Lemma byte_bound s i c : byte_at s i c -> 0 <= i < zlen s.
Proof. intros (a & b & -> & <-). rewrite zlen_app, zlen_cons. pose proof (zlen_nonneg b). unfold len, zlen in *. lia. Qed.
Lemma byte_get s i c : byte_at s i c <-> get s i = Ok c.
Proof.
  split.
  - intros (a & b & -> & H). apply get_app. symmetry; exact H.
  - intros G. destruct (get_inv _ _ _ G) as [B _]. destruct (split_at s i B) as (a & x & b & -> & H).
    rewrite get_app in G by (symmetry; exact H). injection G as ->. exists a, b. auto.
Qed.
Lemma in_set_spec c set : char_in_set c set = true <-> In c set.
Proof. unfold char_in_set. rewrite existsb_exists. split; [intros (x & H & E); apply Z.eqb_eq in E; subst; auto|intros H; exists c; rewrite Z.eqb_refl; auto]. Qed.
Lemma index_chars_ok s set (lo : Z) : forall k i, lo <= i -> 0 <= i -> i + Z.of_nat k = zlen s -> (forall j c, lo <= j -> byte_at s j c -> In c set -> i <= j) ->
  exists r, index_chars s set k i = Ok r /\ first_index (fun j => lo <= j /\ exists c, byte_at s j c /\ In c set) r.
Proof.
  induction k as [|k IH]; intros i Hl Hi Hk Hb; cbn [index_chars].
  { exists None. split; [reflexivity|]. intros j (Hlo & c & Hj & Hc). pose proof (Hb j c Hlo Hj Hc). apply byte_bound in Hj. lia. }
  destruct (get_ok s i) as [c G]; [lia|]. rewrite G. cbn [bind]. destruct (char_in_set c set) eqn:E.
  - apply in_set_spec in E. exists (Some i). split; [reflexivity|]. split; [split; [exact Hl|]; exists c; now rewrite byte_get|].
    intros j (Hlo & c' & Hj & Hc). eauto.
  - apply IH; [lia|lia|lia|]. intros j c' Hlo Hj Hc. pose proof (Hb j c' Hlo Hj Hc).
    destruct (Z.eq_dec i j) as [->|]; [|lia]. apply byte_get in Hj. assert (c' = c) by congruence. subst. apply in_set_spec in Hc. congruence.
Qed.
Lemma rindex_char_ok s c : forall k, Z.of_nat k <= zlen s -> (forall j, byte_at s j c -> j < Z.of_nat k) ->
  exists r, rindex_char s c k = Ok r /\ last_index (fun j => byte_at s j c) r.
Proof.
  induction k as [|k IH]; intros Hk Hb; cbn [rindex_char].
  { exists None. split; [reflexivity|]. intros j Hj. pose proof (Hb j Hj). apply byte_bound in Hj. lia. }
  destruct (get_ok s (Z.of_nat k)) as [x G]; [lia|]. rewrite G. cbn [bind]. destruct (x =? c) eqn:E.
  - exists (Some (Z.of_nat k)). split; [reflexivity|]. split; [rewrite byte_get, G; f_equal; lia|]. intros j Hj. apply Hb in Hj. lia.
  - apply IH; [lia|]. intros j Hj. pose proof (Hb j Hj). destruct (Z.eq_dec (Z.of_nat k) j) as [<-|]; [|lia]. apply byte_get in Hj. assert (x = c) by congruence. lia.
Qed.

(** Prefixes and suffixes. *)
Lemma starts_with_ok s p : exists b, starts_with s p = Ok b /\ (b = true <-> exists r, s = p ++ r).
Proof.
  unfold starts_with. destruct (zlen p >? zlen s) eqn:E.
  { exists false. split; [reflexivity|]. split; [discriminate|]. intros [r ->]. rewrite zlen_app in E. pose proof (zlen_nonneg r). lia. }
  destruct (zlen p =? 0) eqn:E0.
  { exists true. split; [reflexivity|]. split; [|reflexivity]. intros _. destruct p; [|rewrite zlen_cons in E0; pose proof (zlen_nonneg p); lia]. now exists s. }
  destruct (split_len s (zlen p)) as (a & b & -> & Ha); [pose proof (zlen_nonneg p); lia|].
  rewrite slice_pre by exact Ha. cbn [bind]. eexists. split; [reflexivity|]. rewrite eqs_spec. split.
  - intros ->. now exists b.
  - intros [r H]. apply app_inv_len in H as [-> _]; [reflexivity|unfold zlen in Ha; lia].
Qed.
Lemma ends_with_ok s p : exists b, ends_with s p = Ok b /\ (b = true <-> exists r, s = r ++ p).
Proof.
  unfold ends_with. destruct (zlen p >? zlen s) eqn:E.
  { exists false. split; [reflexivity|]. split; [discriminate|]. intros [r ->]. rewrite zlen_app in E. pose proof (zlen_nonneg r). lia. }
  destruct (zlen p =? 0) eqn:E0.
  { exists true. split; [reflexivity|]. split; [|reflexivity]. intros _. destruct p; [|rewrite zlen_cons in E0; pose proof (zlen_nonneg p); lia]. exists s. now rewrite app_nil_r. }
  destruct (split_len s (zlen s - zlen p)) as (a & b & Hs & Ha); [pose proof (zlen_nonneg p); lia|]. subst s. rewrite zlen_app in Ha.
  rewrite slice_suf by (rewrite ?zlen_app; lia). cbn [bind]. eexists. split; [reflexivity|]. rewrite eqs_spec. split.
  - intros ->. now exists a.
  - intros [r H]. pose proof (f_equal (@length Z) H) as HL. rewrite !app_length in HL. apply app_inv_len in H as [_ ->]; [reflexivity|unfold zlen in *; lia].
Qed.
Lemma strip_ok s p : exists t, strip s p = Ok t /\ (s = p ++ t \/ (~ (exists r, s = p ++ r)) /\ t = s).
Proof.
  unfold strip. destruct (zlen p =? 0) eqn:E0.
  { exists s. split; [reflexivity|]. left. destruct p; [reflexivity|rewrite zlen_cons in E0; pose proof (zlen_nonneg p); lia]. }
  destruct (starts_with_ok s p) as (b & -> & Hb). cbn [bind]. destruct b.
  - destruct (proj1 Hb eq_refl) as [r ->]. exists r. split; [|now left]. apply slice_suf; [reflexivity|rewrite zlen_app; lia].
  - exists s. split; [reflexivity|]. right. split; [|reflexivity]. intros H. apply Hb in H. discriminate.
Qed.
Lemma strip_end_ok s p : exists t, strip_end s p = Ok t /\ (s = t ++ p \/ (~ (exists r, s = r ++ p)) /\ t = s).
Proof.
  unfold strip_end. destruct (zlen p =? 0) eqn:E0.
  { exists s. split; [reflexivity|]. left. destruct p; [now rewrite app_nil_r|rewrite zlen_cons in E0; pose proof (zlen_nonneg p); lia]. }
  destruct (ends_with_ok s p) as (b & -> & Hb). cbn [bind]. destruct b.
  - destruct (proj1 Hb eq_refl) as [r ->]. exists r. split; [|now left]. apply slice_pre. rewrite zlen_app; lia.
  - exists s. split; [reflexivity|]. right. split; [|reflexivity]. intros H. apply Hb in H. discriminate.
Qed.

(** Trimming. *)
Lemma trim_start_ok set : forall k s a r, s = a ++ r -> (length r <= k)%nat -> Forall (fun c => In c set) a ->
  exists a' t, s = a' ++ t /\ trim_start s set k (zlen a) = Ok (zlen a') /\ Forall (fun c => In c set) a' /\ (forall c r, t = c :: r -> ~ In c set).
Proof.
  induction k as [|k IH]; intros s a r -> Hk Ha; destruct r as [|c r]; cbn [length] in Hk; try lia; cbn [trim_start].
  1,2: exists a, []; rewrite app_nil_r; replace (zlen a <? zlen a) with false by lia; split; [reflexivity|]; split; [reflexivity|]; split; [exact Ha|discriminate].
  rewrite zlen_app, zlen_cons. pose proof (zlen_nonneg r). replace (zlen a <? zlen a + (1 + zlen r)) with true by lia.
  rewrite get_app by reflexivity. cbn [bind]. destruct (char_in_set c set) eqn:E.
  - apply in_set_spec in E. replace (zlen a + 1) with (zlen (a ++ [c])) by (rewrite zlen_app; reflexivity).
    apply (IH (a ++ c :: r) (a ++ [c]) r); [rewrite <- app_assoc; reflexivity|lia|]. apply Forall_app; auto.
  - exists a, (c :: r). repeat match goal with |- _ /\ _ => split end; auto. intros c' r' H' Hin. injection H'; intros; subst. apply in_set_spec in Hin. congruence.
Qed.
Lemma trim_left_ok s set : exists t, trim_left s set = Ok t /\ trimmed_left set s t.
Proof.
  unfold trim_left. destruct (trim_start_ok set (length s) s [] s) as (a & t & E & Eq & Ha & Ht); [reflexivity|lia|constructor|]. change (zlen (@nil Z)) with 0 in Eq. rewrite Eq. cbn [bind]. subst s.
  exists t. split; [|exists a; auto]. rewrite zlen_app. destruct (zlen a =? zlen a + zlen t) eqn:Z0.
  - destruct t; [|rewrite zlen_cons in Z0; pose proof (zlen_nonneg t); lia]. apply (slice_app [] []); reflexivity.
  - apply slice_suf; [reflexivity|lia].
Qed.
Lemma trim_end_ok set : forall k s r b, s = r ++ b -> (length r <= k)%nat -> Forall (fun c => In c set) b ->
  exists t b', s = t ++ b' /\ trim_end s set k (zlen r) = Ok (zlen t) /\ Forall (fun c => In c set) b' /\ (forall r c, t = r ++ [c] -> ~ In c set).
Proof.
  assert (H0 : forall s b k, s = [] ++ b -> Forall (fun c => In c set) b ->
     exists t b', s = t ++ b' /\ trim_end s set k (zlen (@nil Z)) = Ok (zlen t) /\ Forall (fun c => In c set) b' /\ (forall r c, t = r ++ [c] -> ~ In c set)).
  { intros s b k -> Hb. exists [], b. split; [reflexivity|]. split; [destruct k; reflexivity|]. split; [exact Hb|]. intros r c H. destruct r; discriminate. }
  induction k as [|k IH]; intros s r b E Hk Hb; destruct (exists_last_or r) as [-> | (u & x & ->)]; eauto.
  { rewrite app_length in Hk. cbn in Hk. lia. }
  cbn [trim_end]. rewrite zlen_app. pose proof (zlen_nonneg u). change (zlen [x]) with 1. replace (0 <? zlen u + 1) with true by lia.
  replace (zlen u + 1 - 1) with (zlen u) by lia. subst s. rewrite <- app_assoc. cbn [app]. rewrite get_app by reflexivity. cbn [bind].
  destruct (char_in_set x set) eqn:E.
  - apply in_set_spec in E. apply (IH _ u (x :: b)); [reflexivity|rewrite app_length in Hk; cbn in Hk; lia|auto].
  - exists (u ++ [x]), b. split; [now rewrite <- app_assoc|]. rewrite zlen_app. split; [reflexivity|]. split; [exact Hb|].
    intros r c H'. apply app_inj_tail in H' as [-> ->]. rewrite <- in_set_spec. congruence.
Qed.
Lemma trim_right_ok s set : exists t, trim_right s set = Ok t /\ trimmed_right set s t.
Proof.
  unfold trim_right. destruct (trim_end_ok set (length s) s s []) as (t & b & E & -> & Hb & Ht); [now rewrite app_nil_r|lia|constructor|]. cbn [bind].
  exists t. split; [rewrite E; now apply slice_pre|exists b; auto].
Qed.
Lemma trim_ok s set : exists t, trim s set = Ok t /\ exists m, trimmed_left set s m /\ trimmed_right set m t.
Proof. unfold trim. destruct (trim_left_ok s set) as (m & -> & Hm). cbn [bind]. destruct (trim_right_ok m set) as (t & -> & Ht). eauto. Qed.

(** Cutting. *)
Lemma occurs_prefix d p r i : occurs_at d p i -> occurs_at d (p ++ r) i.
Proof. intros (a & b & -> & H). exists a, (b ++ r). now rewrite <- !app_assoc. Qed.
Lemma occurs_in_prefix d p r i : occurs_at d (p ++ r) i -> i + zlen d <= zlen p -> occurs_at d p i.
Proof.
  intros (a & b & E & H) HL. assert (H' : zlen a = i) by exact H. pose proof (zlen_nonneg a). pose proof (zlen_nonneg d).
  destruct (split_len p (i + zlen d)) as (q & q' & -> & Hq); [lia|]. rewrite <- app_assoc in E. rewrite (app_assoc a) in E.
  apply app_inv_len in E as [-> _]; [|rewrite app_length; unfold zlen in *; lia]. exists a, q'. now rewrite <- app_assoc.
Qed.
Lemma cut_index d s ps : d <> [] -> Cut d s ps ->
  (index_of s d = Ok None /\ ps = [s]) \/
  (exists p r ps', s = p ++ d ++ r /\ ps = p :: ps' /\ Cut d r ps' /\ index_of s d = Ok (Some (zlen p))).
Proof.
  intros Hd H. destruct (index_of_ok s d Hd) as (o & -> & Ho). destruct H as [s Hn|p r ps Hp Hr].
  - left. split; [|reflexivity]. destruct o as [i|]; [|reflexivity]. destruct Ho as [Ho _]. exfalso. exact (Hn _ Ho).
  - right. exists p, r, ps. repeat match goal with |- _ /\ _ => split end; auto. destruct o as [i|].
    + destruct Ho as [H1 H2]. f_equal. f_equal. assert (Hle : i <= zlen p) by (apply H2; exists p, r; auto).
      apply Hp. rewrite app_assoc in H1. apply occurs_in_prefix in H1; [exact H1|rewrite zlen_app; lia].
    + exfalso. apply (Ho (zlen p)). exists p, r. auto.
Qed.
Lemma cut_total d : d <> [] -> forall s, exists ps, Cut d s ps.
Proof.
  intros Hd s. remember (length s) as n eqn:E. revert s E. induction n as [n IH] using lt_wf_ind. intros s ->.
  destruct (index_of_ok s d Hd) as (o & _ & Ho). destruct o as [i|].
  - destruct Ho as [(p & r & -> & HL) Hmin]. destruct (IH (length r)) with (s := r) as [ps Hps]; [|reflexivity|].
    { rewrite !app_length. destruct d; [congruence|cbn; lia]. }
    exists (p :: ps). constructor; [|exact Hps]. intros j Hj. pose proof (occurs_bound _ _ _ Hj) as B. rewrite zlen_app in B.
    rewrite app_assoc in Hmin. apply (occurs_prefix _ _ r) in Hj. apply Hmin in Hj. unfold len, zlen in *. lia.
  - exists [s]. now constructor.
Qed.
Lemma cut_unique d s ps qs : d <> [] -> Cut d s ps -> Cut d s qs -> ps = qs.
Proof.
  intros Hd H. revert qs. induction H as [s Hn|p r ps Hp Hr IH]; intros qs Hq.
  - destruct (cut_index _ _ _ Hd Hq) as [[_ ->]|(p & r & ps' & -> & _)]; [reflexivity|]. exfalso. apply (Hn (zlen p)). exists p, r. auto.
  - destruct (cut_index _ _ _ Hd Hq) as [[Ei _]|(p' & r' & ps' & E & -> & Hc & Ei)].
    + destruct (index_of_ok (p ++ d ++ r) d Hd) as (o & E & Ho). assert (o = None) by congruence. subst. exfalso. apply (Ho (zlen p)). exists p, r. auto.
    + destruct (cut_index _ _ _ Hd (Cut_piece d p r ps Hp Hr)) as [[Ei' _]|(p1 & r1 & ps1 & E1 & E2 & _ & Ei')]; [congruence|].
      injection E2; intros; subst ps1 p1. assert (EL : zlen p = zlen p') by congruence.
      apply app_inv_len in E as [-> E]; [|unfold zlen in EL; lia]. apply app_inv_head in E. subst. f_equal. auto.
Qed.
Lemma cut_nonempty d s ps : Cut d s ps -> ps <> []. Proof. now destruct 1. Qed.
Lemma glue_cons d p ps : ps <> [] -> glue d (p :: ps) = p ++ d ++ glue d ps. Proof. destruct ps; [congruence|reflexivity]. Qed.
Lemma cut_glue d s ps : Cut d s ps -> glue d ps = s.
Proof. induction 1; [reflexivity|]. rewrite glue_cons by eauto using cut_nonempty. now rewrite IHCut. Qed.
Lemma empty_zlen p : (zlen p =? 0) = empty p.
Proof. destruct p; [reflexivity|]. rewrite zlen_cons. pose proof (zlen_nonneg p). cbn [empty]. lia. Qed.

(** What the loops of split answer from the count i on. *)
Definition left_over (d : list Z) (skip : bool) (max i : Z) (ps : list (list Z)) : list (list Z) :=
  if max =? 0 then kept skip ps else limited d skip (Z.to_nat (max - i)) ps.
Lemma next_piece_ok d s ps max i : d <> [] -> Cut d s ps -> 0 <= max < 2 ^ 64 -> 0 <= i -> (max = 0 \/ i < max) -> i + zlen s < 2 ^ 64 - 1 ->
  (next_piece s d max i = Ok (s, s, true) /\ forall skip, left_over d skip max i ps = kept skip [s]) \/
  (exists p r ps', s = p ++ d ++ r /\ Cut d r ps' /\ next_piece s d max i = Ok (p, r, false) /\ (max = 0 \/ i + 1 < max) /\
     forall skip, left_over d skip max i ps = if skip && empty p then left_over d skip max i ps' else p :: left_over d skip max (i + 1) ps').
Proof.
  intros Hd H Hm Hi Him Hb. unfold next_piece. pose proof (zlen_nonneg s) as Hs.
  destruct (i =? (max - 1) mod 2 ^ 64) eqn:E.
  - assert (max <> 0) by (intros E0; rewrite E0 in E; replace ((0 - 1) mod 2 ^ 64) with (2 ^ 64 - 1) in E by reflexivity; apply Z.eqb_eq in E; lia).
    rewrite Z.mod_small in E by lia. left. split; [reflexivity|]. intros skip. unfold left_over. replace (max =? 0) with false by lia.
    replace (max - i) with 1 by lia. rewrite <- (cut_glue _ _ _ H). pose proof (cut_nonempty _ _ _ H). destruct ps; [congruence|reflexivity].
  - assert (Hi' : max = 0 \/ i + 1 < max).
    { destruct (Z.eq_dec max 0); [auto|]. rewrite Z.mod_small in E by lia. lia. }
    destruct (cut_index _ _ _ Hd H) as [[-> ->]|(p & r & ps' & -> & -> & Hc & ->)]; cbn [bind].
    + left. split; [reflexivity|]. intros skip. unfold left_over. destruct (max =? 0) eqn:E0; [reflexivity|].
      destruct Hi' as [|Hi']; [lia|]. replace (Z.to_nat (max - i)) with (S (S (Z.to_nat (max - i - 2)))) by lia. cbn [limited glue kept].
      destruct skip; cbn [kept filter andb]; [|reflexivity]. destruct (empty s); reflexivity.
    + right. exists p, r, ps'. rewrite slice_pre by reflexivity. cbn [bind].
      rewrite (app_assoc p), slice_suf; rewrite ?zlen_app; [|reflexivity|lia]. cbn [bind].
      repeat match goal with |- _ /\ _ => split end; auto. intros skip. unfold left_over. destruct (max =? 0) eqn:E0.
      * unfold kept. destruct skip; cbn [filter andb]; [destruct (empty p); reflexivity|reflexivity].
      * destruct Hi' as [|Hi']; [lia|]. replace (Z.to_nat (max - i)) with (S (S (Z.to_nat (max - i - 2)))) by lia. cbn [limited].
        replace (Z.to_nat (max - (i + 1))) with (S (Z.to_nat (max - i - 2))) by lia. destruct (skip && empty p); reflexivity.
Qed.
Lemma split_loop_ok d max skip : d <> [] -> 0 <= max < 2 ^ 64 -> forall k s ps i cap acc,
  Cut d s ps -> (length s < k)%nat -> 0 <= i <= cap -> 0 < cap -> (max = 0 \/ i < max) -> i + zlen s < 2 ^ 64 - 1 ->
  split_loop k s d max skip i cap acc = Ok (acc ++ left_over d skip max i ps).
Proof.
  intros Hd Hm. induction k as [|k IH]; intros s ps i cap acc Hc Hk Hi Hcap Him Hb; [lia|]. cbn [split_loop].
  assert (Hcap' : exists cap', (if i =? cap then 2 * cap else cap) = cap' /\ i < cap' /\ 0 < cap').
  { destruct (i =? cap) eqn:E; eexists; (split; [reflexivity|]); lia. }
  destruct Hcap' as (cap' & Ecap & Hc1 & Hc2).
  destruct (next_piece_ok d s ps max i) as [[-> Hl]|(p & r & ps' & E & Hc' & -> & Him' & Hl)]; auto; try lia; rewrite Hl; cbn [bind]; rewrite empty_zlen, andb_comm.
  - cbv zeta. rewrite Ecap. replace (i <? cap') with true by lia. unfold kept. destruct skip; cbn [andb filter]; [destruct (empty s)|]; cbn [negb]; rewrite ?app_nil_r; reflexivity.
  - assert (HL : zlen s = zlen p + zlen d + zlen r) by (rewrite E, !zlen_app; lia).
    assert (0 < zlen d) by (destruct d; [congruence|rewrite zlen_cons; pose proof (zlen_nonneg d); lia]). pose proof (zlen_nonneg p). pose proof (zlen_nonneg r).
    destruct (skip && empty p) eqn:Es.
    + apply IH; auto; unfold zlen in *; lia.
    + cbv zeta. rewrite Ecap. replace (i <? cap') with true by lia. rewrite (IH _ ps'); auto; try (unfold zlen in *; lia). now rewrite <- app_assoc.
Qed.
Lemma split_ok s d max skip : d <> [] -> zlen s < 2 ^ 63 -> 0 <= max < 2 ^ 64 ->
  exists ps, Cut d s ps /\ split s d max skip = Ok (left_over d skip max 0 ps).
Proof.
  intros Hd Hs Hm. destruct (cut_total d Hd s) as [ps Hc]. exists ps. split; [exact Hc|].
  unfold split. rewrite (split_loop_ok d max skip Hd Hm _ _ ps); auto; lia.
Qed.
Lemma kept_le skip ps : zlen (kept skip ps) <= zlen ps.
Proof.
  unfold kept. destruct skip; [|lia]. induction ps as [|p ps IH]; cbn [filter]; [lia|]. destruct (negb (empty p)); rewrite ?zlen_cons; lia.
Qed.
Lemma split_buffer_loop_ok d max skip cap : d <> [] -> 0 <= max < 2 ^ 64 -> forall k s ps i acc,
  Cut d s ps -> (length s < k)%nat -> 0 <= i <= cap -> zlen acc = i -> (max = 0 \/ i < max) -> i + zlen s < 2 ^ 64 - 1 ->
  split_buffer_loop k s d cap max skip i acc =
  Ok (if i + zlen (left_over d skip max i ps) <=? cap then Some (acc ++ left_over d skip max i ps) else None).
Proof.
  intros Hd Hm. induction k as [|k IH]; intros s ps i acc Hc Hk Hi Hacc Him Hb; [lia|]. cbn [split_buffer_loop].
  destruct (next_piece_ok d s ps max i) as [[-> Hl]|(p & r & ps' & E & Hc' & -> & Him' & Hl)]; auto; try lia; rewrite Hl; cbn [bind]; rewrite empty_zlen, andb_comm.
  - unfold kept. destruct (skip && empty s) eqn:Es.
    + replace skip with true by (destruct skip; [reflexivity|discriminate]). replace (empty s) with true by (destruct skip; cbn in Es; congruence).
      cbn [filter]. replace (empty s) with true by (destruct skip; cbn in Es; congruence). cbn [negb]. change (zlen (@nil (list Z))) with 0.
      replace (i + 0 <=? cap) with true by lia. now rewrite app_nil_r.
    + assert (Ek : (if skip then filter (fun p => negb (empty p)) [s] else [s]) = [s]).
      { destruct skip; [|reflexivity]. cbn in Es |- *. now rewrite Es. }
      rewrite Ek. change (zlen [s]) with 1. destruct (i =? cap) eqn:Ei.
      * replace (i + 1 <=? cap) with false by lia. reflexivity.
      * replace (i <? cap) with true by lia. replace (i + 1 <=? cap) with true by lia. reflexivity.
  - assert (HL : zlen s = zlen p + zlen d + zlen r) by (rewrite E, !zlen_app; lia).
    assert (0 < zlen d) by (destruct d; [congruence|rewrite zlen_cons; pose proof (zlen_nonneg d); lia]). pose proof (zlen_nonneg p). pose proof (zlen_nonneg r).
    destruct (skip && empty p) eqn:Es.
    + apply IH; auto; unfold zlen in *; lia.
    + rewrite zlen_cons. pose proof (zlen_nonneg (left_over d skip max (i + 1) ps')). destruct (i =? cap) eqn:Ei.
      * replace (i + (1 + zlen (left_over d skip max (i + 1) ps')) <=? cap) with false by lia. reflexivity.
      * replace (i <? cap) with true by lia. rewrite (IH _ ps'); auto; try (unfold zlen in *; lia); [|rewrite zlen_app; change (zlen [p]) with 1; lia].
        replace (i + (1 + zlen (left_over d skip max (i + 1) ps'))) with (i + 1 + zlen (left_over d skip max (i + 1) ps')) by lia.
        now rewrite <- app_assoc.
Qed.

(** The limit keeps the text, and the number of pieces. *)
Lemma limited_glue d : forall n ps, ps <> [] -> (0 < n)%nat -> glue d (limited d false n ps) = glue d ps /\ limited d false n ps <> [] /\ (length (limited d false n ps) <= n)%nat.
Proof.
  induction n as [|n IH]; intros ps Hp Hn; [lia|]. destruct ps as [|p r]; [congruence|]. cbn [limited andb].
  destruct n as [|n]; [cbn [kept glue length]; split; [reflexivity|split; [discriminate|lia]]|].
  destruct r as [|q r].
  - destruct n; cbn [limited length]; (split; [reflexivity|split; [discriminate|lia]]).
  - destruct (IH (q :: r)) as (H1 & H2 & H3); [discriminate|lia|]. rewrite !glue_cons by (auto; discriminate). rewrite H1.
    split; [reflexivity|]. split; [discriminate|]. cbn [length]. lia.
Qed.
Lemma join_glue d ps : join ps d = glue d ps.
Proof.
  destruct ps as [|p ps]; [reflexivity|]. unfold join.
  assert (H : forall ps acc, fold_left (fun res x => (res ++ d) ++ x) ps acc = match ps with [] => acc | _ => acc ++ d ++ glue d ps end).
  { clear. induction ps as [|p ps IH]; intros acc; [reflexivity|]. cbn [fold_left]. rewrite IH.
    destruct ps; [cbn [glue]; now rewrite <- app_assoc|]. rewrite (glue_cons d p) by discriminate. now rewrite <- !app_assoc. }
  rewrite H. destruct ps; [reflexivity|]. now rewrite (glue_cons d p) by discriminate.
Qed.

(** The splitter. *)
Definition visited (tokenize : bool) (ps : list (list Z)) : list (list Z) := if tokenize then kept true ps else drop_last_empty ps.
Lemma visited_last tok s : visited tok [s] = if empty s then [] else [s].
Proof. unfold visited, drop_last_empty, kept. cbn. destruct tok; destruct (empty s); reflexivity. Qed.
Lemma visited_cons tok p ps : ps <> [] -> visited tok (p :: ps) = if tok && empty p then visited tok ps else p :: visited tok ps.
Proof.
  intros H. unfold visited, drop_last_empty, kept. destruct tok; cbn [andb filter]; [destruct (empty p); reflexivity|].
  destruct ps; [congruence|]. change (last (p :: l :: ps) [0]) with (last (l :: ps) [0]). change (removelast (p :: l :: ps)) with (p :: removelast (l :: ps)).
  destruct (empty (last (l :: ps) [0])); reflexivity.
Qed.
Lemma splitter_next_ok d tok : d <> [] -> forall k s pre rest ps, s = pre ++ rest -> Cut d rest ps -> (length rest <= k)%nat ->
  (splitter_next k s d tok (zlen pre) = Ok None /\ visited tok ps = []) \/
  (exists p pre' rest' l, splitter_next k s d tok (zlen pre) = Ok (Some (p, zlen pre')) /\ s = pre' ++ rest' /\ (length rest' < length rest)%nat /\
     visited tok ps = p :: l /\ ((exists ps', Cut d rest' ps' /\ l = visited tok ps') \/ (rest' = [] /\ l = []))).
Proof.
  intros Hd. induction k as [|k IH]; intros s pre rest ps E Hc Hk;
    (destruct rest as [|c0 rest0]; [left; split;
      [destruct (cut_index _ _ _ Hd Hc) as [[_ ->]|(p & r & ps' & E' & _)];
        [subst s; rewrite app_nil_r; cbn [splitter_next]; replace (zlen pre >=? zlen pre) with true by lia; reflexivity|destruct p; destruct d; try discriminate; congruence]
      |destruct (cut_index _ _ _ Hd Hc) as [[_ ->]|(p & r & ps' & E' & _)]; [now rewrite visited_last|destruct p; destruct d; try discriminate; congruence]]|]).
  { cbn in Hk. lia. }
  set (rest := c0 :: rest0) in *. assert (Hr : 0 < zlen rest) by (unfold rest; rewrite zlen_cons; pose proof (zlen_nonneg rest0); lia). clearbody rest.
  cbn [splitter_next]. subst s. rewrite zlen_app. replace (zlen pre >=? zlen pre + zlen rest) with false by lia.
  rewrite slice_suf by lia. cbn [bind].
  destruct (cut_index _ _ _ Hd Hc) as [[-> ->]|(p & r & ps' & -> & -> & Hc' & ->)]; cbn [bind].
  - right. exists rest, (pre ++ rest), [], []. rewrite app_nil_r, zlen_app. repeat match goal with |- _ /\ _ => split end; auto.
    + unfold zlen in Hr. cbn. lia.
    + rewrite visited_last. destruct rest; [cbn in Hr; lia|reflexivity].
  - assert (Hdl : (0 < length d)%nat) by (destruct d; [congruence|cbn; lia]). rewrite empty_zlen, andb_comm.
    rewrite visited_cons by eauto using cut_nonempty.
    replace (zlen pre + zlen p + zlen d) with (zlen (pre ++ p ++ d)) by (rewrite !zlen_app; lia).
    assert (Es : pre ++ p ++ d ++ r = (pre ++ p ++ d) ++ r) by now rewrite <- !app_assoc.
    destruct (tok && empty p) eqn:Et.
    + destruct (IH (pre ++ p ++ d ++ r) (pre ++ p ++ d) r ps') as [H|(q & pre' & rest' & l & H1 & H2 & H3 & H4 & H5)]; auto; [rewrite !app_length in Hk; lia|].
      right. exists q, pre', rest', l. repeat match goal with |- _ /\ _ => split end; auto. rewrite !app_length. lia.
    + right. rewrite slice_pre by reflexivity. cbn [bind]. exists p, (pre ++ p ++ d), r, (visited tok ps').
      repeat match goal with |- _ /\ _ => split end; auto; [rewrite !app_length; lia|]. left. eauto.
Qed.
Lemma splitter_done k s d tok : splitter_all k s d tok (zlen s) = Ok [].
Proof. destruct k, (length s) eqn:E; cbn [splitter_all splitter_next]; rewrite E; cbn [splitter_next]; replace (zlen s >=? zlen s) with true by lia; reflexivity. Qed.
Lemma splitter_all_ok d tok : d <> [] -> forall k s pre rest ps, s = pre ++ rest -> Cut d rest ps -> (length rest <= k)%nat ->
  splitter_all k s d tok (zlen pre) = Ok (visited tok ps).
Proof.
  intros Hd. induction k as [|k IH]; intros s pre rest ps E Hc Hk; cbn [splitter_all].
  - destruct (splitter_next_ok d tok Hd (length s) s pre rest ps E Hc) as [[-> ->]|(p & pre' & rest' & l & _ & _ & H & _)]; [subst s; rewrite app_length; lia|reflexivity|lia].
  - destruct (splitter_next_ok d tok Hd (length s) s pre rest ps E Hc) as [[-> ->]|(p & pre' & rest' & l & -> & H2 & H3 & H4 & H5)]; [subst s; rewrite app_length; lia|reflexivity|].
    cbn [bind]. rewrite H4. destruct H5 as [(ps' & Hc' & ->)|[-> ->]].
    + rewrite (IH s pre' rest' ps'); auto; lia.
    + rewrite app_nil_r in H2. subst pre'. now rewrite splitter_done.
Qed.
