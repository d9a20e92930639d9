From Coq Require Import ZArith Bool List Lia ZifyBool.
From Verif Require Import Mach LexModel LexSpec LexProofs LexProofs4 LexNumSpec LexNumProofs LexNumProofs2 LexNumProofs3.
Import ListNotations.
Open Scope Z_scope.

Lemma units_last P s : units P s -> exists u d, s = u ++ [d] /\ P d.
Proof. intros [d Hd|s' d _ Hd|s' d _ Hd]; [exists [], d|exists s', d|exists (s' ++ [95]), d; rewrite <- app_assoc]; auto. Qed.
Lemma nodouble_snoc s d : nodouble s -> d <> 95 -> nodouble (s ++ [d]).
Proof.
  intros N Hd. induction s as [|x s IH]; cbn [app].
  - apply nodouble_cons. split; [apply nodouble_nil|]. intros [-> _]. contradiction.
  - apply nodouble_cons in N. destruct N as [N1 N2]. apply nodouble_cons. split; [apply IH; exact N1|]. intros [-> (v & E)]. destruct s as [|y s]; cbn [app] in E; [injection E as -> _; contradiction|]. injection E as -> _. apply N2. eauto.
Qed.
Lemma nodouble_us s d : nodouble s -> last s 0 <> 95 -> d <> 95 -> nodouble (s ++ [95; d]).
Proof.
  intros N Hl Hd. induction s as [|x s IH]; cbn [app].
  - apply nodouble_cons. split; [apply nodouble_cons; split; [apply nodouble_nil|intros [-> _]; contradiction]|]. intros [_ (v & E)]. injection E as -> _. contradiction.
  - apply nodouble_cons in N. destruct N as [N1 N2]. apply nodouble_cons. destruct s as [|y s].
    + split; [apply nodouble_cons; split; [apply nodouble_cons; split; [apply nodouble_nil|intros [-> _]; contradiction]|intros [_ (v & E)]; injection E as -> _; contradiction]|]. intros [-> _]. cbn in Hl. contradiction.
    + split; [apply IH; [exact N1|exact Hl]|]. intros [-> (v & E)]. cbn [app] in E. injection E as -> _. apply N2. eauto.
Qed.
Lemma units_spaced P s : ~ P 95 -> units P s -> spaced P s /\ last s 0 <> 95.
Proof.
  intros H95 H. induction H as [d Hd|s d Hs IH Hd|s d Hs IH Hd].
  - split; [|cbn; intros ->; contradiction]. split; [eauto|]. split; [repeat constructor; auto|]. apply nodouble_cons. split; [apply nodouble_nil|]. intros [-> _]. contradiction.
  - assert (D : d <> 95) by (intros ->; contradiction). destruct IH as [((x & t & -> & Hx) & F & N) Hl]. split; [|rewrite last_app by discriminate; exact D].
    split; [exists x, (t ++ [d]); auto|]. split; [apply Forall_app; auto|]. apply nodouble_snoc; assumption.
  - assert (D : d <> 95) by (intros ->; contradiction). destruct IH as [((x & t & -> & Hx) & F & N) Hl]. split; [|rewrite last_app by discriminate; exact D].
    split; [exists x, (t ++ [95; d]); auto|]. split; [apply Forall_app; split; [exact F|constructor; [auto|constructor; [auto|constructor]]]|]. apply nodouble_us; assumption.
Qed.
Lemma widths_dec w : In w widths -> Forall dec_dig w.
Proof. cbn. intros [<- |[<- |[<- |[<- |[<- |[]]]]]]; repeat constructor; unfold dec_dig; lia. Qed.
Lemma int_suffix t : opt int_type t -> suffix false false t /\ ~ hex_dig (hd 0 t).
Proof.
  intros [|s [c w Hc Hw|c Hc|c d Hc Hd|d Hd]]; (split; [|cbn; unfold hex_dig; lia]).
  - constructor.
  - apply sf_int; [lia|apply widths_dec; exact Hw].
  - apply sf_int; [lia|constructor].
  - apply sf_ul; assumption.
  - apply sf_l; assumption.
Qed.
Lemma real_suffix b t : real_type t -> suffix b true t.
Proof. intros [|w Hw]; apply sf_real; auto. apply widths_dec. exact Hw. Qed.
Lemma opt_real_suffix t : opt real_type t -> suffix true true t.
Proof. intros [|s Hs]; [constructor|apply real_suffix; exact Hs]. Qed.
Lemma power_last mark s : power mark s -> last s 0 <> 95.
Proof.
  intros [c sg ds _ _ Hn F]. change (c :: sg ++ ds) with ((c :: sg) ++ ds). rewrite last_app by exact Hn. destruct (exists_last Hn) as (u & x & ->). rewrite last_app by discriminate. cbn.
  apply Forall_app in F. destruct F as [_ F]. inversion F; subst. unfold dec_dig in *. lia.
Qed.
Lemma dec95 : ~ dec_dig 95. Proof. unfold dec_dig. lia. Qed.
Lemma hex95 : ~ hex_dig 95. Proof. unfold hex_dig. lia. Qed.
Lemma oct95 : ~ oct_dig 95. Proof. unfold oct_dig. lia. Qed.
Lemma bin95 : ~ bin_dig 95. Proof. unfold bin_dig. lia. Qed.

Lemma official_number b s : official b s -> number b s.
Proof.
  intros [s' i t Hi Ht Hp|s' i t Hi Ht Hp|s' i t Hi Ht Hp|i t Hi Ht|i t Hi Ht|i e t Hi He Ht|s' i e t Hi He Ht Hp|i j e t Hi Hj He Ht|s' i j e t Hi Hj He Ht Hp].
  - destruct (units_spaced _ _ hex95 Hi) as [Hs Hl]. destruct (int_suffix t Ht) as [Hsf Hh]. apply (nu_hex _ i [] [] t false false false); auto; try constructor; try (rewrite app_nil_r; exact Hl).
  - destruct (units_spaced _ _ oct95 Hi) as [Hs Hl]. destruct (int_suffix t Ht) as [Hsf Hh]. apply (nu_oct _ i t); auto.
  - destruct (units_spaced _ _ bin95 Hi) as [Hs Hl]. destruct (int_suffix t Ht) as [Hsf Hh]. apply (nu_bin _ i t); auto.
  - destruct (units_spaced _ _ dec95 Hi) as [Hs Hl]. destruct (int_suffix t Ht) as [Hsf Hh]. apply (nu_dec i [] [] t false false false); auto; try constructor; try (rewrite app_nil_r; exact Hl).
  - destruct (units_spaced _ _ dec95 Hi) as [Hs Hl]. apply (nu_dec i [] [] t false false true); auto; try constructor; try (rewrite app_nil_r; exact Hl). apply real_suffix. exact Ht.
  - destruct (units_spaced _ _ dec95 Hi) as [Hs Hl]. apply (nu_dec i [] e t false true true); auto; try constructor; auto; [cbn [app]; rewrite last_app by (apply (power_nn 101); exact He); apply (power_last 101); exact He|].
    apply opt_real_suffix. exact Ht.
  - destruct (units_spaced _ _ hex95 Hi) as [Hs Hl]. apply (nu_hex _ i [] e t false true true); auto; try constructor; auto; [cbn [app]; rewrite last_app by (apply (power_nn 112); exact He); apply (power_last 112); exact He|].
    apply opt_real_suffix. exact Ht.
  - destruct (units_spaced _ _ dec95 Hi) as [Hs Hl]. destruct (units_spaced _ _ dec95 Hj) as [Hs' Hl']. change (46 :: j ++ e ++ t) with ((46 :: j) ++ e ++ t). assert (Hjn : j <> []) by (destruct Hs' as ((? & ? & -> & _) & _); discriminate).
    destruct He as [|e He].
    + apply (nu_dec i (46 :: j) [] t true false true); auto; try constructor; auto; [rewrite app_nil_r, last_app by discriminate; change (46 :: j) with ([46] ++ j); rewrite last_app by exact Hjn; exact Hl'|apply opt_real_suffix; exact Ht].
    + apply (nu_dec i (46 :: j) e t true true true); auto; try constructor; auto; [rewrite !last_app; [apply (power_last 101); exact He|apply (power_nn 101); exact He|discriminate]|apply opt_real_suffix; exact Ht].
  - destruct (units_spaced _ _ hex95 Hi) as [Hs Hl]. destruct (units_spaced _ _ hex95 Hj) as [Hs' Hl']. change (46 :: j ++ e ++ t) with ((46 :: j) ++ e ++ t) in Hp.
    apply (nu_hex _ i (46 :: j) e t true true true); auto; try constructor; auto; [rewrite !last_app; [apply (power_last 112); exact He|apply (power_nn 112); exact He|discriminate]|apply opt_real_suffix; exact Ht].
Qed.

(** In an official number every '_' has a digit after it, every number has a digit after a dot, and a hexadecimal dot needs an exponent. *)
Definition usok (s : list Z) : Prop := forall u v, s = u ++ 95 :: v -> exists d w, v = d :: w /\ hex_dig d.
Lemma app_split (a b u v : list Z) x : a ++ b = u ++ x :: v -> (exists v', a = u ++ x :: v' /\ v = v' ++ b) \/ (exists u', b = u' ++ x :: v).
Proof.
  revert u. induction a as [|y a IH]; intros u E.
  - right. exists u. exact E.
  - destruct u as [|z u]; cbn [app] in E; injection E as -> E; [left; exists a; auto|]. destruct (IH u E) as [(v' & -> & ->)|(u' & ->)]; [left; exists v'; auto|right; exists u'; reflexivity].
Qed.
Lemma usok_app a b : usok a -> usok b -> usok (a ++ b).
Proof. intros Ha Hb u v E. apply app_split in E. destruct E as [(v' & E & ->)|(u' & E)]; [destruct (Ha u v' E) as (d & w & -> & H); exists d, (w ++ b); auto|apply (Hb u' v E)]. Qed.
Lemma usok_none s : ~ In 95 s -> usok s.
Proof. intros H u v ->. exfalso. apply H. apply in_or_app. right. left. reflexivity. Qed.
Lemma usok_units (P : Z -> Prop) s : (forall c, P c -> hex_dig c) -> units P s -> usok s.
Proof.
  intros HP H. induction H as [d Hd|s d Hs IH Hd|s d Hs IH Hd].
  - apply usok_none. apply HP in Hd. intros [E|[]]. subst d. apply hex95. exact Hd.
  - apply usok_app; [exact IH|]. apply usok_none. apply HP in Hd. intros [E|[]]. subst d. apply hex95. exact Hd.
  - apply usok_app; [exact IH|]. apply HP in Hd. intros u v E. destruct u as [|x [|y [|z u]]]; cbn [app] in E; inversion E; subst; [eauto|destruct (hex95 Hd)].
Qed.
Lemma usok_dec ds : Forall dec_dig ds -> ~ In 95 ds.
Proof. intros F A. rewrite Forall_forall in F. apply dec95, F, A. Qed.
Lemma usok_power mark s : power mark s -> 96 <= mark - 32 \/ mark - 32 <= 94 -> mark <> 95 -> usok s.
Proof.
  intros [c sg ds Hc Hs _ F] H1 H2. apply usok_none. intros [A|A]; [lia|]. apply in_app_or in A. destruct A as [A|A]; [|apply (usok_dec ds F A)]. destruct Hs as [<- |[<- |[<- |[]]]]; cbn in A; lia.
Qed.
Lemma usok_int t : opt int_type t -> usok t.
Proof.
  intros [|s [c w Hc Hw|c Hc|c d Hc Hd|d Hd]]; apply usok_none; cbn; try lia. intros [A|A]; [lia|]. apply (usok_dec w); [apply widths_dec; exact Hw|exact A].
Qed.
Lemma usok_real t : real_type t -> usok t.
Proof. intros [|w Hw]; apply usok_none; cbn; [lia|]. intros [A|A]; [lia|]. apply (usok_dec w); [apply widths_dec; exact Hw|exact A]. Qed.
Lemma usok_oreal t : opt real_type t -> usok t.
Proof. intros [|s Hs]; [apply usok_none; intros []|apply usok_real; exact Hs]. Qed.
Lemma usok_cons c s : c <> 95 -> usok s -> usok (c :: s).
Proof. intros Hc H. apply (usok_app [c] s); [apply usok_none; intros [A|[]]; contradiction|exact H]. Qed.
Lemma usok_official b s : official b s -> usok s.
Proof.
  assert (D : forall s, units dec_dig s -> usok s) by (intros; apply (usok_units dec_dig); [unfold dec_dig, hex_dig; intros; lia|assumption]).
  assert (X : forall s, units hex_dig s -> usok s) by (intros; apply (usok_units hex_dig); auto).
  assert (Pe : forall s, power 101 s -> usok s) by (intros; apply (usok_power 101); [assumption|lia|lia]).
  assert (Pp : forall s, power 112 s -> usok s) by (intros; apply (usok_power 112); [assumption|lia|lia]).
  assert (Px : forall m s r, prefixed m s r -> m = 120 \/ m = 111 \/ m = 98 -> usok r -> usok s) by (intros m s' r (c & Hc & ->) Hm Hr; repeat apply usok_cons; [lia|lia|exact Hr]).
  intros [s' i t Hi Ht Hp|s' i t Hi Ht Hp|s' i t Hi Ht Hp|i t Hi Ht|i t Hi Ht|i e t Hi He Ht|s' i e t Hi He Ht Hp|i j e t Hi Hj He Ht|s' i j e t Hi Hj He Ht Hp].
  - eapply Px; [exact Hp|lia|]. apply usok_app; [auto|apply usok_int; exact Ht].
  - eapply Px; [exact Hp|lia|]. apply usok_app; [apply (usok_units oct_dig); [unfold oct_dig, hex_dig; intros; lia|assumption]|apply usok_int; exact Ht].
  - eapply Px; [exact Hp|lia|]. apply usok_app; [apply (usok_units bin_dig); [unfold bin_dig, hex_dig; intros; lia|assumption]|apply usok_int; exact Ht].
  - apply usok_app; [auto|apply usok_int; exact Ht].
  - apply usok_app; [auto|apply usok_real; exact Ht].
  - apply usok_app; [auto|]. apply usok_app; [auto|apply usok_oreal; exact Ht].
  - eapply Px; [exact Hp|lia|]. apply usok_app; [auto|]. apply usok_app; [auto|apply usok_oreal; exact Ht].
  - apply usok_app; [auto|]. apply usok_cons; [lia|]. apply usok_app; [auto|]. apply usok_app; [|apply usok_oreal; exact Ht]. destruct He as [|e He]; [apply usok_none; intros []|auto].
  - eapply Px; [exact Hp|lia|]. apply usok_app; [auto|]. apply usok_cons; [lia|]. apply usok_app; [auto|]. apply usok_app; [auto|apply usok_oreal; exact Ht].
Qed.
