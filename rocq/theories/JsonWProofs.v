(** Proofs about the JSON writer. *)
From Coq Require Import ZArith QArith Qreduction List Bool Lia.
From Verif Require Import JsonModel JsonSpec JsonProofs JsonWModel JsonWSpec.
Import ListNotations.
Open Scope Z_scope.

Section Ind.
  Variable P : json -> Prop.
  Hypothesis Hnull : P JNull.
  Hypothesis Hbool : forall b, P (JBool b).
  Hypothesis Hnum : forall q, P (JNum q).
  Hypothesis Hstr : forall s, P (JStr s).
  Hypothesis Harr : forall l, Forall P l -> P (JArr l).
  Hypothesis Hobj : forall l, Forall (fun m => P (snd m)) l -> P (JObj l).
  Fixpoint json_all (v : json) : P v :=
    match v with
    | JNull => Hnull | JBool b => Hbool b | JNum q => Hnum q | JStr s => Hstr s
    | JArr l => Harr l ((fix go l : Forall P l := match l with [] => Forall_nil _ | x :: r => Forall_cons x (json_all x) (go r) end) l)
    | JObj l => Hobj l ((fix go l : Forall (fun m => P (snd m)) l := match l with [] => Forall_nil _ | x :: r => Forall_cons x (json_all (snd x)) (go r) end) l)
    end.
End Ind.

(** ** Numbers *)
Lemma dec_snoc l c : dec (l ++ [c]) = dec l * 10 + (c - 48).
Proof. unfold dec. rewrite fold_left_app. reflexivity. Qed.
Lemma dig_ok k : forall n, 0 <= n < 2 ^ Z.of_nat k -> (0 < k)%nat -> dec (dig k n) = n /\ Forall digit (dig k n) /\ dig k n <> [] /\ (hd 0 (dig k n) = 48 -> length (dig k n) = 1%nat).
Proof.
  induction k as [|k IH]; intros n B K; [lia|]. cbn [dig]. destruct (Z.ltb_spec n 10) as [L|G].
  - split; [unfold dec; cbn [fold_left]; lia|]. split; [constructor; [unfold digit; lia|constructor]|]. split; [discriminate|reflexivity].
  - assert (D : 0 < n / 10 < 2 ^ Z.of_nat k).
    { rewrite Nat2Z.inj_succ, Z.pow_succ_r in B by lia. split; [apply Z.div_str_pos; lia|]. apply Z.div_lt_upper_bound; lia. }
    assert (K' : (0 < k)%nat) by (destruct k; [cbn in D; lia|lia]).
    destruct (IH (n / 10) ltac:(lia) K') as (E & F & N & H). pose proof (Z.mod_pos_bound n 10 ltac:(lia)) as M. pose proof (Z.div_mod n 10 ltac:(lia)) as DM.
    split; [rewrite dec_snoc, E; lia|]. split; [apply Forall_app; split; [exact F|constructor; [unfold digit; lia|constructor]]|]. split; [destruct (dig k (n / 10)); discriminate|].
    intros X. exfalso. destruct (dig k (n / 10)) as [|c r] eqn:Q; [congruence|]. cbn [hd app] in X, H. specialize (H X). destruct r; [|discriminate H]. subst c. unfold dec in E. cbn [fold_left] in E. lia.
Qed.
Lemma decimal_of_ok n : 0 <= n -> dec (decimal_of n) = n /\ Forall digit (decimal_of n) /\ decimal_of n <> [] /\ (hd 0 (decimal_of n) = 48 -> length (decimal_of n) = 1%nat).
Proof.
  intros H. unfold decimal_of. apply dig_ok; [|lia]. rewrite Nat2Z.inj_succ, Z2Nat.id by apply Z.log2_nonneg. destruct (Z.eq_dec n 0) as [->|]; [cbn; lia|]. pose proof (Z.log2_spec n ltac:(lia)). lia.
Qed.
Lemma padded_ok k : forall n, 0 <= n < 10 ^ Z.of_nat k -> dec (padded k n) = n /\ Forall digit (padded k n) /\ length (padded k n) = k.
Proof.
  induction k as [|k IH]; intros n B; [cbn in B; split; [cbn; lia|split; [constructor|reflexivity]]|]. cbn [padded]. rewrite Nat2Z.inj_succ, Z.pow_succ_r in B by lia.
  assert (D : 0 <= n / 10 < 10 ^ Z.of_nat k) by (split; [apply Z.div_pos; lia|apply Z.div_lt_upper_bound; lia]).
  destruct (IH _ D) as (E & F & L). pose proof (Z.mod_pos_bound n 10 ltac:(lia)) as M. pose proof (Z.div_mod n 10 ltac:(lia)) as DM.
  split; [rewrite dec_snoc, E; lia|]. split; [apply Forall_app; split; [exact F|constructor; [unfold digit; lia|constructor]]|]. rewrite app_length, L. cbn. lia.
Qed.
Lemma fmtf_ok q : Qred q = q -> 0 <= Qnum q -> (exists m, q == m # 1000000) -> number false (fmtf q) q.
Proof.
  intros R N [m E]. unfold Qeq in E. cbn [Qnum Qden] in E.
  assert (M : micro q = m).
  { unfold micro. rewrite Z.abs_eq by exact N. rewrite E. rewrite Z.div_mul by lia. rewrite Z.mod_mul by lia. reflexivity. }
  assert (M0 : 0 <= m) by nia.
  unfold fmtf. rewrite M. destruct (Z.ltb_spec (Qnum q) 0); [lia|]. cbn [app].
  destruct (decimal_of_ok (m / 1000000) (Z.div_pos m 1000000 M0 ltac:(lia))) as (E1 & F1 & N1 & H1).
  destruct (padded_ok 6 (m mod 1000000) (Z.mod_pos_bound m 1000000 ltac:(lia))) as (E2 & F2 & L2).
  assert (Q : frac (decimal_of (m / 1000000)) (padded 6 (m mod 1000000)) = q).
  { unfold frac. rewrite dec_app, E1, E2, L2. change (10 ^ Z.of_nat 6) with 1000000. change (Z.to_pos 1000000) with 1000000%positive.
    rewrite <- R. apply Qred_complete. unfold Qeq. cbn [Qnum Qden]. pose proof (Z.div_mod m 1000000 ltac:(lia)). rewrite E. f_equal. lia. }
  set (P6 := padded 6 (m mod 1000000)) in *. clearbody P6. rewrite <- Q. apply num_frac; auto. intros ->. discriminate L2.
Qed.

(** ** Strings *)
Lemma plain_cstr s : plain_text s -> cstr s = s.
Proof. induction 1 as [|c s H F IH]; [reflexivity|]. cbn [cstr]. destruct (Z.eqb_spec c 0); [lia|]. rewrite IH. reflexivity. Qed.
Lemma plain_quoted s : plain_text s -> quoted false ([34] ++ s ++ [34]) s.
Proof.
  intros F. rewrite <- (plain_cstr s F) at 2. apply quoted_intro. induction F as [|c s H F IH]; [constructor|]. apply ch_raw; [lia|lia|right; lia|exact IH].
Qed.

(** ** Layout *)
Lemma space_gap g : gap false g -> gap false (32 :: g).
Proof. apply gap_space. left. reflexivity. Qed.
Lemma newline_gap g : gap false g -> gap false (10 :: g).
Proof. apply gap_space. right. right. left. reflexivity. Qed.
Lemma gap_app a b : gap false a -> gap false b -> gap false (a ++ b).
Proof. intros A B. induction A as [|c g S A IH|g E|s g E|s g E]; try discriminate; [exact B|]. apply gap_space; assumption. Qed.
Lemma indent_gap n : gap false (indent n).
Proof. unfold indent. induction n as [|n IH]; [constructor|]. cbn [repeat concat app]. apply space_gap, space_gap, IH. Qed.

Definition prints (t : list Z) (v : json) : Prop := exists g t', t = g ++ t' /\ gap false g /\ value false t' v.
Definition printsm (t : list Z) (m : list Z * json) : Prop := exists g tk g2 t', t = g ++ tk ++ [58] ++ g2 ++ t' /\ gap false g /\ quoted false tk (fst m) /\ gap false g2 /\ value false t' (snd m).
Lemma prints_gap g t v : gap false g -> prints t v -> prints (g ++ t) v.
Proof. intros G (g' & t' & -> & G' & V). exists (g ++ g'), t'. rewrite <- app_assoc. auto using gap_app. Qed.
Lemma sep_elems sp ts l : gap false sp -> Forall2 prints ts l -> l <> [] -> forall g0 g1, gap false g0 -> gap false g1 -> elems false (g0 ++ sep (44 :: sp) ts ++ g1) l.
Proof.
  intros SP F. induction F as [|t v ts l (g & t' & -> & G & V) F IH]; intros N g0 g1 G0 G1; [congruence|]. destruct F as [|u w ts l U F].
  - cbn [sep]. replace (g0 ++ (g ++ t') ++ g1) with ((g0 ++ g) ++ t' ++ g1) by (rewrite <- !app_assoc; reflexivity). apply el_one; auto using gap_app.
  - change (sep (44 :: sp) ((g ++ t') :: u :: ts)) with ((g ++ t') ++ (44 :: sp) ++ sep (44 :: sp) (u :: ts)).
    replace (g0 ++ ((g ++ t') ++ (44 :: sp) ++ sep (44 :: sp) (u :: ts)) ++ g1) with ((g0 ++ g) ++ t' ++ [] ++ [44] ++ (sp ++ sep (44 :: sp) (u :: ts) ++ g1)).
    2:{ rewrite <- !app_assoc. reflexivity. }
    apply el_more; auto using gap_app, gap_nil. apply IH; auto. discriminate.
Qed.
Lemma sep_membs sp ts l : gap false sp -> Forall2 printsm ts l -> l <> [] -> forall g0 g1, gap false g0 -> gap false g1 -> membs false (g0 ++ sep (44 :: sp) ts ++ g1) l.
Proof.
  intros SP F. induction F as [|t [k v] ts l (g & tk & g2 & t' & -> & G & Q & G2 & V) F IH]; intros N g0 g1 G0 G1; [congruence|]. cbn [fst snd] in *. destruct F as [|u w ts l U F].
  - cbn [sep]. replace (g0 ++ (g ++ tk ++ [58] ++ g2 ++ t') ++ g1) with ((g0 ++ g) ++ tk ++ [] ++ [58] ++ g2 ++ t' ++ g1) by (rewrite <- !app_assoc; reflexivity). apply mb_one; auto using gap_app, gap_nil.
  - change (sep (44 :: sp) ((g ++ tk ++ [58] ++ g2 ++ t') :: u :: ts)) with ((g ++ tk ++ [58] ++ g2 ++ t') ++ (44 :: sp) ++ sep (44 :: sp) (u :: ts)).
    replace (g0 ++ ((g ++ tk ++ [58] ++ g2 ++ t') ++ (44 :: sp) ++ sep (44 :: sp) (u :: ts)) ++ g1) with ((g0 ++ g) ++ tk ++ [] ++ [58] ++ g2 ++ t' ++ [] ++ [44] ++ (sp ++ sep (44 :: sp) (u :: ts) ++ g1)).
    2:{ rewrite <- !app_assoc. reflexivity. }
    apply mb_more; auto using gap_app, gap_nil. apply IH; auto. discriminate.
Qed.

Lemma plain_arr l : plain (JArr l) <-> Forall plain l.
Proof. cbn [plain]. induction l as [|v l IH]; cbn [fold_right]; [split; auto|]. rewrite IH. split; [intros [A B]; constructor; auto|intros F; inversion F; auto]. Qed.
Lemma plain_obj l : plain (JObj l) <-> Forall (fun m => plain_text (fst m) /\ plain (snd m)) l.
Proof. cbn [plain]. induction l as [|v l IH]; cbn [fold_right]; [split; auto|]. rewrite IH. split; [intros (A & B & C); constructor; auto|intros F; inversion F; tauto]. Qed.
Lemma layout_plain l : Forall plain l -> exists b, layout l = Some b.
Proof. induction 1 as [|v l P F IH]; [cbn; eauto|]. cbn [layout]. destruct v; try contradiction; cbn [is_null is_object]; eauto. Qed.
Lemma all_prints n l : Forall (fun v => plain v -> forall n, exists t, print n v = Some t /\ prints t v) l -> Forall plain l ->
  exists ts, all_some (map (print n) l) = Some ts /\ Forall2 prints ts l.
Proof.
  intros A P. induction A as [|v l H A IH]; [exists []; cbn; auto|]. inversion P; subst. destruct (IH H3) as (ts & E & F). destruct (H H2 n) as (t & Et & Pt). exists (t :: ts). cbn [map all_some]. rewrite Et, E. auto.
Qed.

Lemma print_ok v : plain v -> forall n, exists t, print n v = Some t /\ prints t v.
Proof.
  induction v as [|b|q|s|l IH|l IH] using json_all; intros P n.
  - contradiction.
  - destruct b; eexists; (split; [reflexivity|]); exists []; eexists; (split; [reflexivity|]); split; constructor.
  - eexists. split; [reflexivity|]. exists []. eexists. split; [reflexivity|]. split; [constructor|]. apply val_num. destruct P as (A & B & C). apply fmtf_ok; assumption.
  - eexists. split; [reflexivity|]. exists []. eexists. split; [reflexivity|]. split; [constructor|]. apply val_str, plain_quoted, P.
  - apply plain_arr in P. destruct l as [|v l].
    { eexists. split; [reflexivity|]. exists [32], [91; 32; 32; 93]. split; [reflexivity|]. split; [apply space_gap, gap_nil|]. apply (val_arr0 false [32; 32]). apply space_gap, space_gap, gap_nil. }
    destruct (layout_plain _ P) as [b LB]. set (L := v :: l) in *. assert (NE : L <> []) by discriminate.
    assert (E : print n (JArr L) = match layout L with None => None | Some per_line =>
          if negb per_line && Nat.ltb (length L) 5
          then match all_some (map (print n) L) with Some ts => Some ([32; 91; 32] ++ sep [44; 32] ts ++ [32; 93]) | None => None end
          else match all_some (map (print (S n)) L) with Some ts => Some ([32; 91; 32; 10] ++ sep [44; 10] (map (fun t => indent (S n) ++ t) ts) ++ [10; 32; 93]) | None => None end end) by reflexivity.
    rewrite E, LB. clear E. destruct (negb b && Nat.ltb (length L) 5).
    + destruct (all_prints n L IH P) as (ts & -> & F). eexists. split; [reflexivity|]. exists [32], ([91] ++ ([32] ++ sep [44; 32] ts ++ [32]) ++ [93]). split; [rewrite <- !app_assoc; reflexivity|]. split; [apply space_gap, gap_nil|].
      apply val_arr. apply sep_elems; auto using space_gap, gap_nil.
    + destruct (all_prints (S n) L IH P) as (ts & -> & F). eexists. split; [reflexivity|]. exists [32], ([91] ++ ([32; 10] ++ sep [44; 10] (map (fun t => indent (S n) ++ t) ts) ++ [10; 32]) ++ [93]). split; [rewrite <- !app_assoc; reflexivity|]. split; [apply space_gap, gap_nil|].
      apply val_arr. apply sep_elems; auto using space_gap, newline_gap, gap_nil. clear -F. induction F; [constructor|]. cbn [map]. constructor; [apply prints_gap; auto using indent_gap|assumption].
  - apply plain_obj in P. cbn [print].
    assert (A : exists ts, all_some (map (fun m => print (S n) (snd m)) l) = Some ts /\ Forall2 printsm (map (fun p => indent (S n) ++ [34] ++ fst p ++ [34; 58; 32] ++ snd p) (combine (map fst l) ts)) l).
    { clear -IH P. induction IH as [|[k v] l H A IH]; [exists []; cbn; auto|]. inversion P; subst. cbn [fst snd] in *. destruct H2 as [PT PV]. destruct (IH H3) as (ts & E & F). destruct (H PV (S n)) as (t & Et & (g & t' & -> & G & V)).
      exists ((g ++ t') :: ts). cbn [map all_some fst snd]. rewrite Et, E. split; [reflexivity|]. cbn [map combine fst snd]. constructor; [|exact F].
      exists (indent (S n)), ([34] ++ k ++ [34]), (32 :: g), t'. cbn [fst snd]. split; [rewrite <- !app_assoc; reflexivity|]. auto using indent_gap, plain_quoted, space_gap. }
    destruct A as (ts & -> & F). eexists. split; [reflexivity|]. exists []. eexists. split; [reflexivity|]. split; [constructor|]. destruct l as [|m l].
    + cbn [map combine sep app]. change (123 :: 10 :: 10 :: indent n ++ [125]) with ([123] ++ (10 :: 10 :: indent n) ++ [125]). apply val_obj0, newline_gap, newline_gap, indent_gap.
    + set (X := map (fun p => indent (S n) ++ [34] ++ fst p ++ [34; 58; 32] ++ snd p) (combine (map fst (m :: l)) ts)) in *. clearbody X.
      replace (123 :: 10 :: sep [44; 10] X ++ [10] ++ indent n ++ [125]) with ([123] ++ ([10] ++ sep [44; 10] X ++ (10 :: indent n)) ++ [125]) by (rewrite <- !app_assoc; reflexivity).
      apply val_obj. apply sep_membs; auto using newline_gap, indent_gap, gap_nil. discriminate.
Qed.
Lemma save_ok v : plain v -> exists t, save v = Some t /\ document false t v.
Proof.
  intros P. destruct (print_ok v P 0) as (t & E & g & t' & -> & G & V). exists (g ++ t'). split; [exact E|]. rewrite <- (app_nil_r t'). apply (doc false g t' v []); auto. apply eg_gap, gap_nil.
Qed.

(** ** Members *)
Lemma eqb_str_spec a b : reflect (a = b) (eqb_str a b).
Proof.
  revert b. induction a as [|x a IH]; intros [|y b]; cbn [eqb_str]; try (constructor; congruence). destruct (Z.eqb_spec x y) as [->|N]; cbn [andb]; [|constructor; congruence]. destruct (IH b); constructor; congruence.
Qed.
Lemma map_get_set_other l k v k' : k' <> k -> map_get (map_set l k v) k' = map_get l k'.
Proof.
  intros N. unfold map_set. induction l as [|[a x] l IH]; cbn [map app map_get fst].
  - destruct (eqb_str_spec k k'); [congruence|reflexivity].
  - destruct (eqb_str_spec a k) as [->|]; cbn [map_get].
    + destruct (eqb_str_spec k k'); [congruence|exact IH].
    + destruct (eqb_str_spec a k'); [reflexivity|exact IH].
Qed.
Lemma map_get_set l k v : map_get (map_set l k v) k = v.
Proof.
  unfold map_set. induction l as [|[a x] l IH]; cbn [map app map_get fst].
  - destruct (eqb_str_spec k k); [reflexivity|congruence].
  - destruct (eqb_str_spec a k) as [->|]; cbn [map_get]; [destruct (eqb_str_spec k k); [reflexivity|congruence]|]. destruct (eqb_str_spec a k); [congruence|exact IH].
Qed.
Lemma map_get_first_other l k v k' : k' <> k -> map_get (set_first l k v) k' = map_get l k'.
Proof.
  intros N. induction l as [|[a x] l IH]; cbn [set_first map_get]; [reflexivity|]. destruct (eqb_str_spec a k) as [->|]; cbn [map_get].
  - destruct (eqb_str_spec k k'); [congruence|reflexivity].
  - destruct (eqb_str a k'); [reflexivity|exact IH].
Qed.
Lemma map_get_first l k v : map_get l k <> JNull -> map_get (set_first l k v) k = v.
Proof.
  intros N. induction l as [|[a x] l IH]; cbn [set_first map_get] in *; [congruence|]. destruct (eqb_str_spec a k) as [->|X]; cbn [map_get].
  - destruct (eqb_str_spec k k); [reflexivity|congruence].
  - destruct (eqb_str_spec a k); [congruence|]. apply IH, N.
Qed.
Definition pm (m : list Z * json) : Prop := plain_text (fst m) /\ plain (snd m).
Lemma plain_get l k : Forall pm l -> In k (map fst l) -> plain (map_get l k).
Proof.
  induction 1 as [|[a x] l [P1 P2] F IH]; intros I; [contradiction|]. cbn [map_get map fst snd In] in *. destruct (eqb_str_spec a k); [exact P2|]. apply IH. destruct I; [congruence|assumption].
Qed.
Lemma get_absent l k : Forall pm l -> map_get l k = JNull -> ~ In k (map fst l).
Proof. intros F E I. pose proof (plain_get l k F I) as P. rewrite E in P. exact P. Qed.
Lemma map_set_absent l k v : ~ In k (map fst l) -> map_set l k v = l ++ [(k, v)].
Proof.
  intros N. unfold map_set. f_equal. induction l as [|[a x] l IH]; [reflexivity|]. cbn [map fst] in *. destruct (eqb_str_spec a k) as [->|]; [exfalso; apply N; left; reflexivity|]. rewrite IH; [reflexivity|]. intros I. apply N. right. exact I.
Qed.
Lemma map_set_plain l k v : Forall pm l -> plain_text k -> plain v -> Forall pm (map_set l k v).
Proof.
  intros F K V. unfold map_set. apply Forall_app. split; [|constructor; [split; assumption|constructor]]. rewrite Forall_map. eapply Forall_impl; [|exact F]. intros [a x] [P1 P2]. cbn [fst]. destruct (eqb_str a k); split; assumption.
Qed.
Lemma set_first_plain l k v : Forall pm l -> plain v -> Forall pm (set_first l k v).
Proof. intros F V. induction F as [|[a x] l [P1 P2] F IH]; [constructor|]. cbn [set_first]. destruct (eqb_str a k); constructor; auto; split; assumption. Qed.
Lemma get_plain l k : Forall pm l -> map_get l k = JNull \/ plain (map_get l k).
Proof. induction 1 as [|[a x] l [P1 P2] F IH]; [left; reflexivity|]. cbn [map_get]. destruct (eqb_str a k); auto. Qed.
Lemma strings_plain s : Forall plain_text s -> plain (JArr (map JStr s)).
Proof. intros F. apply plain_arr. rewrite Forall_map. exact F. Qed.
Lemma target_plain ty src : plain_text ty -> Forall plain_text src -> plain (JObj [(key_type, JStr ty); (key_sources, JArr (map JStr src))]).
Proof.
  intros T S. assert (K : plain_text key_type /\ plain_text key_sources) by (split; unfold key_type, key_sources; repeat constructor; lia). destruct K.
  apply plain_obj. repeat (constructor; [split; [assumption|]|]); [exact T|apply strings_plain, S|constructor].
Qed.
Lemma target_is ty src : JObj (map_set (map_set [] key_type (JStr ty)) key_sources (JArr (map JStr src))) = JObj [(key_type, JStr ty); (key_sources, JArr (map JStr src))].
Proof. reflexivity. Qed.
Lemma key_targets_plain : plain_text key_targets.
Proof. unfold key_targets. repeat constructor; lia. Qed.
Lemma add_target_plain l name ty src l' : Forall pm l -> plain_text name -> plain_text ty -> Forall plain_text src -> add_target l name ty src = Some l' -> Forall pm l'.
Proof.
  intros F N T S E. unfold add_target in E. rewrite target_is in E. pose proof (target_plain ty src T S) as TP. destruct (get_plain l key_targets F) as [G|G].
  - rewrite G in E. injection E as <-. apply map_set_plain; auto using key_targets_plain. apply plain_obj. apply map_set_plain; auto.
  - destruct (map_get l key_targets) as [| | | | |t]; try discriminate; [contradiction|]. destruct (map_get t name); try discriminate. injection E as <-. apply set_first_plain; auto. apply plain_obj. apply map_set_plain; auto. apply plain_obj, G.
Qed.
Lemma strings_spec d have : strings d = Some have -> d = map JStr have.
Proof. revert have. induction d as [|v d IH]; intros have E; cbn [strings] in E; [injection E as <-; reflexivity|]. destruct v; try discriminate. destruct (strings d) as [x|]; [|discriminate]. injection E as <-. cbn [map]. f_equal. apply IH. reflexivity. Qed.
Lemma strings_of have : strings (map JStr have) = Some have.
Proof. induction have as [|s h IH]; [reflexivity|]. cbn [map strings]. rewrite IH. reflexivity. Qed.
Lemma existsb_in have x : existsb (fun y => eqb_str y x) have = true <-> In x have.
Proof.
  rewrite existsb_exists. split.
  - intros (y & I & E). destruct (eqb_str_spec y x); [subst; exact I|discriminate].
  - intros I. exists x. split; [exact I|]. destruct (eqb_str_spec x x); congruence.
Qed.
Lemma add_new_spec libs : forall have, exists new, add_new have libs = have ++ new /\ (forall x, In x new <-> In x libs /\ ~ In x have) /\ NoDup new.
Proof.
  induction libs as [|x libs IH]; intros have; cbn [add_new].
  - exists []. rewrite app_nil_r. split; [reflexivity|]. split; [intros y; cbn; tauto|constructor].
  - destruct (existsb (fun y => eqb_str y x) have) eqn:E.
    + apply existsb_in in E. destruct (IH have) as (new & -> & S & D). exists new. split; [reflexivity|]. split; [|exact D]. intros y. rewrite S. cbn [In]. split; [tauto|]. intros [[<-|A] B]; [contradiction|tauto].
    + assert (NI : ~ In x have) by (intros I; apply existsb_in in I; congruence). destruct (IH (have ++ [x])) as (new & -> & S & D). exists (x :: new). split; [rewrite <- app_assoc; reflexivity|]. split.
      * intros y. cbn [In]. rewrite S, in_app_iff. cbn [In]. split.
        -- intros [<-|[A B]]; tauto.
        -- intros [[<-|A] B]; [tauto|]. destruct (eqb_str_spec x y); [auto|]. right. split; [exact A|]. intros [C|[C|[]]]; tauto.
      * constructor; [|exact D]. rewrite S, in_app_iff. cbn [In]. tauto.
Qed.
Lemma add_new_plain libs : forall have, Forall plain_text have -> Forall plain_text libs -> Forall plain_text (add_new have libs).
Proof. intros have H L. destruct (add_new_spec libs have) as (new & -> & S & _). apply Forall_app. split; [exact H|]. apply Forall_forall. intros x I. apply S in I. rewrite Forall_forall in L. apply L, I. Qed.
Lemma add_libraries_plain l libs l' : Forall pm l -> Forall plain_text libs -> add_libraries l libs = Some l' -> Forall pm l'.
Proof.
  intros F L E. unfold add_libraries in E. destruct (get_plain l key_dependencies F) as [G|G]; [rewrite G in E; discriminate|]. destruct (map_get l key_dependencies) as [| | | |d|]; try discriminate.
  destruct (strings d) as [have|] eqn:S; [|discriminate]. injection E as <-. apply set_first_plain; auto. apply strings_plain, add_new_plain; auto. apply strings_spec in S. subst d. apply plain_arr in G. rewrite Forall_map in G. exact G.
Qed.
