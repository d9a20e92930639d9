(** What a name finds: the proofs. *)
From Coq Require Import String ZArith List Bool Lia Permutation.
From Verif Require Import NameModel NameSpec NameProofs.
Import ListNotations.
Open Scope Z_scope.

Lemma is_local_false v : is_local v = false <-> v <> Local. Proof. destruct v; cbn; split; congruence. Qed.
Lemma is_public_true v : is_public v = true <-> v = Public. Proof. destruct v; cbn; split; congruence. Qed.
Lemma in_decl_mod w d : In d (w_decls w) -> In (d_mod d) (modules w).
Proof. intro H. right. apply in_or_app. right. apply in_map. exact H. Qed.
Lemma in_import_mod w i : In i (w_imports w) -> In (i_mod i) (modules w).
Proof. intro H. right. apply in_or_app. left. apply in_map. exact H. Qed.
Lemma in_own_mod w : In (w_mod w) (modules w). Proof. left. reflexivity. Qed.

Lemma inclusion_related w m m' : WellFormed w -> In m (modules w) -> In m' (modules w) ->
  exists b, module_inclusion_match m m' = Some b /\ (b = true <-> Related m m').
Proof.
  intros W Hm Hm'. destruct (wf_bases w W m Hm) as (p & Hp & Ep). destruct (wf_bases w W m' Hm') as (q & Hq & Eq).
  destruct (inclusion_spec m m' p q Hp Hq Ep Eq) as (b & E & B). exists b. split; [exact E|]. rewrite B. split.
  - intro R. exists p, q. repeat match goal with |- _ /\ _ => split end; try assumption.
  - intros (p' & q' & Hp' & Hq' & Ep' & Eq' & R). assert (p = p') by (apply dotted_inj; try assumption; congruence).
    assert (q = q') by (apply dotted_inj; try assumption; congruence). subst. exact R.
Qed.

Lemma import_check_spec w (W : WellFormed w) public m : In m (modules w) -> forall l, (forall i, In i l -> In i (w_imports w)) ->
  exists b, import_check public m l = Some b /\
    (b = true <-> exists i, In i l /\ (public = true \/ i_private i = true) /\ (m = i_mod i \/ i_norecurse i = false /\ Related (i_mod i) m)).
Proof.
  intro Hm. induction l as [|i l IH]; intro Hl.
  - exists false. split; [reflexivity|]. split; [discriminate|]. intros (i & [] & _).
  - destruct IH as (b & E & B); [intros j Hj; apply Hl; right; exact Hj|]. cbn [import_check].
    assert (Hi : In (i_mod i) (modules w)) by (apply in_import_mod, Hl; left; reflexivity).
    destruct (inclusion_related w (i_mod i) m W Hi Hm) as (b' & E' & B').
    destruct (negb public && negb (i_private i)) eqn:P.
    { exists b. split; [exact E|]. rewrite B. apply andb_prop in P. destruct P as [P1 P2]. apply negb_true_iff in P1, P2. split.
      - intros (j & Hj & R). exists j. split; [right; exact Hj | exact R].
      - intros (j & [<-|Hj] & [Q|Q] & R); try congruence; exists j; split; try exact Hj; split; try exact R; tauto. }
    assert (P' : public = true \/ i_private i = true) by (destruct public, (i_private i); cbn in P; try discriminate; auto).
    destruct (text_eqb (m_name (i_mod i)) (m_name m)) eqn:T.
    { exists true. split; [reflexivity|]. split; [intros _ | reflexivity]. exists i. split; [left; reflexivity|]. split; [exact P'|]. left.
      apply text_eqb_eq in T. apply (wf_modules w W); [exact Hm | exact Hi | symmetry; exact T]. }
    apply text_eqb_neq in T. assert (T' : m <> i_mod i) by congruence.
    destruct (i_norecurse i) eqn:N.
    { exists b. split; [exact E|]. rewrite B. split.
      - intros (j & Hj & R). exists j. split; [right; exact Hj | exact R].
      - intros (j & [<-|Hj] & Q & R); [exfalso; destruct R as [R|[R _]]; congruence | exists j; split; [exact Hj | split; assumption]]. }
    rewrite E'. destruct b'.
    { exists true. split; [reflexivity|]. split; [intros _ | reflexivity]. exists i. split; [left; reflexivity|]. split; [exact P'|]. right. split; [exact N | apply B'; reflexivity]. }
    exists b. split; [exact E|]. rewrite B. split.
    + intros (j & Hj & R). exists j. split; [right; exact Hj | exact R].
    + intros (j & [<-|Hj] & Q & R); [exfalso; destruct R as [R|[_ R]]; [congruence | apply B' in R; discriminate] | exists j; split; [exact Hj | split; assumption]].
Qed.

Lemma visible_spec w d : WellFormed w -> In d (w_decls w) -> d_vis d <> Local -> exists b, decl_is_visible w d = Some b /\ (b = true <-> Visible w d).
Proof.
  intros W Hd NL. unfold decl_is_visible. pose proof (in_decl_mod w d Hd) as Hm.
  destruct (text_eqb (m_name (d_mod d)) (m_name (w_mod w))) eqn:T.
  { exists true. split; [reflexivity|]. split; [intros _ | reflexivity]. apply own_module; [exact NL|]. apply text_eqb_eq in T. apply (wf_modules w W); [exact Hm | apply in_own_mod | exact T]. }
  apply text_eqb_neq in T. assert (T' : d_mod d <> w_mod w) by congruence.
  assert (O : d_unit d <> w_unit w) by (intro U; apply T', (wf_unit w W d Hd U)).
  destruct (m_instance_of (d_mod d)) as [g|] eqn:I.
  { exists false. split; [reflexivity|]. split; [discriminate|]. intros []; congruence. }
  destruct (import_check_spec w W (is_public (d_vis d)) (d_mod d) Hm (w_imports w) (fun i H => H)) as (b & E & B). cbv zeta. rewrite E.
  destruct (is_public (d_vis d)) eqn:P; cbn [negb].
  - apply is_public_true in P. destruct (inclusion_related w (d_mod d) (w_mod w) W Hm (in_own_mod w)) as (b' & E' & B'). rewrite E'.
    destruct b'; [exists true; split; [reflexivity|]; split; [intros _; apply family; try assumption; apply B'; reflexivity | reflexivity]|].
    destruct (wf_names w W _ Hm) as (p & Hp & Ep).
    destruct (under_core (length (m_name (d_mod d))) (m_name (d_mod d))) eqn:C.
    + exists true. split; [reflexivity|]. split; [intros _ | reflexivity]. rewrite Ep in C. apply under_core_spec in C; [|exact Hp | apply dotted_len; exact Hp].
      destruct C as [r Er]. apply (core w d r); try assumption; [|rewrite Ep, Er; reflexivity]. destruct Hp as [_ F]. rewrite Er in F. apply Forall_app in F. exact (proj2 F).
    + exists b. split; [reflexivity|]. rewrite B. split.
      * intros (i & Hi & _ & R). apply (imported w d i); try assumption. left. exact P.
      * intro V. destruct V as [U|_ M|_ _ R|r _ _ F N|i Hi _ _ R]; try congruence.
        -- apply B' in R. discriminate.
        -- exfalso. assert (C' : under_core (length (m_name (d_mod d))) (m_name (d_mod d)) = true); [|congruence].
           rewrite N. assert (OK : path_ok ([lit "std"; lit "core"] ++ r)) by (split; [discriminate|]; apply Forall_app; split; [exact (proj2 core_ok) | exact F]).
           apply under_core_spec; [exact OK | apply dotted_len; exact OK | exists r; reflexivity].
        -- exists i. split; [exact Hi|]. split; [left; reflexivity | exact R].
  - assert (Q : d_vis d = Private) by (destruct (d_vis d); cbn in P; congruence). exists b. split; [reflexivity|]. rewrite B. split.
    + intros (i & Hi & [X|X] & R); [discriminate|]. apply (imported w d i); try assumption. right. split; assumption.
    + intro V. destruct V as [U|_ M|V _ _|r V _ _ _|i Hi [V|[V X]] _ R]; try congruence. exists i. split; [exact Hi|]. split; [right; exact X | exact R].
Qed.

(** Lookup tables. *)
Lemma find_in_module_some w m s d : find_in_module w m s = Some d ->
  In d (w_decls w) /\ d_vis d <> Local /\ m_name (d_mod d) = m_name m /\ d_name d = s.
Proof.
  unfold find_in_module. intro H. apply find_some in H. destruct H as [H1 H2]. apply andb_prop in H2. destruct H2 as [H2 H3]. apply andb_prop in H2. destruct H2 as [H2 H4].
  apply negb_true_iff, is_local_false in H2. apply text_eqb_eq in H3, H4. repeat match goal with |- _ /\ _ => split end; assumption.
Qed.
Lemma find_in_module_none w m s d : find_in_module w m s = None -> In d (w_decls w) -> d_vis d <> Local -> m_name (d_mod d) = m_name m -> d_name d = s -> False.
Proof.
  unfold find_in_module. intros H I V M N. pose proof (find_none _ _ H d I) as F. cbv beta in F. apply is_local_false in V. rewrite V, M, N, !text_eqb_refl in F. discriminate.
Qed.
Lemma find_in_unit_some w s d : find_in_unit w s = Some d -> In d (w_decls w) /\ d_unit d = w_unit w /\ d_name d = s.
Proof.
  unfold find_in_unit. intro H. apply find_some in H. destruct H as [H1 H2]. apply andb_prop in H2. destruct H2 as [H2 H3].
  apply Z.eqb_eq in H2. apply text_eqb_eq in H3. repeat match goal with |- _ /\ _ => split end; assumption.
Qed.
Lemma find_in_unit_none w s d : find_in_unit w s = None -> In d (w_decls w) -> d_unit d = w_unit w -> d_name d = s -> False.
Proof. unfold find_in_unit. intros H I U N. pose proof (find_none _ _ H d I) as F. cbv beta in F. rewrite U, N, Z.eqb_refl, text_eqb_refl in F. discriminate. Qed.
Lemma global_list_in w s d : In d (global_list w s) <-> In d (w_decls w) /\ d_vis d <> Local /\ m_generic (d_mod d) = false /\ d_name d = s.
Proof.
  unfold global_list. rewrite filter_In, !andb_true_iff, !negb_true_iff, is_local_false, text_eqb_eq. tauto.
Qed.
Lemma named_matches w path m : WellFormed w -> Path_ok path -> In m (modules w) ->
  (match written path with None => true | Some p => matches_subpath (m_name m) p end = true <-> Named path m).
Proof.
  intros W HP Hm. destruct path as [q|]; cbn [written option_map Named]; [|tauto].
  destruct (wf_names w W m Hm) as (p & Hp & Ep). rewrite Ep. rewrite matches_suffix by assumption. split.
  - intros [r Er]. exists r. split; [destruct Hp as [_ F]; rewrite Er in F; apply Forall_app in F; exact (proj1 F) | rewrite Er; reflexivity].
  - intros (r & Fr & Er). exists r. apply dotted_inj; [exact Hp | | exact Er]. destruct HP as [Nq Fq]. split; [destruct r, q; cbn; congruence|]. apply Forall_app. split; assumption.
Qed.
Lemma find_decl_in_module_some w path m s d : WellFormed w -> Path_ok path -> In m (modules w) -> find_decl_in_module w m (written path) s = Some d ->
  In d (w_decls w) /\ d_vis d <> Local /\ d_mod d = m /\ d_name d = s /\ Named path m.
Proof.
  intros W HP Hm H. assert (F : find_in_module w m s = Some d /\ Named path m).
  { rewrite <- (named_matches w path m W HP Hm). unfold find_decl_in_module in H. destruct (written path) as [p|]; [|split; [exact H | reflexivity]].
    destruct (Nat.ltb _ _); [discriminate|]. destruct (matches_subpath (m_name m) p); cbn [negb] in H; [split; [exact H | reflexivity] | discriminate]. }
  destruct F as [F N]. apply find_in_module_some in F. destruct F as (F1 & F2 & F3 & F4). repeat match goal with |- _ /\ _ => split end; try assumption.
  apply (wf_modules w W); [apply in_decl_mod; exact F1 | exact Hm | exact F3].
Qed.

(** The imports. *)
Definition pair_ok (P : decl -> Prop) (s : option decl * option decl) : Prop :=
  match s with (None, None) => True | (None, Some _) => False | (Some d, None) => P d | (Some d, Some d2) => P d /\ P d2 /\ d <> d2 end.
Lemma pair_ok_mono (P Q : decl -> Prop) s : (forall d, P d -> Q d) -> pair_ok P s -> pair_ok Q s.
Proof. intros H. destruct s as [[d|] [d2|]]; cbn [pair_ok]; intuition. Qed.
Lemma imports_sound w path name : WellFormed w -> Path_ok path -> pair_ok (Candidate w path name) (find_in_imports w (written path) name).
Proof.
  intros W HP. unfold find_in_imports.
  assert (G : forall l pre s, w_imports w = pre ++ l -> pair_ok (fun d => Candidate w path name d /\ exists i, In i pre /\ d_mod d = i_mod i) s ->
     pair_ok (Candidate w path name) (fold_left (import_step w (written path) name) l s)).
  { induction l as [|i l IH]; intros pre s E H.
    - cbn [fold_left]. apply (pair_ok_mono _ _ _ (fun d (X : _ /\ _) => proj1 X) H).
    - cbn [fold_left]. apply (IH (pre ++ [i])); [rewrite <- app_assoc; exact E|].
      assert (Hi : In i (w_imports w)) by (rewrite E; apply in_or_app; right; left; reflexivity).
      assert (Keep : pair_ok (fun d => Candidate w path name d /\ (exists j, In j (pre ++ [i]) /\ d_mod d = i_mod j)) s).
      { apply (pair_ok_mono _ _ _) with (2 := H). intros d (C & j & Hj & M). split; [exact C|]. exists j. split; [apply in_or_app; left; exact Hj | exact M]. }
      unfold import_step. destruct (m_generic (i_mod i)) eqn:Gn; [exact Keep|]. destruct s as [d a].
      assert (Main : forall c : bool, pair_ok (fun x => Candidate w path name x /\ (exists j, In j (pre ++ [i]) /\ d_mod x = i_mod j))
        (if c then (d, a) else match find_decl_in_module w (i_mod i) (written path) name with
         | None => (d, a)
         | Some found => if negb (is_public (d_vis found)) && match d with Some _ => true | None => negb (i_private i) end then (d, a)
                         else match d with Some _ => (d, Some found) | None => (Some found, a) end end)).
      { intro c. destruct c; [exact Keep|]. destruct (find_decl_in_module w (i_mod i) (written path) name) as [f|] eqn:F; [|exact Keep].
        apply (find_decl_in_module_some w path) in F; [|exact W | exact HP | apply in_import_mod; exact Hi]. destruct F as (F1 & F2 & F3 & F4 & F5).
        destruct (negb (is_public (d_vis f)) && match d with Some _ => true | None => negb (i_private i) end) eqn:V; [exact Keep|].
        assert (Cf : Candidate w path name f).
        { unfold Candidate. repeat match goal with |- _ /\ _ => split end; try assumption; [rewrite F3; exact Gn | | rewrite F3; exact F5].
          apply (imported w f i); [exact Hi | | rewrite F3; apply (wf_import w W i Hi) | left; exact F3].
          destruct (d_vis f) eqn:Vf; [left; reflexivity | right; split; [reflexivity|] | congruence].
          cbn in V. destruct d; [discriminate|]. apply negb_false_iff in V. exact V. }
        assert (Mf : exists j, In j (pre ++ [i]) /\ d_mod f = i_mod j) by (exists i; split; [apply in_or_app; right; left; reflexivity | exact F3]).
        assert (New : forall x, (exists j, In j pre /\ d_mod x = i_mod j) -> x <> f).
        { intros x (j & Hj & Mx) ->. rewrite F3 in Mx. pose proof (wf_imports w W) as ND. rewrite E, map_app in ND. cbn [map] in ND.
          apply NoDup_remove_2 in ND. apply ND. apply in_or_app. left. rewrite Mx. apply in_map. exact Hj. }
        destruct d as [d|].
        - cbn [pair_ok]. destruct a as [a|]; cbn [pair_ok] in H, Keep.
          + destruct H as ((_ & Hd) & _). destruct Keep as (K & _). split; [exact K|]. split; [split; assumption | apply New; exact Hd].
          + destruct H as (_ & Hd). split; [exact Keep|]. split; [split; assumption | apply New; exact Hd].
        - destruct a as [a|]; cbn [pair_ok] in H |- *; [destruct H | split; assumption]. }
      destruct (written path) as [p|]; [exact (Main false)|]. destruct d as [d|]; [exact Keep | exact (Main (negb (i_private i)))]. }
  apply (G (w_imports w) [] (None, None)); [reflexivity | exact I].
Qed.

(** The global table. *)
Definition usable (w : world) (path : option text) (d : decl) : bool := on_path path d && match decl_is_visible w d with Some b => b | None => false end.
Definition usable_list (w : world) (path : option text) (s : text) : list decl := filter (usable w path) (global_list w s).
Lemma global_loop_fold w (W : WellFormed w) path l : (forall d, In d l -> In d (w_decls w) /\ d_vis d <> Local) -> forall s,
  global_loop w path l s = answer_of (fold_left resolve_ambiguity (filter (usable w path) l) s).
Proof.
  induction l as [|d l IH]; intros Hl s; [reflexivity|]. cbn [global_loop filter]. unfold usable at 1.
  assert (T : forall x, In x l -> In x (w_decls w) /\ d_vis x <> Local) by (intros; apply Hl; right; assumption).
  destruct (on_path path d); cbn [negb andb]; [|apply IH; exact T].
  destruct (Hl d (or_introl eq_refl)) as [H1 H2]. destruct (visible_spec w d W H1 H2) as (b & E & _). rewrite E. destruct b; apply IH; exact T.
Qed.
Lemma find_in_global_fold w path s : WellFormed w -> find_in_global w path s = answer_of (fold_left resolve_ambiguity (usable_list w path s) (None, None)).
Proof.
  intro W. unfold find_in_global, usable_list.
  assert (H : forall d, In d (global_list w s) -> In d (w_decls w) /\ d_vis d <> Local) by (intros d Hd; apply global_list_in in Hd; tauto).
  destruct (global_list w s) as [|d [|d2 l]]; [reflexivity| |apply global_loop_fold; assumption].
  cbn [filter]. unfold usable. destruct (on_path path d); cbn [negb andb]; [|reflexivity].
  destruct (H d (or_introl eq_refl)) as [H1 H2]. destruct (visible_spec w d W H1 H2) as (b & E & _). rewrite E. destruct b; reflexivity.
Qed.
Lemma usable_candidate w path name d : WellFormed w -> Path_ok path ->
  In d (usable_list w (written path) name) <-> Candidate w path name d /\ d_vis d <> Local.
Proof.
  intros W HP. unfold usable_list. rewrite filter_In, global_list_in. unfold usable, Candidate. rewrite andb_true_iff. split.
  - intros ((H1 & H2 & H3 & H4) & H5 & H6). destruct (visible_spec w d W H1 H2) as (b & E & B). rewrite E in H6. apply B in H6.
    assert (N : Named path (d_mod d)) by (apply (named_matches w path (d_mod d) W HP (in_decl_mod w d H1)); exact H5). tauto.
  - intros ((H1 & H2 & H3 & H4 & H5) & NL). destruct (visible_spec w d W H1 NL) as (b & E & B). rewrite E.
    split; [repeat match goal with |- _ /\ _ => split end; assumption|]. split; [apply (named_matches w path (d_mod d) W HP (in_decl_mod w d H1)); exact H5 | apply B; exact H4].
Qed.
Lemma NoDup_usable w path s : WellFormed w -> NoDup (usable_list w path s).
Proof. intro W. unfold usable_list, global_list. apply NoDup_filter, NoDup_filter, (wf_once w W). Qed.
Lemma fold_sound l : NoDup l -> pair_ok (fun d => In d l) (fold_left resolve_ambiguity l (None, None)).
Proof.
  assert (G : forall r pre s, NoDup (pre ++ r) -> pair_ok (fun d => In d pre) s -> pair_ok (fun d => In d (pre ++ r)) (fold_left resolve_ambiguity r s)).
  { induction r as [|d r IH]; intros pre s ND H; [rewrite app_nil_r; exact H|]. cbn [fold_left].
    replace (pre ++ d :: r) with ((pre ++ [d]) ++ r) by (rewrite <- app_assoc; reflexivity).
    apply IH; [rewrite <- app_assoc; exact ND|].
    assert (Keep : pair_ok (fun x => In x (pre ++ [d])) s) by (apply (pair_ok_mono _ _ _) with (2 := H); intros x Hx; apply in_or_app; left; exact Hx).
    assert (Hd : In d (pre ++ [d])) by (apply in_or_app; right; left; reflexivity).
    assert (New : forall x, In x pre -> x <> d) by (intros x Hx ->; apply NoDup_remove_2 in ND; apply ND, in_or_app; left; exact Hx).
    unfold resolve_ambiguity. destruct s as [[x|] a].
    - destruct (first_is_preferred d x); [exact Hd|]. destruct a as [a|]; [exact Keep|]. destruct (first_is_preferred x d); [exact Keep|].
      cbn [pair_ok] in H, Keep |- *. split; [exact Keep|]. split; [exact Hd | apply New; exact H].
    - destruct a; cbn [pair_ok] in H |- *; [destruct H | exact Hd]. }
  intro ND. exact (G l [] (None, None) ND I).
Qed.
Lemma fold_some l : forall s, fst (fold_left resolve_ambiguity l s) = None -> fst s = None /\ l = [].
Proof.
  induction l as [|d l IH]; intros s H; [split; [exact H | reflexivity]|]. cbn [fold_left] in H. apply IH in H. destruct H as [H _]. exfalso.
  unfold resolve_ambiguity in H. destruct s as [[x|] a]; [|discriminate].
  destruct (first_is_preferred d x); [discriminate|]. destruct a as [a|]; [discriminate|]. destruct (first_is_preferred x d); discriminate.
Qed.
Definition answer_ok (P : decl -> Prop) (a : answer) : Prop :=
  match a with Found d => P d | Clash d d2 => P d /\ P d2 /\ d <> d2 | NotFound => True | Crash => False end.
Lemma answer_of_ok P s : pair_ok P s -> answer_ok P (answer_of s).
Proof. destruct s as [[d|] [d2|]]; cbn; tauto. Qed.
Lemma imports_then_global_sound w path name : WellFormed w -> Path_ok path -> answer_ok (Candidate w path name) (imports_then_global w (written path) name).
Proof.
  intros W HP. unfold imports_then_global. pose proof (imports_sound w path name W HP) as H. destruct (find_in_imports w (written path) name) as [[d|] a]; [apply answer_of_ok; exact H|].
  rewrite find_in_global_fold by exact W. apply answer_of_ok. apply (pair_ok_mono (fun d => In d (usable_list w (written path) name))).
  - intros d Hd. apply usable_candidate in Hd; tauto.
  - apply fold_sound, NoDup_usable, W.
Qed.
Lemma in_module_candidate w path name d : WellFormed w -> Path_ok path -> Named path (w_mod w) -> find_in_module w (w_mod w) name = Some d -> Candidate w path name d.
Proof.
  intros W HP N F. apply find_in_module_some in F. destruct F as (F1 & F2 & F3 & F4).
  assert (M : d_mod d = w_mod w) by (apply (wf_modules w W); [apply in_decl_mod; exact F1 | apply in_own_mod | exact F3]).
  unfold Candidate. repeat match goal with |- _ /\ _ => split end; try assumption; [rewrite M; apply (wf_ordinary w W) | apply own_module; assumption | rewrite M; exact N].
Qed.
Lemma find_local_scoped name l : forall o, Scoped name l o -> find_local l name = o.
Proof.
  intros o H. induction H as [|d r E|r|d r|l r o N _ IH]; cbn [find_local].
  - reflexivity.
  - subst. rewrite text_eqb_refl. reflexivity.
  - rewrite text_eqb_refl. reflexivity.
  - rewrite text_eqb_refl. reflexivity.
  - destruct l; cbn [local_name] in N; apply text_eqb_neq in N; rewrite N; exact IH.
Qed.
Lemma scoped_total name l : exists o, Scoped name l o.
Proof.
  induction l as [|x l [o IH]]; [exists None; constructor|]. destruct (list_eq_dec Z.eq_dec (local_name x) name) as [E|N]; [|exists o; constructor; assumption].
  destruct x as [d|n|n d]; cbn [local_name] in E; subst.
  - exists (Some d). constructor. reflexivity.
  - exists None. constructor.
  - exists (Some d). constructor.
Qed.
(** What is found is what the name can stand for. *)
Lemma resolve_sound w path name : WellFormed w -> Path_ok path -> (path = None -> Scoped name (w_locals w) None) ->
  answer_ok (Candidate w path name) (resolve w (written path) name).
Proof.
  intros W HP HL. destruct path as [q|]; cbn [written option_map resolve].
  - unfold resolve_path_symbol. destruct (text_eqb (dotted q) (lit "std")); [exact I|].
    pose proof (named_matches w (Some q) (w_mod w) W HP (in_own_mod w)) as NM. cbn [written option_map] in NM.
    destruct (matches_subpath (m_name (w_mod w)) (dotted q)).
    + destruct (find_in_module w (w_mod w) name) eqn:F; [|apply (imports_then_global_sound w (Some q)); assumption].
      apply (in_module_candidate w (Some q)); try assumption. apply NM. reflexivity.
    + apply (imports_then_global_sound w (Some q)); assumption.
  - unfold resolve_no_path_symbol. rewrite (find_local_scoped _ _ _ (HL eq_refl)).
    destruct (find_in_unit w name) as [d|] eqn:U.
    { apply find_in_unit_some in U. destruct U as (U1 & U2 & U3). cbn [answer_ok]. unfold Candidate. repeat match goal with |- _ /\ _ => split end; try assumption; [|apply own_file; exact U2].
      rewrite (wf_unit w W d U1 U2). apply (wf_ordinary w W). }
    destruct (find_in_module w (w_mod w) name) as [d|] eqn:F; [apply (in_module_candidate w None); try assumption; exact I|].
    apply (imports_then_global_sound w None); assumption.
Qed.
(** What can be found is found. *)
Lemma imports_then_global_complete w path name d : WellFormed w -> Path_ok path -> Candidate w path name d -> d_vis d <> Local -> imports_then_global w (written path) name <> NotFound.
Proof.
  intros W HP C NL. unfold imports_then_global. destruct (find_in_imports w (written path) name) as [[x|] a0]; [destruct a0; discriminate|].
  rewrite find_in_global_fold by exact W. destruct (fold_left resolve_ambiguity (usable_list w (written path) name) (None, None)) as [[x|] a] eqn:E; [destruct a; discriminate|].
  exfalso. pose proof (fold_some (usable_list w (written path) name) (None, None)) as S. rewrite E in S. destruct (S eq_refl) as [_ L].
  assert (H : In d (usable_list w (written path) name)) by (apply usable_candidate; tauto). rewrite L in H. exact H.
Qed.
Lemma resolve_complete w path name d : WellFormed w -> Path_ok path -> (path = None -> Scoped name (w_locals w) None) -> Candidate w path name d ->
  (path <> None -> d_vis d <> Local /\ path <> Some [lit "std"]) -> resolve w (written path) name <> NotFound.
Proof.
  intros W HP HL C HN. destruct path as [q|]; cbn [written option_map resolve].
  - destruct (HN ltac:(congruence)) as [NL NS]. unfold resolve_path_symbol. destruct (text_eqb (dotted q) (lit "std")) eqn:T.
    + exfalso. apply text_eqb_eq in T. change (lit "std") with (dotted [lit "std"]) in T. apply dotted_inj in T; [congruence | exact HP|]. split; [congruence|]. repeat constructor; cbn; try congruence; intuition lia.
    + assert (G := imports_then_global_complete w (Some q) name d W HP C NL).
      destruct (matches_subpath (m_name (w_mod w)) (dotted q)); [destruct (find_in_module w (w_mod w) name); [discriminate|]|]; exact G.
  - unfold resolve_no_path_symbol. rewrite (find_local_scoped _ _ _ (HL eq_refl)).
    destruct (find_in_unit w name) as [x|] eqn:U; [discriminate|]. destruct (find_in_module w (w_mod w) name) as [x|] eqn:F; [discriminate|].
    apply (imports_then_global_complete w None name d); try assumption. intro L. destruct C as (C1 & C2 & C3 & C4 & C5).
    destruct C4 as [O|V _|V _ _|r V _ _ _|i _ [V|[V _]] _ _]; try congruence. exact (find_in_unit_none w name d U C1 O C2).
Qed.
Lemma resolve_unique w path name d : WellFormed w -> Path_ok path -> (path = None -> Scoped name (w_locals w) None) -> Candidate w path name d ->
  (path <> None -> d_vis d <> Local /\ path <> Some [lit "std"]) -> (forall d', Candidate w path name d' -> d' = d) -> resolve w (written path) name = Found d.
Proof.
  intros W HP HL C HN Un. pose proof (resolve_sound w path name W HP HL) as S. pose proof (resolve_complete w path name d W HP HL C HN) as N.
  destruct (resolve w (written path) name) as [x|x y| |]; cbn [answer_ok] in S.
  - rewrite (Un x S). reflexivity.
  - destruct S as (S1 & S2 & S3). exfalso. apply S3. rewrite (Un x S1), (Un y S2). reflexivity.
  - congruence.
  - destruct S.
Qed.
