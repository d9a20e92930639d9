(** What a name finds and the order of declarations: the proofs. *)
From Coq Require Import String ZArith List Bool Lia Permutation.
From Verif Require Import NameModel NameSpec NameProofs NameProofs2.
Import ListNotations.
Open Scope Z_scope.

Lemma find_perm {A} (f : A -> bool) l l' : Permutation l l' -> (forall x y, In x l -> In y l -> f x = true -> f y = true -> x = y) -> find f l = find f l'.
Proof.
  intros P U. destruct (find f l) as [x|] eqn:E, (find f l') as [y|] eqn:E'.
  - apply find_some in E, E'. f_equal. apply U; try tauto. apply (Permutation_in _ (Permutation_sym P)). tauto.
  - apply find_some in E. pose proof (find_none _ _ E' x (Permutation_in _ P (proj1 E))). destruct E. congruence.
  - apply find_some in E'. pose proof (find_none _ _ E y (Permutation_in _ (Permutation_sym P) (proj1 E'))). destruct E'. congruence.
  - reflexivity.
Qed.
Lemma Permutation_filter {A} (f : A -> bool) l l' : Permutation l l' -> Permutation (filter f l) (filter f l').
Proof.
  induction 1 as [|x l l' P IH|x y l|l l1 l2 P IH P' IH']; cbn [filter]; [constructor| | |].
  - destruct (f x); [constructor; exact IH | exact IH].
  - destruct (f y), (f x); try apply Permutation_refl. apply perm_swap.
  - apply (Permutation_trans IH IH').
Qed.
Section Shuffle.
Variables (w w' : world) (SH : shuffled w w').
Let Eu : w_unit w = w_unit w'. Proof. apply SH. Qed.
Let Em : w_mod w = w_mod w'. Proof. apply SH. Qed.
Let El : w_locals w = w_locals w'. Proof. apply SH. Qed.
Let Pi : Permutation (w_imports w) (w_imports w'). Proof. apply SH. Qed.
Let Pd : Permutation (w_decls w) (w_decls w'). Proof. apply SH. Qed.
Lemma modules_shuffled m : In m (modules w') -> In m (modules w).
Proof.
  unfold modules. rewrite <- Em. intros [H|H]; [left; exact H|]. right. apply in_app_or in H. apply in_or_app.
  destruct H as [H|H]; [left | right]; apply in_map_iff in H; destruct H as (x & E & H); apply in_map_iff; exists x; (split; [exact E|]).
  - apply (Permutation_in _ (Permutation_sym Pi)). exact H.
  - apply (Permutation_in _ (Permutation_sym Pd)). exact H.
Qed.
Lemma wf_shuffled : WellFormed w -> WellFormed w'.
Proof.
  intro W. assert (Dd : forall d, In d (w_decls w') -> In d (w_decls w)) by (intro d; apply (Permutation_in _ (Permutation_sym Pd))).
  assert (Di : forall d, In d (w_imports w') -> In d (w_imports w)) by (intro d; apply (Permutation_in _ (Permutation_sym Pi))). constructor.
  - intros m H. apply (wf_names w W). apply modules_shuffled, H.
  - intros m H. apply (wf_bases w W). apply modules_shuffled, H.
  - intros m m' H H'. apply (wf_modules w W); apply modules_shuffled; assumption.
  - rewrite <- Em. apply (wf_ordinary w W).
  - intros d H U. rewrite <- Em. apply (wf_unit w W); [apply Dd; exact H | congruence].
  - apply (Permutation_NoDup Pd), (wf_once w W).
  - intros d d' H H'. apply (wf_file w W); apply Dd; assumption.
  - intros d d' H H'. apply (wf_module w W); apply Dd; assumption.
  - apply (Permutation_NoDup (Permutation_map i_mod Pi)), (wf_imports w W).
  - intros i H. rewrite <- Em. apply (wf_not_own w W), Di, H.
  - intros i H. apply (wf_import w W), Di, H.
Qed.
Lemma visible_shuffled d : Visible w d -> Visible w' d.
Proof.
  intros [U|V M|V I R|r V I F N|i Hi V I R].
  - apply own_file. congruence.
  - apply own_module; congruence.
  - apply family; try assumption. rewrite <- Em. exact R.
  - apply (core w' d r); assumption.
  - apply (imported w' d i); try assumption. apply (Permutation_in _ Pi). exact Hi.
Qed.
End Shuffle.
Lemma shuffled_sym w w' : shuffled w w' -> shuffled w' w.
Proof. intros (E1 & E2 & E3 & P1 & P2). repeat match goal with |- shuffled _ _ => unfold shuffled | |- _ /\ _ => split end; try congruence; apply Permutation_sym; assumption. Qed.
Section Order.
Variables (w w' : world) (W : WellFormed w) (SH : shuffled w w').
Variables (np : forall i, In i (w_imports w) -> i_private i = false) (nw : forall d, In d (w_decls w) -> d_weak d = None).
Let W' : WellFormed w' := wf_shuffled w w' SH W.
Lemma find_in_unit_shuffled s : find_in_unit w s = find_in_unit w' s.
Proof.
  unfold find_in_unit. pose proof SH as (Eu & _ & _ & _ & Pd). rewrite <- Eu. apply find_perm; [exact Pd|]. intros x y Hx Hy. rewrite !andb_true_iff, !Z.eqb_eq, !text_eqb_eq.
  intros [] []. apply (wf_file w W); congruence.
Qed.
Lemma find_in_module_shuffled m s : find_in_module w m s = find_in_module w' m s.
Proof.
  unfold find_in_module. pose proof SH as (_ & _ & _ & _ & Pd). apply find_perm; [exact Pd|]. intros x y Hx Hy. rewrite !andb_true_iff, !negb_true_iff, !is_local_false, !text_eqb_eq.
  intros [[] ?] [[] ?]. apply (wf_module w W); try congruence. apply (wf_modules w W); [apply in_decl_mod; exact Hx | apply in_decl_mod; exact Hy | congruence].
Qed.
Lemma find_decl_in_module_shuffled m p s : find_decl_in_module w m p s = find_decl_in_module w' m p s.
Proof. unfold find_decl_in_module. rewrite find_in_module_shuffled. reflexivity. Qed.

(** The first of a list, and whether there is another. *)
Definition pick (l : list decl) : option decl * bool := match l with [] => (None, false) | [x] => (Some x, false) | x :: _ => (Some x, true) end.
Definition shape (s : option decl * option decl) : option decl * bool := (fst s, match snd s with Some _ => true | None => false end).
Lemma same_answer_shape s s' l l' : shape s = pick l -> shape s' = pick l' -> Permutation l l' -> same_answer (answer_of s) (answer_of s').
Proof.
  intros E E' P. destruct s as [[x|] a], s' as [[x'|] a']; unfold shape in E, E'; cbn [fst snd] in E, E'.
  - destruct l as [|y [|y2 l]]; cbn [pick] in E; try discriminate.
    + apply Permutation_length_1_inv in P. subst l'. cbn [pick] in E'. injection E as E1 E2. injection E' as E1' E2'. subst.
      destruct a, a'; try discriminate. reflexivity.
    + destruct l' as [|y' [|y2' l']]; cbn [pick] in E'; try discriminate; [apply Permutation_length in P; cbn in P; lia|].
      destruct a, a'; try discriminate. exact I.
  - destruct l' as [|? [|? ?]]; cbn [pick] in E'; try discriminate. apply Permutation_sym, Permutation_nil in P. subst l. discriminate.
  - destruct l as [|? [|? ?]]; cbn [pick] in E; try discriminate. apply Permutation_nil in P. subst l'. discriminate.
  - exact I.
Qed.
(** Imports without a path: none counts. *)
Lemma fold_same {A B} (f : A -> B -> A) l s : (forall x, In x l -> f s x = s) -> fold_left f l s = s.
Proof. induction l as [|x l IH]; intro H; [reflexivity|]. cbn [fold_left]. rewrite H by (left; reflexivity). apply IH. intros y Hy. apply H. right. exact Hy. Qed.
Definition open_in (u : world) (p : option text) (s : text) (i : import) : list decl :=
  if m_generic (i_mod i) then [] else match find_decl_in_module u (i_mod i) p s with Some d => if is_public (d_vis d) then [d] else [] | None => [] end.
Definition opens (u : world) (p : option text) (s : text) : list decl := flat_map (open_in u p s) (w_imports u).
Lemma imports_shape u p s : (forall i, In i (w_imports u) -> i_private i = false) -> shape (find_in_imports u (Some p) s) = pick (opens u (Some p) s).
Proof.
  intro NP. unfold find_in_imports, opens.
  assert (G : forall l pre st, (forall i, In i l -> i_private i = false) -> (fst st = None -> snd st = None) -> shape st = pick pre -> shape (fold_left (import_step u (Some p) s) l st) = pick (pre ++ flat_map (open_in u (Some p) s) l)).
  { induction l as [|i l IH]; intros pre st Hl Inv E; [cbn [fold_left flat_map]; rewrite app_nil_r; exact E|]. cbn [fold_left flat_map]. rewrite app_assoc.
    assert (Hl' : forall j, In j l -> i_private j = false) by (intros j Hj; apply Hl; right; exact Hj).
    pose proof (Hl i (or_introl eq_refl)) as Hi. unfold open_in at 1, import_step at 2. destruct (m_generic (i_mod i)); [rewrite app_nil_r; apply IH; assumption|].
    destruct st as [d a]. destruct (find_decl_in_module u (i_mod i) (Some p) s) as [f|]; [|rewrite app_nil_r; destruct d; apply IH; assumption].
    rewrite Hi. destruct (is_public (d_vis f)) eqn:V; cbn [negb andb].
    - destruct d as [d|]; apply IH; try assumption; try discriminate.
      + destruct pre as [|y [|y2 pre]]; cbn [pick app] in E |- *; [discriminate| |]; injection E as -> _; reflexivity.
      + destruct pre as [|y [|y2 pre]]; try discriminate. cbn [app pick]. pose proof (Inv eq_refl) as Ia. cbn [snd] in Ia. rewrite Ia. reflexivity.
    - rewrite app_nil_r. destruct d; apply IH; assumption. }
  apply (G (w_imports u) [] (None, None)); [exact NP | reflexivity | reflexivity].
Qed.
Lemma opens_shuffled p s : Permutation (opens w p s) (opens w' p s).
Proof.
  unfold opens. rewrite (flat_map_ext (open_in w' p s) (open_in w p s)) by (intro i; unfold open_in; rewrite find_decl_in_module_shuffled; reflexivity).
  apply Permutation_flat_map. apply SH.
Qed.
(** The global table. *)
Lemma usable_shuffled path s : Path_ok path -> Permutation (usable_list w (written path) s) (usable_list w' (written path) s).
Proof.
  intro HP. apply NoDup_Permutation; [apply NoDup_usable, W | apply NoDup_usable, W' |]. intro d. rewrite (usable_candidate w path s d W HP), (usable_candidate w' path s d W' HP). unfold Candidate.
  assert (V : Visible w d <-> Visible w' d) by (split; apply visible_shuffled; [exact SH | apply shuffled_sym, SH]).
  assert (D : In d (w_decls w) <-> In d (w_decls w')) by (pose proof SH as (_ & _ & _ & _ & Pd); split; apply Permutation_in; [exact Pd | apply Permutation_sym, Pd]). tauto.
Qed.
Definition best (l : list decl) : list decl := match filter d_auto l with [] => l | _ => filter d_auto l end.
Lemma best_perm l l' : Permutation l l' -> Permutation (best l) (best l').
Proof.
  intro P. unfold best. pose proof (Permutation_filter d_auto l l' P) as F. destruct (filter d_auto l) as [|x r]; [apply Permutation_nil in F; rewrite F; exact P|].
  destruct (filter d_auto l') as [|y r']; [apply Permutation_sym, Permutation_nil in F; discriminate | exact F].
Qed.
Definition plain (d : decl) : Prop := d_weak d = None /\ m_instance_of (d_mod d) = None.
Lemma preferred_plain d d2 : plain d -> plain d2 -> first_is_preferred d d2 = d_auto d && negb (d_auto d2).
Proof. intros [H1 H2] [H3 H4]. unfold first_is_preferred, is_weak, is_instance. rewrite H1, H2, H3, H4. cbn [negb andb]. rewrite orb_false_r. destruct (d_auto d && negb (d_auto d2)); reflexivity. Qed.
Lemma fold_shape l : Forall plain l -> shape (fold_left resolve_ambiguity l (None, None)) = pick (best l).
Proof.
  assert (G : forall r pre st, Forall plain (pre ++ r) -> shape st = pick (best pre) -> (forall x, fst st = Some x -> In x pre /\ d_auto x = existsb d_auto pre) -> (fst st = None -> snd st = None /\ pre = []) ->
    shape (fold_left resolve_ambiguity r st) = pick (best (pre ++ r))).
  { induction r as [|d r IH]; intros pre st Hp E Hx Hn; [rewrite app_nil_r; exact E|]. cbn [fold_left]. replace (pre ++ d :: r) with ((pre ++ [d]) ++ r) in * by (rewrite <- app_assoc; reflexivity).
    destruct st as [[x|] a].
    - destruct (Hx x eq_refl) as [Ix Ax]. assert (Px : plain x) by (rewrite Forall_forall in Hp; apply Hp; apply in_or_app; left; apply in_or_app; left; exact Ix).
      assert (Pdd : plain d) by (rewrite Forall_forall in Hp; apply Hp; apply in_or_app; left; apply in_or_app; right; left; reflexivity).
      assert (Fl : filter d_auto (pre ++ [d]) = filter d_auto pre ++ (if d_auto d then [d] else [])) by (rewrite filter_app; cbn [filter]; destruct (d_auto d); reflexivity).
      assert (Ex : existsb d_auto (pre ++ [d]) = existsb d_auto pre || d_auto d) by (rewrite existsb_app; cbn [existsb]; rewrite orb_false_r; reflexivity).
      assert (Fn : existsb d_auto pre = false -> filter d_auto pre = []).
      { clear. induction pre as [|y pre IH]; [reflexivity|]. cbn [existsb filter]. destruct (d_auto y); [discriminate | exact IH]. }
      assert (Fs : existsb d_auto pre = true -> exists y q, filter d_auto pre = y :: q).
      { clear. induction pre as [|y pre IH]; [discriminate|]. cbn [existsb filter]. destruct (d_auto y); [intros _; eexists; eexists; reflexivity | exact IH]. }
      apply IH; clear IH.
      + exact Hp.
      + unfold resolve_ambiguity. rewrite (preferred_plain d x Pdd Px), (preferred_plain x d Px Pdd), Ax. unfold best in E |- *. rewrite Fl.
        destruct (existsb d_auto pre) eqn:EX.
        * destruct (Fs eq_refl) as (y & q & Q). rewrite Q in E |- *. rewrite andb_false_r. destruct (d_auto d) eqn:Ad; cbn [negb andb app].
          -- destruct a as [a|]; unfold shape in E |- *; cbn [fst snd] in E |- *; destruct q; cbn [pick app] in E |- *; try discriminate; injection E as ->; reflexivity.
          -- rewrite app_nil_r. destruct a; exact E.
        * rewrite (Fn eq_refl) in E |- *. destruct (d_auto d) eqn:Ad; cbn [negb andb app]; [reflexivity|].
          destruct a as [a|]; unfold shape in E |- *; cbn [fst snd] in E |- *; destruct pre as [|y [|y2 q]]; cbn [pick app] in E |- *; try discriminate; injection E as ->; reflexivity.
      + intros z Hz. unfold resolve_ambiguity in Hz. rewrite (preferred_plain d x Pdd Px), (preferred_plain x d Px Pdd), Ax in Hz. rewrite Ex.
        destruct (d_auto d && negb (existsb d_auto pre)) eqn:AA.
        * injection Hz as <-. split; [apply in_or_app; right; left; reflexivity|]. apply andb_prop in AA. destruct AA as [-> _]. rewrite orb_true_r. reflexivity.
        * assert (z = x) by (destruct a; [injection Hz as <-; reflexivity|]; destruct (existsb d_auto pre && negb (d_auto d)); injection Hz as <-; reflexivity). subst z.
          split; [apply in_or_app; left; exact Ix|]. rewrite Ax. destruct (existsb d_auto pre), (d_auto d); try reflexivity; discriminate.
      + intro Hz. exfalso. unfold resolve_ambiguity in Hz. destruct (first_is_preferred d x); [discriminate|]. destruct a; [discriminate|]. destruct (first_is_preferred x d); discriminate.
    - destruct (Hn eq_refl) as [Ha Hpre]. cbn [snd] in Ha. subst a pre. apply IH; [exact Hp | | | discriminate].
      + cbn. unfold best. cbn [app filter]. destruct (d_auto d); reflexivity.
      + cbn. intros z Hz. injection Hz as <-. split; [left; reflexivity | rewrite orb_false_r; reflexivity]. }
  intro H. apply (G l [] (None, None)); [exact H | reflexivity | discriminate | intros _; split; reflexivity].
Qed.
Lemma global_shuffled path s : Path_ok path -> (forall d, In d (w_decls w) -> d_vis d <> Local -> d_mod d = w_mod w -> d_name d = s -> Named path (w_mod w) -> False) ->
  same_answer (find_in_global w (written path) s) (find_in_global w' (written path) s).
Proof.
  intros HP NO. rewrite !find_in_global_fold by assumption. pose proof (usable_shuffled path s HP) as P.
  assert (PL : Forall plain (usable_list w (written path) s)).
  { rewrite Forall_forall. intros d Hd. apply usable_candidate in Hd; [|exact W | exact HP]. destruct Hd as ((C1 & C2 & C3 & C4 & C5) & NL). split; [apply nw; exact C1|].
    assert (O : d_mod d <> w_mod w) by (intro O; rewrite O in C5; exact (NO d C1 NL O C2 C5)).
    destruct C4 as [U|_ M|_ I _|r _ I _ _|i _ _ I _]; try assumption; [|congruence]. exfalso. apply O, (wf_unit w W d C1 U). }
  apply (same_answer_shape _ _ (best (usable_list w (written path) s)) (best (usable_list w' (written path) s))).
  - apply fold_shape, PL.
  - apply fold_shape. rewrite Forall_forall in *. intros d Hd. apply PL. apply (Permutation_in _ (Permutation_sym P)). exact Hd.
  - apply best_perm, P.
Qed.
Lemma imports_then_global_shuffled path s : Path_ok path -> (forall d, In d (w_decls w) -> d_vis d <> Local -> d_mod d = w_mod w -> d_name d = s -> Named path (w_mod w) -> False) ->
  same_answer (imports_then_global w (written path) s) (imports_then_global w' (written path) s).
Proof.
  intros HP NO. pose proof (global_shuffled path s HP NO) as G. unfold imports_then_global.
  assert (np' : forall i, In i (w_imports w') -> i_private i = false) by (intros i Hi; apply np; pose proof SH as (_ & _ & _ & Pi & _); apply (Permutation_in _ (Permutation_sym Pi)); exact Hi).
  destruct path as [q|]; cbn [written option_map] in *.
  - pose proof (imports_shape w (dotted q) s np) as E. pose proof (imports_shape w' (dotted q) s np') as E'. pose proof (opens_shuffled (Some (dotted q)) s) as P.
    pose proof (same_answer_shape _ _ _ _ E E' P) as S. destruct (find_in_imports w (Some (dotted q)) s) as [[x|] a], (find_in_imports w' (Some (dotted q)) s) as [[x'|] a'].
    + exact S.
    + destruct a; destruct S.
    + destruct a'; destruct S.
    + exact G.
  - assert (F : forall u, (forall i, In i (w_imports u) -> i_private i = false) -> find_in_imports u None s = (None, None)).
    { intros u Hu. unfold find_in_imports. apply fold_same. intros i Hi. unfold import_step. rewrite (Hu i Hi). destruct (m_generic (i_mod i)); reflexivity. }
    rewrite (F w np), (F w' np'). exact G.
Qed.
Lemma resolve_shuffled path s : Path_ok path -> same_answer (resolve w (written path) s) (resolve w' (written path) s).
Proof.
  intro HP. pose proof (imports_then_global_shuffled path s HP) as G. assert (Em : w_mod w = w_mod w') by apply SH. assert (El : w_locals w = w_locals w') by apply SH.
  assert (NO : find_in_module w (w_mod w) s = None -> forall d, In d (w_decls w) -> d_vis d <> Local -> d_mod d = w_mod w -> d_name d = s -> Named path (w_mod w) -> False).
  { intros F d Hd V M N _. apply (find_in_module_none w (w_mod w) s d F Hd V); [congruence | exact N]. }
  destruct path as [q|]; cbn [written option_map resolve] in *.
  - unfold resolve_path_symbol. destruct (text_eqb (dotted q) (lit "std")); [exact I|]. rewrite <- Em, <- find_in_module_shuffled.
    destruct (matches_subpath (m_name (w_mod w)) (dotted q)) eqn:MS.
    + destruct (find_in_module w (w_mod w) s) eqn:F; [reflexivity | apply G, NO; reflexivity].
    + apply G. intros d Hd V M N NM. apply (named_matches w (Some q) (w_mod w) W HP (in_own_mod w)) in NM. cbn [written option_map] in NM. congruence.
  - unfold resolve_no_path_symbol. rewrite <- El. destruct (find_local (w_locals w) s); [reflexivity|]. rewrite <- find_in_unit_shuffled. destruct (find_in_unit w s); [reflexivity|].
    rewrite <- Em, <- find_in_module_shuffled. destruct (find_in_module w (w_mod w) s) eqn:F; [reflexivity|]. apply G, NO; reflexivity.
Qed.
End Order.
