(** Paths: the statements about normalize and about the parts of a path. *)
From Coq Require Import ZArith List Bool Lia ZifyBool Arith.
From Verif Require Import Mach ListAux StrModel StrSpec StrProofs PathModel PathSpec PathProofs PathProofs2.
Import ListNotations.
Open Scope Z_scope.

Lemma elements_ext f g s : (forall c, f c = g c) -> elements f s = elements g s.
Proof. intros H. induction s as [|c s IH]; cbn [elements]; [reflexivity|]. now rewrite H, IH. Qed.
Lemma sep_slash c : is_sep false c = slash c. Proof. unfold is_sep, slash. now rewrite andb_false_r, orb_false_r. Qed.
Lemma rooted_posix p : rooted_at false p = rooted p. Proof. destruct p; [reflexivity|apply sep_slash]. Qed.
Lemma body_posix p : body_at false p = body p. Proof. unfold body_at, body. now rewrite rooted_posix. Qed.
(** The elements of joined names. *)
Lemma elements_glue sep sp l : sep sp = true -> Forall (Forall (fun c => sep c = false)) l -> l <> [] -> elements sep (glue [sp] l) = l.
Proof.
  intros Hsp. induction l as [|a l IH]; [easy|]. intros H _. pose proof (Forall_inv H) as Ha. pose proof (Forall_inv_tail H) as Hl. cbv beta in Ha. destruct l as [|b l]; [cbn [glue]; now apply elements_one|].
  rewrite glue_cons by discriminate. cbn [app]. rewrite elements_cat by assumption. rewrite IH by (assumption || discriminate). reflexivity.
Qed.
Lemma good_seps win rc : good win rc -> Forall (Forall (fun c => is_sep win c = false)) (rev rc).
Proof. intros H. apply Forall_rev. eapply Forall_impl; [|exact H]. cbv beta. tauto. Qed.
Lemma good_head win rc : good win rc -> match glue [separator win] (rev rc) with [] => rc = [] | c :: _ => is_sep win c = false end.
Proof.
  intros H. destruct (rev rc) as [|a l] eqn:E; [cbn; rewrite <- (rev_involutive rc), E; reflexivity|]. assert (Ha : a <> [] /\ Forall (fun x => is_sep win x = false) a) by (assert (Hr : good win (rev rc)) by (now apply Forall_rev); rewrite E in Hr; exact (Forall_inv Hr)).
  destruct Ha as [Hn Hs]. destruct a as [|c a]; [easy|]. pose proof (Forall_inv Hs) as Hc. cbv beta in Hc. destruct l; cbn [glue app]; exact Hc.
Qed.
Lemma sep_sp win : is_sep win (separator win) = true. Proof. now destruct win. Qed.
Lemma resv46 win : reserved win 46 = false. Proof. now destruct win. Qed.

(** normalize on POSIX paths. *)
Definition rootp (p : list Z) : list Z := if rooted p then [47] else [].
Lemma normalize_posix p : p <> [] ->
  match keeps (reserved false) (rooted p) [] (elements slash (body p)) with
  | Some rc => exists mem len, normalize false p = Ok (Some (mem, len)) /\ path_string (mem, len) = text_of (rootp p ++ glue [47] (rev rc)) /\ good false rc /\ zlen mem = zlen p /\ 0 < len <= zlen p /\
      (rootp p ++ glue [47] (rev rc) <> [] -> mem = rootp p ++ glue [47] (rev rc) \/ exists j', mem = rootp p ++ glue [47] (rev rc) ++ 0 :: j')
  | None => normalize false p = Ok None
  end.
Proof.
  intros H. assert (Hv : volume_name_len false ([] ++ p) = Ok (Some (zlen (@nil Z)))) by (unfold volume_name_len; cbn [app negb]; now rewrite orb_true_r).
  pose proof (normalize_at false [] p H Hv (or_intror eq_refl)) as N. cbv zeta in N. rewrite rooted_posix, body_posix in N. cbn [fixed app] in N. unfold shown_at in N. rewrite (elements_ext _ slash) in N by apply sep_slash. cbn [app separator] in N. fold (rootp p) in N.
  destruct (keeps _ _ _ _) as [rc|]; [|exact N]. destruct N as (m & l & A & B & C & D & E & F). exists m, l. repeat match goal with |- _ /\ _ => split end; auto; try lia. intros Hne. destruct (F Hne) as [-> | (j & ->)]; [now left|]. right. exists j. now rewrite <- app_assoc.
Qed.
(** Reading the result again. *)
Lemma text_back (root : bool) rc : good false rc -> let t := text_of ((if root then [47] else []) ++ glue [47] (rev rc)) in
  rooted t = root /\ elements slash (body t) = match rc with [] => if root then [[]] else [dot] | _ => rev rc end.
Proof.
  intros Hg. pose proof (good_head false rc Hg) as Hh. cbn [separator] in Hh. cbv zeta. assert (He : rc <> [] -> elements slash (glue [47] (rev rc)) = rev rc).
  { intros Hne. rewrite <- (elements_ext (is_sep false)) by apply sep_slash. apply elements_glue; [reflexivity|now apply good_seps|]. intros E. apply Hne. rewrite <- (rev_involutive rc), E. reflexivity. }
  destruct root; cbn [app].
  - cbn [text_of rooted body tl]. split; [reflexivity|]. unfold body. cbn [rooted slash tl Z.eqb]. destruct rc as [|e r]; [reflexivity|]. cbn. apply He. discriminate.
  - destruct (glue [47] (rev rc)) as [|c g] eqn:E.
    + subst rc. cbn. split; reflexivity.
    + cbn [text_of]. rewrite sep_slash in Hh. unfold body. cbn [rooted]. rewrite Hh. split; [reflexivity|]. rewrite He by (intros ->; discriminate). destruct rc; [discriminate|reflexivity].
Qed.
Lemma keeps_good_proper win rc : good win rc -> Forall (fun e => e <> []) rc.
Proof. intros H. eapply Forall_impl; [|exact H]. cbv beta. tauto. Qed.
Lemma normalize_place p m : normalize false p = Ok (Some m) -> p <> [] -> rooted (path_string m) = rooted p /\ place_of (path_string m) = place_of p.
Proof.
  intros H Hp. pose proof (normalize_posix p Hp) as N. destruct (keeps _ _ _ _) as [rc|] eqn:E; [|rewrite N in H; discriminate].
  destruct N as (mem & len & A & B & C & _). rewrite A in H. injection H as <-. rewrite B. unfold rootp. destruct (text_back (rooted p) rc C) as [T1 T2]. split; [exact T1|].
  unfold place_of. rewrite T1, T2. unfold reach. destruct (keeps_walk _ _ _ _ _ (Forall_nil _) E) as [W _]. cbn [rev fold_left] in W. rewrite <- W. destruct rc; [now destruct (rooted p)|reflexivity].
Qed.
Lemma normalize_again p m : normalize false p = Ok (Some m) -> exists m', normalize false (path_string m) = Ok (Some m') /\ path_string m' = path_string m.
Proof.
  intros H. destruct p as [|c p]; [cbn in H; injection H as <-; exists ([], 0); split; reflexivity|]. assert (Hp : c :: p <> []) by discriminate. pose proof (normalize_posix _ Hp) as N. destruct (keeps _ _ _ _) as [rc|] eqn:E; [|rewrite N in H; discriminate].
  destruct N as (mem & len & A & B & C & _). rewrite A in H. injection H as <-. unfold rootp in B. destruct (text_back (rooted (c :: p)) rc C) as [T1 T2]. rewrite <- B in T1, T2.
  assert (Hne : path_string (mem, len) <> []) by (rewrite B; now destruct ((if rooted (c :: p) then [47] else []) ++ glue [47] (rev rc))).
  assert (Hs : stable (reserved false) (rooted (c :: p)) rc) by (eapply keeps_stable; [reflexivity|constructor| |exact E]; reflexivity). unfold stable in Hs.
  assert (K : keeps (reserved false) (rooted (path_string (mem, len))) [] (elements slash (body (path_string (mem, len)))) = Some rc).
  { rewrite T1, T2. destruct rc as [|e r]; [now destruct (rooted (c :: p))|exact Hs]. }
  pose proof (normalize_posix _ Hne) as N. rewrite K in N. destruct N as (m2 & l2 & A2 & B2 & _). exists (m2, l2). split; [exact A2|]. rewrite B2. unfold rootp. rewrite T1. now rewrite B.
Qed.
(** Zero bytes. *)
Lemma elements_zero s : existsb (existsb (reserved false)) (elements slash s) = existsb (Z.eqb 0) s.
Proof.
  induction s as [|c s IH]; [reflexivity|]. cbn [elements existsb]. unfold slash at 1. destruct (c =? 47) eqn:Ec.
  - cbn [existsb]. rewrite IH. replace (0 =? c) with false by lia. reflexivity.
  - destruct (elements slash s) as [|e es] eqn:E; [cbn [existsb] in *; rewrite <- IH|cbn [existsb] in *; rewrite <- IH]; unfold reserved at 1; rewrite Ec; cbn [orb]; rewrite (Z.eqb_sym c 0), orb_false_r; [now rewrite orb_false_r|now rewrite orb_assoc].
Qed.
Lemma body_zero p : existsb (Z.eqb 0) (body p) = existsb (Z.eqb 0) p.
Proof. unfold body. destruct (rooted p) eqn:E; [|reflexivity]. destruct p as [|c p]; [reflexivity|]. cbn in E. cbn [tl existsb]. replace (0 =? c) with false by (unfold slash in E; lia). reflexivity. Qed.
Lemma normalize_canonical p : p <> [] -> Forall (fun e => ~ looks_like_dotdot e) (elements slash (body p)) ->
  if existsb (Z.eqb 0) p || (rooted p && climbs here (elements slash (body p))) then normalize false p = Ok None
  else exists m, normalize false p = Ok (Some m) /\ path_string m = canonical p.
Proof.
  intros Hp Hl. pose proof (normalize_posix p Hp) as N. pose proof (keeps_place (reserved false) (rooted p) eq_refl (elements slash (body p)) here [] Hl) as K. rewrite K in N; [|constructor|reflexivity|reflexivity].
  rewrite elements_zero, body_zero in N. destruct (_ || _); [exact N|]. destruct N as (mem & len & A & B & _). exists (mem, len). split; [exact A|]. rewrite B. rewrite rev_involutive.
  unfold canonical, shown, place_of, reach, rootp. destruct (rooted p); [reflexivity|]. cbn [app]. unfold text_of. match goal with |- match ?x with _ => _ end = _ => destruct x; reflexivity end.
Qed.
Lemma until_zero_app t r : existsb (Z.eqb 0) t = false -> until_zero (t ++ 0 :: r) = t /\ until_zero t = t.
Proof. induction t as [|c t IH]; [split; reflexivity|]. cbn [existsb app until_zero]. intros H. apply orb_false_iff in H as [Hc Ht]. rewrite (Z.eqb_sym c 0), Hc. destruct (IH Ht) as [-> ->]. now split. Qed.
Lemma glue_zero l : Forall (fun e => existsb (reserved false) e = false) l -> existsb (Z.eqb 0) (glue [47] l) = false.
Proof.
  assert (Hz : forall e, existsb (reserved false) e = false -> existsb (Z.eqb 0) e = false). { induction e as [|c e IH]; [reflexivity|]. cbn [existsb]. intros H. apply orb_false_iff in H as [H1 H2]. rewrite IH by exact H2. unfold reserved in H1. rewrite orb_false_r. lia. }
  induction l as [|a l IH]; [reflexivity|]. intros H. pose proof (Forall_inv H) as Ha. pose proof (Forall_inv_tail H) as Hl. cbv beta in Ha. destruct l as [|b l]; [cbn; now apply Hz|]. rewrite glue_cons by discriminate. rewrite !existsb_app, Hz, (IH Hl) by exact Ha. reflexivity.
Qed.
Lemma normalize_zstr p m : normalize false p = Ok (Some m) -> path_string m <> dot -> as_zstr m = path_string m.
Proof.
  intros H Hd. destruct p as [|c p]; [cbn in H; injection H as <-; reflexivity|]. assert (Hp : c :: p <> []) by discriminate. pose proof (normalize_posix _ Hp) as N. destruct (keeps _ _ _ _) as [rc|] eqn:E; [|rewrite N in H; discriminate].
  destruct N as (mem & len & A & B & C & _ & _ & F). rewrite A in H. injection H as <-. rewrite B in *.
  assert (Hz : existsb (Z.eqb 0) (rootp (c :: p) ++ glue [47] (rev rc)) = false). { rewrite existsb_app, glue_zero; [unfold rootp; now destruct (rooted (c :: p))|]. apply Forall_rev. eapply keeps_clean; [reflexivity| |exact E]. constructor. }
  destruct (rootp (c :: p) ++ glue [47] (rev rc)) as [|x t] eqn:Et; [now elim Hd|]. cbn [text_of] in *. unfold as_zstr. cbn [fst]. destruct F as [-> | (j & ->)]; [discriminate| |]; [now apply (until_zero_app _ [])|].
  rewrite app_assoc, Et. now apply until_zero_app.
Qed.
Lemma normalize_bounded p : match normalize false p with Ok (Some m) => zlen (fst m) = zlen p /\ 0 <= snd m <= zlen p | Ok None => True | _ => False end.
Proof.
  destruct p as [|c p]; [cbn; lia|]. assert (Hp : c :: p <> []) by discriminate. pose proof (normalize_posix _ Hp) as N. destruct (keeps _ _ _ _) as [rc|].
  - destruct N as (mem & len & -> & _ & _ & D & E & _). cbn [fst snd]. lia.
  - now rewrite N.
Qed.
(** A WIN32 path with a drive letter and a separator behind it. *)
Definition bs (c : Z) : bool := (c =? 47) || (c =? 92).
Lemma bs_sep c : is_sep true c = bs c. Proof. unfold is_sep, bs. now rewrite andb_true_r. Qed.
Definition letter (c : Z) : Prop := 65 <= c <= 90 \/ 97 <= c <= 122.
Lemma normalize_drive c s b : letter c -> bs s = true ->
  match normalize true (c :: 58 :: s :: b) with
  | Ok (Some m) => exists t, path_string m = c :: 58 :: 92 :: t /\ reach true (elements bs t) = reach true (elements bs b) /\ ~ In 47 t /\ zlen (fst m) = zlen (c :: 58 :: s :: b)
  | Ok None => True
  | _ => False
  end.
Proof.
  intros Hc Hs. assert (Hv : volume_name_len true ([c; 58] ++ s :: b) = Ok (Some (zlen [c; 58]))).
  { unfold volume_name_len. cbn [app negb]. rewrite !zlen_cons, orb_false_r. pose proof (zlen_nonneg b). replace (1 + (1 + (1 + zlen b)) <? 2) with false by lia. change (c :: 58 :: s :: b) with ([] ++ c :: 58 :: s :: b). rewrite (get_app [] _ c) by reflexivity. cbn [bind app].
    unfold letter in Hc. replace (c =? 92) with false by lia. replace ((65 <=? c) && (c <=? 90) || (97 <=? c) && (c <=? 122)) with true by lia.
    change (c :: 58 :: s :: b) with ([c] ++ 58 :: s :: b). rewrite (get_app [c] _ 58) by reflexivity. reflexivity. }
  assert (Hr : rooted_at true (s :: b) = true) by (cbn; now rewrite bs_sep).
  pose proof (normalize_at true [c; 58] (s :: b) ltac:(discriminate) Hv (or_introl Hr)) as N. cbv zeta in N. unfold body_at in N. rewrite Hr in N. cbn [tl] in N. rewrite (elements_ext _ bs) in N by apply bs_sep. cbn [app] in N.
  destruct (keeps (reserved true) true [] (elements bs b)) as [rc|] eqn:E; [|rewrite N; exact I]. destruct N as (mem & len & -> & B & Hg & L & _).
  exists (glue [92] (rev rc)). unfold shown_at in B. unfold letter in Hc. cbn [fixed map app separator text_of] in B. replace (c =? 47) with false in B by lia. change (58 =? 47) with false in B. cbv iota in B. split; [exact B|].
  destruct (keeps_walk _ _ _ _ _ (Forall_nil _) E) as [W _]. cbn [rev fold_left] in W. split; [|split].
  - unfold reach. rewrite <- W. destruct rc as [|e r]; [reflexivity|]. rewrite elements_glue; [reflexivity|reflexivity| |]. 2: { intros Hn. cbn [rev] in Hn. now apply app_eq_nil in Hn as [_ Hn]. }
    pose proof (good_seps true _ Hg) as G. eapply Forall_impl; [|exact G]. cbv beta. intros a Ha. eapply Forall_impl; [|exact Ha]. cbv beta. intros x Hx. now rewrite <- bs_sep.
  - pose proof (good_seps true _ Hg) as G. clear - G. induction (rev rc) as [|a l IH]; [intros []|]. pose proof (Forall_inv G) as Ha. pose proof (Forall_inv_tail G) as Hl. cbv beta in Ha.
    assert (Hn : ~ In 47 a) by (rewrite Forall_forall in Ha; intros Hi; specialize (Ha _ Hi); discriminate). destruct l as [|b l]; [exact Hn|]. rewrite glue_cons by discriminate. rewrite !in_app_iff. intros [Hi | [[Hi | []] | Hi]]; [now apply Hn|discriminate|now apply IH].
  - exact L.
Qed.

(** Base name, directory, parent. *)
Lemma last_slash p : (exists q b, p = q ++ 47 :: b /\ ~ In 47 b) \/ ~ In 47 p.
Proof.
  destruct (in_dec Z.eq_dec 47 p) as [H|H]; [left|now right]. induction p as [|c p IH]; [easy|]. destruct (in_dec Z.eq_dec 47 p) as [H'|H'].
  - destruct (IH H') as (q & b & -> & Hb). exists (c :: q), b. auto.
  - destruct H as [-> | H]; [|easy]. exists [], p. auto.
Qed.
Lemma rindex_char_is s q c b : s = q ++ c :: b -> ~ In c b -> rindex_of_char s c = Ok (Some (zlen q)).
Proof.
  intros -> Hb. destruct (rindex_char_ok (q ++ c :: b) c (length (q ++ c :: b))) as (r & E & Hr); [unfold zlen; lia|intros j Hj; apply byte_bound in Hj; unfold zlen in Hj; lia|].
  unfold rindex_of_char. rewrite E. f_equal. assert (Hq : byte_at (q ++ c :: b) (zlen q) c) by (exists q, b; split; reflexivity). destruct r as [i|]; [|now elim (Hr _ Hq)]. f_equal. destruct Hr as [H1 H2]. specialize (H2 _ Hq).
  destruct (Z.eq_dec i (zlen q)) as [|Hne]; [assumption|]. apply byte_get in H1. rewrite get_app_r in H1 by lia. replace (i - zlen q) with (i - zlen q - 1 + 1) in H1 by lia. change (c :: b) with ([c] ++ b) in H1. rewrite get_app_r in H1 by (change (zlen [c]) with 1; lia). change (zlen [c]) with 1 in H1.
  apply byte_get in H1. destruct H1 as (x & y & -> & _). elim Hb. rewrite in_app_iff. right. now left.
Qed.
Lemma rindex_char_no s c : ~ In c s -> rindex_of_char s c = Ok None.
Proof.
  intros H. destruct (rindex_char_ok s c (length s)) as (r & E & Hr); [unfold zlen; lia|intros j Hj; apply byte_bound in Hj; unfold zlen in Hj; lia|]. unfold rindex_of_char. rewrite E. f_equal. destruct r as [i|]; [|reflexivity]. destruct Hr as [(a & b & -> & _) _]. elim H. rewrite in_app_iff. right. now left.
Qed.
Lemma base_some q b : ~ In 47 b -> base_start (q ++ 47 :: b) = Ok (zlen q + 1).
Proof. intros H. unfold base_start. rewrite zlen_app, zlen_cons. pose proof (zlen_nonneg q). pose proof (zlen_nonneg b). replace (_ =? 0) with false by lia. rewrite (rindex_char_is _ q 47 b) by auto. reflexivity. Qed.
Lemma base_none p : ~ In 47 p -> base_start p = Ok 0.
Proof. intros H. unfold base_start. destruct (zlen p =? 0); [reflexivity|]. now rewrite rindex_char_no. Qed.
Lemma basename_some q b : ~ In 47 b -> basename (q ++ 47 :: b) = Ok b.
Proof.
  intros H. unfold basename. rewrite base_some by exact H. cbn [bind]. rewrite zlen_app, zlen_cons. destruct (zlen q + 1 =? zlen q + (1 + zlen b)) eqn:E; [rewrite (zlen0 b) by lia; reflexivity|].
  replace (q ++ 47 :: b) with ((q ++ [47]) ++ b) by (rewrite <- app_assoc; reflexivity). apply slice_suf; [rewrite zlen_app; reflexivity|lia].
Qed.
Lemma basename_none p : ~ In 47 p -> basename p = Ok p.
Proof. intros H. unfold basename. rewrite base_none by exact H. cbn [bind]. destruct (0 =? zlen p) eqn:E; [rewrite (zlen0 p) by lia; reflexivity|]. rewrite Z.sub_0_r. apply slice_all. Qed.
Lemma dirname_some q b : ~ In 47 b -> dirname (q ++ 47 :: b) = Ok (match q with [] => [47] | _ => q end).
Proof.
  intros H. unfold dirname. rewrite base_some by exact H. cbn [bind]. pose proof (zlen_nonneg q). replace (zlen q + 1 =? 0) with false by lia. destruct q as [|c q].
  - change (zlen (@nil Z)) with 0. cbn [Z.add Z.leb]. change (0 + 1 <=? 0 + 1) with true. cbv iota. change ([] ++ 47 :: b) with ([47] ++ b). now apply slice_pre.
  - rewrite zlen_cons in *. pose proof (zlen_nonneg q). replace (1 + zlen q + 1 <=? 0 + 1) with false by lia. apply slice_pre. rewrite zlen_cons. lia.
Qed.
Lemma last_sep_ok : forall k p q b, p = q ++ 47 :: b -> ~ In 47 b -> (length q < k <= length p)%nat -> last_sep k p = Ok (Some (zlen q)).
Proof.
  induction k as [|k IH]; intros p q b Ep Hb Hk; [lia|]. cbn [last_sep]. destruct (Nat.eq_dec k (length q)) as [-> | Hne].
  - rewrite Ep, get_app by reflexivity. cbn [bind]. reflexivity.
  - destruct (get_ok p (Z.of_nat k)) as (x & G); [unfold zlen; lia|]. rewrite G. cbn [bind]. assert (Hx : In x b).
    { rewrite Ep, get_app_r in G by (unfold zlen; lia). change (47 :: b) with ([47] ++ b) in G. rewrite get_app_r in G by (change (zlen [47]) with 1; unfold zlen; lia). apply byte_get in G. destruct G as (a0 & b0 & -> & _). rewrite in_app_iff. right. now left. }
    rewrite sep_slash. unfold slash. destruct (x =? 47) eqn:E; [|apply (IH p q b); auto; lia]. elim Hb. now replace 47 with x by lia.
Qed.
Lemma last_sep_no : forall k p, ~ In 47 p -> (k <= length p)%nat -> last_sep k p = Ok None.
Proof.
  induction k as [|k IH]; intros p Hp Hk; [reflexivity|]. cbn [last_sep]. destruct (get_ok p (Z.of_nat k)) as (x & G); [unfold zlen; lia|]. rewrite G. cbn [bind]. rewrite sep_slash. unfold slash. destruct (x =? 47) eqn:E; [|apply IH; auto; lia].
  elim Hp. apply byte_get in G. destruct G as (a & b & -> & _). rewrite in_app_iff. right. left. lia.
Qed.
Lemma parent_some q b : ~ In 47 b -> (q <> [] \/ b <> []) -> parent (q ++ 47 :: b) = Ok (Some q).
Proof.
  intros Hb Hne. unfold parent. assert (H1 : zlen (q ++ 47 :: b) =? 1 = false). { rewrite zlen_app, zlen_cons. pose proof (zlen_nonneg q). pose proof (zlen_nonneg b). destruct Hne as [Hq|Hq]; [destruct q as [|x q]; [easy|]; pose proof (zlen_nonneg q)|destruct b as [|x b]; [easy|]; pose proof (zlen_nonneg b)]; rewrite !zlen_cons; lia. }
  rewrite H1. cbn [bind]. rewrite (last_sep_ok _ _ q b) by (auto; rewrite app_length; cbn [length]; lia). cbn [bind]. rewrite slice_pre by reflexivity. reflexivity.
Qed.
Lemma parent_none p : ~ In 47 p \/ p = [47] -> parent p = Ok None.
Proof.
  intros [H | ->]; [|reflexivity]. unfold parent. destruct (zlen p =? 1) eqn:E.
  - destruct p as [|c [|d p]]; try discriminate; [|rewrite !zlen_cons in E; pose proof (zlen_nonneg p); lia]. assert (Ec : is_sep false c = false) by (rewrite sep_slash; unfold slash; destruct (c =? 47) eqn:Ec; [elim H; left; lia|reflexivity]). change (get [c] 0) with (Ok c). cbn [bind]. rewrite Ec. cbn [last_sep length]. change (get [c] (Z.of_nat 0)) with (Ok c). cbn [bind]. now rewrite Ec.
  - cbn [bind]. now rewrite last_sep_no by auto.
Qed.
Lemma basename_total p : exists b, basename p = Ok b /\ ~ In 47 b.
Proof. destruct (last_slash p) as [(q & b & -> & Hb)|H]; [exists b; split; [now apply basename_some|exact Hb]|exists p; split; [now apply basename_none|exact H]]. Qed.
(** Extensions. *)
Lemma has_extension_ok p ext b : basename p = Ok b -> exists r, has_extension p ext = Ok r /\ (r = true <-> exists s, b = s ++ 46 :: ext).
Proof.
  intros Hb. unfold has_extension. rewrite Hb. cbn [bind]. pose proof (zlen_nonneg ext). destruct (zlen b <=? zlen ext) eqn:E.
  - exists false. split; [reflexivity|]. split; [discriminate|]. intros (s & ->). rewrite zlen_app, zlen_cons in E. pose proof (zlen_nonneg s). lia.
  - assert (Hsp : exists s c e, b = s ++ c :: e /\ zlen e = zlen ext).
    { destruct (split_at b (zlen b - (zlen ext + 1))) as (s & c & e & Eb & Ls); [lia|]. exists s, c, e. split; [exact Eb|]. rewrite Eb, zlen_app, zlen_cons in Ls. lia. }
    destruct Hsp as (s & c & e & -> & Le). rewrite zlen_app, zlen_cons. rewrite get_app by lia. cbn [bind]. destruct (negb (c =? 46)) eqn:Ec.
    + exists false. split; [reflexivity|]. split; [discriminate|]. intros (s' & Es). apply app_inv_len in Es as [_ Es]; [injection Es as -> _; discriminate|]. apply (f_equal (@zlen Z)) in Es. rewrite !zlen_app, !zlen_cons in Es. unfold zlen in *. lia.
    + replace (s ++ c :: e) with ((s ++ [c]) ++ e) by (rewrite <- app_assoc; reflexivity). rewrite slice_suf by (rewrite ?zlen_app; change (zlen [c]) with 1; lia). cbn [bind]. eexists. split; [reflexivity|]. rewrite eqs_spec. split.
      * intros ->. exists s. replace c with 46 by lia. now rewrite <- app_assoc.
      * intros (s' & Es). rewrite <- app_assoc in Es. cbn [app] in Es. apply app_inv_len in Es as [_ Es]; [now injection Es|]. apply (f_equal (@zlen Z)) in Es. rewrite !zlen_app, !zlen_cons in Es. unfold zlen in *. lia.
Qed.
Lemma extension_ok p b : basename p = Ok b ->
  (~ In 46 b -> extension p = Ok None) /\ (forall s e, b = s ++ 46 :: e -> ~ In 46 e -> extension p = Ok (Some (match s with [] => [] | _ => e end))).
Proof.
  intros Hb. unfold extension. rewrite Hb. cbn [bind]. destruct (rindex_of_ok b [46]) as (r & -> & Hr); [discriminate|]. cbn [bind]. split.
  - intros Hn. destruct r as [i|]; [|reflexivity]. destruct Hr as [(x & y & -> & _) _]. elim Hn. rewrite in_app_iff. right. now left.
  - intros s e -> He. assert (Hs : occurs_at [46] (s ++ 46 :: e) (zlen s)) by (exists s, e; split; reflexivity). destruct r as [i|]; [|now elim (Hr _ Hs)]. destruct Hr as [(x & y & Ex & Lx) H2]. specialize (H2 _ Hs). change (len x) with (zlen x) in Lx.
    assert (i = zlen s).
    { destruct (Z.eq_dec i (zlen s)) as [|Hne]; [assumption|]. exfalso. assert (G : get (s ++ 46 :: e) i = Ok 46) by (rewrite Ex; now apply get_app). rewrite get_app_r in G by lia. change (46 :: e) with ([46] ++ e) in G. rewrite get_app_r in G by (change (zlen [46]) with 1; lia). apply byte_get in G. destruct G as (a0 & b0 & -> & _). apply He. rewrite in_app_iff. right. now left. }
    subst i. rewrite H, zlen_app, zlen_cons. pose proof (zlen_nonneg s). pose proof (zlen_nonneg e). replace (zlen s =? zlen s + (1 + zlen e)) with false by lia. rewrite orb_false_r. destruct s as [|c s].
    + reflexivity.
    + rewrite !zlen_cons in *. pose proof (zlen_nonneg s). replace (1 + zlen s =? 0) with false by lia. replace ((c :: s) ++ 46 :: e) with (((c :: s) ++ [46]) ++ e) by (rewrite <- app_assoc; reflexivity). rewrite slice_suf; [reflexivity|rewrite zlen_app, zlen_cons; change (zlen [46]) with 1; lia|lia].
Qed.
(** Appending. *)
Lemma elements_join p f : elements slash (p ++ 47 :: f) = elements slash p ++ elements slash f.
Proof.
  induction p as [|c p IH]; cbn [app elements]; [reflexivity|]. rewrite IH. destruct (slash c); [reflexivity|]. destruct (elements slash p) as [|e es] eqn:E; [|reflexivity]. destruct (elements_inv slash p) as [(x & Hx & _)|(x & y & r & Hx & _)]; rewrite E in Hx; discriminate.
Qed.
Lemma append_ok p f : (exists q c, p = q ++ [c] /\ c <> 47) ->
  append p f = normalize false (p ++ [47] ++ f) /\ place_of (p ++ [47] ++ f) = fold_left (walk (rooted p)) (elements slash f) (place_of p).
Proof.
  intros (q & c & -> & Hc). split.
  - unfold append. rewrite zlen_app. change (zlen [c]) with 1. pose proof (zlen_nonneg q). replace (zlen q + 1 =? 0) with false by lia. rewrite get_app by lia. cbn [bind]. rewrite sep_slash. unfold slash. now replace (c =? 47) with false by lia.
  - unfold place_of, reach. assert (Hr : rooted ((q ++ [c]) ++ [47] ++ f) = rooted (q ++ [c])) by now destruct q. rewrite Hr. assert (Hb : body ((q ++ [c]) ++ [47] ++ f) = body (q ++ [c]) ++ 47 :: f) by (unfold body; rewrite Hr; destruct q; [cbn; now destruct (slash c)|cbn; now destruct (slash z)]).
    rewrite Hb, elements_join, fold_left_app. reflexivity.
Qed.
