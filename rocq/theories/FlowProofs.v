From Coq Require Import List Arith Bool Lia.
From Verif Require Import FlowAst FlowSpec FlowModel.
Import ListNotations.

Ltac inv H := inversion H; subst; clear H.
Lemma abind_ok : forall {A B} (x : ares A) (f : A -> ares B) b, abind x f = AOk b -> exists a, x = AOk a /\ f a = AOk b.
Proof. intros A B [a| |] f b H; cbn in H; try discriminate. eauto. Qed.
Ltac bind H := let a := fresh "v" in let E := fresh "E" in apply abind_ok in H; destruct H as (a & E & H).

Lemma above_firstn : forall c m, m <= length c -> above c m = AOk (firstn (length c - m) c).
Proof.
  induction c as [|d r IH]; intros m M; cbn [length] in M.
  - replace m with 0 by lia. reflexivity.
  - cbn [above length]. destruct (Nat.eqb_spec (S (length r)) m) as [E|E].
    + subst m. rewrite Nat.sub_diag. reflexivity.
    + rewrite IH by lia. replace (S (length r) - m) with (S (length r - m)) by lia. reflexivity.
Qed.
Lemma above_inv : forall c m l, above c m = AOk l -> m <= length c /\ l = firstn (length c - m) c.
Proof.
  intros c m l H. destruct (le_lt_dec m (length c)) as [L|L].
  - rewrite above_firstn in H by exact L. inversion H. auto.
  - exfalso. revert m l L H. induction c as [|d r IH]; intros m l L H; cbn [length] in L; cbn [above length] in H.
    + destruct (Nat.eqb_spec 0 m); [lia|discriminate].
    + destruct (Nat.eqb_spec (S (length r)) m); [lia|]. bind H. apply (IH m v); [lia|exact E].
Qed.

(** ** Targets *)
Definition brk_target (C : cx) (l : option lbl) : option target :=
  match l with None => c_brk C | Some n => option_map lb_tgt (find_label n (c_labels C)) end.
Definition cnt_target (C : cx) (l : option lbl) : option target :=
  match l with
  | None => c_cnt C
  | Some n => match find_label n (c_labels C) with Some b => match lb_kind b with LkFor => Some (lb_tgt b) | _ => None end | None => None end
  end.
Definition sw_target (C : cx) (l : option lbl) : option swinfo :=
  match l with
  | None => option_map fst (c_nxt C)
  | Some n => match find_label n (c_labels C) with Some b => match lb_kind b with LkSwitch w => Some w | _ => None end | None => None end
  end.

(** Every target of the context has a level below [v] and a mark of at most [m]. *)
Record tok (C : cx) (v m : nat) : Prop := Tok {
  tok_brk : forall l t, brk_target C l = Some t -> t_lev t < v /\ t_mark t <= m;
  tok_cnt : forall l t, cnt_target C l = Some t -> t_lev t < v /\ t_mark t <= m;
  tok_sw : forall l w, sw_target C l = Some w -> sw_lev w < v /\ sw_mark w <= m }.

Lemma tok_mono : forall C v m v' m', tok C v m -> v <= v' -> m <= m' -> tok C v' m'.
Proof.
  intros C v m v' m' [A B D] V M. constructor; intros l t H; [apply A in H|apply B in H|apply D in H]; lia.
Qed.

Lemma find_lab : forall n l t k ls, find_label n (lab l t k ls) = if same_lbl l n then Some (Lab (match l with Some x => x | None => 0 end) t k) else find_label n ls.
Proof.
  intros n [x|] t k ls; cbn [lab same_lbl]; [|reflexivity]. unfold find_label. cbn [find lb_name].
  destruct (Nat.eqb x n); reflexivity.
Qed.

Lemma if_brk : forall C l d m j, brk_target (if_cx C l d m) j = if for_me_if l j then Some (Tgt (c_lev C) m) else brk_target C j.
Proof.
  intros C l d m [n|]; unfold brk_target, if_cx; cbn [c_labels c_brk for_me_if]; [|reflexivity].
  rewrite find_lab. destruct (same_lbl l n); reflexivity.
Qed.
Lemma if_cnt : forall C l d m j, cnt_target (if_cx C l d m) j = match j with Some n => if same_lbl l n then None else cnt_target C j | None => cnt_target C j end.
Proof.
  intros C l d m [n|]; unfold cnt_target, if_cx; cbn [c_labels c_cnt]; [|reflexivity].
  rewrite find_lab. destruct (same_lbl l n); reflexivity.
Qed.
Lemma if_sw : forall C l d m j, sw_target (if_cx C l d m) j = match j with Some n => if same_lbl l n then None else sw_target C j | None => sw_target C j end.
Proof.
  intros C l d m [n|]; unfold sw_target, if_cx; cbn [c_labels c_nxt]; [|reflexivity].
  rewrite find_lab. destruct (same_lbl l n); reflexivity.
Qed.
Lemma for_brk : forall C l d m j, brk_target (for_cx C l d m) j = if for_me l j then Some (Tgt (c_lev C) m) else brk_target C j.
Proof.
  intros C l d m [n|]; unfold brk_target, for_cx; cbn [c_labels c_brk for_me]; [|reflexivity].
  rewrite find_lab. destruct (same_lbl l n); reflexivity.
Qed.
Lemma for_cnt : forall C l d m j, cnt_target (for_cx C l d m) j = if for_me l j then Some (Tgt (c_lev C) m) else cnt_target C j.
Proof.
  intros C l d m [n|]; unfold cnt_target, for_cx; cbn [c_labels c_cnt for_me]; [|reflexivity].
  rewrite find_lab. destruct (same_lbl l n); reflexivity.
Qed.
Lemma for_sw : forall C l d m j, sw_target (for_cx C l d m) j = match j with Some n => if same_lbl l n then None else sw_target C j | None => sw_target C j end.
Proof.
  intros C l d m [n|]; unfold sw_target, for_cx; cbn [c_labels c_nxt]; [|reflexivity].
  rewrite find_lab. destruct (same_lbl l n); reflexivity.
Qed.
Lemma case_brk : forall C l w nx d j, brk_target (case_cx C l w nx d) j = if for_me l j then Some (Tgt (sw_lev w) (sw_mark w)) else brk_target C j.
Proof.
  intros C l w nx d [n|]; unfold brk_target, case_cx; cbn [c_labels c_brk for_me]; [|reflexivity].
  rewrite find_lab. destruct (same_lbl l n); reflexivity.
Qed.
Lemma case_cnt : forall C l w nx d j, cnt_target (case_cx C l w nx d) j = match j with Some n => if same_lbl l n then None else cnt_target C j | None => cnt_target C j end.
Proof.
  intros C l w nx d [n|]; unfold cnt_target, case_cx; cbn [c_labels c_cnt]; [|reflexivity].
  rewrite find_lab. destruct (same_lbl l n); reflexivity.
Qed.
Lemma case_sw : forall C l w nx d j, sw_target (case_cx C l w nx d) j = if for_me l j then Some w else sw_target C j.
Proof.
  intros C l w nx d [n|]; unfold sw_target, case_cx; cbn [c_labels c_nxt for_me]; [|reflexivity].
  rewrite find_lab. destruct (same_lbl l n); reflexivity.
Qed.

Lemma tok_if : forall C l d k m, tok C (c_lev C) m -> k <= m -> tok (if_cx C l d k) (S (c_lev C)) m.
Proof.
  intros C l d k m [A B D] K. constructor; intros j t H.
  - rewrite if_brk in H. destruct (for_me_if l j); [inv H; cbn; lia|]. apply A in H. lia.
  - rewrite if_cnt in H. destruct j as [n|]; [destruct (same_lbl l n); [discriminate|]|]; apply B in H; lia.
  - rewrite if_sw in H. destruct j as [n|]; [destruct (same_lbl l n); [discriminate|]|]; apply D in H; lia.
Qed.
Lemma tok_for : forall C l d k m, tok C (c_lev C) m -> k <= m -> tok (for_cx C l d k) (S (c_lev C)) m.
Proof.
  intros C l d k m [A B D] K. constructor; intros j t H.
  - rewrite for_brk in H. destruct (for_me l j); [inv H; cbn; lia|]. apply A in H. lia.
  - rewrite for_cnt in H. destruct (for_me l j); [inv H; cbn; lia|]. apply B in H. lia.
  - rewrite for_sw in H. destruct j as [n|]; [destruct (same_lbl l n); [discriminate|]|]; apply D in H; lia.
Qed.
Lemma tok_case : forall C l w nx d m, tok C (c_lev C) m -> sw_lev w = c_lev C -> sw_mark w <= m -> tok (case_cx C l w nx d) (S (c_lev C)) m.
Proof.
  intros C l w nx d m [A B D] W M. constructor; intros j t H.
  - rewrite case_brk in H. destruct (for_me l j); [inv H; cbn; lia|]. apply A in H. lia.
  - rewrite case_cnt in H. destruct j as [n|]; [destruct (same_lbl l n); [discriminate|]|]; apply B in H; lia.
  - rewrite case_sw in H. destruct (for_me l j); [inv H; cbn; lia|]. apply D in H. lia.
Qed.
Lemma tok_none : forall C v m, c_brk C = None -> c_cnt C = None -> c_nxt C = None -> c_labels C = [] -> tok C v m.
Proof.
  intros C v m A B D E. constructor; intros [n|] t H; unfold brk_target, cnt_target, sw_target in H; rewrite ?A, ?B, ?D, ?E in H; discriminate.
Qed.

(** ** What the analysis leaves in the set of broken statements, and the returns it records *)
Definition below (v : nat) (l : list nat) : Prop := forall n, In n l -> n < v.
Lemma below_drop : forall v l, below (S v) l -> below v (drop v l).
Proof.
  intros v l B n H. unfold drop in H. apply filter_In in H. destruct H as [H E]. apply B in H.
  apply negb_true_iff, Nat.eqb_neq in E. lia.
Qed.
Lemma incl_drop : forall v l l', below v l -> incl l l' -> incl l (drop v l').
Proof.
  intros v l l' B I n H. unfold drop. apply filter_In. split; [exact (I n H)|].
  apply negb_true_iff, Nat.eqb_neq. apply B in H. lia.
Qed.
Lemma below_S : forall v l, below v l -> below (S v) l.
Proof. intros v l B n H. apply B in H. lia. Qed.

Definition grows (v : nat) (a a' : sc) : Prop :=
  below v (a_brks a') /\ incl (a_brks a) (a_brks a') /\ incl (a_rets a) (a_rets a').

Lemma get_ok : forall c m s l, get_defers c m s = AOk l -> m <= length c /\ l = bodies (filter (wanted s) (firstn (length c - m) c)).
Proof.
  intros c m s l H. unfold get_defers in H. bind H. apply above_inv in E. destruct E as [L E]. inv H. auto.
Qed.

Ltac binds H := repeat match type of H with
  | abind _ _ = AOk _ => bind H
  | (let '(_, _) := ?p in _) = AOk _ => destruct p
  | AErr = AOk _ => discriminate H
  | AFatal = AOk _ => discriminate H
  end.


Lemma tok_scope : forall C d k v m, tok C v m -> tok (scope_cx C d k) v m.
Proof. intros C d k v m [A B D]. constructor; [exact A|exact B|exact D]. Qed.

(** The wrapper around the analysis of a statement. *)
Lemma dead_grows : forall v a a0 l0 l a', (AOk (if a_jend a then (LNop, with_rets (a_rets a) a0) else (l0, a0)) : ares (lst * sc)) = AOk (l, a') ->
  grows v a a0 -> grows v a a'.
Proof.
  intros v a a0 l0 l a' H (A & B & D). destruct (a_jend a); inv H; split; [exact A|split; [exact B|apply incl_refl]|exact A|split; [exact B|exact D]].
Qed.

Lemma grows_all :
  (forall x C a l a', ana C a x = AOk (l, a') -> (exists m, tok C (c_lev C) m) -> below (c_lev C) (a_brks a) -> grows (c_lev C) a a') /\
  (forall b C a l a', ana_list C a b = AOk (l, a') -> (exists m, tok C (c_lev C) m) -> below (c_lev C) (a_brks a) -> grows (c_lev C) a a') /\
  (forall cs C l w i d a lc j a', ana_cases C l w i d a cs = AOk (lc, j, a') -> (exists m, tok C (c_lev C) m) -> sw_lev w = c_lev C ->
     below (S (c_lev C)) (a_brks a) -> grows (S (c_lev C)) a a') /\
  (forall r C a e opt a', ana_exp C a r = AOk (e, opt, a') -> (exists m, tok C (c_lev C) m) -> below (c_lev C) (a_brks a) ->
     a_chain a' = a_chain a /\ a_brks a' = a_brks a /\ incl (a_rets a) (a_rets a')).
Proof.
  Tactic Notation "start" ident(H) ident(E) := intros C a l' a' H [m T] BB; cbn [ana] in H; apply abind_ok in H; destruct H as ([l0 a0] & E & H); apply (dead_grows _ _ _ _ _ _ H); clear H.
  apply flow_mind.
  - (* SExpr *) intros r IH. start H E. bind E. destruct v as [[e o] a2]. destruct o; [discriminate|]. inv E.
    destruct (IH _ _ _ _ _ E0 (ex_intro _ m T) BB) as (X & Y & Z). unfold grows.
    destruct r; cbn; rewrite ?Y; auto using incl_refl.
    destruct (is_fault r); cbn; rewrite ?Y; auto using incl_refl.
  - intros n. start H E. inv E. unfold grows. cbn. auto using incl_refl.
  - (* SBlock *) intros b IH. start H E. bind E. bind E. destruct v0 as [l1 a2]. destruct (_ =? _); [|discriminate]. inv E.
    destruct (IH _ _ _ _ E1) as (X & Y & Z); [exists m; apply tok_scope; exact T|exact BB|]. unfold grows. cbn. auto.
  - (* SDefer *) intros k b IH. start H E. bind E. bind E. bind E. destruct v1 as [l1 a2]. destruct (_ =? 0); [|discriminate]. inv E.
    destruct (IH _ _ _ _ E2) as (X & Y & Z); [exists 0; apply tok_none; reflexivity|exact BB|]. unfold grows. cbn. auto.
  - (* SIf *) intros l c th IH. start H E. destruct (is_defer th); [discriminate|]. bind E. bind E. bind E. destruct v1 as [l1 a2]. destruct (_ =? _); [|discriminate]. inv E.
    destruct (IH _ _ _ _ E2) as (X & Y & Z); [exists (max m (length (a_chain a))); apply tok_if; [eapply tok_mono; [exact T| |]; lia|lia]|apply below_S; exact BB|].
    unfold grows. cbn. auto using below_drop, incl_drop.
  - (* SIfElse *) intros l c th IH el IH2. start H E. destruct (_ && _); [|discriminate]. bind E. bind E. bind E. destruct v1 as [l1 a1]. destruct (_ =? _); [|discriminate].
    bind E. destruct v1 as [l2 a2]. destruct (_ =? _); [|discriminate]. inv E.
    assert (T' : exists m0, tok (if_cx C l v0 (length (a_chain a))) (S (c_lev C)) m0).
    { exists (max m (length (a_chain a))); apply tok_if; [eapply tok_mono; [exact T| |]; lia|lia]. }
    destruct (IH _ _ _ _ E2 T' (below_S _ _ BB)) as (X & Y & Z).
    destruct (IH2 _ _ _ _ E3 T' X) as (X2 & Y2 & Z2).
    unfold grows. cbn in *. split; [auto using below_drop|]. split; [apply incl_drop; [exact BB|]|]; eapply incl_tran; eauto.
  - (* SFor *) intros l is_do c incr body IH. start H E. destruct (is_defer body); [discriminate|]. destruct (is_do && _); [discriminate|].
    bind E. bind E. bind E. destruct v1 as [l1 a2]. destruct (_ =? _); [|discriminate]. inv E.
    destruct (IH _ _ _ _ E2) as (X & Y & Z); [exists (max m (length (a_chain a))); apply tok_for; [eapply tok_mono; [exact T| |]; lia|lia]|apply below_S; exact BB|].
    unfold grows. cbn. auto using below_drop, incl_drop.
  - (* SSwitch *) intros l n ae cs IH. start H E. bind E. destruct (1 <? _); [discriminate|]. bind E. destruct v0 as [[lc j] a2]. inv E.
    destruct (IH _ _ _ _ _ _ _ _ _ E1 (ex_intro _ m T) eq_refl (below_S _ _ BB)) as (X & Y & Z).
    unfold grows. cbn. auto using below_drop, incl_drop.
  - (* SBreak *) intros l. start H E. fold (brk_target C l) in E. destruct (brk_target C l) as [t|] eqn:B; [|discriminate]. bind E. inv E.
    apply (tok_brk _ _ _ T) in B. unfold grows. cbn. split; [|auto using incl_tl, incl_refl]. intros k [K|K]; [lia|apply BB; exact K].
  - (* SCont *) intros l. start H E. fold (cnt_target C l) in E. destruct (cnt_target C l) as [t|]; [|discriminate]. bind E. inv E. unfold grows. cbn. auto using incl_refl.
  - start H E. destruct (c_nxt C) as [[w [k|]]|]; try discriminate. bind E. inv E. unfold grows. cbn. auto using incl_refl.
  - intros l t. start H E. fold (sw_target C l) in E. destruct (sw_target C l) as [w|]; [|discriminate]. bind E. destruct t.
    + destruct (sw_default w); inv E. unfold grows. cbn. auto using incl_refl.
    + destruct (_ <? _); inv E. unfold grows. cbn. auto using incl_refl.
    + inv E. unfold grows. cbn. auto using incl_refl.
  - start H E. destruct (c_indefer C); [discriminate|]. destruct (_ && _); [discriminate|]. bind E. inv E. unfold grows. cbn. auto using incl_refl, incl_tl.
  - intros r IH. start H E. destruct (c_indefer C); [discriminate|]. bind E. destruct v as [[e o] a2]. destruct (_ && _); [discriminate|]. bind E. bind E. inv E.
    destruct (IH _ _ _ _ _ E0 (ex_intro _ m T) BB) as (X & Y & Z). unfold grows. cbn. rewrite Y. cbn. auto using incl_refl, incl_tl.
  - (* SNil *) intros C a l a' H T BB. cbn [ana_list] in H. bind H. inv H. unfold grows. cbn. auto using incl_refl.
  - intros x IH r IHr C a l a' H T BB. cbn [ana_list] in H. bind H. destruct v as [l1 a1]. bind H. destruct v as [l2 a2]. inv H.
    destruct (IH _ _ _ _ E T BB) as (X & Y & Z). destruct (IHr _ _ _ _ E0 T X) as (X2 & Y2 & Z2).
    split; [exact X2|split; eapply incl_tran; eauto].
  - intros C l w i d a lc j a' H T W BB. cbn [ana_cases] in H. inv H. split; [exact BB|split; apply incl_refl].
  - intros df r IH C l w i d a lc j a' H T W BB. cbn [ana_cases] in H. bind H. cbv zeta in H. bind H. destruct v0 as [[lr jr] a1]. inv H.
    exact (IH _ _ _ _ _ _ _ _ _ E0 T W BB).
  - intros df b IHb r IH C l w i d a lc j a' H [m T] W BB. cbn [ana_cases] in H. bind H. cbv zeta in H. bind H. destruct v0 as [lb a1]. destruct (length _ =? length _); [|discriminate].
    bind H. destruct v0 as [[lr jr] a2]. inv H.
    destruct (IHb _ _ _ _ E0) as (X & Y & Z).
    { exists (max m (sw_mark w)). apply tok_case; [eapply tok_mono; [exact T| |]; lia|exact W|lia]. }
    { exact BB. }
    destruct (IH _ _ _ _ _ _ _ _ _ E1 (ex_intro _ m T) W X) as (X2 & Y2 & Z2).
    split; [exact X2|split; eapply incl_tran; eauto].
  - intros n C a e opt a' H T BB. inv H. auto using incl_refl.
  - intros n C a e opt a' H T BB. inv H. auto using incl_refl.
  - intros n C a e opt a' H T BB. inv H. auto using incl_refl.
  - intros b IH C a e opt a' H T BB. cbn [ana_exp] in H. bind H. bind H. destruct v0 as [l1 a1]. cbv zeta in H. destruct (_ && _); [discriminate|]. inv H.
    destruct (a_rets a1); [destruct (a_jend a1)|]; cbn; auto using incl_refl.
  - intros r IH C a e opt a' H T BB. cbn [ana_exp] in H. bind H. destruct v as [[e1 o1] a1]. destruct (IH _ _ _ _ _ E T BB) as (X & Y & Z).
    destruct (_ || _); [discriminate|]. bind H. destruct (c_inmacro C); [inv H; cbn; auto using incl_tl|]. destruct (c_opt C); inv H. auto.
  - intros n r IH C a e opt a' H T BB. cbn [ana_exp] in H. bind H. destruct v as [[e1 o1] a1]. inv H. exact (IH _ _ _ _ _ E T BB).
Qed.

(** ** The defer chain *)
Lemma dead_chain : forall a a0 l0 l a', (AOk (if a_jend a then (LNop, with_rets (a_rets a) a0) else (l0, a0)) : ares (lst * sc)) = AOk (l, a') ->
  a_chain a0 = a_chain a -> a_chain a' = a_chain a.
Proof. intros a a0 l0 l a' H <-. destruct (a_jend a); inv H; reflexivity. Qed.
Lemma ana_exp_chain : forall C r a1 e o a2, ana_exp C a1 r = AOk (e, o, a2) -> a_chain a2 = a_chain a1.
Proof.
  induction r as [n|n|n|b|r IH|n r IH]; intros a1 e o a2 X; cbn [ana_exp] in X.
  - inv X; reflexivity.
  - inv X; reflexivity.
  - inv X; reflexivity.
  - bind X. bind X. destruct v0 as [l1 a3]. cbv zeta in X. destruct (_ && _); [discriminate|]. inv X. destruct (a_rets a3); [destruct (a_jend a3)|]; reflexivity.
  - bind X. destruct v as [[e1 o1] a3]. destruct (_ || _); [discriminate|]. bind X. apply IH in E. destruct (c_inmacro C); [inv X; exact E|]. destruct (c_opt C); inv X. exact E.
  - bind X. destruct v as [[e1 o1] a3]. inv X. eapply IH; eassumption.
Qed.

Lemma ana_chain : forall x C a l a', ana C a x = AOk (l, a') -> is_defer x = false -> a_chain a' = a_chain a.
Proof.
  Tactic Notation "start2" ident(H) ident(E) := cbn [ana] in H; apply abind_ok in H; destruct H as ([lz az] & E & H); apply (dead_chain _ _ _ _ _ H); clear H.
  intros x C a l a' H D. pose proof (ana_exp_chain C) as EX.
  destruct x; start2 H E.
  - bind E. destruct v as [[e o] a2]. destruct o; [discriminate|]. inv E. apply EX in E0. destruct r; try exact E0. destruct (is_fault r); exact E0.
  - inv E. reflexivity.
  - bind E. bind E. destruct v0 as [l1 a2]. destruct (_ =? _); inv E. reflexivity.
  - discriminate D.
  - destruct (is_defer x); [discriminate|]. bind E. bind E. bind E. destruct v1 as [l1 a2]. destruct (_ =? _); inv E. reflexivity.
  - destruct (_ && _); [|discriminate]. bind E. bind E. bind E. destruct v1 as [l1 a1]. destruct (_ =? _); [|discriminate].
    bind E. destruct v1 as [l2 a2]. destruct (_ =? _); inv E. reflexivity.
  - destruct (is_defer x); [discriminate|]. destruct (is_do && _); [discriminate|]. bind E. bind E. bind E. destruct v1 as [l1 a2]. destruct (_ =? _); inv E. reflexivity.
  - bind E. destruct (1 <? _); [discriminate|]. bind E. destruct v0 as [[lc j] a2]. inv E. reflexivity.
  - fold (brk_target C l0) in E. destruct (brk_target C l0) as [t|]; [|discriminate]. bind E. inv E. reflexivity.
  - fold (cnt_target C l0) in E. destruct (cnt_target C l0) as [t|]; [|discriminate]. bind E. inv E. reflexivity.
  - destruct (c_nxt C) as [[w [k|]]|]; try discriminate. bind E. inv E. reflexivity.
  - fold (sw_target C l0) in E. destruct (sw_target C l0) as [w|]; [|discriminate]. bind E. destruct t.
    + destruct (sw_default w); inv E. reflexivity.
    + destruct (_ <? _); inv E. reflexivity.
    + inv E. reflexivity.
  - destruct (c_indefer C); [discriminate|]. destruct (_ && _); [discriminate|]. bind E. inv E. reflexivity.
  - destruct (c_indefer C); [discriminate|]. bind E. destruct v as [[e o] a2]. destruct (_ && _); [discriminate|]. bind E. bind E. inv E. apply EX in E0. exact E0.
Qed.

Lemma ana_defer_chain : forall k b C a l a', ana C a (SDefer k b) = AOk (l, a') -> exists d, a_chain a' = d :: a_chain a.
Proof.
  intros k b C a l a' H. cbn [ana] in H. bind H. destruct v as [l0 a0]. bind E. bind E. bind E. destruct v1 as [l1 a2]. destruct (_ =? 0); [|discriminate].
  inv E. destruct (a_jend a); inv H; eexists; reflexivity.
Qed.

Lemma ana_list_chain : forall b C a l a' dch outer, ana_list C a b = AOk (l, a') -> a_chain a = dch ++ outer -> length outer = c_start C -> a_chain a' = outer.
Proof.
  induction b as [|x r IH]; intros C a l a' dch outer H CH L; cbn [ana_list] in H; bind H.
  - inv H. cbn. rewrite CH, app_length, L. rewrite Nat.add_sub, skipn_app, skipn_all, Nat.sub_diag. reflexivity.
  - destruct v as [l1 a1]. bind H. destruct v as [l2 a2]. inv H. destruct (is_defer x) eqn:D.
    + destruct x; try discriminate D. destruct (ana_defer_chain _ _ _ _ _ _ E) as [d Y]. apply (IH _ _ _ _ (d :: dch) outer E0); [rewrite Y, CH; reflexivity|exact L].
    + apply ana_chain in E; [|exact D]. apply (IH _ _ _ _ dch outer E0); [rewrite E; exact CH|exact L].
Qed.

(** ** The simulation *)
Section Sim.
Variable orc : oracle.
Variable N : nat.
Notation exec := (FlowSpec.exec orc N).
Notation exec_list := (FlowSpec.exec_list orc N).
Notation case_body := (FlowSpec.case_body orc N).
Notation eval := (FlowSpec.eval orc N).
Notation lexec := (FlowModel.lexec orc N).
Notation lexec_list := (FlowModel.lexec_list orc N).
Notation lcase_body := (FlowModel.lcase_body orc N).
Notation leval := (FlowModel.leval orc N).

(** Unfolding equations. *)
Lemma lexec_cons : forall x r s, lexec_list (LCons x r) s = match lexec x s with (ONorm, s1) => lexec_list r s1 | p => p end.
Proof. reflexivity. Qed.
Lemma lexec_block : forall b s, lexec (LBlock b) s = lexec_list b s.
Proof. reflexivity. Qed.
Lemma exec_cons : forall x r ds s, is_defer x = false ->
  exec_list (SCons x r) ds s = match exec x s with (Norm, s1) => exec_list r ds s1 | (o, s1) => leave_scope ds o s1 end.
Proof. intros x r ds s H; destruct x; try reflexivity; discriminate H. Qed.
Lemma exec_defer : forall k b r ds s, exec_list (SCons (SDefer k b) r) ds s = exec_list r ((k, exec_list b []) :: ds) s.
Proof. reflexivity. Qed.

Definition clean (ch : chain) (m : nat) (succ : bool) (s : st) : lout * st :=
  lexec_list (bodies (filter (wanted succ) (firstn (length ch - m) ch))) s.

Definition jump (C : cx) (o : out) : option (lout * nat) :=
  match o with
  | Brk j => option_map (fun t => (OBrk (t_lev t), t_mark t)) (brk_target C j)
  | Cnt j => option_map (fun t => (OCnt (t_lev t), t_mark t)) (cnt_target C j)
  | NxtPlain => match c_nxt C with Some (w, Some k) => Some (ONxt (sw_lev w) k, sw_mark w) | _ => None end
  | NxtTo j t v =>
      match sw_target C j with
      | None => None
      | Some w =>
          match t with
          | NDefault => match sw_default w with Some k => Some (ONxt (sw_lev w) k, sw_mark w) | None => None end
          | NCase k => if k <? sw_count w then Some (ONxt (sw_lev w) k, sw_mark w) else None
          | NVar _ => Some (ONxtV (sw_lev w) v, sw_mark w)
          end
      end
  | Ret f => if c_indefer C then None else Some (ORet f, 0)
  | _ => None
  end.

Definition fin (C : cx) (ch : chain) (r : out * st) : option (lout * st) :=
  match r with
  | (Norm, s) => Some (ONorm, s)
  | (Stop, s) => Some (OStop, s)
  | (Fuel, s) => Some (OFuel, s)
  | (o, s) => match jump C o with Some (lo, m) => Some (then_jump lo (clean ch m (is_success o) s)) | None => None end
  end.

Definition calm (o : lout) : Prop := match o with ONorm | OStop | OFuel => True | _ => False end.
Definition dgood (d : dfr) : Prop := forall s, calm (fst (lexec_list (dbody d) s)).

Definition under (v : nat) (lo : lout) : Prop :=
  match lo with OBrk k | OCnt k | ONxt k _ | ONxtV k _ => k < v | ORet _ => True | _ => False end.

Lemma jump_under : forall C v m o lo k, tok C v m -> jump C o = Some (lo, k) -> under v lo /\ k <= m.
Proof.
  intros C v m o lo k [A B D] H. destruct o as [|j|j| |j t c|f| | |]; try discriminate H; cbn [jump] in H.
  - destruct (brk_target C j) as [t|] eqn:E; inv H. apply A in E. exact E.
  - destruct (cnt_target C j) as [t|] eqn:E; inv H. apply B in E. exact E.
  - destruct (c_nxt C) as [[w [n|]]|] eqn:E; inv H. apply (D None). unfold sw_target. rewrite E. reflexivity.
  - destruct (sw_target C j) as [w|] eqn:E; [|discriminate]. apply D in E. destruct t as [|n|n].
    + destruct (sw_default w); inv H. exact E.
    + destruct (_ <? _); inv H. exact E.
    + inv H. exact E.
  - destruct (c_indefer C); inv H. cbn. split; [trivial|lia].
Qed.

Lemma lexec_lapp : forall a b s, lexec_list (lapp a b) s = match lexec_list a s with (ONorm, s1) => lexec_list b s1 | r => r end.
Proof.
  induction a as [|x r IH]; intros b s; cbn [lapp]; [reflexivity|]. rewrite !lexec_cons.
  destruct (lexec x s) as [[] s1]; try reflexivity. apply IH.
Qed.
Lemma bodies_app : forall a b, bodies (a ++ b) = lapp (bodies a) (bodies b).
Proof. induction a as [|d r IH]; intros b; cbn; [reflexivity|]. rewrite IH. reflexivity. Qed.

Lemma bodies_calm : forall l s, Forall dgood l -> calm (fst (lexec_list (bodies l) s)).
Proof.
  induction l as [|d r IH]; intros s F; [exact I|]. inv F. cbn [bodies]. rewrite lexec_cons, lexec_block.
  specialize (H1 s). destruct (lexec_list (dbody d) s) as [[] s1]; cbn [fst] in *; try contradiction; try exact I. apply IH. exact H2.
Qed.
Lemma clean_calm : forall ch m b s, Forall dgood ch -> calm (fst (clean ch m b s)).
Proof.
  intros ch m b s F. apply bodies_calm. apply Forall_forall. intros d H. apply filter_In in H. destruct H as [H _].
  rewrite Forall_forall in F. apply F. rewrite <- (firstn_skipn (length ch - m) ch). apply in_or_app. left. exact H.
Qed.

Lemma tj : forall ch m b s lo, Forall dgood ch -> exists s', then_jump lo (clean ch m b s) = (lo, s') \/ then_jump lo (clean ch m b s) = (OStop, s') \/
  then_jump lo (clean ch m b s) = (OFuel, s').
Proof.
  intros ch m b s lo F. pose proof (clean_calm ch m b s F) as H. destruct (clean ch m b s) as [[] s']; cbn in H; try contradiction; exists s'; cbn; auto.
Qed.

Lemma clean_none : forall ch b s, clean ch (length ch) b s = (ONorm, s).
Proof. intros. unfold clean. rewrite Nat.sub_diag. reflexivity. Qed.

Lemma fin_norm : forall C v ch r s', tok C v (length ch) -> Forall dgood ch -> fin C ch r = Some (ONorm, s') -> r = (Norm, s').
Proof.
  intros C v ch [o s] s' T F H.
  assert (J : forall lo m, jump C o = Some (lo, m) -> Some (then_jump lo (clean ch m (is_success o) s)) = Some (ONorm, s') -> False).
  { intros lo m E X. apply (jump_under _ _ _ _ _ _ T) in E. destruct E as [E _]. destruct (tj ch m (is_success o) s lo F) as [s1 Y].
    inv X. destruct Y as [Y|[Y|Y]]; rewrite H1 in Y; inv Y. exact E. }
  destruct o; cbn [fin] in H; try (inv H; reflexivity); exfalso;
    (destruct (jump C _) as [[lo m]|] eqn:E in H; [exact (J _ _ E H)|discriminate]).
Qed.

(** Leaving a scope. *)
Definition drel1 (p : dkind * runs) (d : dfr) : Prop :=
  fst p = dk d /\ forall s, match snd p s with
                            | (Norm, s1) => lexec_list (dbody d) s = (ONorm, s1)
                            | (Stop, s1) => lexec_list (dbody d) s = (OStop, s1)
                            | (Fuel, s1) => lexec_list (dbody d) s = (OFuel, s1)
                            | _ => False
                            end.
Definition drel := Forall2 drel1.

Lemma leave_rel : forall ds dch o s, drel ds dch ->
  exists s', (leave ds o s = (o, s') /\ lexec_list (bodies (filter (wanted (is_success o)) dch)) s = (ONorm, s')) \/
             (leave ds o s = (Stop, s') /\ lexec_list (bodies (filter (wanted (is_success o)) dch)) s = (OStop, s')) \/
             (leave ds o s = (Fuel, s') /\ lexec_list (bodies (filter (wanted (is_success o)) dch)) s = (OFuel, s')).
Proof.
  intros ds dch o s H. revert s. induction H as [|[k d] q ds dch [K R] H IH]; intros s.
  - exists s. left. auto.
  - cbn [fst snd] in *. subst k. cbn [leave filter]. change (selected (is_success o) (dk q)) with (wanted (is_success o) q).
    destruct (wanted (is_success o) q); [|apply IH]. cbn [bodies]. rewrite lexec_cons, lexec_block.
    specialize (R s). destruct (d s) as [[] s1]; try contradiction; rewrite R; [apply IH|exists s1; auto|exists s1; auto].
Qed.

Lemma drel_good : forall ds dch, drel ds dch -> Forall dgood dch.
Proof.
  intros ds dch H. induction H as [|[k d] q ds dch [K R] H IH]; constructor; [|exact IH].
  intros s. specialize (R s). cbn [snd] in R. destruct (d s) as [[] s1]; try contradiction; rewrite R; exact I.
Qed.

Lemma clean_app : forall dch outer m b s, m <= length outer ->
  clean (dch ++ outer) m b s = match lexec_list (bodies (filter (wanted b) dch)) s with (ONorm, s1) => clean outer m b s1 | r => r end.
Proof.
  intros dch outer m b s M. unfold clean. rewrite app_length, firstn_app.
  replace (length dch + length outer - m - length dch) with (length outer - m) by lia.
  rewrite (firstn_all2 dch) by lia. rewrite filter_app, bodies_app, lexec_lapp. reflexivity.
Qed.

Lemma fin_leave : forall C v ds dch outer o s lr, tok C v (length outer) -> drel ds dch -> o <> Norm ->
  fin C (dch ++ outer) (o, s) = Some lr -> fin C outer (leave_scope ds o s) = Some lr.
Proof.
  intros C v ds dch outer o s lr T D NN H.
  assert (K : forall lo m, jump C o = Some (lo, m) -> fin C outer (leave ds o s) = Some (then_jump lo (clean (dch ++ outer) m (is_success o) s))).
  { intros lo m E. pose proof (jump_under _ _ _ _ _ _ T E) as [_ M]. rewrite clean_app by exact M.
    destruct (leave_rel ds dch o s D) as [s' [[L X]|[[L X]|[L X]]]]; rewrite L, X; try reflexivity.
    destruct o; try discriminate E; cbn [fin]; rewrite E; reflexivity. }
  destruct o; try contradiction; try exact H; cbn [fin leave_scope] in *;
    (destruct (jump C _) as [[lo m]|] eqn:E in H; [rewrite (K _ _ E); exact H|discriminate]).
Qed.

(** What leaving a scope does to the way out. *)
Lemma leave_out : forall ds dch o s, drel ds dch -> exists s', leave_scope ds o s = (o, s') \/ leave_scope ds o s = (Stop, s') \/ leave_scope ds o s = (Fuel, s').
Proof.
  intros ds dch o s D. destruct (leave_rel ds dch o s D) as [s' L].
  destruct o; try (exists s; left; reflexivity); exists s'; cbn [leave_scope]; destruct L as [[L _]|[[L _]|[L _]]]; auto.
Qed.

(** ** What else is known about the way a statement ends *)
Definition retsok (rets : list reti) (f : bool) : Prop := exists r, In r rets /\ (f = true -> rt_opt r = true).
Definition side (C : cx) (jend : bool) (brks : list nat) (rets : list reti) (o : out) : Prop :=
  match o with
  | Norm => jend = false
  | Brk j => forall t, brk_target C j = Some t -> In (t_lev t) brks
  | Ret f => if c_inmacro C then retsok rets f else f = true -> c_opt C = true
  | _ => True
  end.

Lemma side_mono : forall C j b r j' b' r' o, side C j b r o -> (j' = true -> j = true) -> incl b b' -> incl r r' -> side C j' b' r' o.
Proof.
  intros C j b r j' b' r' o H J B R. destruct o; cbn [side] in *; try exact I.
  - destruct j'; [|reflexivity]. rewrite J in H by reflexivity. discriminate H.
  - intros t E. apply B, H, E.
  - destruct (c_inmacro C); [|exact H]. destruct H as (x & X & Y). exists x. auto.
Qed.

Lemma side_mono2 : forall C j b r j' b' r' o, o <> Norm -> side C j b r o -> incl b b' -> incl r r' -> side C j' b' r' o.
Proof.
  intros C j b r j' b' r' o NN H B R. destruct o; cbn [side] in *; try exact I; try contradiction.
  - intros t E. apply B, H, E.
  - destruct (c_inmacro C); [|exact H]. destruct H as (x & X & Y). exists x. auto.
Qed.

(** Rounds. *)
Lemma iter_rel : forall {A B : Type} (R : A -> B -> Prop) C ch (f : A -> st -> (A + out) * st) (g : B -> st -> (B + lout) * st),
  (forall a b s, R a b -> match f a s, g b s with
                          | (inl a', s1), (inl b', s2) => R a' b' /\ s1 = s2
                          | (inr o, s1), (inr o', s2) => fin C ch (o, s1) = Some (o', s2)
                          | _, _ => False
                          end) ->
  forall n a b s, R a b -> fin C ch (iter Fuel n f a s) = Some (iter OFuel n g b s).
Proof.
  intros A B R C ch f g H n. induction n as [|n IH]; intros a b s X; cbn [iter]; [reflexivity|].
  specialize (H a b s X). destruct (f a s) as [[a'|o] s1]; destruct (g b s) as [[b'|o'] s2]; try contradiction.
  - destruct H as [H ->]. apply IH. exact H.
  - exact H.
Qed.
Lemma iter_inv : forall {A : Type} (I : A -> Prop) (K : out -> Prop) (f : A -> st -> (A + out) * st), K Fuel ->
  (forall a s, I a -> match f a s with (inl a', _) => I a' | (inr o, _) => K o end) ->
  forall n a s, I a -> K (fst (iter Fuel n f a s)).
Proof.
  intros A I K f KF H n. induction n as [|n IH]; intros a s X; cbn [iter]; [exact KF|].
  specialize (H a s X). destruct (f a s) as [[a'|o] s1]; [apply IH; exact H|exact H].
Qed.

(** Jumps that are not for the statement go through it. *)
Definition jumps (o : out) : bool := match o with Norm | Stop | Fuel | Bad => false | _ => true end.
Lemma fin_jump : forall C ch o s, jumps o = true ->
  fin C ch (o, s) = match jump C o with Some (lo, m) => Some (then_jump lo (clean ch m (is_success o) s)) | None => None end.
Proof. intros C ch [] s H; try discriminate H; reflexivity. Qed.

Lemma fin_pass : forall C C' v ch o s lr, jumps o = true -> tok C v (length ch) -> Forall dgood ch ->
  (forall x, jump C' o = Some x -> jump C o = Some x) -> fin C' ch (o, s) = Some lr ->
  fin C ch (o, s) = Some lr /\ (under v (fst lr) \/ fst lr = OStop \/ fst lr = OFuel).
Proof.
  intros C C' v ch o s lr J T F M H. rewrite fin_jump in * by exact J. destruct (jump C' o) as [[lo m]|] eqn:E; [|discriminate].
  rewrite (M _ eq_refl). split; [exact H|]. inv H. apply M in E || idtac. pose proof (M _ eq_refl) as E2. apply (jump_under _ _ _ _ _ _ T) in E2. destruct E2 as [U _].
  destruct (tj ch m (is_success o) s lo F) as [s1 [Y|[Y|Y]]]; rewrite Y; cbn; auto.
Qed.

Lemma if_jump : forall C l d k o x, match o with Brk j => for_me_if l j = false | _ => True end -> jump (if_cx C l d k) o = Some x -> jump C o = Some x.
Proof.
  intros C l d k o x B H. destruct o as [|j|j| |j t c|f| | |]; try discriminate H; cbn [jump] in *.
  - rewrite if_brk, B in H. exact H.
  - rewrite if_cnt in H. destruct j as [n|]; [destruct (same_lbl l n); [discriminate|]|]; exact H.
  - exact H.
  - rewrite if_sw in H. destruct j as [n|]; [destruct (same_lbl l n); [discriminate|]|]; exact H.
  - exact H.
Qed.
Lemma for_jump : forall C l d k o x, match o with Brk j | Cnt j => for_me l j = false | _ => True end -> jump (for_cx C l d k) o = Some x -> jump C o = Some x.
Proof.
  intros C l d k o x B H. destruct o as [|j|j| |j t c|f| | |]; try discriminate H; cbn [jump] in *.
  - rewrite for_brk, B in H. exact H.
  - rewrite for_cnt, B in H. exact H.
  - exact H.
  - rewrite for_sw in H. destruct j as [n|]; [destruct (same_lbl l n); [discriminate|]|]; exact H.
  - exact H.
Qed.
Lemma case_jump : forall C l w nx d o x, match o with Brk j | NxtTo j _ _ => for_me l j = false | NxtPlain => False | _ => True end ->
  jump (case_cx C l w nx d) o = Some x -> jump C o = Some x.
Proof.
  intros C l w nx d o x B H. destruct o as [|j|j| |j t c|f| | |]; try discriminate H; cbn [jump] in *.
  - rewrite case_brk, B in H. exact H.
  - rewrite case_cnt in H. destruct j as [n|]; [destruct (same_lbl l n); [discriminate|]|]; exact H.
  - contradiction.
  - rewrite case_sw, B in H. exact H.
  - exact H.
Qed.

Lemma fin_if : forall C l d ch r lr, tok C (c_lev C) (length ch) -> Forall dgood ch -> fin (if_cx C l d (length ch)) ch r = Some lr ->
  fin C ch (match r with (Brk j, s) => if for_me_if l j then (Norm, s) else (Brk j, s) | p => p end) =
  Some (match lr with (OBrk k, s) => if k =? c_lev C then (ONorm, s) else (OBrk k, s) | p => p end).
Proof.
  intros C l d ch [o s] lr T F H.
  assert (K : forall o, fin (if_cx C l d (length ch)) ch (o, s) = Some lr -> jumps o = true -> match o with Brk j => for_me_if l j = false | _ => True end ->
    fin C ch (o, s) = Some (match lr with (OBrk k, s) => if k =? c_lev C then (ONorm, s) else (OBrk k, s) | p => p end)).
  { clear o H. intros o H J B. destruct (fin_pass C _ (c_lev C) ch o s lr J T F (fun x => if_jump C l d (length ch) o x B) H) as [-> U].
    destruct lr as [[] s1]; try reflexivity. cbn in U. destruct (Nat.eqb_spec lev (c_lev C)); [|reflexivity]. destruct U as [U|[U|U]]; [lia|discriminate|discriminate]. }
  destruct o as [|j|j| |j t c|f| | |]; try (apply (K _ H eq_refl I)); try (inv H; reflexivity).
  destruct (for_me_if l j) eqn:B; [|apply (K _ H eq_refl B)].
  cbn [fin jump] in H. rewrite if_brk, B in H. cbn [option_map t_lev t_mark] in H. rewrite clean_none in H. cbn [then_jump] in H. inv H.
  rewrite Nat.eqb_refl. reflexivity.
Qed.

(** One round of a loop. *)
Lemma fin_body : forall C l d ch incr r lr, tok C (c_lev C) (length ch) -> Forall dgood ch -> fin (for_cx C l d (length ch)) ch r = Some lr ->
  let next s2 := match incr with Some n => emit (EvDo n) s2 | None => s2 end in
  match (match r with
         | (Norm, s2) => (inl false, next s2)
         | (Cnt j, s2) => if for_me l j then (inl false, next s2) else (inr (Cnt j), s2)
         | (Brk j, s2) => if for_me l j then (inr Norm, s2) else (inr (Brk j), s2)
         | (o, s2) => (inr o, s2)
         end : (bool + out) * st) with
  | (inl b, s1) => b = false /\ forall A (back : A + lout), after_body (c_lev C) incr back lr = (back, s1)
  | (inr o, s1) => exists lr', fin C ch (o, s1) = Some lr' /\ forall A (back : A + lout), after_body (c_lev C) incr back lr = (inr (fst lr'), snd lr')
  end.
Proof.
  intros C l d ch incr [o s] lr T F H next.
  assert (K : forall o, fin (for_cx C l d (length ch)) ch (o, s) = Some lr -> jumps o = true -> match o with Brk j | Cnt j => for_me l j = false | _ => True end ->
    exists lr', fin C ch (o, s) = Some lr' /\ forall A (back : A + lout), after_body (c_lev C) incr back lr = (inr (fst lr'), snd lr')).
  { clear o H. intros o H J B. destruct (fin_pass C _ (c_lev C) ch o s lr J T F (fun x => for_jump C l d (length ch) o x B) H) as [-> U].
    exists lr. split; [reflexivity|]. intros A back. destruct lr as [[] s1]; try reflexivity; cbn in U; cbn [after_body].
    - destruct U as [U|[U|U]]; [contradiction|discriminate|discriminate].
    - destruct (Nat.eqb_spec lev (c_lev C)); [|reflexivity]. destruct U as [U|[U|U]]; [lia|discriminate|discriminate].
    - destruct (Nat.eqb_spec lev (c_lev C)); [|reflexivity]. destruct U as [U|[U|U]]; [lia|discriminate|discriminate]. }
  destruct o as [|j|j| |j t c|f| | |]; try (apply (K _ H eq_refl I)).
  - inv H. split; reflexivity.
  - destruct (for_me l j) eqn:B; [|apply (K _ H eq_refl B)]. exists (ONorm, s). split; [reflexivity|].
    cbn [fin jump] in H. rewrite for_brk, B in H. cbn [option_map t_lev t_mark] in H. rewrite clean_none in H. cbn [then_jump] in H. inv H.
    intros A back. cbn [after_body]. rewrite Nat.eqb_refl. reflexivity.
  - destruct (for_me l j) eqn:B; [|apply (K _ H eq_refl B)].
    cbn [fin jump] in H. rewrite for_cnt, B in H. cbn [option_map t_lev t_mark] in H. rewrite clean_none in H. cbn [then_jump] in H. inv H.
    split; [reflexivity|]. intros A back. cbn [after_body]. rewrite Nat.eqb_refl. reflexivity.
  - inv H. exists (OStop, s). split; reflexivity.
  - inv H. exists (OFuel, s). split; reflexivity.
  - discriminate H.
Qed.

Lemma some_pair : forall (lr : lout * st) o s, Some lr = Some (o, s) -> fst lr = o /\ snd lr = s.
Proof. intros [x y] o s H. inv H. auto. Qed.

Lemma fin_loop : forall C l d ch is_do c incr body lbody nonempty,
  2 <= N -> tok C (c_lev C) (length ch) -> Forall dgood ch ->
  (forall s, fin (for_cx C l d (length ch)) ch (body s) = Some (lbody s)) ->
  (nonempty = false -> forall s, lbody s = (ONorm, s)) ->
  (match c with
   | Some (CConst false) => is_do || (negb nonempty && match incr with None => true | Some _ => false end)
   | Some (CUnk _) => true
   | _ => negb (negb nonempty && match incr with None => true | Some _ => false end)
   end = true) ->
  forall s, fin C ch (iter Fuel N (loop_round orc l c incr body) is_do s) =
    Some (lloop orc N (c_lev C) (if is_do then negb (cond_infinite c) else false) (cond_left c) incr nonempty lbody s).
Proof.
  intros C l d ch is_do c incr body lbody nonempty N2 T F B E O s.
  assert (B' : forall s, (if nonempty then lbody else fun s0 => (ONorm, s0)) s = lbody s) by (intros s0; destruct nonempty; [reflexivity|symmetry; apply E; reflexivity]).
  assert (X : forall s0, fin (for_cx C l d (length ch)) ch (body s0) = Some ((if nonempty then lbody else fun s0 => (ONorm, s0)) s0)) by (intros; rewrite B'; apply B).
  unfold lloop. set (lb := if nonempty then lbody else fun s0 => (ONorm, s0)) in *. clearbody lb.
  assert (INF : (c = None \/ c = Some (CConst true)) -> forall g : bool -> st -> bool * st,
     fin C ch (iter Fuel N (loop_round orc l c incr body) is_do s) = Some (iter OFuel N (fun (_ : unit) s => after_body (c_lev C) incr (inl tt) (lb s)) tt s)).
  { intros CC _. apply (iter_rel (fun _ _ => True)); [|exact I]. intros a b s0 _. unfold loop_round.
    replace (if a then (true, s0) else match c with Some c0 => eval_cond orc c0 s0 | None => (true, s0) end) with (true, s0)
      by (destruct a; [reflexivity|]; destruct CC as [-> | ->]; reflexivity).
    pose proof (fin_body C l d ch incr _ _ T F (X s0)) as Y. cbv zeta in Y |- *.
    match type of Y with match ?m with _ => _ end => destruct m as [[b'|o] s1] end.
    - destruct Y as [_ Y]. rewrite (Y unit (inl tt)). auto.
    - destruct Y as (lr & Y1 & Y2). rewrite (Y2 unit (inl tt)). rewrite Y1. destruct lr; reflexivity. }
  destruct c as [[[]|n]|].
  - (* constant true *) cbn [cond_left loop_type_for_cond cond_infinite negb]. replace (if is_do then false else false) with false by (destruct is_do; reflexivity).
    cbn [loop_type_for_cond]. replace (nonempty || match incr with Some _ => true | None => false end) with true
      by (destruct nonempty, incr; cbn in O |- *; try reflexivity; discriminate O).
    apply INF; [auto|exact (fun _ s => (true, s))].
  - (* constant false *) cbn [cond_left loop_type_for_cond].
    destruct N as [|[|n]] eqn:EN; [lia|lia|]. destruct is_do.
    + cbn [iter]. unfold loop_round at 1. pose proof (fin_body C l d ch incr _ _ T F (X s)) as Y. cbv zeta in Y |- *.
      match type of Y with match ?m with _ => _ end => destruct m as [[b'|o] s1] end.
      * destruct Y as [-> Y]. cbn [loop_round eval_cond fin].
        destruct (nonempty || _) eqn:SM.
        -- rewrite (Y unit (inr ONorm)). reflexivity.
        -- specialize (Y unit (inr ONorm)). rewrite B' in Y. apply orb_false_elim in SM. destruct SM as [-> SM]. rewrite E in Y by reflexivity.
           destruct incr; [discriminate SM|]. cbn [after_body do_incr] in Y. inv Y. reflexivity.
      * destruct Y as (lr & Y1 & Y2). specialize (Y2 unit (inr ONorm)). destruct (nonempty || _) eqn:SM.
        -- rewrite Y2, Y1. destruct lr; reflexivity.
        -- rewrite B' in Y2. apply orb_false_elim in SM. destruct SM as [-> SM]. rewrite E in Y2 by reflexivity.
           cbn [after_body] in Y2. inv Y2. rewrite Y1. destruct incr; [discriminate SM|]. destruct lr as [lo s2]. cbn in *. subst. reflexivity.
    + cbn [orb] in O. apply andb_true_iff in O. destruct O as [O1 O2]. destruct nonempty; [discriminate|]. destruct incr; [discriminate|]. reflexivity.
  - (* decided at run time *) cbn [cond_left loop_type_for_cond cond_infinite negb]. replace (if is_do then true else false) with is_do by (destruct is_do; reflexivity).
    apply (iter_rel eq); [|reflexivity]. intros a b s0 <-. unfold loop_round.
    change (lcond orc (CUnk n) s0) with (eval_cond orc (CUnk n) s0).
    destruct (if a then (true, s0) else eval_cond orc (CUnk n) s0) as [[] s2]; [|reflexivity].
    pose proof (fin_body C l d ch incr _ _ T F (X s2)) as Y. cbv zeta in Y |- *.
    match type of Y with match ?m with _ => _ end => destruct m as [[b'|o] s1] end.
    + destruct Y as [-> Y]. rewrite (Y bool (inl false)). auto.
    + destruct Y as (lr & Y1 & Y2). rewrite (Y2 bool (inl false)). rewrite Y1. destruct lr; reflexivity.
  - (* no condition *) cbn [cond_left loop_type_for_cond cond_infinite negb]. replace (if is_do then false else false) with false by (destruct is_do; reflexivity).
    cbn [loop_type_for_cond]. replace (nonempty || match incr with Some _ => true | None => false end) with true
      by (destruct nonempty, incr; cbn in O |- *; try reflexivity; discriminate O).
    apply INF; [auto|exact (fun _ s => (true, s))].
Qed.

Lemma mem_in : forall n l, mem n l = true <-> In n l.
Proof.
  intros n l. unfold mem. rewrite existsb_exists. split.
  - intros (x & X & E). apply Nat.eqb_eq in E. subst. exact X.
  - intros H. exists n. rewrite Nat.eqb_refl. auto.
Qed.
Lemma in_drop : forall n v l, In n l -> n <> v -> In n (drop v l).
Proof. intros n v l H D. unfold drop. apply filter_In. split; [exact H|]. apply negb_true_iff, Nat.eqb_neq. exact D. Qed.

(** A statement that catches its own breaks. *)
Lemma side_for : forall C l d m je brks rets o, tok C (c_lev C) m -> side (for_cx C l d m) je brks rets o -> o <> Norm ->
  match o with Brk j => for_me l j = false | _ => True end -> forall j', side C j' (drop (c_lev C) brks) rets o.
Proof.
  intros C l d m je brks rets o T H NN B j'. destruct o; cbn [side] in *; try contradiction; try exact I.
  - intros t E. pose proof (tok_brk _ _ _ T _ _ E) as [U _]. apply in_drop; [|lia]. apply H. rewrite for_brk, B. exact E.
  - exact H.
Qed.
Lemma side_if : forall C l d m je brks rets o, tok C (c_lev C) m -> side (if_cx C l d m) je brks rets o -> o <> Norm ->
  match o with Brk j => for_me_if l j = false | _ => True end -> forall j', side C j' (drop (c_lev C) brks) rets o.
Proof.
  intros C l d m je brks rets o T H NN B j'. destruct o; cbn [side] in *; try contradiction; try exact I.
  - intros t E. pose proof (tok_brk _ _ _ T _ _ E) as [U _]. apply in_drop; [|lia]. apply H. rewrite if_brk, B. exact E.
  - exact H.
Qed.
Lemma side_case : forall C l w nx d m je brks rets o, tok C (c_lev C) m -> side (case_cx C l w nx d) je brks rets o -> o <> Norm ->
  match o with Brk j => for_me l j = false | _ => True end -> forall j', side C j' (drop (c_lev C) brks) rets o.
Proof.
  intros C l w nx d m je brks rets o T H NN B j'. destruct o; cbn [side] in *; try contradiction; try exact I.
  - intros t E. pose proof (tok_brk _ _ _ T _ _ E) as [U _]. apply in_drop; [|lia]. apply H. rewrite case_brk, B. exact E.
  - exact H.
Qed.

Lemma side_loop : forall C l d m c incr body je brks rets, tok C (c_lev C) m -> (forall s, side (for_cx C l d m) je brks rets (fst (body s))) ->
  forall n a s, side C (cond_infinite c && negb (mem (c_lev C) brks)) (drop (c_lev C) brks) rets (fst (iter Fuel n (loop_round orc l c incr body) a s)).
Proof.
  intros C l d m c incr body je brks rets T B n a s.
  refine (iter_inv (fun _ => True) (side C _ _ _) _ I _ n a s I). clear a s. intros a s _. unfold loop_round.
  destruct (if a then (true, s) else match c with Some c0 => eval_cond orc c0 s | None => (true, s) end) as [go s1] eqn:G. destruct go.
  - specialize (B s1). destruct (body s1) as [o s2]. cbn [fst] in B.
    destruct o; try exact I; try (eapply side_for; [exact T|exact B|discriminate|exact I]).
    + destruct (for_me l l0) eqn:M.
      * cbn [side] in B |- *. specialize (B _ ltac:(rewrite for_brk, M; reflexivity)). cbn [t_lev] in B. apply mem_in in B. rewrite B, andb_false_r. reflexivity.
      * eapply side_for; [exact T|exact B|discriminate|exact M].
    + destruct (for_me l l0); exact I.
  - cbn [side]. destruct a; [discriminate G|]. destruct c as [[[]|k]|]; cbn in G; try discriminate G; reflexivity.
Qed.

(** One round of a switch. *)
Definition snext (i n : nat) : option nat := if S i =? n then None else Some (S i).

Lemma fin_case : forall C l w d ch cs lc ae i r lr,
  tok C (c_lev C) (length ch) -> Forall dgood ch ->
  w = Sw (c_lev C) (length ch) (num_cases cs) (default_idx cs) -> i < num_cases cs ->
  (forall v, dispatch lc ae v = choose cs ae v) ->
  fin (case_cx C l w (snext i (num_cases cs)) d) ch r = Some lr ->
  match (match r with
         | (Brk j, s1) => if for_me l j then (inr Norm, s1) else (inr (Brk j), s1)
         | (NxtPlain, s1) => if i + 1 <? num_cases cs then (inl (i + 1), s1) else (inr Bad, s1)
         | (NxtTo j t k, s1) =>
             if for_me l j then
               match t with
               | NDefault => match default_idx cs with Some d => (inl d, s1) | None => (inr Bad, s1) end
               | NCase c => if c <? num_cases cs then (inl c, s1) else (inr Bad, s1)
               | NVar _ => match choose cs ae k with Some c => (inl c, s1) | None => (inr Norm, s1) end
               end
             else (inr (NxtTo j t k), s1)
         | (o, s1) => (inr o, s1)
         end : (nat + out) * st),
        (match lr with
         | (OBrk k, s1) => if k =? c_lev C then (inr ONorm, s1) else (inr (OBrk k), s1)
         | (ONxt k c, s1) => if k =? c_lev C then (inl c, s1) else (inr (ONxt k c), s1)
         | (ONxtV k v, s1) =>
             if k =? c_lev C then match dispatch lc ae v with Some c => (inl c, s1) | None => (inr ONorm, s1) end
             else (inr (ONxtV k v), s1)
         | (o, s1) => (inr o, s1)
         end : (nat + lout) * st) with
  | (inl a, s1), (inl b, s2) => a = b /\ s1 = s2
  | (inr o, s1), (inr o', s2) => fin C ch (o, s1) = Some (o', s2)
  | _, _ => False
  end.
Proof.
  intros C l w d ch cs lc ae i [o s] lr T F W II DI H.
  assert (K : forall o, fin (case_cx C l w (snext i (num_cases cs)) d) ch (o, s) = Some lr -> jumps o = true ->
      match o with Brk j | NxtTo j _ _ => for_me l j = false | NxtPlain => False | _ => True end ->
      match (match lr with
         | (OBrk k, s1) => if k =? c_lev C then (inr ONorm, s1) else (inr (OBrk k), s1)
         | (ONxt k c, s1) => if k =? c_lev C then (inl c, s1) else (inr (ONxt k c), s1)
         | (ONxtV k v, s1) =>
             if k =? c_lev C then match dispatch lc ae v with Some c => (inl c, s1) | None => (inr ONorm, s1) end
             else (inr (ONxtV k v), s1)
         | (o, s1) => (inr o, s1)
         end : (nat + lout) * st) with (inr o', s2) => fin C ch (o, s) = Some (o', s2) | _ => False end).
  { clear o H. intros o H J B. destruct (fin_pass C _ (c_lev C) ch o s lr J T F (fun x => case_jump C l w _ d o x B) H) as [-> U].
    destruct lr as [[] s1]; try reflexivity; cbn in U; (destruct (Nat.eqb_spec lev (c_lev C)); [|reflexivity]; exfalso; destruct U as [U|[U|U]]; [lia|discriminate|discriminate]). }
  pose proof (clean_none ch true s) as CN.
  destruct o as [|j|j| |j t c|f| | |]; try (apply (K _ H eq_refl I)); try (inv H; reflexivity).
  - destruct (for_me l j) eqn:B; [|apply (K _ H eq_refl B)]. subst w.
    cbn [fin jump is_success] in H. rewrite case_brk, B in H. cbn [option_map t_lev t_mark sw_lev sw_mark] in H. rewrite CN in H. cbn [then_jump] in H. inv H.
    rewrite Nat.eqb_refl. reflexivity.
  - subst w. cbn [fin jump is_success case_cx c_nxt] in H. unfold snext in H. destruct (Nat.eqb_spec (S i) (num_cases cs)); [discriminate|].
    cbn [sw_lev sw_mark] in H. rewrite CN in H. cbn [then_jump] in H. inv H. rewrite Nat.eqb_refl.
    destruct (Nat.ltb_spec (i + 1) (num_cases cs)); [|lia]. split; [lia|reflexivity].
  - destruct (for_me l j) eqn:B; [|apply (K _ H eq_refl B)]. subst w.
    cbn [fin jump is_success] in H. rewrite case_sw, B in H. cbn [sw_lev sw_mark sw_default sw_count] in H. destruct t as [|n|n].
    + destruct (default_idx cs); [|discriminate]. rewrite CN in H. cbn [then_jump] in H. inv H. rewrite Nat.eqb_refl. auto.
    + destruct (n <? num_cases cs); [|discriminate]. rewrite CN in H. cbn [then_jump] in H. inv H. rewrite Nat.eqb_refl. auto.
    + rewrite CN in H. cbn [then_jump] in H. inv H. rewrite Nat.eqb_refl, DI. destruct (choose cs ae c); [auto|reflexivity].
Qed.

Lemma default_lt : forall cs d, default_idx cs = Some d -> d < num_cases cs.
Proof.
  induction cs as [|[] r IH|[] b r IH]; intros d H; cbn in H |- *; try discriminate H; try (inv H; lia);
    (destruct (default_idx r) as [x|]; inv H; specialize (IH x eq_refl); lia).
Qed.
Lemma choose_lt : forall cs ae k i, choose cs ae k = Some i -> i < num_cases cs.
Proof.
  intros cs ae k i H. unfold choose in H. destruct (default_idx cs) as [d|] eqn:D.
  - apply default_lt in D. inv H. destruct (Nat.ltb_spec k (num_cases cs)); lia.
  - destruct ae.
    + destruct (Nat.eqb_spec (num_cases cs) 0); [discriminate|]. assert (k mod num_cases cs < num_cases cs) by (apply Nat.mod_upper_bound; assumption). inv H. assumption.
    + destruct (Nat.ltb_spec k (num_cases cs)); inv H. assumption.
Qed.
Lemma choose_some : forall cs ae k, match default_idx cs with Some _ => true | None => ae && negb (num_cases cs =? 0) end = true -> choose cs ae k <> None.
Proof.
  intros cs ae k H. unfold choose. destruct (default_idx cs); [discriminate|]. apply andb_true_iff in H. destruct H as [-> H].
  destruct (num_cases cs =? 0); [discriminate H|discriminate].
Qed.

(** The lowered cases keep the order and the default. *)
Lemma ana_cases_shape : forall cs C l w i d a lc j a', ana_cases C l w i d a cs = AOk (lc, j, a') ->
  lnum_cases lc = num_cases cs /\
  (defaults cs <= 1 -> forall k f, ldefault lc k f = match default_idx cs with Some d => Some (k + d) | None => f end).
Proof.
  assert (Z : forall cs k f C l w i d a lc j a', ana_cases C l w i d a cs = AOk (lc, j, a') -> defaults cs = 0 -> ldefault lc k f = f).
  { induction cs as [|df r IH|df b r IH]; intros k f C l w i d a lc j a' H D; cbn [ana_cases defaults] in *.
    - inv H. reflexivity.
    - bind H. cbv zeta in H. bind H. destruct v0 as [[lr jr] a1]. inv H. destruct df; [lia|]. cbn [ldefault]. eapply IH; [exact E0|lia].
    - bind H. cbv zeta in H. bind H. destruct v0 as [lb a1]. destruct (length _ =? length _); [|discriminate]. bind H. destruct v0 as [[lr jr] a2]. inv H.
      destruct df; [lia|]. cbn [ldefault]. eapply IH; [exact E1|lia]. }
  induction cs as [|df r IH|df b r IH]; intros C l w i d a lc j a' H; cbn [ana_cases] in H.
  - inv H. split; [reflexivity|]. reflexivity.
  - bind H. cbv zeta in H. bind H. destruct v0 as [[lr jr] a1]. inv H. destruct (IH _ _ _ _ _ _ _ _ _ E0) as [X Y]. split; [cbn; lia|].
    intros D k f. cbn [ldefault defaults default_idx] in *. destruct df.
    + rewrite (Z _ _ _ _ _ _ _ _ _ _ _ _ E0) by lia. rewrite Nat.add_0_r. reflexivity.
    + rewrite Y by lia. destruct (default_idx r) as [x|]; cbn [option_map]; [|reflexivity]. f_equal. lia.
  - bind H. cbv zeta in H. bind H. destruct v0 as [lb a1]. destruct (length _ =? length _); [|discriminate]. bind H. destruct v0 as [[lr jr] a2]. inv H.
    destruct (IH _ _ _ _ _ _ _ _ _ E1) as [X Y]. split; [cbn; lia|].
    intros D k f. cbn [ldefault defaults default_idx] in *. destruct df.
    + rewrite (Z _ _ _ _ _ _ _ _ _ _ _ _ E1) by lia. rewrite Nat.add_0_r. reflexivity.
    + rewrite Y by lia. destruct (default_idx r) as [x|]; cbn [option_map]; [|reflexivity]. f_equal. lia.
Qed.

Lemma case_body_lt : forall cs k i b, case_body cs k = Some (i, b) -> i < num_cases cs.
Proof.
  induction cs as [|df r IH|df b0 r IH]; intros k i b H.
  - discriminate H.
  - change (case_body (KEmpty df r) k) with (match case_body r (pred k) with Some (j, b) => Some (S j, b) | None => None end) in H.
    destruct (case_body r (pred k)) as [[j b1]|] eqn:E; [|discriminate]. inv H. apply IH in E. cbn. lia.
  - destruct k as [|k].
    + inv H. cbn. lia.
    + change (case_body (KBody df b0 r) (S k)) with (match case_body r k with Some (j, b) => Some (S j, b) | None => None end) in H.
      destruct (case_body r k) as [[j b1]|] eqn:E; [|discriminate]. inv H. apply IH in E. cbn. lia.
Qed.

Lemma side_switch : forall C l w m cs ae j brks rets, tok C (c_lev C) m -> sw_lev w = c_lev C ->
  (forall k, k < num_cases cs -> j = true -> case_body cs k <> None) ->
  (forall k i b, case_body cs k = Some (i, b) -> exists d nx, forall s, side (case_cx C l w nx d) j brks rets (fst (b s))) ->
  let je := (match default_idx cs with Some _ => true | None => ae && negb (num_cases cs =? 0) end && j) && negb (mem (c_lev C) brks) in
  forall n i s, i < num_cases cs -> side C je (drop (c_lev C) brks) rets (fst (iter Fuel n (switch_round l cs ae (fun i => case_body cs i)) i s)).
Proof.
  intros C l w m cs ae j brks rets T W NN B je n i s II.
  refine (iter_inv (fun i => i < num_cases cs) (side C _ _ _) _ I _ n i s II). clear i s II. intros i s II. unfold switch_round.
  destruct (case_body cs i) as [[i' b]|] eqn:E.
  - destruct (B _ _ _ E) as (d & nx & BB). specialize (BB s). destruct (b s) as [o s1]. cbn [fst] in BB.
    destruct o; try exact I; try (eapply side_case; [exact T|exact BB|discriminate|exact I]).
    + cbn [side] in BB |- *. unfold je. rewrite BB, andb_false_r. reflexivity.
    + destruct (for_me l l0) eqn:M; [|eapply side_case; [exact T|exact BB|discriminate|exact M]].
      cbn [side] in BB |- *. specialize (BB _ ltac:(rewrite case_brk, M; reflexivity)). cbn [t_lev] in BB. rewrite W in BB. apply mem_in in BB.
      unfold je. rewrite BB, andb_false_r. reflexivity.
    + destruct (Nat.ltb_spec (i' + 1) (num_cases cs)); [assumption|exact I].
    + destruct (for_me l l0); [|exact I]. destruct t as [|k|k].
      * destruct (default_idx cs) eqn:D; [|exact I]. apply default_lt. exact D.
      * destruct (Nat.ltb_spec k (num_cases cs)); [assumption|exact I].
      * destruct (choose cs ae chosen) eqn:CH; [eapply choose_lt; exact CH|]. cbn [side].
        unfold je. destruct (match default_idx cs with Some _ => true | None => _ end) eqn:EX; [|reflexivity]. exfalso. exact (choose_some _ _ _ EX CH).
  - cbn [side]. unfold je. destruct j; [exfalso; apply (NN i II eq_refl E)|]. rewrite andb_false_r. reflexivity.
Qed.

(** ** Breaks found in the source *)
Lemma eval_leaves : forall r s o s', eval r s = (ELeave o, s') -> match o with Ret _ | Stop | Fuel | Bad => True | _ => False end.
Proof.
  induction r as [n|n|n|b|r IH|n r IH]; intros s o s' H.
  - discriminate H.
  - change (eval (ROpt n) s) with (let '(f, s1) := ask_bool orc s in ((if f then EFault else EOk), emit (EvOpt n f) s1)) in H.
    destruct (ask_bool orc s) as [[] s1]; discriminate H.
  - discriminate H.
  - change (eval (RMac b) s) with (match exec_list b [] s with
      | (Norm, s1) => (EOk, s1)
      | (Ret f, s1) => ((if f then EFault else EOk), s1)
      | (Stop, s1) => (ELeave Stop, s1)
      | (Fuel, s1) => (ELeave Fuel, s1)
      | (_, s1) => (ELeave Bad, s1)
      end) in H.
    destruct (exec_list b [] s) as [[] s1]; inv H; try exact I. destruct fault; discriminate.
  - change (eval (RRethrow r) s) with (match eval r s with (EFault, s1) => (ELeave (Ret true), s1) | e => e end) in H.
    destruct (eval r s) as [[] s1] eqn:E; inv H; [exact I|]. eapply IH. exact E.
  - change (eval (ROr n r) s) with (let '(b, s1) := ask_bool orc s in
      let s2 := emit (EvCond n b) s1 in if b then (EOk, s2) else eval r s2) in H.
    destruct (ask_bool orc s) as [[] s1]; [discriminate H|]. eapply IH. exact H.
Qed.

Lemma leave_brk : forall ds o s j s', leave_scope ds o s = (Brk j, s') -> o = Brk j.
Proof.
  assert (L : forall ds o s j s', leave ds o s = (Brk j, s') -> o = Brk j).
  { induction ds as [|[k d] r IH]; intros o s j s' H; cbn [leave] in H; [inv H; reflexivity|].
    destruct (selected (is_success o) k); [|eapply IH; exact H]. destruct (d s) as [[] s1]; try discriminate H. eapply IH; exact H. }
  intros ds o s j s' H. destruct o; try discriminate H; try (eapply L; exact H); cbn [leave_scope] in H; apply L in H; exact H.
Qed.

Lemma breaks_found :
  (forall x n s s', exec x s = (Brk (Some n), s') -> breaks n x = true) /\
  (forall b n ds s s', exec_list b ds s = (Brk (Some n), s') -> breaks_list n b = true) /\
  (forall cs n k i b s s', case_body cs k = Some (i, b) -> b s = (Brk (Some n), s') -> breaks_cases n cs = true) /\
  (forall r : rexp, True).
Proof.
  apply flow_mind; try (intros; exact I).
  - intros r _ n s s' H. change (exec (SExpr r) s) with (match eval r s with (EOk, s1) => (Norm, s1) | (EFault, s1) => (Bad, s1) | (ELeave o, s1) => (o, s1) end) in H.
    destruct (eval r s) as [[| |o] s1] eqn:E; inv H. apply eval_leaves in E. contradiction.
  - intros k n s s' H. discriminate H.
  - intros b IH n s s' H. exact (IH n _ _ _ H).
  - intros k b IH n s s' H. discriminate H.
  - intros l c th IH n s s' H.
    change (exec (SIf l c th) s) with (let '(b, s1) := eval_cond orc c s in
      if b then match exec th s1 with (Brk j, s2) => if for_me_if l j then (Norm, s2) else (Brk j, s2) | r => r end else (Norm, s1)) in H.
    destruct (eval_cond orc c s) as [[] s1]; [|discriminate]. cbn [breaks].
    destruct (exec th s1) as [[] s2] eqn:E; try discriminate H. destruct (for_me_if l l0); inv H. eapply IH. exact E.
  - intros l c th IH el IH2 n s s' H.
    change (exec (SIfElse l c th el) s) with (let '(b, s1) := eval_cond orc c s in
      match (if b then exec th s1 else exec el s1) with (Brk j, s2) => if for_me_if l j then (Norm, s2) else (Brk j, s2) | r => r end) in H.
    destruct (eval_cond orc c s) as [b s1]. cbn [breaks]. apply orb_true_iff.
    destruct b; [destruct (exec th s1) as [[] s2] eqn:E|destruct (exec el s1) as [[] s2] eqn:E]; try discriminate H; destruct (for_me_if l l0); inv H; eauto.
  - intros l is_do c incr body IH n s s' H. cbn [breaks].
    change (exec (SFor l is_do c incr body) s) with (iter Fuel N (loop_round orc l c incr (exec body)) is_do s) in H.
    pose proof (iter_inv (fun _ => True) (fun o => o = Brk (Some n) -> breaks n body = true) (loop_round orc l c incr (exec body)) ltac:(discriminate)) as Q.
    cbv beta in Q. refine (Q _ N is_do s I _); [|rewrite H; reflexivity]. clear s s' H Q. intros a s _. unfold loop_round.
    destruct (if a then (true, s) else match c with Some c0 => eval_cond orc c0 s | None => (true, s) end) as [[] s1]; [|discriminate].
    destruct (exec body s1) as [o s2] eqn:E. destruct o; try discriminate; try exact I.
    + destruct (for_me l l0); [discriminate|]. intros X. inv X. eapply IH. exact E.
    + destruct (for_me l l0); [exact I|discriminate].
  - intros l k ae cs IH n s s' H. cbn [breaks].
    change (exec (SSwitch l k ae cs) s) with (let '(v, s1) := ask orc s in
      let s2 := emit (EvSwitch k v) s1 in
      match choose cs ae v with
      | None => (Norm, s2)
      | Some i => iter Fuel N (switch_round l cs ae (fun i => case_body cs i)) i s2
      end) in H.
    destruct (ask orc s) as [v s1]. cbv zeta in H. destruct (choose cs ae v) as [i|]; [|discriminate].
    pose proof (iter_inv (fun _ => True) (fun o => o = Brk (Some n) -> breaks_cases n cs = true) (switch_round l cs ae (fun i => case_body cs i)) ltac:(discriminate)) as Q.
    cbv beta in Q. refine (Q _ N i _ I _); [|rewrite H; reflexivity]. clear s s' s1 H Q i v. intros i s _. unfold switch_round.
    destruct (case_body cs i) as [[i' b]|] eqn:CB; [|discriminate].
    destruct (b s) as [o s2] eqn:E. destruct o; try discriminate; try exact I.
    + destruct (for_me l l0); [discriminate|]. intros X. inv X. eapply IH; [exact CB|exact E].
    + destruct (i' + 1 <? num_cases cs); [exact I|discriminate].
    + destruct (for_me l l0); [|discriminate]. destruct t as [|q|q].
      * destruct (default_idx cs); [exact I|discriminate].
      * destruct (q <? num_cases cs); [exact I|discriminate].
      * destruct (choose cs ae chosen); [exact I|discriminate].
  - intros l n s s' H. inv H. cbn. apply Nat.eqb_refl.
  - intros l n s s' H. discriminate H.
  - intros n s s' H. discriminate H.
  - intros l t n s s' H. destruct t; discriminate H.
  - intros n s s' H. discriminate H.
  - intros r _ n s s' H. change (exec (SRet r) s) with (match eval r s with (EOk, s1) => (Ret false, s1) | (EFault, s1) => (Ret true, s1) | (ELeave o, s1) => (o, s1) end) in H.
    destruct (eval r s) as [[| |o] s1] eqn:E; inv H. apply eval_leaves in E. contradiction.
  - intros n ds s s' H. change (exec_list SNil ds s) with (leave_scope ds Norm s) in H; apply leave_brk in H. discriminate H.
  - intros x IH r IHr n ds s s' H. cbn [breaks_list]. apply orb_true_iff. destruct (is_defer x) eqn:D.
    + destruct x; try discriminate D. rewrite exec_defer in H. right. eapply IHr. exact H.
    + rewrite exec_cons in H by exact D. destruct (exec x s) as [o s1] eqn:E. destruct o; try (apply leave_brk in H; inv H); [right; eapply IHr; exact H|left; eapply IH; exact E].
  - intros n k i b s s' H. discriminate H.
  - intros df r IH n k i b s s' H X. cbn [breaks_cases].
    change (case_body (KEmpty df r) k) with (match case_body r (pred k) with Some (j, b) => Some (S j, b) | None => None end) in H.
    destruct (case_body r (pred k)) as [[j b1]|] eqn:E; [|discriminate]. inv H. eapply IH; eassumption.
  - intros df b0 IHb r IH n k i b s s' H X. cbn [breaks_cases]. apply orb_true_iff. destruct k as [|k].
    + inv H. left. eapply IHb. exact X.
    + change (case_body (KBody df b0 r) (S k)) with (match case_body r k with Some (j, b) => Some (S j, b) | None => None end) in H.
      destruct (case_body r k) as [[j b1]|] eqn:E; [|discriminate]. inv H. right. eapply IH; eassumption.
Qed.

(** ** Statements with nothing in them *)
Lemma empty_exec : forall x s, empty_stmt x = true -> exec x s = (Norm, s).
Proof.
  fix IH 1. intros x s H. destruct x as [| |b| | | | | | | | | | |]; try discriminate H. destruct b as [|y [|z r]]; try discriminate H; [reflexivity|].
  change (empty_stmt (SBlock (SCons y SNil))) with (empty_stmt y) in H. change (exec (SBlock (SCons y SNil)) s) with (exec_list (SCons y SNil) [] s).
  assert (D : is_defer y = false) by (destruct y; try reflexivity; discriminate H). rewrite exec_cons by exact D. rewrite (IH y s H). reflexivity.
Qed.

Lemma live : forall a l0 a0 l a', (AOk (if a_jend a then (LNop, with_rets (a_rets a) a0) else (l0, a0)) : ares (lst * sc)) = AOk (l, a') ->
  a_jend a = false -> l0 = l /\ a0 = a'.
Proof. intros a l0 a0 l a' H J. rewrite J in H. inv H. auto. Qed.

Lemma not_empty_live : forall x C a l a', ana C a x = AOk (l, a') -> a_jend a = false -> not_empty l = negb (empty_stmt x).
Proof.
  fix IH 1. intros x C a l a' H J. destruct x as [r|n|b|k b|lb c th|lb c th el|lb isd c inc body|lb n ae cs|lb|lb| |lb t| |r]; cbn [ana] in H; bind H;
    destruct v as [lz az]; apply live in H; try exact J; destruct H; subst lz az; cbn [empty_stmt negb].
  - bind E. destruct v as [[e o] a2]. destruct o; [discriminate|]. inv E. reflexivity.
  - inv E. reflexivity.
  - bind E. bind E. destruct v0 as [l1 a2]. destruct (_ =? _); [|discriminate]. inv E. destruct b as [|y r]; cbn [ana_list] in E1; bind E1.
    + inv E1. cbn [a_jend with_jend]. cbn [a_chain with_jend c_start scope_cx] in E. rewrite above_firstn, Nat.sub_diag in E by lia. inv E. reflexivity.
    + destruct v0 as [ly a1]. bind E1. destruct v0 as [lr a3]. inv E1. destruct r as [|z r].
      * cbn [ana_list] in E2. bind E2. inv E2. destruct (is_defer y) eqn:D.
        -- destruct y; try discriminate D. cbn [ana] in E. bind E. destruct v1 as [lz az]. apply live in E; [|reflexivity]. destruct E; subst lz az.
           bind E2. bind E2. bind E2. destruct v3 as [l3 a3]. destruct (_ =? 0); [|discriminate]. inv E2. lazymatch goal with |- not_empty (LBlock (LCons LNop ?t)) = _ => destruct t; reflexivity end.
        -- pose proof (ana_chain _ _ _ _ _ E D) as CH. cbn [a_chain with_jend] in CH. cbn [c_start scope_cx] in E1. rewrite CH, above_firstn, Nat.sub_diag in E1 by lia. inv E1.
           cbn [filter bodies]. replace (if a_jend a1 then LNil else LNil) with LNil by (destruct (a_jend a1); reflexivity).
           cbn [not_empty]. apply (IH _ _ _ _ _ E). reflexivity.
      * cbn [ana_list] in E2. bind E2. destruct v0 as [l3 a4]. bind E2. destruct v0 as [l4 a5]. inv E2. reflexivity.
  - bind E. bind E. bind E. destruct v1 as [l1 a2]. destruct (_ =? 0); [|discriminate]. inv E. reflexivity.
  - destruct (is_defer th); [discriminate|]. bind E. bind E. bind E. destruct v1 as [l1 a2]. destruct (_ =? _); inv E. reflexivity.
  - destruct (_ && _); [|discriminate]. bind E. bind E. bind E. destruct v1 as [l1 a1]. destruct (_ =? _); [|discriminate].
    bind E. destruct v1 as [l2 a2]. destruct (_ =? _); inv E. reflexivity.
  - destruct (is_defer body); [discriminate|]. destruct (isd && _); [discriminate|]. bind E. bind E. bind E. destruct v1 as [l1 a2]. destruct (_ =? _); inv E. reflexivity.
  - bind E. destruct (1 <? _); [discriminate|]. bind E. destruct v0 as [[lc j] a2]. inv E. reflexivity.
  - fold (brk_target C lb) in E. destruct (brk_target C lb) as [t|]; [|discriminate]. bind E. inv E. reflexivity.
  - fold (cnt_target C lb) in E. destruct (cnt_target C lb) as [t|]; [|discriminate]. bind E. inv E. reflexivity.
  - destruct (c_nxt C) as [[w [k|]]|]; try discriminate. bind E. inv E. reflexivity.
  - fold (sw_target C lb) in E. destruct (sw_target C lb) as [w|]; [|discriminate]. bind E. destruct t.
    + destruct (sw_default w); inv E. reflexivity.
    + destruct (_ <? _); inv E. reflexivity.
    + inv E. reflexivity.
  - destruct (c_indefer C); [discriminate|]. destruct (_ && _); [discriminate|]. bind E. inv E. reflexivity.
  - destruct (c_indefer C); [discriminate|]. bind E. destruct v as [[e o] a2]. destruct (_ && _); [discriminate|]. bind E. bind E. inv E. reflexivity.
Qed.

(** ** Returns *)
Lemma no_try : forall l, has_try_or_catch l = false -> filter (wanted false) l = filter (wanted true) l.
Proof.
  induction l as [|d r IH]; intros H; [reflexivity|]. cbn [has_try_or_catch existsb] in H. apply orb_false_elim in H. destruct H as [K H].
  cbn [filter]. rewrite (IH H). unfold wanted. destruct (dk d); try discriminate K. reflexivity.
Qed.
Lemma firstn_full : forall (c : chain), firstn (length c - 0) c = c.
Proof. intros c. rewrite Nat.sub_0_r. apply firstn_all. Qed.

Lemma no_macro_jend : forall C r a e o a', no_macro r = true -> ana_exp C a r = AOk (e, o, a') -> a_jend a' = a_jend a.
Proof.
  induction r as [n|n|n|b|r IH|n r IH]; intros a e o a' M X; cbn [ana_exp no_macro] in *.
  - inv X; reflexivity.
  - inv X; reflexivity.
  - inv X; reflexivity.
  - discriminate M.
  - bind X. destruct v as [[e1 o1] a3]. destruct (_ || _); [discriminate|]. bind X. apply IH in E; [|exact M]. destruct (c_inmacro C); [inv X; exact E|]. destruct (c_opt C); inv X. exact E.
  - bind X. destruct v as [[e1 o1] a3]. inv X. eapply IH; eassumption.
Qed.

Lemma side_ifcatch : forall C l d m je brks rets o r j', r = match o with Brk j => if for_me_if l j then Norm else Brk j | _ => o end -> tok C (c_lev C) m -> side (if_cx C l d m) je brks rets o -> (o = Norm -> j' = false) ->
  (forall j, o = Brk j -> for_me_if l j = true -> j' = false) ->
  side C j' (drop (c_lev C) brks) rets r.
Proof.
  intros C l d m je brks rets o r j' -> T H A B. destruct o as [|j| | | | | | |]; try (eapply side_if; [exact T|exact H|discriminate|exact I]).
  - exact (A eq_refl).
  - destruct (for_me_if l j) eqn:M; [exact (B j eq_refl M)|]. eapply side_if; [exact T|exact H|discriminate|exact M].
Qed.

(** ** The main induction *)
Definition PS (x : stmt) : Prop :=
  forall C a l a', ana C a x = AOk (l, a') -> a_jend a = false -> flow_ok x = true ->
    tok C (c_lev C) (length (a_chain a)) -> Forall dgood (a_chain a) -> below (c_lev C) (a_brks a) ->
    (forall s, fin C (a_chain a) (exec x s) = Some (lexec l s)) /\
    (forall s, side C (a_jend a') (a_brks a') (a_rets a') (fst (exec x s))).
Definition PD (k : dkind) (b : stmts) : Prop :=
  forall C a l a', ana C a (SDefer k b) = AOk (l, a') -> a_jend a = false -> flow_ok_list b = true -> below (c_lev C) (a_brks a) ->
    exists d, l = LNop /\ a_chain a' = d :: a_chain a /\ a_jend a' = false /\ drel1 (k, exec_list b []) d.
Definition P (x : stmt) : Prop := match x with SDefer k b => PD k b | _ => PS x end.
Definition Q (b : stmts) : Prop :=
  forall C a l a' dch outer ds, ana_list C a b = AOk (l, a') -> a_jend a = false -> flow_ok_list b = true ->
    a_chain a = dch ++ outer -> length outer = c_start C -> drel ds dch ->
    tok C (c_lev C) (length outer) -> Forall dgood outer -> below (c_lev C) (a_brks a) ->
    (forall s, fin C outer (exec_list b ds s) = Some (lexec_list l s)) /\
    (forall s, side C (a_jend a') (a_brks a') (a_rets a') (fst (exec_list b ds s))).
Definition R (cs : cases) : Prop :=
  forall C l w i d a lc j a', ana_cases C l w i d a cs = AOk (lc, j, a') -> flow_ok_cases cs = true -> a_jend a = false ->
    tok C (c_lev C) (length (a_chain a)) -> Forall dgood (a_chain a) -> below (S (c_lev C)) (a_brks a) ->
    sw_lev w = c_lev C -> sw_mark w = length (a_chain a) -> i + num_cases cs = sw_count w ->
    (forall k, case_body cs k = None -> lcase_body lc k = None) /\
    (forall k, k < num_cases cs -> j = true -> case_body cs k <> None) /\
    (forall k i' b, case_body cs k = Some (i', b) -> exists lb d', lcase_body lc k = Some lb /\
       (forall s, fin (case_cx C l w (snext (i + i') (sw_count w)) d') (a_chain a) (b s) = Some (lb s)) /\
       (forall s, side (case_cx C l w (snext (i + i') (sw_count w)) d') j (a_brks a') (a_rets a') (fst (b s)))).
Definition X (r : rexp) : Prop :=
  forall C a e opt a', ana_exp C a r = AOk (e, opt, a') -> flow_ok_exp r = true ->
    tok C (c_lev C) (length (a_chain a)) -> Forall dgood (a_chain a) -> below (c_lev C) (a_brks a) ->
    forall s, match eval r s with
              | (EOk, s1) => leval e s = (LeOk, s1) /\ (a_jend a' = true -> a_jend a = true)
              | (EFault, s1) => leval e s = (LeFault, s1) /\ opt = true /\ (a_jend a' = true -> a_jend a = true)
              | (ELeave o, s1) => o <> Norm /\ (exists lo s2, leval e s = (LeLeave lo, s2) /\ fin C (a_chain a) (o, s1) = Some (lo, s2)) /\
                                  forall je brks, side C je brks (a_rets a') o
              end.

Hypothesis N2 : 2 <= N.

Lemma p_expr : forall r, X r -> P (SExpr r).
Proof.
  intros r IH C a l a' H J O T F B. cbn [ana] in H. bind H. destruct v as [lz az]. apply live in H; [|exact J]. destruct H; subst lz az.
  bind E. destruct v as [[e o] a2]. destruct o; [discriminate|]. inv E.
  specialize (IH C a e false a2 E0 O T F B).
  assert (EQ : forall s, exec (SExpr r) s = match eval r s with (EOk, s1) => (Norm, s1) | (EFault, s1) => (Bad, s1) | (ELeave o, s1) => (o, s1) end) by reflexivity.
  assert (EQ2 : forall s, lexec (LExpr e) s = match leval e s with (LeOk, s1) => (ONorm, s1) | (LeFault, s1) => (ONorm, s1) | (LeLeave o, s1) => (o, s1) end) by reflexivity.
  split; intros s; specialize (IH s); rewrite EQ.
  - rewrite EQ2. destruct (eval r s) as [[| |o] s1].
    + destruct IH as [-> _]. reflexivity.
    + destruct IH as (_ & IH & _). discriminate IH.
    + destruct IH as (_ & (lo & s2 & -> & IH) & _). exact IH.
  - destruct (eval r s) as [[| |o] s1] eqn:EV.
    + destruct IH as [_ IH]. cbn [fst side].
      assert (Z : a_jend a2 = false) by (destruct (a_jend a2); [rewrite IH in J by reflexivity; discriminate J|reflexivity]).
      destruct r; try exact Z. destruct r; try exact Z. discriminate EV.
    + exact I.
    + destruct IH as (NN & _ & IH). cbn [fst]. destruct o; try exact (IH true []); try contradiction.
      * exfalso. apply eval_leaves in EV. contradiction.
      * specialize (IH true []). destruct r; try exact IH. destruct r; exact IH.
Qed.

Lemma fin_scope : forall C d k ch r, fin (scope_cx C d k) ch r = fin C ch r.
Proof. reflexivity. Qed.

Lemma p_block : forall b, Q b -> P (SBlock b).
Proof.
  intros b IH C a l a' H J O T F B. cbn [ana] in H. bind H. destruct v as [lz az]. apply live in H; [|exact J]. destruct H; subst lz az.
  bind E. bind E. destruct v0 as [l1 a2]. destruct (_ =? _); [|discriminate]. inv E.
  destruct (IH _ _ _ _ [] (a_chain a) [] E1 eq_refl O eq_refl eq_refl (Forall2_nil _)) as [I1 I2]; [apply tok_scope; exact T|exact F|exact B|].
  split; intros s.
  - rewrite lexec_block. exact (I1 s).
  - exact (I2 s).
Qed.

Lemma p_defer : forall k b, Q b -> P (SDefer k b).
Proof.
  intros k b IH C a l a' H J O B. cbn [ana] in H. bind H. destruct v as [lz az]. apply live in H; [|exact J]. destruct H; subst lz az.
  bind E. bind E. bind E. destruct v1 as [l1 a2]. destruct (_ =? 0); [|discriminate]. inv E.
  destruct (IH _ _ _ _ [] [] [] E2 eq_refl O eq_refl eq_refl (Forall2_nil _)) as [I1 _]; [apply tok_none; reflexivity|constructor|exact B|].
  exists (Dfr k l1). split; [reflexivity|]. split; [reflexivity|]. split; [exact J|]. split; [reflexivity|].
  intros s. cbn [snd dbody]. specialize (I1 s). destruct (exec_list b [] s) as [o s1]. destruct o as [|j|j| |j t c|f| | |]; cbn [fin jump] in I1; try (inv I1; reflexivity); try discriminate I1.
  - unfold brk_target in I1. destruct j; discriminate I1.
  - unfold cnt_target in I1. destruct j; discriminate I1.
  - unfold sw_target in I1. destruct j; discriminate I1.
Qed.

Lemma exec_if : forall l c th s, exec (SIf l c th) s = (let '(b, s1) := eval_cond orc c s in
  if b then match exec th s1 with (Brk j, s2) => if for_me_if l j then (Norm, s2) else (Brk j, s2) | r => r end else (Norm, s1)).
Proof. reflexivity. Qed.
Lemma exec_ifelse : forall l c th el s, exec (SIfElse l c th el) s = (let '(b, s1) := eval_cond orc c s in
      match (if b then exec th s1 else exec el s1) with (Brk j, s2) => if for_me_if l j then (Norm, s2) else (Brk j, s2) | r => r end).
Proof. reflexivity. Qed.
Lemma lexec_if : forall lev c th el s, lexec (LIf lev c th el) s = (let '(b, s1) := lcond orc c s in
      match (if b then lexec th s1 else match el with Some e => lexec e s1 | None => (ONorm, s1) end) with
      | (OBrk l, s2) => if l =? lev then (ONorm, s2) else (OBrk l, s2)
      | r => r
      end).
Proof. reflexivity. Qed.

Lemma not_defer : forall x, is_defer x = false -> P x -> PS x.
Proof. intros x D H. destruct x; try exact H. discriminate D. Qed.

Lemma no_break : forall n x s s', breaks n x = false -> exec x s = (Brk (Some n), s') -> False.
Proof. intros n x s s' H E. apply (proj1 breaks_found) in E. rewrite H in E. discriminate E. Qed.

Lemma for_me_if_inv : forall l j, for_me_if l j = true -> exists n, l = Some n /\ j = Some n.
Proof. intros [n|] [m|] H; cbn in H; try discriminate H. apply Nat.eqb_eq in H. subst. eauto. Qed.

Lemma p_if : forall l c th, P th -> P (SIf l c th).
Proof.
  intros l c th IH C a l' a' H J O T F B. cbn [ana] in H. bind H. destruct v as [lz az]. apply live in H; [|exact J]. destruct H; subst lz az.
  destruct (is_defer th) eqn:D; [discriminate|]. bind E. bind E. bind E. destruct v1 as [l1 a1]. destruct (_ =? _); [|discriminate]. inv E.
  cbn [flow_ok] in O. apply andb_true_iff in O. destruct O as [O OI].
  destruct (not_defer _ D IH _ _ _ _ E2 eq_refl O) as [I1 I2]; [apply tok_if; [exact T|apply le_n]|exact F|apply below_S; exact B|].
  cbn [a_chain with_jend] in I1. split; intros s.
  - rewrite exec_if, lexec_if. change (lcond orc c s) with (eval_cond orc c s). destruct (eval_cond orc c s) as [[] s1]; [|reflexivity].
    pose proof (fin_if C l v0 (a_chain a) _ _ T F (I1 s1)) as Y. destruct (exec th s1) as [[] s2]; destruct (lexec l1 s1) as [[] s3]; exact Y.
  - rewrite exec_if. destruct (eval_cond orc c s) as [b s1] eqn:EC. cbn [a_jend a_brks a_rets]. rewrite J.
    set (j' := if match c with CConst true => a_jend a1 | _ => false end then true else false). destruct b.
    + specialize (I2 s1). destruct (exec th s1) as [o s2] eqn:EX. cbn [fst] in I2. apply (side_ifcatch C l v0 (length (a_chain a)) (a_jend a1) (a_brks a1) (a_rets a1) o); [destruct o; try destruct (for_me_if l l0); reflexivity|exact T|exact I2| |].
      * intros ->. cbn [side] in I2. unfold j'. rewrite I2. destruct c as [[]|]; reflexivity.
      * intros j -> M. apply for_me_if_inv in M. destruct M as (n & -> & ->). unfold j'. destruct c as [[]|]; try reflexivity.
        cbn [if_ok] in OI. apply negb_true_iff in OI. exfalso. exact (no_break _ _ _ _ OI EX).
    + cbn [fst side]. unfold j'. destruct c as [[]|]; try reflexivity. discriminate EC.
Qed.

Lemma p_ifelse : forall l c th, P th -> forall el, P el -> P (SIfElse l c th el).
Proof.
  intros l c th IH el IH2 C a l' a' H J O T F B. cbn [ana] in H. bind H. destruct v as [lz az]. apply live in H; [|exact J]. destruct H; subst lz az.
  destruct (_ && _) eqn:BL in E; [|discriminate]. apply andb_true_iff in BL. destruct BL as [BL BL2].
  assert (D : is_defer th = false) by (destruct th; try reflexivity; discriminate BL).
  assert (D2 : is_defer el = false) by (destruct el; try reflexivity; discriminate BL2).
  bind E. bind E. bind E. destruct v1 as [l1 a1]. destruct (length (a_chain a1) =? _); [|discriminate].
  bind E. destruct v1 as [l2 a2]. destruct (_ =? _); [|discriminate]. inv E.
  cbn [flow_ok] in O. apply andb_true_iff in O. destruct O as [O OI]. apply andb_true_iff in O. destruct O as [O O2].
  assert (T' : tok (if_cx C l v0 (length (a_chain a))) (S (c_lev C)) (length (a_chain a))) by (apply tok_if; [exact T|apply le_n]).
  pose proof (ana_chain _ _ _ _ _ E2 D) as CH. cbn [a_chain with_jend] in CH.
  destruct (not_defer _ D IH _ _ _ _ E2 eq_refl O T' F (below_S _ _ B)) as [I1 I2].
  pose proof (proj1 grows_all _ _ _ _ _ E2 (ex_intro _ _ T') (below_S _ _ B)) as (G1 & _ & _).
  destruct (not_defer _ D2 IH2 _ _ _ _ E3 eq_refl O2) as [I3 I4]; [cbn [a_chain with_jend]; rewrite CH; exact T'|cbn [a_chain with_jend]; rewrite CH; exact F|exact G1|].
  pose proof (proj1 grows_all _ _ _ _ _ E3 (ex_intro _ _ T') G1) as (_ & G2 & G3). cbn [a_brks a_rets with_jend] in G2, G3.
  cbn [a_chain with_jend] in I1, I3. rewrite CH in I3. split; intros s.
  - rewrite exec_ifelse, lexec_if. change (lcond orc c s) with (eval_cond orc c s). destruct (eval_cond orc c s) as [b s1].
    destruct b.
    + pose proof (fin_if C l v0 (a_chain a) _ _ T F (I1 s1)) as Y. destruct (exec th s1) as [[] s2]; destruct (lexec l1 s1) as [[] s3]; exact Y.
    + pose proof (fin_if C l v0 (a_chain a) _ _ T F (I3 s1)) as Y. destruct (exec el s1) as [[] s2]; destruct (lexec l2 s1) as [[] s3]; exact Y.
  - rewrite exec_ifelse. destruct (eval_cond orc c s) as [b s1] eqn:EC. cbn [a_jend a_brks a_rets]. rewrite J.
    match goal with |- side C ?x _ _ _ => set (j' := x) end. destruct b.
    + specialize (I2 s1). destruct (exec th s1) as [o s2] eqn:EX. cbn [fst] in I2.
      assert (I2' : side (if_cx C l v0 (length (a_chain a))) (a_jend a1) (a_brks a2) (a_rets a2) o) by (eapply side_mono; [exact I2|auto|exact G2|exact G3]).
      apply (side_ifcatch C l v0 (length (a_chain a)) (a_jend a1) (a_brks a2) (a_rets a2) o); [destruct o; try destruct (for_me_if l l0); reflexivity|exact T|exact I2'| |].
      * intros ->. cbn [side] in I2. unfold j'. rewrite I2. cbn [andb]. destruct c as [[]|]; rewrite ?andb_false_r; try reflexivity. discriminate EC.
      * intros j -> M. pose proof (for_me_if_inv _ _ M) as (n & -> & ->). unfold j'.
        specialize (I2' _ ltac:(rewrite if_brk, M; reflexivity)). cbn [t_lev] in I2'. apply mem_in in I2'. rewrite I2'. cbn [negb]. rewrite !andb_false_r.
        destruct c as [[]|]; rewrite ?andb_false_r; try reflexivity; [|discriminate EC].
        cbn [if_ok] in OI. apply negb_true_iff in OI. exfalso. exact (no_break _ _ _ _ OI EX).
    + specialize (I4 s1). destruct (exec el s1) as [o s2] eqn:EX. cbn [fst] in I4.
      apply (side_ifcatch C l v0 (length (a_chain a)) (a_jend a2) (a_brks a2) (a_rets a2) o); [destruct o; try destruct (for_me_if l l0); reflexivity|exact T|exact I4| |].
      * intros ->. cbn [side] in I4. unfold j'. rewrite I4. rewrite andb_false_r. cbn [andb]. destruct c as [[]|]; rewrite ?andb_false_r; try reflexivity. discriminate EC.
      * intros j -> M. pose proof (for_me_if_inv _ _ M) as (n & -> & ->). unfold j'.
        specialize (I4 _ ltac:(rewrite if_brk, M; reflexivity)). cbn [t_lev] in I4. apply mem_in in I4. rewrite I4. cbn [negb]. rewrite !andb_false_r.
        destruct c as [[]|]; rewrite ?andb_false_r; try reflexivity; [discriminate EC|].
        cbn [if_ok] in OI. apply negb_true_iff in OI. exfalso. exact (no_break _ _ _ _ OI EX).
Qed.

Lemma p_for : forall l is_do c incr body, P body -> P (SFor l is_do c incr body).
Proof.
  intros l is_do c incr body IH C a l' a' H J O T F B. cbn [ana] in H. bind H. destruct v as [lz az]. apply live in H; [|exact J]. destruct H; subst lz az.
  destruct (is_defer body) eqn:D; [discriminate|]. destruct (is_do && _); [discriminate|].
  bind E. bind E. bind E. destruct v1 as [l1 a1]. destruct (_ =? _); [|discriminate]. inv E.
  cbn [flow_ok] in O. apply andb_true_iff in O. destruct O as [O OL].
  destruct (not_defer _ D IH _ _ _ _ E2 eq_refl O) as [I1 I2]; [apply tok_for; [exact T|apply le_n]|exact F|apply below_S; exact B|].
  cbn [a_chain with_jend] in I1.
  pose proof (not_empty_live _ _ _ _ _ E2 eq_refl) as NE.
  split; intros s; change (exec (SFor l is_do c incr body) s) with (iter Fuel N (loop_round orc l c incr (exec body)) is_do s).
  - change (lexec (LFor (c_lev C) (if is_do then negb (cond_infinite c) else false) (cond_left c) incr l1) s)
      with (lloop orc N (c_lev C) (if is_do then negb (cond_infinite c) else false) (cond_left c) incr (not_empty l1) (lexec l1) s).
    apply (fin_loop C l v0); [exact N2|exact T|exact F|exact I1| |].
    + rewrite NE. intros EM s0. apply negb_false_iff in EM. specialize (I1 s0). rewrite (empty_exec _ _ EM) in I1. inv I1. congruence.
    + rewrite NE, negb_involutive. unfold loop_ok in OL. destruct c as [[[]|]|]; exact OL.
  - cbn [a_jend a_brks a_rets]. rewrite J.
    eapply side_mono; [apply (side_loop C l v0 (length (a_chain a)) c incr (exec body) (a_jend a1) (a_brks a1) (a_rets a1) T I2)| |apply incl_refl|apply incl_refl].
    destruct (_ && _); auto.
Qed.

Lemma exec_switch : forall l k ae cs s, exec (SSwitch l k ae cs) s = (let '(v, s1) := ask orc s in
      let s2 := emit (EvSwitch k v) s1 in
      match choose cs ae v with
      | None => (Norm, s2)
      | Some i => iter Fuel N (switch_round l cs ae (fun i => case_body cs i)) i s2
      end).
Proof. reflexivity. Qed.
Lemma lexec_switch : forall lev k ae cs s, lexec (LSwitch lev k ae cs) s = (let '(v, s1) := ask orc s in
      let s2 := emit (EvSwitch k v) s1 in
      match dispatch cs ae v with
      | None => (ONorm, s2)
      | Some i => iter OFuel N (lswitch_round lev cs ae (fun i => lcase_body cs i)) i s2
      end).
Proof. reflexivity. Qed.

Lemma p_switch : forall l n ae cs, R cs -> P (SSwitch l n ae cs).
Proof.
  intros l n ae cs IH C a l' a' H J O T F B. cbn [ana] in H. bind H. destruct v as [lz az]. apply live in H; [|exact J]. destruct H; subst lz az.
  bind E. destruct (1 <? _) eqn:DF; [discriminate|]. apply Nat.ltb_ge in DF. bind E. destruct v0 as [[lc j] a1]. inv E.
  set (w := Sw (c_lev C) (length (a_chain a)) (num_cases cs) (default_idx cs)) in *.
  destruct (ana_cases_shape _ _ _ _ _ _ _ _ _ _ E1) as [SH1 SH2]. specialize (SH2 DF 0 None).
  assert (DI : forall v, dispatch lc ae v = choose cs ae v).
  { intros v0. unfold dispatch, choose. rewrite SH2, SH1. destruct (default_idx cs); reflexivity. }
  destruct (IH _ _ _ _ _ _ _ _ _ E1 O eq_refl T F (below_S _ _ B) eq_refl eq_refl eq_refl) as (R1 & R2 & R3).
  split; intros s.
  - rewrite exec_switch, lexec_switch. destruct (ask orc s) as [v0 s1]. cbv zeta. rewrite DI. destruct (choose cs ae v0) as [i|] eqn:CH; [|reflexivity].
    apply (iter_rel eq); [|reflexivity]. intros i0 i1 s0 <-. unfold switch_round, lswitch_round.
    destruct (case_body cs i0) as [[i' b]|] eqn:CB.
    + destruct (R3 _ _ _ CB) as (lb & d' & -> & X1 & _). cbn [Nat.add] in X1.
      apply (fin_case C l w d' (a_chain a) cs lc ae i' _ _ T F eq_refl (case_body_lt _ _ _ _ CB) DI (X1 s0)).
    + rewrite (R1 _ CB). reflexivity.
  - rewrite exec_switch. destruct (ask orc s) as [v0 s1]. cbv zeta. cbn [a_jend a_brks a_rets]. rewrite J. destruct (choose cs ae v0) as [i|] eqn:CH.
    + eapply side_mono; [apply (side_switch C l w (length (a_chain a)) cs ae j (a_brks a1) (a_rets a1) T eq_refl R2)| |apply incl_refl|apply incl_refl].
      * intros k i' b CB. destruct (R3 _ _ _ CB) as (lb & d' & _ & _ & X2). eauto.
      * eapply choose_lt. exact CH.
      * destruct (_ && negb _); auto.
    + cbn [fst side]. destruct (match default_idx cs with Some _ => true | None => _ end) eqn:EX; [|reflexivity]. exfalso. exact (choose_some _ _ _ EX CH).
Qed.

Lemma p_break : forall l, P (SBreak l).
Proof.
  intros l C a l' a' H J O T F B. cbn [ana] in H. bind H. destruct v as [lz az]. apply live in H; [|exact J]. destruct H; subst lz az.
  fold (brk_target C l) in E. destruct (brk_target C l) as [t|] eqn:TG; [|discriminate]. bind E. inv E. apply get_ok in E0. destruct E0 as [_ ->].
  split; intros s.
  - change (exec (SBreak l) s) with (Brk l, s). cbn [fin jump]. rewrite TG. reflexivity.
  - change (exec (SBreak l) s) with (Brk l, s). cbn [fst side]. intros t0 E. rewrite TG in E. inv E. left. reflexivity.
Qed.
Lemma p_cont : forall l, P (SCont l).
Proof.
  intros l C a l' a' H J O T F B. cbn [ana] in H. bind H. destruct v as [lz az]. apply live in H; [|exact J]. destruct H; subst lz az.
  fold (cnt_target C l) in E. destruct (cnt_target C l) as [t|] eqn:TG; [|discriminate]. bind E. inv E. apply get_ok in E0. destruct E0 as [_ ->].
  split; intros s; change (exec (SCont l) s) with (Cnt l, s); [|exact I]. cbn [fin jump]. rewrite TG. reflexivity.
Qed.
Lemma p_next : P SNextPlain.
Proof.
  intros C a l' a' H J O T F B. cbn [ana] in H. bind H. destruct v as [lz az]. apply live in H; [|exact J]. destruct H; subst lz az.
  destruct (c_nxt C) as [[w [k|]]|] eqn:TG; try discriminate. bind E. inv E. apply get_ok in E0. destruct E0 as [_ ->].
  split; intros s; change (exec SNextPlain s) with (NxtPlain, s); [|exact I]. cbn [fin jump]. rewrite TG. reflexivity.
Qed.
Lemma p_nextto : forall l t, P (SNextTo l t).
Proof.
  intros l t C a l' a' H J O T F B. cbn [ana] in H. bind H. destruct v as [lz az]. apply live in H; [|exact J]. destruct H; subst lz az.
  fold (sw_target C l) in E. destruct (sw_target C l) as [w|] eqn:TG; [|discriminate]. bind E. apply get_ok in E0. destruct E0 as [_ ->]. destruct t as [|k|k].
  - destruct (sw_default w) eqn:SD; inv E. split; intros s; change (exec (SNextTo l NDefault) s) with (NxtTo l NDefault 0, s); [|exact I]. cbn [fin jump]. rewrite TG, SD. reflexivity.
  - destruct (k <? sw_count w) eqn:SD; inv E. split; intros s; change (exec (SNextTo l (NCase k)) s) with (NxtTo l (NCase k) 0, s); [|exact I]. cbn [fin jump]. rewrite TG, SD. reflexivity.
  - inv E. split; intros s;
      change (exec (SNextTo l (NVar k)) s) with (let '(v, s1) := ask orc s in (NxtTo l (NVar k) v, emit (EvSwitch k v) s1)); destruct (ask orc s) as [v s1] eqn:AS; [|exact I].
    cbn [fin jump]. rewrite TG.
    match goal with |- _ = Some (lexec (LNextVar ?x ?y ?z) ?s) =>
      change (lexec (LNextVar x y z) s) with (let '(k, s1) := ask orc s in then_jump (ONxtV x k) (lexec_list z (emit (EvSwitch y k) s1))) end.
    rewrite AS. reflexivity.
Qed.
Lemma p_noret : forall n, P (SNoRet n).
Proof.
  intros n C a l' a' H J O T F B. cbn [ana] in H. bind H. destruct v as [lz az]. apply live in H; [|exact J]. destruct H; subst lz az. inv E.
  split; intros s; [reflexivity|exact I].
Qed.
Lemma p_retvoid : P SRetVoid.
Proof.
  intros C a l' a' H J O T F B. cbn [ana] in H. bind H. destruct v as [lz az]. apply live in H; [|exact J]. destruct H; subst lz az.
  destruct (c_indefer C) eqn:ID; [discriminate|]. destruct (_ && _); [discriminate|]. bind E. inv E. apply get_ok in E0. destruct E0 as [_ ->].
  split; intros s; change (exec SRetVoid s) with (Ret false, s).
  - cbn [fin jump]. rewrite ID. reflexivity.
  - cbn [fst side]. destruct (c_inmacro C); [|discriminate]. exists (Rt (Some false) false). split; [left; reflexivity|discriminate].
Qed.
Lemma p_ret : forall r, X r -> P (SRet r).
Proof.
  intros r IH C a l' a' H J O T F B. cbn [ana] in H. bind H. destruct v as [lz az]. apply live in H; [|exact J]. destruct H; subst lz az.
  destruct (c_indefer C) eqn:ID; [discriminate|]. bind E. destruct v as [[e opt] a1]. destruct (_ && _) eqn:OP in E; [discriminate|]. bind E. bind E. inv E.
  pose proof (ana_exp_chain _ _ _ _ _ _ E0) as CH. cbn [a_chain with_jend] in CH. rewrite CH in *.
  apply get_ok in E1. destruct E1 as [_ ->].
  specialize (IH _ _ _ _ _ E0 O T F B). cbn [a_chain with_jend] in IH.
  assert (FS : opt = true -> v0 = bodies (filter (wanted false) (firstn (length (a_chain a) - 0) (a_chain a)))).
  { intros ->. cbn [andb] in E2. destruct (has_try_or_catch (a_chain a)) eqn:HT; [apply get_ok in E2; tauto|]. inv E2. rewrite firstn_full, (no_try _ HT). reflexivity. }
  assert (EQ : forall s, exec (SRet r) s = match eval r s with (EOk, s1) => (Ret false, s1) | (EFault, s1) => (Ret true, s1) | (ELeave o, s1) => (o, s1) end) by reflexivity.
  split; intros s; specialize (IH s); rewrite EQ.
  - match goal with |- _ = Some (lexec (LRet ?x ?y ?z) ?s) => change (lexec (LRet x y z) s) with
      (match leval x s with
      | (LeOk, s1) => then_jump (ORet false) (lexec_list y s1)
      | (LeFault, s1) => then_jump (ORet true) (lexec_list z s1)
      | (LeLeave o, s1) => (o, s1)
      end) end.
    destruct (eval r s) as [[| |o] s1].
    + destruct IH as [-> _]. cbn [fin jump]. rewrite ID. reflexivity.
    + destruct IH as (-> & OO & _). cbn [fin jump]. rewrite ID, (FS OO). reflexivity.
    + destruct IH as (_ & (lo & s2 & -> & IH) & _). exact IH.
  - cbn [a_jend a_brks a_rets]. destruct (eval r s) as [[| |o] s1].
    + cbn [fst side]. destruct (c_inmacro C); [|discriminate]. exists (Rt (Some true) opt). split; [left; reflexivity|discriminate].
    + destruct IH as (_ & OO & _). cbn [fst side]. rewrite OO in OP. cbn [andb] in OP. destruct (c_inmacro C).
      * exists (Rt (Some true) opt). split; [left; reflexivity|]. intros _. exact OO.
      * intros _. cbn [negb andb] in OP. destruct (c_opt C); [reflexivity|discriminate].
    + destruct IH as (NN & _ & IH). cbn [fst]. eapply side_mono; [exact (IH true (a_brks a1))|auto|apply incl_refl|apply incl_tl, incl_refl].
Qed.

Lemma exec_nil : forall ds s, exec_list SNil ds s = leave_scope ds Norm s.
Proof. reflexivity. Qed.

Lemma q_nil : Q SNil.
Proof.
  intros C a l a' dch outer ds H J O CH L D T F B. cbn [ana_list] in H. bind H. inv H. apply above_inv in E. destruct E as [_ ->]. cbn [a_jend a_brks a_rets with_chain].
  rewrite J, CH, app_length, L. rewrite Nat.add_sub, firstn_app, firstn_all, Nat.sub_diag. cbn [firstn]. rewrite app_nil_r.
  split; intros s; rewrite exec_nil; cbn [leave_scope].
  - destruct (leave_rel ds dch Norm s D) as [s' [[X1 X2]|[[X1 X2]|[X1 X2]]]]; cbn [is_success] in X2; rewrite X1, X2; reflexivity.
  - destruct (leave_rel ds dch Norm s D) as [s' [[X1 _]|[[X1 _]|[X1 _]]]]; rewrite X1; reflexivity.
Qed.

Lemma tok_app : forall C v (dch outer : chain), tok C v (length outer) -> tok C v (length (dch ++ outer)).
Proof. intros C v dch outer T. eapply tok_mono; [exact T|lia|rewrite app_length; lia]. Qed.

Lemma q_cons : forall x, P x -> forall r, Q r -> Q (SCons x r).
Proof.
  intros x IH r IHr C a l a' dch outer ds H J O CH L D T F B. cbn [ana_list] in H. bind H. destruct v as [l1 a1]. bind H. destruct v as [l2 a2]. inv H.
  cbn [flow_ok_list] in O. apply andb_true_iff in O. destruct O as [O O2].
  assert (T' : tok C (c_lev C) (length (a_chain a))) by (rewrite CH; apply tok_app; exact T).
  pose proof (proj1 grows_all _ _ _ _ _ E (ex_intro _ _ T') B) as (G1 & G2 & G3).
  pose proof (proj1 (proj2 grows_all) _ _ _ _ _ E0 (ex_intro _ _ T') G1) as (_ & G4 & G5).
  destruct (is_defer x) eqn:DF.
  - destruct x; try discriminate DF. destruct (IH _ _ _ _ E J O B) as (d & -> & CH2 & J2 & D2).
    destruct (IHr _ _ _ _ (d :: dch) outer ((k, exec_list b []) :: ds) E0 J2 O2) as [I1 I2]; try assumption.
    + rewrite CH2, CH. reflexivity.
    + constructor; [exact D2|exact D].
    + split; intros s; rewrite exec_defer; [|apply I2]. rewrite lexec_cons. exact (I1 s).
  - assert (F' : Forall dgood (a_chain a)) by (rewrite CH; apply Forall_app; split; [eapply drel_good; exact D|exact F]).
    destruct (not_defer _ DF IH _ _ _ _ E J O T' F' B) as [I1 I2].
    pose proof (ana_chain _ _ _ _ _ E DF) as CH2.
    assert (REST : a_jend a1 = false -> (forall s, fin C outer (exec_list r ds s) = Some (lexec_list l2 s)) /\ (forall s, side C (a_jend a') (a_brks a') (a_rets a') (fst (exec_list r ds s)))).
    { intros J1. apply (IHr _ _ _ _ dch outer ds E0 J1 O2); try assumption. rewrite CH2. exact CH. }
    split; intros s; specialize (I1 s); specialize (I2 s); rewrite exec_cons by exact DF.
    + rewrite lexec_cons. rewrite CH in I1.
      assert (Y : forall o s1, exec x s = (o, s1) -> o <> Norm -> fin C outer (leave_scope ds o s1) = Some (match lexec l1 s with (ONorm, s2) => lexec_list l2 s2 | p => p end)).
      { intros o s1 EX NN. rewrite EX in I1. rewrite (fin_leave _ _ _ _ _ _ _ _ T D NN I1). f_equal.
        destruct (lexec l1 s) as [[] s2] eqn:LX; try reflexivity. exfalso.
        apply (fin_norm _ (c_lev C)) in I1; [inv I1; contradiction|rewrite <- CH; exact T'|rewrite <- CH; exact F']. }
      destruct (exec x s) as [o s1] eqn:EX.
      destruct o; try (apply Y; [reflexivity|discriminate]).
      cbn [fin] in I1. inv I1. apply REST. exact I2.
    + destruct (exec x s) as [o s1] eqn:EX. cbn [fst] in I2.
      assert (Y : o <> Norm -> side C (a_jend a') (a_brks a') (a_rets a') (fst (leave_scope ds o s1))).
      { intros NN. destruct (leave_out ds dch o s1 D) as [s' [Z|[Z|Z]]]; rewrite Z; try exact I. cbn [fst].
        eapply side_mono2; [exact NN|exact I2|exact G4|exact G5]. }
      destruct o; try (apply Y; discriminate). apply REST. exact I2.
Qed.

Lemma case_empty : forall df r k, case_body (KEmpty df r) k = match case_body r (pred k) with Some (j, b) => Some (S j, b) | None => None end.
Proof. reflexivity. Qed.
Lemma case_next : forall df b r k, case_body (KBody df b r) (S k) = match case_body r k with Some (j, b) => Some (S j, b) | None => None end.
Proof. reflexivity. Qed.

Lemma r_nil : R KNil.
Proof.
  intros C l w i d a lc j a' H O J T F B W M CNT. cbn [ana_cases] in H. inv H. split; [reflexivity|]. split; [cbn; intros; lia|]. discriminate.
Qed.
Lemma r_empty : forall df r, R r -> R (KEmpty df r).
Proof.
  intros df r IH C l w i d a lc j a' H O J T F B W M CNT. cbn [ana_cases] in H. bind H. cbv zeta in H. bind H. destruct v0 as [[lr jr] a1]. inv H.
  cbn [num_cases] in CNT.
  destruct (IH _ _ _ _ _ _ _ _ _ E0 O J T F B W M ltac:(lia)) as (R1 & R2 & R3).
  split; [|split].
  - intros k. rewrite case_empty. change (lcase_body (LKEmpty df lr) k) with (lcase_body lr (pred k)). destruct (case_body r (pred k)) as [[]|] eqn:CB; [discriminate|]. intros _. apply R1. exact CB.
  - intros k K JJ. rewrite case_empty. cbn [num_cases] in K. 
    revert JJ.
    change (match sw_count w with 0 => false | S m' => i =? m' end) with (S i =? sw_count w).
    destruct (Nat.eqb_spec (S i) (sw_count w)) as [Q1|Q1]; [discriminate|intros JJ].
    specialize (R2 (pred k) ltac:(lia) JJ). destruct (case_body r (pred k)) as [[]|]; [discriminate|contradiction].
  - intros k i' b CB. rewrite case_empty in CB. change (lcase_body (LKEmpty df lr) k) with (lcase_body lr (pred k)).
    destruct (case_body r (pred k)) as [[i2 b2]|] eqn:CB2; [|discriminate]. inv CB. destruct (R3 _ _ _ CB2) as (lb & d' & X1 & X2 & X3).
    replace (i + S i2) with (S i + i2) by lia. exists lb, d'. split; [exact X1|]. split; [exact X2|]. intros s.
    eapply side_mono; [exact (X3 s)| |apply incl_refl|apply incl_refl]. match goal with |- (if ?b then _ else _) = _ -> _ => destruct b; [discriminate|auto] end.
Qed.
Lemma r_body : forall df b, Q b -> forall r, R r -> R (KBody df b r).
Proof.
  intros df b IHb r IH C l w i d a lc j a' H O J T F B W M CNT. cbn [ana_cases] in H. bind H. cbv zeta in H. bind H. destruct v0 as [lb a1].
  destruct (length _ =? length _); [|discriminate]. bind H. destruct v0 as [[lr jr] a2]. inv H.
  cbn [num_cases] in CNT. cbn [flow_ok_cases] in O. apply andb_true_iff in O. destruct O as [O O2]. fold (snext i (sw_count w)) in E0.
  assert (T' : tok (case_cx C l w (snext i (sw_count w)) v) (S (c_lev C)) (length (a_chain a))) by (apply tok_case; [exact T|exact W|lia]).
  destruct (IHb _ _ _ _ [] (a_chain a) [] E0 eq_refl O eq_refl (eq_sym M) (Forall2_nil _)) as [I1 I2]; [exact T'|exact F|exact B|].
  pose proof (proj1 (proj2 grows_all) _ _ _ _ _ E0 (ex_intro _ _ T') B) as (G1 & _ & _).
  destruct (IH _ _ _ _ _ _ _ _ _ E1 O2 eq_refl T F G1 W M ltac:(lia)) as (R1 & R2 & R3).
  pose proof (proj1 (proj2 (proj2 grows_all)) _ _ _ _ _ _ _ _ _ _ E1 (ex_intro _ _ T) W G1) as (_ & G2 & G3).
  split; [|split].
  - intros [|k]; [discriminate|]. rewrite case_next. change (lcase_body (LKBody df lb lr) (S k)) with (lcase_body lr k).
    destruct (case_body r k) as [[]|] eqn:CB; [discriminate|]. intros _. apply R1. exact CB.
  - intros [|k] K JJ; [discriminate|]. rewrite case_next. cbn [num_cases] in K. apply andb_true_iff in JJ. destruct JJ as [_ JJ].
    specialize (R2 k ltac:(lia) JJ). destruct (case_body r k) as [[]|]; [discriminate|contradiction].
  - intros [|k] i' b' CB.
    + change (case_body (KBody df b r) 0) with (Some (0, exec_list b [])) in CB. inv CB. rewrite Nat.add_0_r. exists (lexec_list lb), v. split; [reflexivity|]. split; [exact I1|].
      intros s. eapply side_mono; [exact (I2 s)| |exact G2|exact G3]. intros JJ. apply andb_true_iff in JJ. apply JJ.
    + rewrite case_next in CB. change (lcase_body (LKBody df lb lr) (S k)) with (lcase_body lr k).
      destruct (case_body r k) as [[i2 b2]|] eqn:CB2; [|discriminate]. inv CB. destruct (R3 _ _ _ CB2) as (lb2 & d' & X1 & X2 & X3).
      replace (i + S i2) with (S i + i2) by lia. exists lb2, d'. split; [exact X1|]. split; [exact X2|]. intros s.
      eapply side_mono; [exact (X3 s)| |apply incl_refl|apply incl_refl]. intros JJ. apply andb_true_iff in JJ. apply JJ.
Qed.

Lemma eval_mac : forall b s, eval (RMac b) s = match exec_list b [] s with
      | (Norm, s1) => (EOk, s1)
      | (Ret f, s1) => ((if f then EFault else EOk), s1)
      | (Stop, s1) => (ELeave Stop, s1)
      | (Fuel, s1) => (ELeave Fuel, s1)
      | (_, s1) => (ELeave Bad, s1)
      end.
Proof. reflexivity. Qed.
Lemma leval_mac : forall b s, leval (LMac b) s = match lexec_list b s with
      | (ONorm, s1) => (LeOk, s1)
      | (ORet f, s1) => ((if f then LeFault else LeOk), s1)
      | (o, s1) => (LeLeave o, s1)
      end.
Proof. reflexivity. Qed.

Lemma x_mac : forall b, Q b -> X (RMac b).
Proof.
  intros b IH C a e opt a' H O T F B s. cbn [ana_exp] in H. bind H. bind H. destruct v0 as [l1 a1]. cbv zeta in H. destruct (_ && _); [discriminate|]. inv H.
  destruct (IH _ _ _ _ [] [] [] E0 eq_refl O eq_refl eq_refl (Forall2_nil _)) as [I1 I2]; [apply tok_none; reflexivity|constructor|intros n []|].
  specialize (I1 s). specialize (I2 s). rewrite eval_mac, leval_mac.
  destruct (exec_list b [] s) as [o s1]. cbn [fst] in I2.
  destruct o as [|j|j| |j t c|f| | |]; cbn [fin jump] in I1; try discriminate I1.
  - inv I1. cbn [side] in I2. split; [reflexivity|]. rewrite I2. destruct (a_rets a1); auto.
  - unfold brk_target in I1. destruct j; discriminate I1.
  - unfold cnt_target in I1. destruct j; discriminate I1.
  - unfold sw_target in I1. destruct j; discriminate I1.
  - cbn [c_indefer macro_cx] in I1. cbn [clean length Nat.sub firstn filter bodies] in I1. unfold clean in I1. cbn [length Nat.sub firstn filter bodies] in I1.
    change (lexec_list LNil s1) with (ONorm, s1) in I1. cbn [then_jump] in I1. inv I1. cbn [side c_inmacro macro_cx] in I2. destruct I2 as (y & Y1 & Y2).
    assert (Z : a_jend (match a_rets a1 with [] => if a_jend a1 then with_jend true a else a | _ => a end) = a_jend a) by (destruct (a_rets a1); [contradiction|reflexivity]).
    assert (Z' : forall x : bool, (if match a_rets a1 with [] => a_jend a1 | _ :: _ => false end then with_jend true a else a) = match a_rets a1 with [] => if a_jend a1 then with_jend true a else a | _ => a end)
      by (intros _; destruct (a_rets a1); reflexivity).
    rewrite (Z' true). destruct f.
    + split; [reflexivity|]. split; [|rewrite Z; auto]. unfold rets_opt. apply existsb_exists. exists y. auto.
    + split; [reflexivity|]. rewrite Z. auto.
  - inv I1. split; [discriminate|]. split; [exists OStop, s1; split; reflexivity|]. intros; exact I.
  - inv I1. split; [discriminate|]. split; [exists OFuel, s1; split; reflexivity|]. intros; exact I.
Qed.

Lemma x_rethrow : forall r, X r -> X (RRethrow r).
Proof.
  intros r IH C a e opt a' H O T F B s. cbn [ana_exp] in H. bind H. destruct v as [[e1 o1] a1].
  destruct (_ || _) eqn:ID; [discriminate|]. apply orb_false_elim in ID. destruct ID as [ID OP]. apply negb_false_iff in OP. subst o1. bind H.
  pose proof (ana_exp_chain _ _ _ _ _ _ E) as CH. rewrite CH in E0. apply get_ok in E0. destruct E0 as [_ ->].
  specialize (IH _ _ _ _ _ E O T F B s).
  change (eval (RRethrow r) s) with (match eval r s with (EFault, s1) => (ELeave (Ret true), s1) | e => e end).
  assert (HH : exists ls, e = LRethrow e1 ls /\ ls = bodies (filter (wanted false) (firstn (length (a_chain a) - 0) (a_chain a))) /\ opt = false /\ a_jend a' = a_jend a1 /\
     incl (a_rets a1) (a_rets a') /\ (if c_inmacro C then retsok (a_rets a') true else c_opt C = true)).
  { destruct (c_inmacro C).
    - inv H. eexists. split; [reflexivity|]. split; [reflexivity|]. split; [reflexivity|]. split; [reflexivity|]. cbn [a_rets with_rets]. split; [apply incl_tl, incl_refl|].
      eexists. split; [left; reflexivity|reflexivity].
    - destruct (c_opt C); inv H. eexists. split; [reflexivity|]. split; [reflexivity|]. split; [reflexivity|]. split; [reflexivity|]. split; [apply incl_refl|reflexivity]. }
  destruct HH as (ls & -> & LS & -> & JE & IN & RO).
  change (leval (LRethrow e1 ls) s) with (match leval e1 s with
      | (LeFault, s1) => match then_jump (ORet true) (lexec_list ls s1) with (o, s2) => (LeLeave o, s2) end
      | r => r
      end).
  destruct (eval r s) as [[| |o] s1].
  - destruct IH as [-> IH]. rewrite JE. auto.
  - destruct IH as (-> & _). split; [discriminate|]. split.
    + cbn [fin jump]. rewrite ID, LS. unfold clean. cbn [is_success negb].
      destruct (then_jump _ _) as [lo s2]. exists lo, s2. auto.
    + intros je brks. cbn [side]. destruct (c_inmacro C); [exact RO|]. intros _. exact RO.
  - destruct IH as (NN & (lo & s2 & -> & IH) & SD). split; [exact NN|]. split; [exists lo, s2; auto|]. intros je brks.
    eapply side_mono2; [exact NN|exact (SD je brks)|apply incl_refl|exact IN].
Qed.

Lemma x_or : forall n r, X r -> X (ROr n r).
Proof.
  intros n r IH C a e opt a' H O T F B s. cbn [ana_exp] in H. bind H. destruct v as [[e1 o1] a1]. inv H.
  cbn [flow_ok_exp] in O. apply andb_true_iff in O. destruct O as [O NM]. pose proof (no_macro_jend _ _ _ _ _ _ NM E) as JE.
  change (eval (ROr n r) s) with (let '(b, s1) := ask_bool orc s in let s2 := emit (EvCond n b) s1 in if b then (EOk, s2) else eval r s2).
  change (leval (LOr n e1) s) with (let '(b, s1) := ask_bool orc s in let s2 := emit (EvCond n b) s1 in if b then (LeOk, s2) else leval e1 s2).
  destruct (ask_bool orc s) as [[] s1]; cbv zeta.
  - split; [reflexivity|]. rewrite JE. auto.
  - exact (IH _ _ _ _ _ E O T F B _).
Qed.

Lemma sim : (forall x, P x) /\ (forall b, Q b) /\ (forall cs, R cs) /\ (forall r, X r).
Proof.
  apply flow_mind.
  - exact p_expr.
  - exact p_noret.
  - exact p_block.
  - exact p_defer.
  - exact p_if.
  - exact p_ifelse.
  - exact p_for.
  - exact p_switch.
  - exact p_break.
  - exact p_cont.
  - exact p_next.
  - exact p_nextto.
  - exact p_retvoid.
  - exact p_ret.
  - exact q_nil.
  - exact q_cons.
  - exact r_nil.
  - exact r_empty.
  - exact r_body.
  - intros n C a e opt a' H O T F B s. inv H. change (eval (RVal n) s) with (EOk, emit (EvDo n) s). split; [reflexivity|auto].
  - intros n C a e opt a' H O T F B s. inv H.
    change (eval (ROpt n) s) with (let '(f, s1) := ask_bool orc s in ((if f then EFault else EOk), emit (EvOpt n f) s1)).
    change (leval (LOpt n) s) with (let '(f, s1) := ask_bool orc s in ((if f then LeFault else LeOk), emit (EvOpt n f) s1)).
    destruct (ask_bool orc s) as [[] s1]; auto.
  - intros n C a e opt a' H O T F B s. inv H. change (eval (RFault n) s) with (EFault, emit (EvFault n) s). split; [reflexivity|split; [reflexivity|auto]].
  - exact x_mac.
  - exact x_rethrow.
  - exact x_or.
Qed.

Lemma fun_sim : forall is_void is_opt b l, ana_fun is_void is_opt b = AOk l -> flow_ok_list b = true ->
  compiled_run N orc is_void l = reference_run N orc is_void b /\
  fst (reference_run N orc is_void b) <> FellOff /\ fst (reference_run N orc is_void b) <> Meaningless /\
  (is_opt = false -> fst (reference_run N orc is_void b) <> Returned true).
Proof.
  intros is_void is_opt b l H O. unfold ana_fun in H. bind H. bind H. destruct v0 as [l1 a1]. destruct (_ && _) eqn:MR; [discriminate|]. inv H.
  destruct (proj1 (proj2 sim) b _ _ _ _ [] [] [] E0 eq_refl O eq_refl eq_refl (Forall2_nil _)) as [I1 I2]; [apply tok_none; reflexivity|constructor|intros n []|].
  specialize (I1 (St 0 [])). specialize (I2 (St 0 [])). unfold compiled_run, reference_run.
  destruct (exec_list b [] (St 0 [])) as [o s1]. cbn [fst] in I2.
  destruct o as [|j|j| |j t c|f| | |]; cbn [fin jump] in I1; try discriminate I1.
  - inv I1. cbn [side] in I2. rewrite I2 in MR. cbn [negb andb] in MR. destruct is_void; [|discriminate MR].
    cbn [fst]. split; [reflexivity|]. split; [discriminate|]. split; [discriminate|]. discriminate.
  - unfold brk_target in I1. destruct j; discriminate I1.
  - unfold cnt_target in I1. destruct j; discriminate I1.
  - unfold sw_target in I1. destruct j; discriminate I1.
  - cbn [c_indefer] in I1. unfold clean in I1. cbn [length Nat.sub firstn filter bodies] in I1.
    change (lexec_list LNil s1) with (ONorm, s1) in I1. cbn [then_jump] in I1. inv I1. cbn [side c_inmacro c_opt] in I2. cbn [fst].
    split; [reflexivity|]. split; [discriminate|]. split; [discriminate|]. intros IO X0. inv X0. specialize (I2 eq_refl). discriminate I2.
  - inv I1. cbn [fst]. split; [reflexivity|]. split; [discriminate|]. split; [discriminate|]. discriminate.
  - inv I1. cbn [fst]. split; [reflexivity|]. split; [discriminate|]. split; [discriminate|]. discriminate.
Qed.
End Sim.

(** ** The analysis does not die *)
Lemma abind_nf : forall {A B} (e : ares A) (f : A -> ares B), e <> AFatal -> (forall v, e = AOk v -> f v <> AFatal) -> abind e f <> AFatal.
Proof. intros A B [v| |] f H K; cbn; [apply K; reflexivity|discriminate|contradiction]. Qed.
Lemma enter_nf : forall d, S d <= 256 -> enter d <> AFatal.
Proof. intros d H. unfold enter, max_scope_depth. destruct (Nat.ltb_spec 256 (S d)); [lia|discriminate]. Qed.
Lemma enter_ok : forall d v, enter d = AOk v -> v = S d.
Proof. intros d v H. unfold enter in H. destruct (_ <? _); inv H. reflexivity. Qed.
Lemma get_nf : forall c m b, m <= length c -> get_defers c m b <> AFatal.
Proof. intros c m b H. unfold get_defers. rewrite above_firstn by exact H. discriminate. Qed.

Definition NP (x : stmt) : Prop := forall C a, c_depth C + 2 * nesting x <= 256 -> 1 <= c_depth C -> full_cases x = true ->
  tok C (c_lev C) (length (a_chain a)) -> ana C a x <> AFatal.
Definition NQ (b : stmts) : Prop := forall C a, c_depth C + 2 * nesting_list b <= 256 -> 1 <= c_depth C -> full_cases_list b = true ->
  tok C (c_lev C) (length (a_chain a)) -> c_start C <= length (a_chain a) -> ana_list C a b <> AFatal.
Definition NR (cs : cases) : Prop := forall C l w i d a, cs = KNil \/ S d + 2 * nesting_cases cs <= 256 -> full_cases_cases cs = true ->
  tok C (c_lev C) (length (a_chain a)) -> sw_lev w = c_lev C -> sw_mark w = length (a_chain a) -> ana_cases C l w i d a cs <> AFatal.
Definition NX (r : rexp) : Prop := forall C a, c_depth C + 2 * nesting_exp r <= 256 -> 1 <= c_depth C -> full_cases_exp r = true -> ana_exp C a r <> AFatal.

Lemma chain_len : forall x C a l a', ana C a x = AOk (l, a') -> is_defer x = false -> length (a_chain a') =? length (a_chain a) = true.
Proof. intros x C a l a' H D. rewrite (ana_chain _ _ _ _ _ H D). apply Nat.eqb_refl. Qed.
Lemma chain_grow : forall x C a l a', ana C a x = AOk (l, a') -> length (a_chain a) <= length (a_chain a').
Proof.
  intros x C a l a' H. destruct (is_defer x) eqn:D; [|rewrite (ana_chain _ _ _ _ _ H D); lia].
  destruct x; try discriminate D. destruct (ana_defer_chain _ _ _ _ _ _ H) as [d E]. rewrite E. cbn. lia.
Qed.

Lemma alive :
  (forall x, NP x) /\ (forall b, NQ b) /\ (forall cs, NR cs) /\ (forall r, NX r).
Proof.
  Ltac wrap := cbn [ana]; apply abind_nf; [|intros []; discriminate].
  Ltac ent H v := apply abind_nf; [apply enter_nf; lia|intros v H; apply enter_ok in H; subst v].
  apply flow_mind.
  - intros r IH C a D P FC T. wrap. apply abind_nf; [apply IH; [exact D|exact P|exact FC]|]. intros [[e o] a1] _. destruct o; discriminate.
  - intros n C a D P FC T. wrap. discriminate.
  - intros b IH C a D P FC T. cbn [nesting] in D. wrap. ent H v. apply abind_nf.
    + apply IH; [cbn; lia|cbn; lia|exact FC|apply tok_scope; exact T|cbn; lia].
    + intros [l1 a1] E. rewrite (ana_list_chain _ _ _ _ _ [] (a_chain a) E eq_refl eq_refl), Nat.eqb_refl. discriminate.
  - intros k b IH C a D P FC T. cbn [nesting] in D. wrap. ent H v. ent H v. apply abind_nf.
    + apply IH; [cbn; lia|cbn; lia|exact FC|apply tok_none; reflexivity|cbn; lia].
    + intros [l1 a1] E. rewrite (ana_list_chain _ _ _ _ _ [] [] E eq_refl eq_refl). discriminate.
  - intros l c th IH C a D P FC T. cbn [nesting] in D. wrap. destruct (is_defer th) eqn:DF; [discriminate|]. ent H v. ent H v. apply abind_nf.
    + apply IH; [cbn; lia|cbn; lia|exact FC|apply tok_if; [exact T|apply le_n]].
    + intros [l1 a1] E. pose proof (chain_len _ _ _ _ _ E DF) as L. cbn [a_chain with_jend] in L. rewrite L. discriminate.
  - intros l c th IH el IH2 C a D P FC T. cbn [nesting] in D. cbn [full_cases] in FC. apply andb_true_iff in FC. destruct FC as [FC FC2]. wrap.
    destruct (_ && _) eqn:BL; [|discriminate]. apply andb_true_iff in BL. destruct BL as [BL BL2].
    assert (D1 : is_defer th = false) by (destruct th; try reflexivity; discriminate BL).
    assert (D2 : is_defer el = false) by (destruct el; try reflexivity; discriminate BL2).
    ent H v. ent H v. apply abind_nf.
    + apply IH; [cbn; lia|cbn; lia|exact FC|apply tok_if; [exact T|apply le_n]].
    + intros [l1 a1] E. pose proof (ana_chain _ _ _ _ _ E D1) as CH. cbn [a_chain with_jend] in CH. rewrite CH, Nat.eqb_refl. apply abind_nf.
      * apply IH2; [cbn; lia|cbn; lia|exact FC2|cbn [a_chain with_jend]; rewrite CH; apply tok_if; [exact T|apply le_n]].
      * intros [l2 a2] E2. pose proof (ana_chain _ _ _ _ _ E2 D2) as CH2. cbn [a_chain with_jend] in CH2. rewrite CH2, CH, Nat.eqb_refl. discriminate.
  - intros l is_do c incr body IH C a D P FC T. cbn [nesting] in D. wrap. destruct (is_defer body) eqn:DF; [discriminate|]. destruct (is_do && _); [discriminate|].
    ent H v. ent H v. apply abind_nf.
    + apply IH; [cbn; lia|cbn; lia|exact FC|apply tok_for; [exact T|apply le_n]].
    + intros [l1 a1] E. pose proof (chain_len _ _ _ _ _ E DF) as L. cbn [a_chain with_jend] in L. rewrite L. discriminate.
  - intros l n ae cs IH C a D P FC T. cbn [nesting] in D. wrap. ent H v. destruct (1 <? _); [discriminate|]. apply abind_nf.
    + apply IH; [right; lia|exact FC|exact T|reflexivity|reflexivity].
    + intros [[lc j] a1] _. discriminate.
  - intros l C a D P FC T. wrap. fold (brk_target C l). destruct (brk_target C l) as [t|] eqn:E; [|discriminate]. apply (tok_brk _ _ _ T) in E.
    apply abind_nf; [apply get_nf; lia|discriminate].
  - intros l C a D P FC T. wrap. fold (cnt_target C l). destruct (cnt_target C l) as [t|] eqn:E; [|discriminate]. apply (tok_cnt _ _ _ T) in E.
    apply abind_nf; [apply get_nf; lia|discriminate].
  - intros C a D P FC T. wrap. destruct (c_nxt C) as [[w [k|]]|] eqn:E; try discriminate.
    assert (S0 : sw_target C None = Some w) by (unfold sw_target; rewrite E; reflexivity). apply (tok_sw _ _ _ T) in S0.
    apply abind_nf; [apply get_nf; lia|discriminate].
  - intros l t C a D P FC T. wrap. fold (sw_target C l). destruct (sw_target C l) as [w|] eqn:E; [|discriminate]. apply (tok_sw _ _ _ T) in E.
    apply abind_nf; [apply get_nf; lia|]. intros ls _. destruct t; [destruct (sw_default w)|destruct (_ <? _)|]; discriminate.
  - intros C a D P FC T. wrap. destruct (c_indefer C); [discriminate|]. destruct (_ && _); [discriminate|]. apply abind_nf; [apply get_nf; lia|discriminate].
  - intros r IH C a D P FC T. wrap. destruct (c_indefer C); [discriminate|]. apply abind_nf; [apply IH; [exact D|exact P|exact FC]|].
    intros [[e o] a1] _. destruct (_ && _); [discriminate|]. apply abind_nf; [apply get_nf; lia|]. intros ls _.
    apply abind_nf; [|discriminate]. destruct (_ && _); [apply get_nf; lia|discriminate].
  - intros C a D P FC T CS. cbn [ana_list]. rewrite above_firstn by exact CS. discriminate.
  - intros x IH r IHr C a D P FC T CS. cbn [nesting_list full_cases_list ana_list] in *. apply andb_true_iff in FC. destruct FC as [FC FC2]. apply abind_nf.
    + apply IH; [lia|exact P|exact FC|exact T].
    + intros [l1 a1] E. pose proof (chain_grow _ _ _ _ _ E) as G. apply abind_nf; [|intros []; discriminate].
      apply IHr; [lia|exact P|exact FC2|eapply tok_mono; [exact T|lia|exact G]|lia].
  - intros C l w i d a D FC T W M. discriminate.
  - intros df r IH C l w i d a D FC T W M. destruct D as [D|D]; [discriminate D|]. cbn [ana_cases]. cbn [full_cases_cases] in FC. destruct r; try discriminate FC.
    ent H v. apply abind_nf; [|intros [[]]; discriminate]. apply IH; [left; reflexivity|reflexivity|exact T|exact W|exact M].
  - intros df b IHb r IH C l w i d a D FC T W M. destruct D as [D|D]; [discriminate D|]. cbn [ana_cases nesting_cases full_cases_cases] in *.
    apply andb_true_iff in FC. destruct FC as [FC FC2]. ent H v. cbv zeta. apply abind_nf.
    + apply IHb; [cbn; lia|cbn; lia|exact FC|cbn [a_chain with_jend]; apply tok_case; [exact T|exact W|lia]|cbn; lia].
    + intros [lb a1] E. pose proof (ana_list_chain _ _ _ _ _ [] (a_chain a) E eq_refl) as CH. cbn [c_start case_cx] in CH. rewrite CH by (symmetry; exact M). rewrite Nat.eqb_refl.
      apply abind_nf; [|intros [[]]; discriminate]. apply IH; [right; lia|exact FC2|exact T|exact W|exact M].
  - discriminate.
  - discriminate.
  - discriminate.
  - intros b IH C a D P FC. cbn [nesting_exp full_cases_exp ana_exp] in *. apply abind_nf; [apply enter_nf; lia|]. intros v _. apply abind_nf.
    + apply IH; [cbn; lia|cbn; lia|exact FC|apply tok_none; reflexivity|cbn; lia].
    + intros [l1 a1] _. cbv zeta. destruct (_ && _); discriminate.
  - intros r IH C a D P FC. cbn [nesting_exp full_cases_exp ana_exp] in *. apply abind_nf; [apply IH; [exact D|exact P|exact FC]|].
    intros [[e o] a1] _. destruct (_ || _); [discriminate|]. apply abind_nf; [apply get_nf; lia|]. intros ls _. destruct (c_inmacro C); [discriminate|]. destruct (c_opt C); discriminate.
  - intros n r IH C a D P FC. cbn [nesting_exp full_cases_exp ana_exp] in *. apply abind_nf; [apply IH; [exact D|exact P|exact FC]|]. intros [[]]; discriminate.
Qed.

Lemma fun_alive : forall is_void is_opt b, nesting_list b <= 127 -> full_cases_list b = true -> ana_fun is_void is_opt b <> AFatal.
Proof.
  intros is_void is_opt b NE FC. unfold ana_fun. apply abind_nf; [apply enter_nf; lia|]. intros v H. apply enter_ok in H. subst v. apply abind_nf.
  - apply (proj1 (proj2 alive)); [cbn; lia|cbn; lia|exact FC|apply tok_none; reflexivity|cbn; lia].
  - intros [l a] _. destruct (_ && _); discriminate.
Qed.
