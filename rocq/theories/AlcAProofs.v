(** The arena allocator keeps its promises. *)
From Coq Require Import ZArith Bool List Lia ZifyBool.
From Verif Require Import Word AlcSpec AlcMem AlcAModel AlcASpec AlcProofs.
Import ListNotations.
Open Scope Z_scope.

Record ainv (l : ledger) (s : arena) : Prop := {
  ai_base : 0 <= ar_base s;
  ai_top : ar_base s + ar_len s <= 2 ^ 62;
  ai_used : 0 <= ar_used s <= ar_len s;
  ai_blocks : forall p d, In (p, d) l -> ar_base s + 8 <= p /\ p + size_of d <= ar_base s + ar_used s /\ 0 < size_of d /\
                ld8 (ar_mem s) (p - 8) = size_of d /\ bytes_at (ar_mem s) p (size_of d) = d;
  ai_apart : xapart 8 l }.

Lemma ainv_true l s : ainv l s -> true_of (arena_owns s) (ar_mem s) l.
Proof.
  intros [B T U K X]. split; [|apply (xapart_apart 8); [lia|exact X]]. apply Forall_forall. intros [p d] I.
  destruct (K p d I) as (K1 & K2 & K3 & K4 & K5). cbn [fst snd]. split; [exact K5|]. unfold arena_owns. lia.
Qed.
Lemma ainv_ptr l s p d e : ainv l s -> In (p, d) l -> In (p, e) l -> d = e.
Proof.
  intros [B T U K X] I J. destruct (xapart_in 8 l X p d p e I J) as [E|E]; [congruence|].
  destruct (K _ _ I) as (_ & _ & P1 & _). destruct (K _ _ J) as (_ & _ & P2 & _). unfold apart in E. lia.
Qed.
(** A change of memory that spares the headers and contents of the blocks held. *)
Lemma ainv_frame l s used m' : ainv l s -> 0 <= used <= ar_len s ->
  (forall p d x, In (p, d) l -> p - 8 <= x < p + size_of d -> m' x = ar_mem s x) ->
  (forall p d, In (p, d) l -> p + size_of d <= ar_base s + used) -> ainv l (ar_with s used m').
Proof.
  intros [B T U K X] HU F E. constructor; cbn [ar_with ar_base ar_len ar_used ar_mem]; try assumption.
  intros p d I. destruct (K p d I) as (K1 & K2 & K3 & K4 & K5). repeat split; try assumption.
  - apply E. exact I.
  - rewrite <- K4. apply ld8_ext. intros x Hx. apply (F p d); [exact I|lia].
  - rewrite <- K5 at 2. apply bytes_at_ext. intros i Hi. apply (F p d); [exact I|lia].
Qed.
Lemma ainv_sub l l' s : ainv l s -> (forall b, In b l' -> In b l) -> xapart 8 l' -> ainv l' s.
Proof. intros [B T U K X] S Y. constructor; try assumption. intros p d I. apply K. apply S. exact I. Qed.
Lemma ainv_new l s p n used : ainv l s -> 0 < n -> 0 <= used <= ar_len s -> ar_base s + 8 <= p -> p + n <= ar_base s + used ->
  ld8 (ar_mem s) (p - 8) = n ->
  (forall q e, In (q, e) l -> apart (p - 8) (n + 8) (q - 8) (size_of e + 8)) ->
  (forall q e, In (q, e) l -> q + size_of e <= ar_base s + used) ->
  ainv ((p, bytes_at (ar_mem s) p n) :: l) (ar_with s used (ar_mem s)).
Proof.
  intros [B T U K X] N HU P1 P2 H A E. constructor; cbn [ar_with ar_base ar_len ar_used ar_mem]; try assumption.
  - intros q d [I|I].
    + injection I as <- <-. rewrite bytes_at_size by lia. repeat split; try lia; try assumption.
    + destruct (K q d I) as (K1 & K2 & K3 & K4 & K5). repeat split; try assumption. apply E. exact I.
  - apply xapart_cons; [|exact X]. intros q e I. rewrite bytes_at_size by lia. apply A. exact I.
Qed.

(** [acquire]: fails, or returns a block above everything in use. *)
Lemma acquire_spec l s n z al : ainv l s -> 0 < n < W -> align_ok al ->
  arena_acquire s n z al = Done s AFail \/
  exists p m', arena_acquire s n z al = Done (ar_with s (p + n - ar_base s) m') (APtr p) /\
    p mod alignment_for al = 0 /\ ar_base s + ar_used s + 8 <= p < ar_base s + ar_used s + 8 + alignment_for al /\ p + n <= ar_base s + ar_len s /\
    (forall x, x < ar_base s + ar_used s -> m' x = ar_mem s x) /\ ld8 m' (p - 8) = n /\
    (z = true -> Forall (fun v => v = 0) (bytes_at m' p n)).
Proof.
  intros [B T U K X] N A. unfold arena_acquire. cbv zeta. destruct (Z.ltb_spec (ar_len s) n) as [L|L]; [left; reflexivity|].
  destruct (alignment_for_cases al A) as (k & Hk & E). pose proof (pow2_bound k Hk) as PB. rewrite E. rewrite W_eq in N.
  pose proof W_eq as WE.
  rewrite (wadd_small (ar_base s) (ar_used s)) by lia. rewrite (wadd_small (_ + _) 8) by lia.
  destruct (align_up_props (ar_base s + ar_used s + 8) (2 ^ k)) as [M1 M2]; [lia|lia|lia|].
  set (p := aligned_offset (ar_base s + ar_used s + 8) (2 ^ k)) in *.
  rewrite (wsub_small p (ar_base s)) by lia. rewrite (wadd_small (p - ar_base s) n) by lia.
  destruct (Z.ltb_spec (ar_len s) (p - ar_base s + n)) as [Y|Y]; [left; reflexivity|right].
  rewrite (wsub_small p 8) by lia. unfold ar_inside.
  replace (negb ((ar_base s <=? p - 8) && (p - 8 + 8 <=? ar_base s + ar_len s))) with false by lia.
  destruct z.
  - replace ((ar_base s <=? p) && (p + n <=? ar_base s + ar_len s)) with true by lia.
    exists p, (mclear (st8 (ar_mem s) (p - 8) n) p n). split; [do 2 f_equal; lia|]. repeat split; try lia; try assumption.
    + intros x Hx. rewrite mclear_out, st8_out by lia. reflexivity.
    + rewrite (ld8_ext _ (st8 (ar_mem s) (p - 8) n)) by (intros x Hx; apply mclear_out; lia). apply ld8_st8. lia.
    + intros _. apply bytes_at_Forall. intros i Hi. apply mclear_in. lia.
  - exists p, (st8 (ar_mem s) (p - 8) n). split; [do 2 f_equal; lia|]. repeat split; try lia; try assumption.
    + intros x Hx. rewrite st8_out by lia. reflexivity.
    + apply ld8_st8. lia.
Qed.

Definition same_arena (s s' : arena) : Prop := ar_safe s' = ar_safe s /\ ar_base s' = ar_base s /\ ar_len s' = ar_len s.

Lemma arena_step_ok l s o : ainv l s -> legal l o -> arena_allow s l o ->
  exists s' a, arena_step s o = Done s' a /\ fair (arena_below s) l o a (ar_mem s') /\
    ainv (updated (arena_below s) l o a (ar_mem s')) s' /\ same_arena s s'.
Proof.
  intros I. assert (WE := W_eq). pose proof I as [B T U K X]. destruct o as [n z al|p n al|p al|p off v| |k]; cbn [legal arena_allow arena_step].
  - (* acquire *) intros [N A] _. destruct (acquire_spec l s n z al I) as [E|(p & m' & E & M1 & M2 & M3 & M4 & M5 & M6)]; [lia|exact A| |].
    + exists s, AFail. split; [exact E|]. split; [exact Logic.I|]. split; [exact I|]. repeat split.
    + exists (ar_with s (p + n - ar_base s) m'), (APtr p). split; [exact E|].
      assert (I1 : ainv l (ar_with s (p + n - ar_base s) m')).
      { apply ainv_frame; [exact I| |intros q d x Q Hx|intros q d Q]; destruct (alignment_for_cases al A) as (k & Hk & EE); pose proof (pow2_bound k Hk).
        - lia.
        - apply M4. destruct (K q d Q). lia.
        - destruct (K q d Q). lia. }
      split; [|split; [|repeat split]].
      * cbn [fair ar_mem ar_with]. split; [apply aligned_to_intro; assumption|]. split; [|exact M6].
        intros q d Q. destruct (K q d Q). right. lia.
      * cbn [updated ar_mem ar_with].
        apply (ainv_new l (ar_with s (p + n - ar_base s) m') p n (p + n - ar_base s)); cbn [ar_mem ar_with ar_base ar_used ar_len]; try lia; try assumption.
        { intros q d Q. destruct (K q d Q). right. lia. }
        { intros q d Q. destruct (K q d Q). lia. }
  - (* resize *) intros (P & N & A) [SF AL]. destruct (in_map_fst _ _ P) as (d & D). specialize (AL d D).
    destruct (K p d D) as (K1 & K2 & K3 & K4 & K5). destruct (alignment_for_cases al A) as (k & Hk & EK). pose proof (pow2_bound k Hk) as PB.
    unfold arena_resize. cbv zeta. replace (p <? ar_base s) with false by lia.
    destruct (Z.ltb_spec (ar_len s) n) as [L|L].
    { exists s, AFail. split; [reflexivity|]. split; [exact Logic.I|]. split; [exact I|]. repeat split. }
    rewrite (wsub_small p 8) by lia. rewrite K4. unfold ar_top.
    replace (ar_safe s && (ar_len s <=? ar_used s)) with false by (destruct (ar_safe s); [specialize (SF eq_refl)|]; lia).
    rewrite (wadd_small (ar_base s) (ar_used s)) by lia. rewrite (wadd_small p (size_of d)) by lia.
    rewrite ptr_aligned_mod by (try assumption; lia).
    assert (OTH : forall q e, In (q, e) (forget p l) -> In (q, e) l /\ apart (p - 8) (size_of d + 8) (q - 8) (size_of e + 8)).
    { intros q e Q. apply forget_in in Q. destruct Q as [Q NE]. split; [exact Q|].
      destruct (xapart_in 8 l X p d q e D Q) as [EE|EE]; [congruence|exact EE]. }
    assert (I0 : ainv (forget p l) s).
    { apply (ainv_sub l); [exact I|intros b Q; apply filter_In in Q; tauto|apply xapart_filter; exact X]. }
    assert (UQ : forall d', In (p, d') l -> d' = d) by (intros d' D'; apply (ainv_ptr l s p d' d I D' D)).
    destruct ((ar_base s + ar_used s =? p + size_of d) && (p mod alignment_for al =? 0)) eqn:TP.
    + assert (TP1 : ar_base s + ar_used s = p + size_of d) by lia. assert (TP2 : p mod alignment_for al = 0) by lia.
      assert (IN8 : ar_inside s (p - 8) 8 = true) by (unfold ar_inside; lia).
      set (nu := p + n - ar_base s).
      assert (G : p + n <= ar_base s + ar_len s -> exists s' a, Done (ar_with s nu (st8 (ar_mem s) (p - 8) n)) (APtr p) = Done s' a /\
                fair (arena_below s) l (Resize p n al) a (ar_mem s') /\
                ainv (updated (arena_below s) l (Resize p n al) a (ar_mem s')) s' /\ same_arena s s').
      { intros FIT. eexists _, _. split; [reflexivity|]. cbn [ar_mem ar_with fair updated].
        assert (CUT : forall q e, In (q, e) (forget p l) -> q + size_of e <= p - 8).
        { intros q e Q. destruct (OTH q e Q) as [Q1 Q2]. destruct (K q e Q1). unfold apart in Q2. lia. }
        split; [|split; [|repeat split]].
        - split; [apply aligned_to_intro; assumption|]. split.
          + intros q e Q. pose proof (CUT q e Q). right. lia.
          + intros d' D'. rewrite (UQ d' D'). rewrite <- K5 at 2. rewrite bytes_at_firstn by lia. apply bytes_at_ext. intros i Hi. apply st8_out. lia.
        - assert (I1 : ainv (forget p l) (ar_with s nu (st8 (ar_mem s) (p - 8) n))).
          { apply ainv_frame; [exact I0|unfold nu; lia|intros q e x Q Hx|intros q e Q]; pose proof (CUT q e Q).
            - apply st8_out. lia.
            - unfold nu. lia. }
          apply (ainv_new (forget p l) (ar_with s nu (st8 (ar_mem s) (p - 8) n)) p n nu); cbn [ar_mem ar_with ar_base ar_used ar_len]; try (unfold nu; lia); try assumption.
          + apply ld8_st8. lia.
          + intros q e Q. pose proof (CUT q e Q). right. lia.
          + intros q e Q. pose proof (CUT q e Q). unfold nu. lia. }
      destruct (Z.leb_spec n (size_of d)) as [SM|SM].
      * rewrite IN8. rewrite (wsub_small (size_of d) n) by lia. rewrite (wsub_small (ar_used s)) by lia.
        replace (ar_used s - (size_of d - n)) with nu by (unfold nu; lia). apply G. lia.
      * rewrite (wadd_small (ar_used s) n) by lia. rewrite (wsub_small (_ + n)) by lia.
        replace (ar_used s + n - size_of d) with nu by (unfold nu; lia).
        destruct (Z.ltb_spec (ar_len s) nu) as [Y|Y].
        { exists s, AFail. split; [reflexivity|]. split; [exact Logic.I|]. split; [exact I|]. repeat split. }
        rewrite IN8. apply G. unfold nu in Y. lia.
    + destruct (acquire_spec l s n false (alignment_for al) I) as [E|(q & m' & E & M1 & M2 & M3 & M4 & M5 & M6)]; [lia| | |].
      { right. exists k. split; [lia|exact EK]. }
      { rewrite E. exists s, AFail. split; [reflexivity|]. split; [exact Logic.I|]. split; [exact I|]. repeat split. }
      rewrite E. rewrite alignment_for_idem in M1, M2 by exact A.
      assert (OLD : q + size_of d <= ar_base s + ar_len s).
      { destruct AL as [AL|[[AL1 AL2]|AL]]; [lia| |].
        - apply aligned_to_mod in AL2; [|exact A]. lia.
        - unfold alignment_for in M2. destruct (Z.ltb_spec al 16); lia. }
      set (s1 := ar_with s (q + n - ar_base s) m') in *.
      replace (ar_inside s1 q (size_of d)) with true by (unfold ar_inside, s1; cbn [ar_with ar_base ar_len]; lia).
      eexists _, _. split; [reflexivity|]. unfold s1. cbn [ar_mem ar_with fair updated ar_used ar_safe ar_base ar_len].
      assert (LO : forall x, x < ar_base s + ar_used s -> mcopy m' q p (size_of d) x = ar_mem s x).
      { intros x Hx. rewrite mcopy_out by lia. apply M4. exact Hx. }
      assert (BL : forall q' e, In (q', e) (forget p l) -> q' + size_of e <= ar_base s + ar_used s).
      { intros q' e Q. destruct (OTH q' e Q) as [Q1 _]. destruct (K q' e Q1). lia. }
      split; [|split; [|repeat split]].
      * split; [apply aligned_to_intro; assumption|]. split.
        { intros q' e Q. pose proof (BL q' e Q). right. lia. }
        { intros d' D'. rewrite (UQ d' D'). rewrite <- K5 at 3. rewrite bytes_at_firstn by lia. apply bytes_at_ext. intros i Hi.
          rewrite mcopy_in by lia. replace (p + (q + i - q)) with (p + i) by lia. apply M4. lia. }
      * assert (I1 : ainv (forget p l) (ar_with s (q + n - ar_base s) (mcopy m' q p (size_of d)))).
        { apply ainv_frame; [exact I0|lia|intros q' e x Q Hx|intros q' e Q]; pose proof (BL q' e Q).
          - apply LO. lia.
          - lia. }
        apply (ainv_new (forget p l) (ar_with s (q + n - ar_base s) (mcopy m' q p (size_of d))) q n (q + n - ar_base s)); cbn [ar_mem ar_with ar_base ar_used ar_len]; try lia; try assumption.
        { rewrite <- M5. apply ld8_ext. intros x Hx. apply mcopy_out. lia. }
        { intros q' e Q. pose proof (BL q' e Q). right. lia. }
        { intros q' e Q. pose proof (BL q' e Q). lia. }
  - (* release *) intros P SF. destruct (in_map_fst _ _ P) as (d & D). destruct (K p d D) as (K1 & K2 & K3 & K4 & K5).
    unfold arena_release. cbv zeta. replace (p <? ar_base s) with false by lia. rewrite (wsub_small p 8) by lia. rewrite K4. unfold ar_top.
    replace (ar_safe s && (ar_len s <=? ar_used s)) with false by (destruct (ar_safe s); [specialize (SF eq_refl)|]; lia).
    rewrite (wadd_small (ar_base s) (ar_used s)) by lia. rewrite (wadd_small p (size_of d)) by lia.
    assert (I0 : ainv (forget p l) s).
    { apply (ainv_sub l); [exact I|intros b Q; apply filter_In in Q; tauto|apply xapart_filter; exact X]. }
    destruct (Z.eqb_spec (p + size_of d) (ar_base s + ar_used s)) as [TP|TP].
    + rewrite (wadd_small (size_of d) 8) by lia. rewrite (wsub_small (ar_used s)) by lia. eexists _, _. split; [reflexivity|].
      split; [exact Logic.I|]. split; [|repeat split]. cbn [updated]. apply ainv_frame; [exact I0|lia|reflexivity|].
      intros q e Q. apply forget_in in Q. destruct Q as [Q NE]. destruct (xapart_in 8 l X p d q e D Q) as [EE|EE]; [congruence|].
      destruct (K q e Q). unfold apart in EE. lia.
    + exists s, ADone. split; [reflexivity|]. split; [exact Logic.I|]. split; [exact I0|]. repeat split.
  - (* store *) intros [(d & D & O) V] _. destruct (K p d D) as (K1 & K2 & K3 & K4 & K5). eexists _, _. split; [reflexivity|].
    split; [exact Logic.I|]. split; [|repeat split]. cbn [updated ar_mem ar_with].
    constructor; cbn [ar_with ar_base ar_len ar_used ar_mem]; try assumption; [|apply xapart_scribble; exact X].
    intros q f Q. apply scribble_in in Q. destruct Q as (e & Q & SZ & N1 & N2). destruct (K q e Q) as (L1 & L2 & L3 & L4 & L5).
    rewrite SZ. repeat split; try assumption.
    + rewrite <- L4. apply ld8_ext. intros x Hx. apply st1_out. destruct (xapart_in 8 l X p d q e D Q) as [EE|EE]; [injection EE as <- <-; lia|].
      unfold apart in EE. lia.
    + destruct (Z.eq_dec q p) as [->|NE].
      * rewrite (N2 eq_refl). rewrite (ainv_ptr l s p e d I Q D). apply bytes_at_put; assumption.
      * rewrite (N1 NE). rewrite <- L5 at 2. apply bytes_at_ext. intros i Hi. apply st1_out.
        destruct (xapart_in 8 l X p d q e D Q) as [EE|EE]; [congruence|]. unfold apart in EE. lia.
  - (* mark *) intros _ _. exists s, (AMark (ar_used s)). split; [reflexivity|]. split; [|split; [exact I|repeat split]].
    cbn [fair]. split; [lia|]. intros q d Q. destruct (K q d Q). unfold arena_below. lia.
  - (* reset *) intros HK AK. replace (ar_safe s && (ar_used s <? k)) with false by (destruct (ar_safe s); lia).
    eexists _, _. split; [reflexivity|]. split; [exact Logic.I|]. split; [|repeat split]. cbn [updated].
    apply ainv_frame; [|lia|reflexivity|].
    + apply (ainv_sub l); [exact I|intros b Q; apply filter_In in Q; tauto|apply xapart_filter; exact X].
    + intros q d Q. apply filter_In in Q. destruct Q as [_ Q]. unfold arena_below in Q. cbn [fst snd] in Q. lia.
Qed.

Lemma arena_honest ops : forall l s, ainv l s ->
  honest arena_step ar_mem arena_owns arena_below arena_allow l s ops.
Proof.
  induction ops as [|o ops IH]; intros l s I; [exact Logic.I|]. cbn [honest]. intros L A.
  destruct (arena_step_ok l s o I L A) as (s' & a & ST & F & I' & _).
  exists s', a. split; [exact ST|]. split; [exact F|]. cbv zeta. split; [apply ainv_true; exact I'|]. apply IH; exact I'.
Qed.
