(** Writers and queues. *)
From Coq Require Import ZArith Bool List Lia.
From Verif Require Import IoModel IoSpec IoProofs.
Import ListNotations.

Lemma store_mid a b x : length x <= length b -> store (a ++ b) (length a) x = Got (a ++ x ++ skipn (length x) b).
Proof.
  intros L. unfold store. rewrite app_length. replace (length a + length x <=? length a + length b) with true by (symmetry; apply Nat.leb_le; lia).
  f_equal. rewrite firstn_app, Nat.sub_diag, firstn_all. cbn [firstn]. rewrite app_nil_r. f_equal. f_equal.
  rewrite skipn_app. rewrite skipn_all2 by lia. cbn. f_equal. lia.
Qed.
Lemma slice_mid a b c : slice (a ++ b ++ c) (length a) (length b) = Got b.
Proof.
  unfold slice. rewrite !app_length. replace (length a + length b <=? length a + (length b + length c)) with true by (symmetry; apply Nat.leb_le; lia).
  f_equal. rewrite skipn_app, skipn_all, Nat.sub_diag. cbn. rewrite firstn_app, Nat.sub_diag, firstn_all. cbn. apply app_nil_r.
Qed.

(** ** WriteBuffer: the buffer is what is buffered followed by free bytes. *)
Definition wb_inv (b : writebuffer) (t p : list Z) : Prop := 0 < length (wb_bytes b) /\ wb_snk b = Snk t [] /\ exists post, wb_bytes b = p ++ post /\ wb_i b = length p.
Lemma wb_pending_ok b t p : wb_inv b t p -> exists b', wb_pending b = (Got tt, b') /\ wb_inv b' (t ++ p) [] /\ length (wb_bytes b') = length (wb_bytes b).
Proof.
  intros (L & S & post & E & I). unfold wb_pending. rewrite E, I. pose proof (slice_mid [] p post) as M. cbn [app length] in M. rewrite M, S, snk_full, Nat.sub_diag. cbn [Nat.eqb].
  eexists; split; [reflexivity|]. split; [|cbn; congruence]. unfold wb_inv; cbn. rewrite <- E. split; [exact L|]. split; [reflexivity|]. exists (wb_bytes b). auto.
Qed.
Lemma wb_put_ok b t p l : wb_inv b t p -> wb_i b + length l <= length (wb_bytes b) ->
  exists b', wb_put b l = (Got (length l), b') /\ wb_inv b' t (p ++ l).
Proof.
  intros (L & S & post & E & I) F. rewrite E, I, app_length in F. unfold wb_put. rewrite E, I, store_mid by lia. eexists; split; [reflexivity|].
  unfold wb_inv; cbn. rewrite E in L. rewrite !app_length in *. rewrite skipn_length. repeat split; try lia; auto. eexists. rewrite <- app_assoc. split; reflexivity.
Qed.
Lemma wb_step_ok o b t p : wb_inv b t p -> exists b' t' p', wb_step o b = (Got (length (bytes_of o)), b') /\ wb_inv b' t' p' /\ t' ++ p' = t ++ p ++ bytes_of o /\ (o = Flush -> p' = []).
Proof.
  intros I. destruct o as [l|c|]; cbn [bytes_of length]; unfold wb_step.
  - destruct (Nat.ltb_spec (length l) (length (wb_bytes b) - wb_i b)) as [L|L].
    + destruct (wb_put_ok b t p l I) as (b' & E & I'); [lia|]. exists b', t, (p ++ l). split; [exact E|]. split; [exact I'|]. split; [reflexivity|discriminate].
    + destruct (wb_pending_ok b t p I) as (b' & E & I' & L'). rewrite E. destruct I' as (L2 & S & post & E2 & I2). cbn in E2, I2.
      destruct (Nat.leb_spec (length (wb_bytes b')) (length l)) as [M|M].
      * rewrite S, snk_full. exists (WB (Snk ((t ++ p) ++ l) []) (wb_bytes b') (wb_i b')), ((t ++ p) ++ l), [].
        split; [reflexivity|]. split; [unfold wb_inv; cbn; eauto 6|]. split; [rewrite app_nil_r; symmetry; apply app_assoc|discriminate].
      * destruct (wb_put_ok b' (t ++ p) [] l) as (b2 & P & I3); [unfold wb_inv; cbn; eauto 6|rewrite I2; cbn; lia|].
        unfold wb_put in P. rewrite I2 in P. destruct (store (wb_bytes b') 0 l); try discriminate. cbn [Nat.add] in P.
        exists b2, (t ++ p), l. split; [exact P|]. split; [exact I3|]. split; [symmetry; apply app_assoc|discriminate].
  - destruct (Nat.eqb_spec (length (wb_bytes b) - wb_i b) 0) as [L|L].
    + destruct (wb_pending_ok b t p I) as (b' & E & I' & L'). rewrite E. pose proof I' as (L2 & S & post & E2 & I2).
      destruct (wb_put_ok b' (t ++ p) [] [c] I') as (b2 & P & I3); [rewrite I2; cbn; lia|].
      exists b2, (t ++ p), [c]. split; [exact P|]. split; [exact I3|]. split; [symmetry; apply app_assoc|discriminate].
    + destruct (wb_put_ok b t p [c] I) as (b' & E & I'); [cbn; lia|]. exists b', t, (p ++ [c]). split; [exact E|]. split; [exact I'|]. split; [reflexivity|discriminate].
  - destruct (wb_pending_ok b t p I) as (b' & E & I' & L'). rewrite E. exists b', (t ++ p), []. split; [reflexivity|]. split; [exact I'|]. split; [now rewrite !app_nil_r|reflexivity].
Qed.
Lemma wb_run_ok ops : forall b t p, wb_inv b t p -> exists b' t' p', run wb_step ops b = (all_accepted ops, b') /\ wb_inv b' t' p' /\ t' ++ p' = t ++ p ++ written ops.
Proof.
  induction ops as [|o ops IH]; intros b t p I; [exists b, t, p; cbn; rewrite app_nil_r; auto|].
  destruct (wb_step_ok o b t p I) as (b1 & t1 & p1 & E & I1 & C & _). destruct (IH b1 t1 p1 I1) as (b2 & t2 & p2 & E2 & I2 & C2).
  exists b2, t2, p2. cbn [run]. rewrite E, E2. split; [reflexivity|]. split; [exact I2|]. rewrite C2, app_assoc, C. unfold written. cbn [map concat]. now rewrite !app_assoc.
Qed.
Lemma wb_init_inv t bytes : bytes <> [] -> wb_inv (wb_init (Snk t []) bytes) t [].
Proof. intros B. unfold wb_inv; cbn. split; [destruct bytes; [congruence|cbn; lia]|]. eauto. Qed.
Lemma writebuffer_ok t bytes ops : bytes <> [] ->
  exists b, run wb_step ops (wb_init (Snk t []) bytes) = (all_accepted ops, b) /\
    taken (wb_snk b) ++ firstn (wb_i b) (wb_bytes b) = t ++ written ops.
Proof.
  intros B. destruct (wb_run_ok ops _ t [] (wb_init_inv t bytes B)) as (b & t' & p' & E & (L & S & post & F & I) & C). exists b. split; [exact E|].
  rewrite S, F, I. cbn [taken]. rewrite firstn_app, Nat.sub_diag, firstn_all. cbn. rewrite app_nil_r. exact C.
Qed.
Lemma writebuffer_flush t bytes ops : bytes <> [] ->
  exists b, run wb_step (ops ++ [Flush]) (wb_init (Snk t []) bytes) = (all_accepted (ops ++ [Flush]), b) /\ taken (wb_snk b) = t ++ written ops.
Proof.
  intros B. destruct (wb_run_ok ops _ t [] (wb_init_inv t bytes B)) as (b & t' & p' & E & I & C).
  destruct (wb_step_ok Flush b t' p' I) as (b1 & t1 & p1 & E1 & I1 & C1 & F). rewrite (F eq_refl) in *. exists b1.
  assert (A : forall (l : list wop) s, run wb_step (l ++ [Flush]) s = let (rs, s1) := run wb_step l s in let (r, s2) := wb_step Flush s1 in (rs ++ [r], s2)).
  { clear. induction l as [|o l IH]; intros s; cbn [run app]; [destruct (wb_step Flush s); reflexivity|]. destruct (wb_step o s) as [r s1]. rewrite IH.
    destruct (run wb_step l s1) as [rs s2]. destruct (wb_step Flush s2). reflexivity. }
  rewrite A, E, E1. split; [unfold all_accepted; now rewrite map_app|]. destruct I1 as (_ & S1 & _). rewrite S1. cbn [taken]. cbn [bytes_of] in C1. rewrite !app_nil_r in C1. rewrite C1. exact C.
Qed.

(** ** ByteBuffer *)
Definition bb_inv (b : bytebuffer) (q : list Z) (last : option Z) (budget : nat) : Prop :=
  exists pre post, bb_bytes b = pre ++ q ++ post /\ bb_r b = length pre /\ bb_w b = length pre + length q /\ budget <= length post /\ 1 <= bb_max b /\
    match last with None => bb_last b = false | Some c => bb_last b = true /\ exists pre', pre = pre' ++ [c] end.
Lemma bb_put_ok b q last n l : bb_inv b q last (length l + n) -> exists b', bb_put b l = (Got [], b') /\ bb_inv b' (q ++ l) last n.
Proof.
  intros (pre & post & E & R & W & B & M & L). unfold bb_put. rewrite E, W, app_assoc, <- app_length, store_mid by lia. eexists; split; [reflexivity|].
  exists pre, (skipn (length l) post). cbn. rewrite skipn_length, !app_length. repeat split; auto; try lia. now rewrite <- !app_assoc.
Qed.
Lemma bb_shrink_ok b q last n : bb_inv b q last n -> bb_r b <> 0 \/ bb_r b < bb_max b -> exists b', bb_shrink b = Got b' /\ bb_inv b' q last n.
Proof.
  intros (pre & post & E & R & W & B & M & L) Z. unfold bb_shrink. destruct (Nat.leb_spec (bb_max b) (bb_r b)) as [G|G]; [|exists b; split; [reflexivity|exists pre, post; auto 10]].
  destruct (Nat.eqb_spec (bb_r b) 0) as [X|X]; [lia|]. destruct (exists_last (l := pre)) as (pre' & c & ->); [intros ->; cbn in R; lia|].
  rewrite app_length in *. cbn [length] in *. replace (bb_w b - bb_r b) with (length q) by lia. replace (bb_r b - 1) with (length pre') by lia.
  rewrite E. replace ((pre' ++ [c]) ++ q ++ post) with (pre' ++ (c :: q) ++ post) by (now rewrite <- !app_assoc).
  pose proof (slice_mid pre' (c :: q) post) as S. cbn [length] in S. cbn [Nat.add]. rewrite S.
  pose proof (store_mid [] (pre' ++ (c :: q) ++ post) (c :: q)) as T. cbn [app length] in T |- *. rewrite T by (rewrite app_length; cbn; rewrite app_length; lia).
  assert (SL : length (skipn (1 + length q) (pre' ++ c :: q ++ post)) = length pre' + length post) by (rewrite skipn_length, !app_length; cbn [length]; rewrite app_length; lia).
  cbn [Nat.add] in SL. set (tail := skipn _ (pre' ++ c :: q ++ post)) in *. clearbody tail. eexists; split; [reflexivity|]. exists [c], tail. cbn [bb_bytes bb_r bb_w bb_max bb_last bb_alloc app length].
  repeat split; auto; try lia. destruct last as [d|]; [|exact L]. destruct L as (L1 & p2 & L2). split; [exact L1|]. apply app_inj_tail in L2 as (-> & ->). exists []. reflexivity.
Qed.
Lemma bb_read_ok b q last n m : bb_inv b q last n -> q <> [] ->
  let l := firstn m q in
  exists b', slice (bb_bytes b) (bb_r b) (Nat.min (bb_w b - bb_r b) m) = Got l /\
   bb_shrink (BB (bb_alloc b) (bb_max b) (bb_bytes b) (bb_r b + Nat.min (bb_w b - bb_r b) m) (bb_w b) (0 <? Nat.min (bb_w b - bb_r b) m)) = Got b' /\
   bb_inv b' (skipn m q) (match rev l with [] => None | c :: _ => Some c end) n.
Proof.
  intros (pre & post & E & R & W & B & M & L) Q l. replace (bb_w b - bb_r b) with (length q) by lia.
  assert (LL : length l = Nat.min (length q) m) by (unfold l; rewrite firstn_length; lia).
  pose proof (firstn_skipn m q) as FS. fold l in FS. rewrite <- LL.
  edestruct (bb_shrink_ok (BB (bb_alloc b) (bb_max b) (bb_bytes b) (bb_r b + length l) (bb_w b) (0 <? length l)) (skipn m q) (match rev l with [] => None | c :: _ => Some c end) n) as (b' & S & I').
  - exists (pre ++ l), post. cbn. rewrite app_length. assert (length (skipn m q) = length q - length l) by (rewrite skipn_length; lia).
    repeat split; auto; try lia. { rewrite E, <- FS at 1. now rewrite <- !app_assoc. }
    destruct (rev l) as [|c r] eqn:V.
    + apply (f_equal (@rev Z)) in V. rewrite rev_involutive in V. now rewrite V.
    + assert (V' : l = rev r ++ [c]) by (rewrite <- (rev_involutive l), V; reflexivity). split; [rewrite V', app_length; cbn [length]; rewrite Nat.add_comm; reflexivity|].
      exists (pre ++ rev r). rewrite V'. now rewrite app_assoc.
  - cbn. lia.
  - exists b'. split; [|auto]. rewrite E, R, <- FS, <- app_assoc. apply slice_mid.
Qed.
Lemma bb_run_ok ops : forall b q last, bb_inv b q last (put_total ops) -> fifo q last ops (fst (run bb_step ops b)).
Proof.
  induction ops as [|o ops IH]; intros b q last I; [exact Logic.I|]. cbn [put_total] in I. cbn [run].
  assert (W : forall l, o = BWrite l \/ (exists c, o = BWriteByte c /\ l = [c]) -> exists b', bb_step o b = (Got [], b') /\ bb_inv b' (q ++ l) last (put_total ops)).
  { intros l O. assert (P : put_of o = length l) by (destruct O as [->|(c & -> & ->)]; reflexivity). rewrite P in I.
    destruct (bb_put_ok b q last _ l I) as (b' & E & I'). exists b'. split; [|exact I']. rewrite <- E.
    destruct I as (pre & post & E1 & R & W & B & _). assert (G : length (bb_bytes b) - bb_w b = length post) by (rewrite E1, W, !app_length; lia).
    destruct O as [->|(c & -> & ->)]; unfold bb_step; rewrite G.
    - replace (length post <? length l) with false by (symmetry; apply Nat.ltb_ge; lia). reflexivity.
    - cbn in B. replace (length post =? 0) with false by (symmetry; apply Nat.eqb_neq; lia). reflexivity. }
  destruct o as [l|c|m| |].
  - destruct (W l (or_introl eq_refl)) as (b' & E & I'). rewrite E. specialize (IH b' _ _ I'). destruct (run bb_step ops b') as [rs s]. exact IH.
  - destruct (W [c] (or_intror (ex_intro _ c (conj eq_refl eq_refl)))) as (b' & E & I'). rewrite E. specialize (IH b' _ _ I'). destruct (run bb_step ops b') as [rs s]. exact IH.
  - clear W. cbn [put_of Nat.add] in I. unfold bb_step at 1. destruct q as [|x q].
    + destruct I as (pre & post & E & R & W & B & M & L). cbn in W. replace (bb_w b - bb_r b =? 0) with true by (symmetry; apply Nat.eqb_eq; lia).
      cbv beta iota zeta. match goal with |- context [run bb_step ops ?s] => assert (I' : bb_inv s [] None (put_total ops)) by (exists pre, post; cbn; auto 10); specialize (IH s _ _ I'); destruct (run bb_step ops s) as [rs s2] end.
      cbn [fst fifo] in *. auto.
    + pose proof I as (pre & post & E & R & W & _). cbn [length] in W. replace (bb_w b - bb_r b =? 0) with false by (symmetry; apply Nat.eqb_neq; lia).
      destruct (bb_read_ok b (x :: q) last _ m I ltac:(discriminate)) as (b' & S & T & I'). rewrite S, T. specialize (IH b' _ _ I').
      destruct (run bb_step ops b') as [rs s2]. cbn [fst fifo] in *. auto.
  - clear W. cbn [put_of Nat.add] in I. unfold bb_step at 1. destruct q as [|x q].
    + destruct I as (pre & post & E & R & W & B & M & L). cbn in W. replace (bb_w b - bb_r b =? 0) with true by (symmetry; apply Nat.eqb_eq; lia).
      cbv beta iota zeta. match goal with |- context [run bb_step ops ?s] => assert (I' : bb_inv s [] None (put_total ops)) by (exists pre, post; cbn; auto 10); specialize (IH s _ _ I'); destruct (run bb_step ops s) as [rs s2] end.
      cbn [fst fifo] in *. auto.
    + pose proof I as (pre & post & E & R & W & _). cbn [length] in W. replace (bb_w b - bb_r b =? 0) with false by (symmetry; apply Nat.eqb_neq; lia).
      destruct (bb_read_ok b (x :: q) last _ 1 I ltac:(discriminate)) as (b' & S & T & I'). replace (Nat.min (bb_w b - bb_r b) 1) with 1 in * by lia.
      cbn [Nat.ltb Nat.leb] in T. rewrite S, T. specialize (IH b' _ _ I').
      destruct (run bb_step ops b') as [rs s2]. cbn [fst fifo] in *. auto.
  - clear W. cbn [put_of Nat.add] in I. unfold bb_step at 1. destruct last as [c|].
    + destruct I as (pre & post & E & R & W & B & M & L1 & pre' & ->). rewrite L1. cbn [negb]. rewrite app_length in *. cbn [length] in *.
      replace (bb_r b =? 0) with false by (symmetry; apply Nat.eqb_neq; lia).
      cbv beta iota zeta. match goal with |- context [run bb_step ops ?s] => assert (I' : bb_inv s (c :: q) None (put_total ops)) end.
      { exists pre', post. cbn. repeat split; auto; try lia. rewrite E. now rewrite <- !app_assoc. }
      match goal with |- context [run bb_step ops ?s] => specialize (IH s _ _ I'); destruct (run bb_step ops s) as [rs s2] end. cbn [fst fifo] in *. auto.
    + pose proof I as (pre & post & E & R & W & B & M & L1). rewrite L1. cbn [negb]. specialize (IH b _ _ I). destruct (run bb_step ops b) as [rs s2]. cbn [fst fifo] in *. auto.
Qed.
Lemma np2_ge x fuel : forall y, 1 <= y -> x <= y + fuel -> x <= np2 fuel y x.
Proof. induction fuel as [|f IH]; intros y Y H; cbn [np2]; destruct (Nat.ltb_spec y x); try lia. apply IH; lia. Qed.
Lemma next_power_ge x : x <= next_power_of_2 x.
Proof. apply np2_ge; lia. Qed.
Lemma bytebuffer_ok max cap ops : 1 <= max -> put_total ops <= Nat.max cap 16 -> fifo [] None ops (fst (run bb_step ops (bb_init max cap))).
Proof.
  intros M L. apply bb_run_ok. exists [], (repeat 0%Z (next_power_of_2 (Nat.max cap 16))). cbn. repeat split; auto. rewrite repeat_length.
  pose proof (next_power_ge (Nat.max cap 16)). lia.
Qed.
Lemma bytebuffer_fixed_ok buf ops : buf <> [] -> put_total ops <= length buf -> fifo [] None ops (fst (run bb_step ops (bb_init_with_buffer buf))).
Proof. intros M L. apply bb_run_ok. exists [], buf. cbn. repeat split; auto. destruct buf; [congruence|cbn; lia]. Qed.

(** ** ByteWriter *)
Definition bw_inv (b : bytewriter) (v : list Z) : Prop := exists post, bw_bytes b = v ++ post /\ bw_i b = length v.
Lemma bw_view_inv b v : bw_inv b v -> bw_view b = v.
Proof. intros (post & E & I). unfold bw_view. rewrite E, I, firstn_app, Nat.sub_diag, firstn_all. cbn. apply app_nil_r. Qed.
Lemma bw_ensure_ok b v len : bw_inv b v -> bw_alloc b = true -> length v <= len -> exists b', bw_ensure b len = (Got tt, b') /\ bw_inv b' v /\ bw_alloc b' = true /\ len <= length (bw_bytes b') /\ bw_i b' = bw_i b.
Proof.
  intros (post & E & I) A L. unfold bw_ensure. rewrite A. destruct (Nat.ltb_spec len (length (bw_bytes b))) as [G|G].
  - exists b. split; [reflexivity|]. split; [exists post; auto|]. repeat split; auto; lia.
  - cbn [negb]. pose proof (next_power_ge (Nat.max len 16)) as N. set (k := next_power_of_2 (Nat.max len 16)) in *. clearbody k.
    eexists; split; [reflexivity|]. cbn. assert (LB : length (bw_bytes b) <= k) by lia.
    assert (R : resize (bw_bytes b) k = v ++ post ++ repeat 0%Z (k - length (bw_bytes b))) by (unfold resize; rewrite firstn_all2 by lia; rewrite E at 1; now rewrite <- app_assoc).
    split; [|split; [reflexivity|split; [|reflexivity]]]. { eexists; cbn; split; [exact R|exact I]. }
    unfold resize. rewrite app_length, firstn_length, repeat_length. lia.
Qed.
Lemma bw_step_ok o b v : bw_inv b v -> bw_alloc b = true -> o <> Write [] -> exists b', bw_step o b = (Got (length (bytes_of o)), b') /\ bw_inv b' (v ++ bytes_of o) /\ bw_alloc b' = true.
Proof.
  intros I A N. destruct o as [l|c|]; cbn [bytes_of length]; unfold bw_step.
  - destruct (bw_ensure_ok b v (bw_i b + length l) I A) as (b' & E & I' & A' & L' & X); [destruct I as (? & ? & ->); lia|]. rewrite E.
    assert (length l <> 0) by (destruct l; [congruence|cbn; lia]).
    destruct I' as (post & E' & Y). replace (bw_i b' <? length (bw_bytes b')) with true by (symmetry; apply Nat.ltb_lt; lia).
    assert (length l <= length post) by (rewrite E', app_length in L'; lia).
    rewrite E', Y, store_mid by lia. eexists; split; [reflexivity|]. split; [|exact A']. exists (skipn (length l) post). cbn. rewrite app_length, <- app_assoc. auto.
  - destruct (bw_ensure_ok b v (bw_i b + 1) I A) as (b' & E & I' & A' & L' & X); [destruct I as (? & ? & ->); lia|]. rewrite E.
    destruct I' as (post & E' & Y). assert (1 <= length post) by (rewrite E', app_length in L'; lia).
    rewrite E', Y, store_mid by (cbn; lia). eexists; split; [reflexivity|]. split; [|exact A']. exists (skipn 1 post). cbn [bw_bytes bw_i length app]. rewrite app_length, <- app_assoc. auto.
  - exists b. rewrite app_nil_r. auto.
Qed.
Lemma bytewriter_ok ops : forall b v, bw_inv b v -> bw_alloc b = true -> ~ In (Write []) ops ->
  exists b', run bw_step ops b = (all_accepted ops, b') /\ bw_inv b' (v ++ written ops).
Proof.
  induction ops as [|o ops IH]; intros b v I A N; [exists b; unfold written; cbn; rewrite app_nil_r; auto|].
  destruct (bw_step_ok o b v I A) as (b1 & E & I1 & A1); [intros ->; apply N; left; reflexivity|].
  destruct (IH b1 _ I1 A1) as (b2 & E2 & I2); [intros X; apply N; right; exact X|]. exists b2. cbn [run]. rewrite E, E2. split; [reflexivity|].
  unfold written in *. cbn [map concat]. now rewrite app_assoc.
Qed.
Lemma bytewriter_fixed_ok cap ops : forall b v, bw_inv b v -> bw_alloc b = false -> length (bw_bytes b) = cap ->
  let (rs, w) := fixed_answers (fun used n => used + n <? cap) (length v) ops in exists b', run bw_step ops b = (rs, b') /\ bw_inv b' (v ++ w).
Proof.
  induction ops as [|o ops IH]; intros b v I A L; [exists b; cbn; rewrite app_nil_r; auto|]. cbn [fixed_answers run].
  pose proof I as (post & E & X).
  assert (ST : if match o with Flush => true | _ => length v + length (bytes_of o) <? cap end
    then exists b', bw_step o b = (Got (length (bytes_of o)), b') /\ bw_inv b' (v ++ bytes_of o) /\ bw_alloc b' = false /\ length (bw_bytes b') = cap
    else bw_step o b = (Fault OUT_OF_SPACE, b)).
  { destruct o as [l|c|]; cbn [bytes_of length]; [| |exists b; rewrite app_nil_r; auto].
    - unfold bw_step, bw_ensure. rewrite L, X, A. destruct (Nat.ltb_spec (length v + length l) cap) as [G|G]; [|reflexivity].
      cbv iota beta. rewrite L, X. replace (length v <? cap) with true by (symmetry; apply Nat.ltb_lt; lia).
      rewrite E in *. rewrite app_length in L. rewrite store_mid by lia. eexists; split; [reflexivity|]. cbn. rewrite A. split; [|split; [reflexivity|]].
      + exists (skipn (length l) post). cbn. rewrite app_length, <- app_assoc. auto.
      + rewrite !app_length, skipn_length. lia.
    - unfold bw_step, bw_ensure. rewrite L, X, A. destruct (Nat.ltb_spec (length v + 1) cap) as [G|G]; [|reflexivity].
      cbv iota beta. rewrite X. rewrite E in *. rewrite app_length in L. rewrite store_mid by (cbn; lia). eexists; split; [reflexivity|]. cbn [bw_alloc bw_bytes]. rewrite A. split; [|split; [reflexivity|]].
      + exists (skipn 1 post). cbn [bw_bytes bw_i length app]. rewrite app_length, <- app_assoc. auto.
      + rewrite !app_length, skipn_length. cbn. lia. }
  destruct (match o with Flush => true | _ => length v + length (bytes_of o) <? cap end).
  - destruct ST as (b1 & E1 & I1 & A1 & L1). specialize (IH b1 _ I1 A1 L1). rewrite app_length in IH. destruct (fixed_answers (fun used n => used + n <? cap) (length v + length (bytes_of o)) ops) as [rs w].
    destruct IH as (b2 & E2 & I2). exists b2. rewrite E1, E2. split; [reflexivity|]. now rewrite app_assoc.
  - specialize (IH b v I A L). destruct (fixed_answers (fun used n => used + n <? cap) (length v) ops) as [rs w]. destruct IH as (b2 & E2 & I2). exists b2. rewrite ST, E2. auto.
Qed.
(** read_from of a stream that hands out all it is asked for. *)
Lemma bw_read_loop_ok fuel : forall b v data start, bw_inv b v -> bw_alloc b = true -> 1 <= length (bw_bytes b) -> length data < fuel ->
  exists r b', bw_read_loop fuel b (Src data []) start = (r, b', Src [] []) /\ bw_inv b' (v ++ data) /\ (r = Got (length v + length data - start) \/ r = Fault EOF).
Proof.
  induction fuel as [|f IH]; intros b v data start I A L F; [lia|]. cbn [bw_read_loop].
  assert (EN : exists b1, (if length (bw_bytes b) - bw_i b <? 16 then bw_ensure b (length (bw_bytes b) * 2) else (Got tt, b)) = (Got tt, b1) /\ bw_inv b1 v /\ bw_alloc b1 = true /\ bw_i b1 < length (bw_bytes b1)).
  { pose proof I as (post & E & X). assert (XL : length v <= length (bw_bytes b)) by (rewrite E, app_length; lia). destruct (Nat.ltb_spec (length (bw_bytes b) - bw_i b) 16) as [G|G].
    - destruct (bw_ensure_ok b v (length (bw_bytes b) * 2) I A ltac:(lia)) as (b1 & E1 & I1 & A1 & L1 & X1). exists b1. repeat split; auto. rewrite X1, X. lia.
    - exists b. repeat split; auto. lia. }
  destruct EN as (b1 & -> & I1 & A1 & L1). unfold src_read; cbn [rest plan tl]. destruct data as [|d data].
  - exists (Fault EOF), b1. rewrite app_nil_r. auto.
  - set (len := length (bw_bytes b1) - bw_i b1) in *. pose proof I1 as (post & E1 & X1). assert (PL : length post = len) by (unfold len; rewrite E1, app_length, X1; lia).
    assert (LL : length (firstn len (d :: data)) = Nat.min len (length (d :: data))) by apply firstn_length.
    rewrite E1, X1, store_mid by lia. set (l := firstn len (d :: data)) in *.
    assert (I2 : bw_inv (BW (v ++ l ++ skipn (length l) post) (length v + length l) (bw_alloc b1)) (v ++ l)).
    { exists (skipn (length l) post). cbn. rewrite app_length, <- app_assoc. auto. }
    destruct (Nat.ltb_spec (length l) len) as [G|G].
    + assert (LE : l = d :: data) by (unfold l; apply firstn_all2; lia). rewrite (skipn_all2 (d :: data)) by (cbn [length] in *; lia).
      eexists _, _. split; [reflexivity|]. rewrite LE in *. split; [exact I2|]. cbn [bw_i]. left. f_equal. 
    + assert (S : length (skipn len (d :: data)) < f) by (rewrite skipn_length; cbn [length] in *; lia).
      destruct (IH _ _ (skipn len (d :: data)) start I2 A1) as (r & b' & R1 & R2 & R3); [cbn; rewrite !app_length, skipn_length; lia|exact S|].
      exists r, b'. split; [exact R1|]. rewrite <- app_assoc in R2. unfold l in R2. rewrite firstn_skipn in R2. split; [exact R2|].
      destruct R3 as [-> | ->]; [left|right; reflexivity]. f_equal. rewrite app_length, skipn_length. cbn [length] in *. lia.
Qed.
Lemma read_from_ok b v data : bw_inv b v -> bw_alloc b = true ->
  exists r b', bw_read_from b (Src data []) = (r, b', Src [] []) /\ bw_inv b' (v ++ data) /\ (r = Got (length data) \/ r = Fault EOF).
Proof.
  intros I A. unfold bw_read_from.
  assert (EN : exists b1, (if length (bw_bytes b) =? 0 then bw_ensure b 16 else (Got tt, b)) = (Got tt, b1) /\ bw_inv b1 v /\ bw_alloc b1 = true /\ 1 <= length (bw_bytes b1)).
  { destruct (Nat.eqb_spec (length (bw_bytes b)) 0) as [Z|Z]; [|exists b; repeat split; auto; lia].
    pose proof I as (post & E & X). assert (length v <= 16) by (rewrite E, app_length in Z; lia).
    destruct (bw_ensure_ok b v 16 I A ltac:(lia)) as (b1 & E1 & I1 & A1 & L1 & X1). exists b1. repeat split; auto. lia. }
  destruct EN as (b1 & -> & I1 & A1 & L1). pose proof I1 as (post & E & X). cbn [rest].
  destruct (bw_read_loop_ok (S (length data)) b1 v data (bw_i b1) I1 A1 L1 ltac:(lia)) as (r & b' & R1 & R2 & R3). exists r, b'. split; [exact R1|]. split; [exact R2|].
  destruct R3 as [-> | ->]; [left|right; reflexivity]. f_equal. lia.
Qed.
