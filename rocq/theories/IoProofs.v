(** Readers. *)
From Coq Require Import ZArith Bool List Lia.
From Verif Require Import IoModel IoSpec.
Import ListNotations.

Lemma skipn_skipn {A} a : forall b (l : list A), skipn a (skipn b l) = skipn (a + b) l.
Proof. induction b as [|b IH]; intros l; [now rewrite Nat.add_0_r|]. rewrite Nat.add_succ_r. destruct l; cbn; [now rewrite skipn_nil|apply IH]. Qed.
Lemma firstn_add {A} n k : forall l : list A, firstn (n + k) l = firstn n l ++ firstn k (skipn n l).
Proof. induction n as [|n IH]; intros l; [reflexivity|]. destruct l; cbn; [now rewrite firstn_nil|]. f_equal. apply IH. Qed.
Lemma src_read_fair s m : fair s ->
  match src_read s m with
  | (Got l, s') => rest s <> [] /\ fits (Read m) l /\ rest s = l ++ rest s' /\ fair s'
  | (Fault EOF, s') => rest s = [] /\ s' = s
  | _ => False
  end.
Proof.
  intros F. unfold src_read. destruct (rest s) as [|c r] eqn:R; [auto|].
  destruct (plan s) as [|k p] eqn:P; cbn [rest plan tl fits]; (split; [discriminate|]); unfold fair; rewrite ?P; cbn [tl].
  - split; [split|]. { rewrite firstn_length; lia. } { intros M. destruct m; [lia|]. cbn. discriminate. }
    split; [symmetry; apply firstn_skipn|cbn; constructor].
  - unfold fair in F. rewrite P in F. pose proof (Forall_inv F). split; [split|].
    { rewrite firstn_length; lia. } { intros M. destruct k; [lia|]. destruct m; [lia|]. cbn. discriminate. }
    split; [symmetry; apply firstn_skipn|]. cbn. exact (Forall_inv_tail F).
Qed.
Lemma src_byte_fair s : fair s ->
  match src_read_byte s with
  | (Got c, s') => rest s = c :: rest s' /\ fair s'
  | (Fault EOF, s') => rest s = [] /\ s' = s
  | _ => False
  end.
Proof. intros F. unfold src_read_byte. destruct (rest s); cbn; auto. Qed.

(** A reader is honest when each call is. *)
Section Honest.
  Context {S : Type} (step : rop -> S -> out (list Z) * S) (again : bool) (inv : S -> Prop) (pending : S -> list Z).
  Hypothesis ok : forall o s, inv s ->
    match step o s with
    | (Got l, s') => fits o l /\ pending s = l ++ pending s' /\ inv s'
    | (Fault EOF, s') => pending s = [] /\ (again = true -> inv s' /\ pending s' = [])
    | _ => False
    end.
  Lemma run_honest ops : forall s, inv s -> honest again (pending s) ops (fst (run step ops s)).
  Proof.
    induction ops as [|o ops IH]; intros s I; [exact Logic.I|]. cbn [run]. specialize (ok o s I).
    destruct (step o s) as [[l|f|] s'].
    - destruct ok as (F & E & I'). specialize (IH s' I'). destruct (run step ops s') as [rs s2]. cbn [fst honest] in *. eauto 6.
    - destruct f; try contradiction. destruct ok as (E & G). destruct (run step ops s') as [rs s2] eqn:R. cbn [fst honest].
      split; [exact E|]. intros Ha. destruct (G Ha) as (I' & P'). specialize (IH s' I'). rewrite R, P' in IH. exact IH.
    - contradiction.
  Qed.
End Honest.

(** ** ReadBuffer *)
Definition rb_inv (b : readbuffer) : Prop := rb_r b <= rb_w b <= length (rb_bytes b) /\ 0 < length (rb_bytes b) /\ fair (rb_src b).
Definition rb_pending (b : readbuffer) : list Z := firstn (rb_w b - rb_r b) (skipn (rb_r b) (rb_bytes b)) ++ rest (rb_src b).

Lemma rb_take_ok b m : rb_inv b -> match rb_take b m with
    | (Got l, b') => length l <= m /\ (0 < m -> rb_r b < rb_w b -> l <> []) /\ rb_pending b = l ++ rb_pending b' /\ rb_inv b'
    | _ => False end.
Proof.
  intros (H1 & H2 & H3). unfold rb_take, slice. set (n := Nat.min (rb_w b - rb_r b) m).
  assert (N : n <= rb_w b - rb_r b) by (unfold n; lia).
  replace (rb_r b + n <=? length (rb_bytes b)) with true by (symmetry; apply Nat.leb_le; lia).
  assert (L : length (firstn n (skipn (rb_r b) (rb_bytes b))) = n) by (rewrite firstn_length, skipn_length; lia).
  split; [rewrite L; unfold n; lia|]. split.
  { intros M R X. rewrite X in L. cbn in L. unfold n in L. lia. }
  split; [|unfold rb_inv; cbn; auto with arith; repeat split; auto; lia].
  unfold rb_pending; cbn [rb_r rb_w rb_bytes rb_src]. rewrite app_assoc. f_equal.
  replace (rb_w b - rb_r b) with (n + (rb_w b - (rb_r b + n))) at 1 by lia.
  rewrite firstn_add. f_equal. rewrite skipn_skipn. now rewrite (Nat.add_comm n).
Qed.
Lemma rb_refill_ok b : rb_inv b -> rb_r b = rb_w b -> match rb_refill b with
    | (Got _, b') => rb_r b' < rb_w b' /\ rb_pending b = rb_pending b' /\ rb_inv b'
    | (Fault EOF, b') => rb_pending b = []
    | _ => False end.
Proof.
  intros (H1 & H2 & H3) E. unfold rb_refill. pose proof (src_read_fair (rb_src b) (length (rb_bytes b)) H3) as R.
  destruct (src_read (rb_src b) (length (rb_bytes b))) as [[l|f|] s].
  - destruct R as (R0 & (R1 & R2) & R3 & R4). assert (l <> []) by (apply R2; lia).
    unfold rb_inv, rb_pending; cbn [rb_r rb_w rb_bytes rb_src skipn]. rewrite E, Nat.sub_diag, Nat.sub_0_r.
    split; [destruct l; [congruence|cbn; lia]|]. split.
    + rewrite firstn_app, Nat.sub_diag, firstn_all. cbn [firstn]. rewrite app_nil_r. cbn. exact R3.
    + rewrite app_length, skipn_length. repeat split; auto; lia.
  - destruct f; try contradiction. destruct R as (R & ->). unfold rb_pending. rewrite E, Nat.sub_diag, R. reflexivity.
  - contradiction.
Qed.
Lemma rb_ok o b : rb_inv b ->
    match rb_step o b with
    | (Got l, b') => fits o l /\ rb_pending b = l ++ rb_pending b' /\ rb_inv b'
    | (Fault EOF, b') => rb_pending b = [] /\ (false = true -> rb_inv b' /\ rb_pending b' = [])
    | _ => False
    end.
Proof.
  intros I. destruct o as [m|]; unfold rb_step.
  - destruct (Nat.eqb_spec (rb_r b) (rb_w b)) as [E|E].
    + destruct ((rb_r b =? 0) && (length (rb_bytes b) <=? m)) eqn:D.
      * apply andb_prop in D as (D1 & D2). apply Nat.eqb_eq in D1. destruct I as (H1 & H2 & H3).
        pose proof (src_read_fair (rb_src b) m H3) as R. destruct (src_read (rb_src b) m) as [[l|f|] s].
        -- destruct R as (R0 & R1 & R3 & R4). split; [exact R1|].
           unfold rb_pending, rb_inv; cbn. rewrite E, Nat.sub_diag. cbn. split; [exact R3|]. rewrite <- E. repeat split; auto; lia.
        -- destruct f; try contradiction. destruct R as (R & ->). unfold rb_pending. rewrite E, Nat.sub_diag, R. split; [reflexivity|discriminate].
        -- contradiction.
      * pose proof (rb_refill_ok b I E) as R. destruct (rb_refill b) as [[u|f|] b'].
        -- destruct R as (R1 & R2 & R3). pose proof (rb_take_ok b' m R3) as T. destruct (rb_take b' m) as [[l|f|] b2]; try contradiction.
           destruct T as (T1 & T2 & T3 & T4). cbn [fits]. split; [split; [exact T1|auto]|]. rewrite R2. auto.
        -- destruct f; try contradiction. split; [exact R|discriminate].
        -- contradiction.
    + pose proof (rb_take_ok b m I) as T. destruct (rb_take b m) as [[l|f|] b2]; try contradiction.
      destruct T as (T1 & T2 & T3 & T4). cbn [fits]. split; [split; [exact T1|]|auto]. intros M; apply T2; [exact M|]. destruct I; lia.
  - assert (K : forall b, rb_inv b -> rb_r b < rb_w b ->
       match (if rb_r b =? rb_w b then (Fault EOF, b) else
               match slice (rb_bytes b) (rb_r b) 1 with Got l => (Got l, RB (rb_src b) (rb_bytes b) (rb_r b + 1) (rb_w b)) | _ => (Trap, b) end) with
       | (Got l, b') => fits ReadByte l /\ rb_pending b = l ++ rb_pending b' /\ rb_inv b' | _ => False end).
    { clear. intros b I L. replace (rb_r b =? rb_w b) with false by (symmetry; apply Nat.eqb_neq; lia).
      pose proof (rb_take_ok b 1 I) as T. unfold rb_take in T. replace (Nat.min (rb_w b - rb_r b) 1) with 1 in T by lia.
      destruct (slice (rb_bytes b) (rb_r b) 1) as [l|f|]; try contradiction. destruct T as (T1 & T2 & T3 & T4).
      split; [|auto]. cbn. specialize (T2 (le_n 1) L). destruct l as [|x [|y l]]; cbn in *; try lia; congruence. }
    cbv zeta. destruct (Nat.eqb_spec (rb_r b) (rb_w b)) as [E|E].
    + pose proof (rb_refill_ok b I E) as R. destruct (rb_refill b) as [[u|f|] b'].
      * destruct R as (R1 & R2 & R3). pose proof (K b' R3 R1) as T. rewrite R2.
        match goal with H : context [if rb_r b' =? rb_w b' then ?x else ?y] |- _ => destruct (if rb_r b' =? rb_w b' then x else y) as [[l|f|] b2]; try contradiction end. exact T.
      * destruct f; try contradiction. split; [exact R|discriminate].
      * contradiction.
    + assert (L : rb_r b < rb_w b) by (destruct I; lia). pose proof (K b I L) as T.
      replace (rb_r b =? rb_w b) with false in T by (symmetry; apply Nat.eqb_neq; lia).
      destruct (slice (rb_bytes b) (rb_r b) 1) as [l|f|]; try contradiction. exact T.
Qed.
Lemma readbuffer_honest s bytes ops : fair s -> bytes <> [] -> honest false (rest s) ops (fst (run rb_step ops (rb_init s bytes))).
Proof.
  intros F B. assert (I : rb_inv (rb_init s bytes)).
  { unfold rb_inv, rb_init; cbn. repeat split; auto; try lia. destruct bytes; [congruence|cbn; lia]. }
  exact (run_honest rb_step false rb_inv rb_pending rb_ok ops _ I).
Qed.

(** ** ByteReader *)
Lemma br_ok o b : True ->
    match br_step o b with
    | (Got l, b') => fits o l /\ skipn (br_i b) (br_bytes b) = l ++ skipn (br_i b') (br_bytes b') /\ True
    | (Fault EOF, b') => skipn (br_i b) (br_bytes b) = [] /\ (true = true -> True /\ skipn (br_i b') (br_bytes b') = [])
    | _ => False
    end.
Proof.
  intros _. unfold br_step. destruct b as [l i]; cbn [br_i br_bytes].
  assert (P : forall n, skipn i l = firstn n (skipn i l) ++ skipn (i + n) l).
  { intros n. rewrite (Nat.add_comm i n), <- skipn_skipn. symmetry. apply firstn_skipn. }
  destruct o as [m|]; destruct (Nat.leb_spec (length l) i) as [L|L].
  - cbn. rewrite skipn_all2 by lia. auto.
  - set (n := Nat.min (length l - i) m). destruct (Nat.eqb_spec n 0) as [E|E].
    + cbn. repeat split; auto; try lia.
    + unfold slice. replace (i + n <=? length l) with true by (symmetry; apply Nat.leb_le; lia). cbn [br_i br_bytes fits].
      assert (X : length (firstn n (skipn i l)) = n) by (rewrite firstn_length, skipn_length; lia).
      split; [split; [lia|]|auto]. intros _ Y. rewrite Y in X. cbn in X. lia.
  - cbn. rewrite skipn_all2 by lia. auto.
  - unfold slice. replace (i + 1 <=? length l) with true by (symmetry; apply Nat.leb_le; lia). cbn [br_i br_bytes fits].
    split; [|auto]. rewrite firstn_length, skipn_length. lia.
Qed.
Lemma bytereader_honest b ops : honest true (skipn (br_i b) (br_bytes b)) ops (fst (run br_step ops b)).
Proof. exact (run_honest br_step true (fun _ => True) (fun b => skipn (br_i b) (br_bytes b)) br_ok ops b I). Qed.

(** ** LimitReader *)
Lemma lr_ok o b : fair (lr_src b) ->
    match lr_step o b with
    | (Got l, b') => fits o l /\ firstn (lr_limit b) (rest (lr_src b)) = l ++ firstn (lr_limit b') (rest (lr_src b')) /\ fair (lr_src b')
    | (Fault EOF, b') => firstn (lr_limit b) (rest (lr_src b)) = [] /\ (true = true -> fair (lr_src b') /\ firstn (lr_limit b') (rest (lr_src b')) = [])
    | _ => False
    end.
Proof.
  intros F. destruct b as [s k]; cbn [lr_src lr_limit] in *. unfold lr_step; cbn [lr_src lr_limit].
  destruct o as [m|]; destruct (Nat.eqb_spec k 0) as [->|K]; cbn [lr_src lr_limit]; auto.
  - pose proof (src_read_fair s (Nat.min m k) F) as R. destruct (src_read s (Nat.min m k)) as [[l|f|] s'].
    + destruct R as (R0 & (R1 & R2) & R3 & R4). cbn [fits lr_src lr_limit]. split; [split; [lia|intros; apply R2; lia]|]. split; [|exact R4].
      rewrite R3, firstn_app. rewrite firstn_all2 by lia. reflexivity.
    + destruct f; try contradiction. destruct R as (R & ->). cbn. rewrite R, firstn_nil. auto.
    + contradiction.
  - pose proof (src_byte_fair s F) as R. destruct (src_read_byte s) as [[c|f|] s'].
    + destruct R as (R1 & R2). cbn [one fits lr_src lr_limit]. split; [reflexivity|]. split; [|exact R2]. rewrite R1.
      destruct k as [|k]; [lia|]. cbn. now rewrite Nat.sub_0_r.
    + destruct f; try contradiction. destruct R as (R & ->). cbn. rewrite R, firstn_nil. auto.
    + contradiction.
Qed.
Lemma limitreader_honest s k ops : fair s -> honest true (firstn k (rest s)) ops (fst (run lr_step ops (LR s k))).
Proof. intros F. exact (run_honest lr_step true (fun b => fair (lr_src b)) (fun b => firstn (lr_limit b) (rest (lr_src b))) lr_ok ops (LR s k) F). Qed.
(** Nothing but the limit is taken from the wrapped stream. *)
Lemma limitreader_takes s k ops : fair s ->
  let b := snd (run lr_step ops (LR s k)) in rest s = answered (fst (run lr_step ops (LR s k))) ++ rest (lr_src b) /\ length (answered (fst (run lr_step ops (LR s k)))) <= k.
Proof.
  intros F. cbv zeta. revert s k F. induction ops as [|o ops IH]; intros s k F; [cbn; split; [reflexivity|lia]|].
  cbn [run]. assert (ST : match lr_step o (LR s k) with
     | (Got l, b') => rest s = l ++ rest (lr_src b') /\ length l + lr_limit b' = k /\ fair (lr_src b')
     | (_, b') => rest s = rest (lr_src b') /\ lr_limit b' <= k /\ fair (lr_src b') end).
  { unfold lr_step; cbn [lr_src lr_limit]. destruct o as [m|]; destruct (Nat.eqb_spec k 0) as [->|K]; cbn [lr_src lr_limit]; auto.
    - pose proof (src_read_fair s (Nat.min m k) F) as R. destruct (src_read s (Nat.min m k)) as [[l|f|] s']; cbn [lr_src lr_limit].
      + destruct R as (R0 & (R1 & R2) & R3 & R4). repeat split; auto. lia.
      + destruct f; try contradiction. destruct R as (R & ->). auto.
      + contradiction.
    - pose proof (src_byte_fair s F) as R. destruct (src_read_byte s) as [[c|f|] s']; cbn [one lr_src lr_limit].
      + destruct R as (R1 & R2). cbn. repeat split; auto. lia.
      + destruct f; try contradiction. destruct R as (R & ->). auto.
      + contradiction. }
  destruct (lr_step o (LR s k)) as [r [s' k']]; cbn [lr_src lr_limit] in ST.
  assert (F' : fair s') by (destruct r; tauto). specialize (IH s' k' F').
  destruct (run lr_step ops (LR s' k')) as [rs b2]; cbn [fst snd] in *. destruct IH as (IH1 & IH2).
  destruct r as [l|f|]; cbn [answered]; destruct ST as (S1 & S2 & S3).
  - rewrite app_length. split; [rewrite S1, IH1; apply app_assoc|lia].
  - split; [congruence|lia].
  - split; [congruence|lia].
Qed.

(** ** MultiReader *)
Definition mr_data (l : list source) : list Z := concat (map rest l).
Lemma mr_read_ok m todo : forall done, todo <> [] -> Forall fair todo ->
    match mr_read done todo m with
    | (Got l, b') => fits (Read m) l /\ mr_data todo = l ++ mr_data (mr_todo b') /\ Forall fair (mr_todo b') /\ mr_todo b' <> []
    | (Fault EOF, b') => mr_data todo = []
    | _ => False
    end.
Proof.
  induction todo as [|r more IH]; intros done N F; [congruence|]. cbn [mr_read].
  pose proof (src_read_fair r m (Forall_inv F)) as R. destruct (src_read r m) as [[l|f|] r'].
  - destruct R as (R0 & R1 & R3 & R4). split; [exact R1|]. cbn [mr_todo]. unfold mr_data; cbn. rewrite R3, app_assoc. split; [reflexivity|].
    split; [constructor; [exact R4|exact (Forall_inv_tail F)]|discriminate].
  - destruct f; try contradiction. destruct R as (R & ->). destruct more as [|r2 more].
    + unfold mr_data; cbn. now rewrite R.
    + specialize (IH (done ++ [r]) ltac:(discriminate) (Forall_inv_tail F)).
      destruct (mr_read (done ++ [r]) (r2 :: more) m) as [[l|f|] b']; try contradiction.
      * destruct IH as (I1 & I2 & I3). split; [exact I1|]. split; [|exact I3]. rewrite <- I2. unfold mr_data at 1; cbn [map concat]. rewrite R. reflexivity.
      * destruct f; try contradiction. unfold mr_data; cbn [map concat]. rewrite R. exact IH.
  - contradiction.
Qed.
Lemma mr_ok o b : mr_todo b <> [] /\ Forall fair (mr_todo b) ->
    match mr_step o b with
    | (Got l, b') => fits o l /\ mr_data (mr_todo b) = l ++ mr_data (mr_todo b') /\ mr_todo b' <> [] /\ Forall fair (mr_todo b')
    | (Fault EOF, b') => mr_data (mr_todo b) = [] /\ (false = true -> (mr_todo b' <> [] /\ Forall fair (mr_todo b')) /\ mr_data (mr_todo b') = [])
    | _ => False
    end.
Proof.
  intros (N & F). destruct o as [m|]; unfold mr_step.
  - pose proof (mr_read_ok m (mr_todo b) (mr_done b) N F) as R. destruct (mr_read (mr_done b) (mr_todo b) m) as [[l|f|] b']; try contradiction.
    + tauto.
    + destruct f; try contradiction. split; [exact R|discriminate].
  - pose proof (mr_read_ok 1 (mr_todo b) (mr_done b) N F) as R. destruct (mr_read (mr_done b) (mr_todo b) 1) as [[l|f|] b']; try contradiction.
    + destruct R as ((R1 & R2) & R3 & R4 & R5). specialize (R2 ltac:(lia)). destruct l as [|x l]; [congruence|]. destruct l; [|cbn in R1; lia]. cbn [fits]. auto.
    + destruct f; try contradiction. split; [exact R|discriminate].
Qed.
Lemma multireader_honest rs ops : rs <> [] -> Forall fair rs -> honest false (mr_data rs) ops (fst (run mr_step ops (MR [] rs))).
Proof. intros N F. exact (run_honest mr_step false (fun b => mr_todo b <> [] /\ Forall fair (mr_todo b)) (fun b => mr_data (mr_todo b)) mr_ok ops (MR [] rs) (conj N F)). Qed.

(** ** TeeReader *)
Lemma snk_full t l : snk_write (Snk t []) l = (length l, Snk (t ++ l) []).
Proof. unfold snk_write; cbn. now rewrite firstn_all. Qed.
Definition tr_inv (b : teereader) : Prop := fair (tr_r b) /\ room (tr_w b) = [].
Lemma tr_read_ok b m : tr_inv b ->
    match tr_read b m with
    | (Got l, b') => fits (Read m) l /\ rest (tr_r b) = l ++ rest (tr_r b') /\ tr_inv b' /\ taken (tr_w b') = taken (tr_w b) ++ l
    | (Fault EOF, b') => rest (tr_r b) = [] /\ b' = b
    | _ => False
    end.
Proof.
  destruct b as [s [t r]]; intros (F & E); cbn [tr_r tr_w room taken] in *; subst r. unfold tr_read; cbn [tr_r tr_w].
  pose proof (src_read_fair s m F) as R. destruct (src_read s m) as [[l|f|] s'].
  - destruct R as (R0 & R1 & R3 & R4). rewrite snk_full, Nat.eqb_refl. cbn [tr_r tr_w taken]. repeat split; auto.
    + exact (proj1 R1). + exact (proj2 R1).
  - destruct f; try contradiction. destruct R as (R & ->). auto.
  - contradiction.
Qed.
Lemma tr_step_ok o b : tr_inv b ->
    match tr_step o b with
    | (Got l, b') => fits o l /\ rest (tr_r b) = l ++ rest (tr_r b') /\ tr_inv b' /\ taken (tr_w b') = taken (tr_w b) ++ l
    | (Fault EOF, b') => rest (tr_r b) = [] /\ b' = b
    | _ => False
    end.
Proof.
  intros I. destruct o as [m|]; unfold tr_step; [exact (tr_read_ok b m I)|].
  pose proof (tr_read_ok b 1 I) as R. destruct (tr_read b 1) as [[l|f|] b']; try contradiction; [|destruct f; try contradiction; exact R].
  destruct R as ((R1 & R2) & R3 & R4). specialize (R2 ltac:(lia)). destruct l as [|x l]; [congruence|]. destruct l; [|cbn in R1; lia]. cbn [fits]. auto.
Qed.
Lemma teereader_honest s t ops : fair s ->
  honest true (rest s) ops (fst (run tr_step ops (TR s (Snk t [])))).
Proof.
  intros F. refine (run_honest tr_step true tr_inv (fun b => rest (tr_r b)) _ ops (TR s (Snk t [])) _); [|split; [exact F|reflexivity]].
  intros o b I. pose proof (tr_step_ok o b I) as R. destruct (tr_step o b) as [[l|f|] b']; try contradiction.
  - tauto.
  - destruct f; try contradiction. destruct R as (R & ->). auto.
Qed.
Lemma teereader_copies ops : forall b, tr_inv b -> taken (tr_w (snd (run tr_step ops b))) = taken (tr_w b) ++ answered (fst (run tr_step ops b)).
Proof.
  induction ops as [|o ops IH]; intros b I; [cbn; now rewrite app_nil_r|]. cbn [run]. pose proof (tr_step_ok o b I) as R.
  destruct (tr_step o b) as [[l|f|] b']; try contradiction.
  - destruct R as (_ & _ & I' & T). specialize (IH b' I'). destruct (run tr_step ops b') as [rs b2]; cbn [fst snd answered] in *. rewrite IH, T, app_assoc. reflexivity.
  - destruct f; try contradiction. destruct R as (R & ->). specialize (IH b I). destruct (run tr_step ops b) as [rs b2]; cbn [fst snd answered] in *. exact IH.
Qed.
(** ** MultiWriter *)
Lemma snk_write_ok w l : let (n, w') := snk_write w l in n <= length l /\ taken w' = taken w ++ firstn n l.
Proof. unfold snk_write. destruct (room w); cbn; split; auto; lia. Qed.
Lemma multiwriter_ok l ws : 
  match mw_write ws l with
  | (Got n, ws') => n = length l /\ map taken ws' = map (fun w => taken w ++ l) ws
  | (Fault INCOMPLETE_WRITE, ws') => exists a w b n, ws = a ++ w :: b /\ n < length l /\ map taken ws' = map (fun w => taken w ++ l) a ++ (taken w ++ firstn n l) :: map taken b
  | _ => False
  end.
Proof.
  induction ws as [|w ws IH]; cbn [mw_write]; [cbn; auto|]. pose proof (snk_write_ok w l) as S. destruct (snk_write w l) as [n w']. destruct S as (S1 & S2).
  destruct (Nat.eqb_spec n (length l)) as [E|E]; cbn [negb].
  - destruct (mw_write ws l) as [[k|f|] r]; try contradiction.
    + destruct IH as (-> & IH). cbn [map]. rewrite S2, E, firstn_all, IH. auto.
    + destruct f; try contradiction. destruct IH as (a & x & b & k & I1 & I2 & I3). exists (w :: a), x, b, k. cbn [map app]. rewrite I1, I3, S2, E, firstn_all. auto.
  - exists [], w, ws, n. cbn. rewrite S2. repeat split; auto. lia.
Qed.
