(** Proofs about the QOI codec. *)
From Coq Require Import ZArith Bool List Lia.
From Coq Require Import ZifyBool.
From Verif Require Import QoiModel QoiSpec.
Import ListNotations.
Open Scope Z_scope.
Ltac Zify.zify_post_hook ::= Z.div_mod_to_equations.

Lemma px_eqb_spec p q : reflect (p = q) (px_eqb p q).
Proof.
  destruct p as [r g b a], q as [r' g' b' a']. unfold px_eqb. cbn [pr pg pb pa].
  destruct (Z.eqb_spec r r'), (Z.eqb_spec g g'), (Z.eqb_spec b b'), (Z.eqb_spec a a'); constructor; congruence.
Qed.
Lemma hash_place p : hash p = place p. Proof. reflexivity. Qed.
Lemma hash_range p : 0 <= hash p <= 63.
Proof. unfold hash. pose proof (Z.mod_pos_bound (pr p * 3 + pg p * 5 + pb p * 7 + pa p * 11) 64 eq_refl). lia. Qed.
Lemma zlen_app {A} (a b : list A) : zlen (a ++ b) = zlen a + zlen b.
Proof. unfold zlen. rewrite app_length. lia. Qed.

Definition px_byte (p : px) : Prop := byte (pr p) /\ byte (pg p) /\ byte (pb p) /\ byte (pa p).

(** ** The encoder, chunk by chunk *)
Definition pick (prev p : px) (pal : palette) : chunk :=
  let raw := if negb (pa prev =? pa p) then CRgba (pr p) (pg p) (pb p) (pa p) else CRgb (pr p) (pg p) (pb p) in
  if px_eqb (pal (hash p)) p then CIndex (hash p)
  else if negb (px_eqb prev p) && (pa prev =? pa p) then
    let dr := ichar (pr p - pr prev) in
    let dg := ichar (pg p - pg prev) in
    let db := ichar (pb p - pb prev) in
    if (-3 <? dr) && (dr <? 2) && (-3 <? dg) && (dg <? 2) && (-3 <? db) && (db <? 2) then CDiff dr dg db
    else
      let lr := ichar (dr - dg) in
      let lb := ichar (db - dg) in
      if (-8 <=? lr) && (lr <=? 7) && (-32 <=? dg) && (dg <=? 31) && (-8 <=? lb) && (lb <=? 7) then CLuma dg lr lb
      else raw
  else raw.
Definition pal_after (p : px) (pal : palette) : palette :=
  if px_eqb (pal (hash p)) p then pal else pal_set pal (hash p) p.

Lemma enc_px_pick prev p pal :
  enc_px prev p pal = (chunk_bytes (pick prev p pal), pal_after p pal).
Proof.
  unfold enc_px, pick, pal_after. cbv zeta.
  destruct (px_eqb (pal (hash p)) p).
  { cbn [chunk_bytes]. unfold op_index, OP_INDEX. pose proof (hash_range p).
    rewrite Z.mod_small by lia. reflexivity. }
  set (dr := ichar (pr p - pr prev)). set (dg := ichar (pg p - pg prev)). set (db := ichar (pb p - pb prev)).
  destruct (negb (px_eqb prev p) && (pa prev =? pa p)).
  2: { destruct (negb (pa prev =? pa p)); reflexivity. }
  destruct ((-3 <? dr) && (dr <? 2) && (-3 <? dg) && (dg <? 2) && (-3 <? db) && (db <? 2)) eqn:E.
  { cbn [chunk_bytes]. unfold op_diff, OP_DIFF. clearbody dr dg db. f_equal. f_equal. lia. }
  clear E.
  set (lr := ichar (dr - dg)). set (lb := ichar (db - dg)).
  destruct ((-8 <=? lr) && (lr <=? 7) && (-32 <=? dg) && (dg <=? 31) && (-8 <=? lb) && (lb <=? 7)) eqn:E.
  { cbn [chunk_bytes]. unfold op_luma, OP_LUMA. clearbody dr dg db lr lb. f_equal. f_equal; [lia|]. f_equal. lia. }
  destruct (negb (pa prev =? pa p)); reflexivity.
Qed.

Lemma pick_ok prev p pal : px_byte p -> chunk_ok (pick prev p pal).
Proof.
  intros (Hr & Hg & Hb & Ha). unfold pick. cbv zeta.
  destruct (px_eqb (pal (hash p)) p). { cbn [chunk_ok]. apply hash_range. }
  set (dr := ichar (pr p - pr prev)). set (dg := ichar (pg p - pg prev)). set (db := ichar (pb p - pb prev)).
  destruct (negb (px_eqb prev p) && (pa prev =? pa p)).
  2: { destruct (negb (pa prev =? pa p)); cbn [chunk_ok]; auto. }
  destruct ((-3 <? dr) && (dr <? 2) && (-3 <? dg) && (dg <? 2) && (-3 <? db) && (db <? 2)) eqn:E.
  { cbn [chunk_ok]. clearbody dr dg db. lia. }
  clear E.
  set (lr := ichar (dr - dg)). set (lb := ichar (db - dg)).
  destruct ((-8 <=? lr) && (lr <=? 7) && (-32 <=? dg) && (dg <=? 31) && (-8 <=? lb) && (lb <=? 7)) eqn:E.
  { cbn [chunk_ok]. clearbody dr dg db lr lb. lia. }
  destruct (negb (pa prev =? pa p)); cbn [chunk_ok]; auto.
Qed.

Lemma ichar_back a b : byte a -> wrap (b + ichar (a - b)) = a.
Proof. unfold byte, wrap, ichar. lia. Qed.
Lemma ichar_back2 a b g : byte a -> wrap (b + g + ichar (ichar (a - b) - g)) = a.
Proof. unfold byte, wrap, ichar. lia. Qed.

(** relation between the encoder's palette and the array of a decoder *)
Definition inv (pal : palette) (s : seen) : Prop := forall q, pal (hash q) = q -> s (hash q) = q.
Definition cur (p : px) (pal : palette) : Prop :=
  pal (hash p) = p \/ (p = start_px /\ forall i, pal i = Px 0 0 0 0).

Lemma pick_px prev p pal s : px_byte p -> prev <> p -> inv pal s -> chunk_px prev s (pick prev p pal) = p.
Proof.
  intros (Hr & Hg & Hb & Ha) Hne HI. unfold pick. cbv zeta.
  destruct (px_eqb_spec (pal (hash p)) p) as [Hp|Hp]. { cbn [chunk_px]. apply HI, Hp. }
  assert (HR : chunk_px prev s (if negb (pa prev =? pa p) then CRgba (pr p) (pg p) (pb p) (pa p) else CRgb (pr p) (pg p) (pb p)) = p).
  { destruct (Z.eqb_spec (pa prev) (pa p)) as [E|E]; cbn [negb chunk_px]; destruct p as [a b c d]; cbn [pr pg pb pa] in *; congruence. }
  destruct (px_eqb_spec prev p) as [E|_]; [contradiction|]. cbn [negb andb].
  destruct (Z.eqb_spec (pa prev) (pa p)) as [Ea|Ea]; [|exact HR].
  destruct (_ && _).
  { cbn [chunk_px]. rewrite (ichar_back _ _ Hr), (ichar_back _ _ Hg), (ichar_back _ _ Hb), Ea. destruct p; reflexivity. }
  destruct (_ && _); [|exact HR].
  cbn [chunk_px]. rewrite (ichar_back _ _ Hg), (ichar_back2 _ _ _ Hr), (ichar_back2 _ _ _ Hb), Ea. destruct p; reflexivity.
Qed.

Lemma pal_after_cur p pal : pal_after p pal (hash p) = p.
Proof.
  unfold pal_after. destruct (px_eqb_spec (pal (hash p)) p) as [E|E]; [exact E|].
  unfold pal_set. rewrite Z.eqb_refl. reflexivity.
Qed.
Lemma pal_after_inv p pal s : inv pal s -> inv (pal_after p pal) (see s p).
Proof.
  intros HI q Hq. unfold see. change place with hash.
  destruct (Z.eqb_spec (hash q) (hash p)) as [E|E].
  - rewrite E, pal_after_cur in Hq. exact Hq.
  - apply HI. unfold pal_after in Hq. destruct (px_eqb (pal (hash p)) p); [exact Hq|].
    unfold pal_set in Hq. destruct (Z.eqb_spec (hash q) (hash p)); [contradiction|exact Hq].
Qed.
Lemma pal_same_inv p pal s : inv pal s -> cur p pal -> inv pal (see s p).
Proof.
  intros HI HC q Hq. unfold see. change place with hash.
  destruct (Z.eqb_spec (hash q) (hash p)) as [E|E]; [|apply HI, Hq].
  destruct HC as [HC|[-> HC]].
  - rewrite <- E, Hq in HC. congruence.
  - rewrite HC in Hq. subst q. vm_compute in E. discriminate.
Qed.
Lemma index_inv p pal s : pal (hash p) = p -> inv pal s -> inv pal (see s p).
Proof. intros Hp HI. apply pal_same_inv; [exact HI|left; exact Hp]. Qed.

(** the meaning of chunks for a decoder that may skip recording after some chunks *)
Fixpoint meaning_g (u : chunk -> bool) (p : px) (s : seen) (cs : list chunk) : list px :=
  match cs with
  | [] => []
  | c :: cs => let q := chunk_px p s c in
               repeat q (chunk_count c) ++ meaning_g u q (if u c then see s q else s) cs
  end.
Lemma meaning_true p s cs : meaning p s cs = meaning_g (fun _ => true) p s cs.
Proof. revert p s; induction cs as [|c cs IH]; intros; cbn [meaning meaning_g]; [reflexivity|]. rewrite IH. reflexivity. Qed.
(** the decoder in qoi.c3 *)
Definition upd_c (c : chunk) : bool := match c with CIndex _ | CRun _ => false | _ => true end.
Definition upd_ok (u : chunk -> bool) : Prop := forall c, upd_c c = true -> u c = true.

Fixpoint encs (prev : px) (pal : palette) (run : Z) (ps : list px) : list chunk :=
  match ps with
  | [] => []
  | p :: t =>
      if px_eqb prev p then
        if (run + 1 =? 62) || (match t with [] => true | _ => false end) then CRun (run + 1) :: encs p pal 0 t
        else encs p pal (run + 1) t
      else (if 0 <? run then [CRun run] else []) ++ pick prev p pal :: encs p (pal_after p pal) 0 t
  end.

Lemma pick_count prev p pal : chunk_count (pick prev p pal) = 1%nat.
Proof.
  unfold pick. cbv zeta. destruct (px_eqb _ _); [reflexivity|].
  destruct (_ && _). 2: { destruct (negb _); reflexivity. }
  destruct (_ && _); [reflexivity|]. destruct (_ && _); [reflexivity|]. destruct (negb _); reflexivity.
Qed.

Lemma pick_upd u p prev pal s : upd_ok u -> inv pal s ->
  inv (pal_after p pal) (if u (pick prev p pal) then see s p else s).
Proof.
  intros Hu HI. destruct (px_eqb_spec (pal (hash p)) p) as [E|E].
  - assert (Hpa : pal_after p pal = pal).
    { unfold pal_after. destruct (px_eqb_spec (pal (hash p)) p); [reflexivity|contradiction]. }
    rewrite Hpa. destruct (u _); [apply index_inv; assumption|exact HI].
  - assert (Hc : upd_c (pick prev p pal) = true).
    { unfold pick. cbv zeta. destruct (px_eqb_spec (pal (hash p)) p) as [|_]; [contradiction|].
      destruct (_ && _). 2: { destruct (negb _); reflexivity. }
      destruct (_ && _); [reflexivity|]. destruct (_ && _); [reflexivity|]. destruct (negb _); reflexivity. }
    rewrite (Hu _ Hc). apply pal_after_inv, HI.
Qed.

Lemma repeat_snoc {A} (x : A) n : repeat x (S n) = repeat x n ++ [x].
Proof. symmetry. symmetry. cbn [repeat]. apply repeat_cons. Qed.

Lemma encs_meaning u ps : upd_ok u ->
  forall prev pal run s, Forall px_byte ps -> inv pal s -> cur prev pal ->
  0 <= run < 62 -> (ps = [] -> run = 0) ->
  meaning_g u prev s (encs prev pal run ps) = repeat prev (Z.to_nat run) ++ ps.
Proof.
  intros Hu. induction ps as [|p t IH]; intros prev pal run s HF HI HC Hrun Hnil.
  { rewrite (Hnil eq_refl). reflexivity. }
  inversion HF as [|? ? Hp Ht]; subst. cbn [encs].
  destruct (px_eqb_spec prev p) as [->|Hne].
  - destruct ((run + 1 =? 62) || match t with [] => true | _ :: _ => false end) eqn:Eb.
    + cbn [meaning_g chunk_px chunk_count].
      rewrite IH; [|assumption| |assumption|lia|reflexivity].
      2: { destruct (u _); [apply pal_same_inv; assumption|exact HI]. }
      cbn [Z.to_nat repeat app]. replace (Z.to_nat (run + 1)) with (S (Z.to_nat run)) by lia.
      rewrite repeat_snoc, <- app_assoc. reflexivity.
    + rewrite IH; [|assumption|assumption|assumption| |].
      * replace (Z.to_nat (run + 1)) with (S (Z.to_nat run)) by lia.
        rewrite repeat_snoc, <- app_assoc. reflexivity.
      * lia.
      * intros ->. rewrite orb_true_r in Eb. discriminate.
  - assert (Hstep : forall s', inv pal s' -> meaning_g u prev s' (pick prev p pal :: encs p (pal_after p pal) 0 t) = p :: t).
    { intros s' HI'. cbn [meaning_g]. cbv zeta. rewrite pick_px by assumption. rewrite pick_count. cbn [repeat app]. f_equal.
      rewrite IH; [reflexivity|assumption| |left; apply pal_after_cur|lia|reflexivity].
      apply pick_upd; assumption. }
    destruct (Z.ltb_spec 0 run) as [Hr|Hr].
    + cbn [app]. change (meaning_g u prev s (CRun run :: pick prev p pal :: encs p (pal_after p pal) 0 t)) with
        (repeat prev (Z.to_nat run) ++ meaning_g u prev (if u (CRun run) then see s prev else s) (pick prev p pal :: encs p (pal_after p pal) 0 t)).
      rewrite Hstep; [reflexivity|]. destruct (u _); [apply pal_same_inv; assumption|exact HI].
    + cbn [app]. rewrite Hstep by assumption. replace run with 0 by lia. reflexivity.
Qed.

Lemma encs_ok ps : forall prev pal run, Forall px_byte ps -> 0 <= run < 62 -> Forall chunk_ok (encs prev pal run ps).
Proof.
  induction ps as [|p t IH]; intros prev pal run HF Hrun; cbn [encs]; [constructor|].
  inversion HF as [|? ? Hp Ht]; subst.
  destruct (px_eqb prev p).
  - destruct (_ || _) eqn:E.
    + constructor; [cbn [chunk_ok]; lia|]. apply IH; [assumption|lia].
    + apply IH; [assumption|lia].
  - apply Forall_app. split.
    + destruct (Z.ltb_spec 0 run); [|constructor]. constructor; [cbn [chunk_ok]; lia|constructor].
    + constructor; [apply pick_ok, Hp|]. apply IH; [assumption|lia].
Qed.

Definition head_ok (prev : px) (pal : palette) (cs : list chunk) : Prop :=
  match cs with CIndex j :: _ => pal j <> prev | _ => True end.
Lemma pick_index prev p pal j : pick prev p pal = CIndex j -> pal (hash p) = p /\ j = hash p.
Proof.
  unfold pick. cbv zeta. destruct (px_eqb_spec (pal (hash p)) p) as [E|E].
  - intros [= <-]. split; [exact E|reflexivity].
  - destruct (_ && _). 2: { destruct (negb _); discriminate. }
    destruct (_ && _); [discriminate|]. destruct (_ && _); [discriminate|]. destruct (negb _); discriminate.
Qed.
Lemma encs_head ps : forall prev pal run, head_ok prev pal (encs prev pal run ps).
Proof.
  induction ps as [|p t IH]; intros prev pal run; cbn [encs]; [exact I|].
  destruct (px_eqb_spec prev p) as [->|Hne].
  - destruct (_ || _); [exact I|apply IH].
  - destruct (0 <? run); cbn [app]; [exact I|].
    unfold head_ok. destruct (pick prev p pal) eqn:E; try exact I.
    apply pick_index in E. destruct E as [E ->]. congruence.
Qed.
Lemma no_double_cons c cs :
  (forall i, c = CIndex i -> match cs with CIndex j :: _ => i <> j | _ => True end) ->
  no_double_index cs -> no_double_index (c :: cs).
Proof.
  intros H HN. destruct c; try exact HN. destruct cs as [|c' cs]; [exact I|].
  destruct c'; try exact HN. split; [apply (H i eq_refl)|exact HN].
Qed.
Lemma encs_no_double ps : forall prev pal run, no_double_index (encs prev pal run ps).
Proof.
  induction ps as [|p t IH]; intros prev pal run; cbn [encs]; [exact I|].
  destruct (px_eqb prev p).
  - destruct (_ || _); [|apply IH]. apply no_double_cons; [discriminate|apply IH].
  - assert (H : no_double_index (pick prev p pal :: encs p (pal_after p pal) 0 t)).
    { apply no_double_cons; [|apply IH]. intros i E.
      pose proof (encs_head t p (pal_after p pal) 0) as HH. unfold head_ok in HH.
      destruct (encs p (pal_after p pal) 0 t) as [|[]]; try exact I.
      apply pick_index in E. destruct E as [E ->].
      intros <-. apply HH. apply pal_after_cur. }
    destruct (0 <? run); cbn [app]; [|exact H]. apply no_double_cons; [discriminate|exact H].
Qed.

(** size *)
Lemma pick_size ch prev p pal : ch = 3 \/ ch = 4 -> (ch = 3 -> pa prev = pa p) ->
  1 <= zlen (chunk_bytes (pick prev p pal)) <= ch + 1.
Proof.
  intros Hch Ha.
  assert (HR : 1 <= zlen (chunk_bytes (if negb (pa prev =? pa p) then CRgba (pr p) (pg p) (pb p) (pa p) else CRgb (pr p) (pg p) (pb p))) <= ch + 1).
  { destruct (Z.eqb_spec (pa prev) (pa p)); cbn [negb chunk_bytes]; unfold zlen; cbn [length]; [lia|].
    destruct Hch as [->| ->]; [tauto|lia]. }
  unfold pick. cbv zeta. destruct (px_eqb _ _). { cbn [chunk_bytes]. unfold zlen. cbn [length]. lia. }
  destruct (_ && _); [|exact HR].
  destruct (_ && _). { cbn [chunk_bytes]. unfold zlen. cbn [length]. lia. }
  destruct (_ && _). { cbn [chunk_bytes]. unfold zlen. cbn [length]. lia. }
  exact HR.
Qed.

Lemma emit_ok max out c : zlen out + zlen c <= max -> emit max out c = QOk (out ++ c).
Proof. intros H. unfold emit. destruct (Z.leb_spec (zlen out + zlen c) max); [reflexivity|lia]. Qed.
Lemma zlen_nonneg {A} (l : list A) : 0 <= zlen l. Proof. unfold zlen. lia. Qed.

Definition enc_out (ps : list px) (p : px) (pal : palette) (run : Z) (out : list Z) : list Z :=
  out ++ flat_map chunk_bytes (encs p pal run ps).

Lemma image_bytes_cons ch p t : image_bytes ch (p :: t) = px_bytes ch p ++ image_bytes ch t.
Proof. reflexivity. Qed.

(** one step of the loop at the level of chunks *)
Lemma enc_step_spec ch max loc loc_end prev p pal run out (t : list px) :
  ch = 3 \/ ch = 4 -> px_ok ch p -> (ch = 3 -> pa prev = 255) ->
  0 <= run < 62 -> ((loc =? loc_end) = match t with [] => true | _ => false end) ->
  zlen out + (if 0 <? run then 1 else 0) + (ch + 1) * Z.of_nat (length (p :: t)) <= max ->
  exists pal' run' out',
    enc_step max loc loc_end prev p pal run out = QOk (pal', run', out') /\
    0 <= run' < 62 /\ (t = [] -> run' = 0) /\
    zlen out' + (if 0 <? run' then 1 else 0) + (ch + 1) * Z.of_nat (length t) <= max /\
    enc_out (p :: t) prev pal run out = enc_out t p pal' run' out'.
Proof.
  intros Hch Hp Ha Hrun Hloc Hsz. cbn [length] in Hsz. rewrite Nat2Z.inj_succ in Hsz.
  unfold enc_step, enc_out. rewrite Hloc. cbn [encs].
  destruct (px_eqb_spec prev p) as [->|Hne].
  - cbv zeta. destruct ((run + 1 =? 62) || match t with [] => true | _ :: _ => false end) eqn:Eb.
    + assert (He : op_run (run + 1 - 1) = chunk_bytes (CRun (run + 1))).
      { unfold op_run, OP_RUN. cbn [chunk_bytes]. rewrite Z.mod_small by lia. reflexivity. }
      rewrite He, emit_ok.
      2: { cbn [chunk_bytes]. unfold zlen at 2. cbn [length]. destruct (0 <? run); lia. }
      exists pal, 0, (out ++ chunk_bytes (CRun (run + 1))).
      split; [reflexivity|]. split; [lia|]. split; [reflexivity|]. split.
      * rewrite zlen_app. cbn [chunk_bytes Z.ltb Z.compare]. unfold zlen at 2. cbn [length]. destruct (0 <? run); lia.
      * cbn [flat_map]. rewrite app_assoc. reflexivity.
    + exists pal, (run + 1), out. split; [reflexivity|]. split; [lia|]. split.
      { intros ->. rewrite orb_true_r in Eb. discriminate. }
      split; [|reflexivity].
      destruct (0 <? run); destruct (0 <? run + 1); lia.
  - rewrite enc_px_pick. cbn [fst snd].
    assert (Hps : 1 <= zlen (chunk_bytes (pick prev p pal)) <= ch + 1).
    { apply pick_size; [exact Hch|]. intros E. rewrite (Ha E). destruct Hp as (_ & _ & _ & _ & Hp). symmetry. exact (Hp E). }
    destruct (Z.ltb_spec 0 run) as [Hr|Hr].
    + assert (He : op_run (run - 1) = chunk_bytes (CRun run)).
      { unfold op_run, OP_RUN. cbn [chunk_bytes]. rewrite Z.mod_small by lia. reflexivity. }
      assert (Hl : zlen (chunk_bytes (CRun run)) = 1) by reflexivity.
      rewrite He. rewrite emit_ok by lia. rewrite emit_ok by (rewrite zlen_app; lia).
      eexists _, 0, _. split; [reflexivity|]. split; [lia|]. split; [reflexivity|]. split.
      * rewrite !zlen_app. change (0 <? 0) with false. cbv iota. lia.
      * cbn [app flat_map]. rewrite !app_assoc. reflexivity.
    + rewrite emit_ok by lia.
      eexists _, 0, _. split; [reflexivity|]. split; [lia|]. split; [reflexivity|]. split.
      * rewrite !zlen_app. change (0 <? 0) with false. cbv iota. lia.
      * cbn [app flat_map]. rewrite !app_assoc. reflexivity.
Qed.

Lemma enc_loop_spec ch max loc_end ps : ch = 3 \/ ch = 4 ->
  forall loc prev pal run out, Forall (px_ok ch) ps -> (ch = 3 -> pa prev = 255) ->
  0 <= run < 62 -> loc + ch * Z.of_nat (length ps) = loc_end + ch ->
  zlen out + (if 0 <? run then 1 else 0) + (ch + 1) * Z.of_nat (length ps) <= max ->
  enc_loop ch max loc loc_end prev pal run out (image_bytes ch ps) = QOk (enc_out ps prev pal run out).
Proof.
  intros Hch. induction ps as [|p t IH]; intros loc prev pal run out HF Ha Hrun Hloc Hsz.
  { cbn. unfold enc_out. cbn [encs flat_map]. rewrite app_nil_r. reflexivity. }
  inversion HF as [|? ? Hp Ht]; subst.
  destruct (enc_step_spec ch max loc loc_end prev p pal run out t Hch Hp Ha Hrun) as (pal' & run' & out' & Hs & Hr' & _ & Hsz' & Ho).
  { cbn [length] in Hloc. rewrite Nat2Z.inj_succ in Hloc. destruct t as [|q t]; [cbn in Hloc; lia|].
    cbn [length] in Hloc. rewrite Nat2Z.inj_succ in Hloc. apply Z.eqb_neq. nia. }
  { exact Hsz. }
  rewrite Ho. rewrite image_bytes_cons.
  cbn [length] in Hloc. rewrite Nat2Z.inj_succ in Hloc.
  destruct p as [r g b a]. unfold px_bytes. cbn [pr pg pb pa]. destruct Hch as [->| ->].
  - change (3 =? 4) with false. cbv iota. cbn [app enc_loop]. change (3 =? 4) with false. cbv iota zeta.
    assert (Ea : a = pa prev). { rewrite (Ha eq_refl). destruct Hp as (_ & _ & _ & _ & Hp). exact (Hp eq_refl). }
    rewrite <- Ea, Hs. apply IH; [assumption| |assumption|lia|lia].
    intros _. cbn [pa]. rewrite Ea. exact (Ha eq_refl).
  - change (4 =? 4) with true. cbv iota. cbn [app enc_loop]. change (4 =? 4) with true. cbv iota zeta.
    rewrite Hs. apply IH; [assumption|discriminate|assumption|lia|lia].
Qed.

Lemma image_bytes_zlen ch ps : ch = 3 \/ ch = 4 -> zlen (image_bytes ch ps) = ch * Z.of_nat (length ps).
Proof.
  intros Hch. induction ps as [|p t IH]; [cbn; lia|].
  rewrite image_bytes_cons, zlen_app, IH. cbn [length]. rewrite Nat2Z.inj_succ.
  assert (zlen (px_bytes ch p) = ch); [|lia]. unfold px_bytes. destruct Hch as [->| ->]; reflexivity.
Qed.

Definition stream_of (ps : list px) : list chunk := encs start_px pal0 0 ps.

Lemma encode_spec d ps : describes d ps -> small_image d ->
  encode (image_bytes (dchannels d) ps) d =
    QOk (header_bytes d ++ flat_map chunk_bytes (stream_of ps) ++ END_OF_STREAM) /\
  zlen (header_bytes d ++ flat_map chunk_bytes (stream_of ps) ++ END_OF_STREAM) <= 22 + (dchannels d + 1) * (dwidth d * dheight d).
Proof.
  intros (Hw & Hh & Hch & Hcs & Hlen & HF) Hsm. unfold small_image in Hsm. unfold encode.
  destruct (Z.eqb_spec (dwidth d) 0); [lia|]. destruct (Z.eqb_spec (dheight d) 0); [lia|]. cbn [orb].
  destruct (Z.eqb_spec (dchannels d) 0); [lia|]. cbv zeta.
  set (P := dwidth d * dheight d) in *. assert (HP : 0 < P) by nia. clearbody P.
  assert (Eu : u32 P = P) by (unfold u32; apply Z.mod_small; lia). rewrite Eu.
  destruct (Z.ltb_spec PIXELS_MAX P); [unfold PIXELS_MAX in *; lia|].
  set (ch := dchannels d) in *.
  assert (Ei : u32 (P * ch) = P * ch) by (unfold u32; apply Z.mod_small; lia). rewrite Ei.
  rewrite image_bytes_zlen by assumption. rewrite Hlen.
  destruct (Z.eqb_spec (P * ch) (ch * P)) as [_|E]; [|lia]. cbn [negb].
  change (zlen END_OF_STREAM) with 8. unfold HEADER_SIZE.
  assert (Em : u32 (14 + P + P * ch + 8) = 14 + P + P * ch + 8) by (unfold u32; apply Z.mod_small; lia). rewrite Em.
  assert (El : u32 (P * ch - ch) = P * ch - ch) by (unfold u32; apply Z.mod_small; lia). rewrite El.
  assert (Hhl : zlen (header_bytes d) = 14) by reflexivity.
  rewrite emit_ok by (rewrite Hhl; change (zlen (@nil Z)) with 0; lia). cbn [app].
  rewrite enc_loop_spec; [|assumption|assumption|reflexivity|lia|lia|change (0 <? 0) with false; cbv iota; lia].
  assert (Hsz : zlen (enc_out ps start_px pal0 0 (header_bytes d)) <= 14 + (ch + 1) * P).
  { (* from the bound kept by every step *)
    assert (G : forall ps prev pal run out loc, Forall (px_ok ch) ps -> (ch = 3 -> pa prev = 255) -> 0 <= run < 62 -> (ps = [] -> run = 0) ->
              loc + ch * Z.of_nat (length ps) = P * ch ->
              zlen (enc_out ps prev pal run out) <= zlen out + (if 0 <? run then 1 else 0) + (ch + 1) * Z.of_nat (length ps)).
    { clear HF Hlen. intros l. induction l as [|p t IH]; intros prev pal run out loc HF Ha Hrun Hnil Hloc.
      - unfold enc_out. cbn [encs flat_map length]. rewrite app_nil_r. destruct (0 <? run); lia.
      - inversion HF as [|? ? Hp Ht]; subst.
        destruct (enc_step_spec ch (zlen out + (if 0 <? run then 1 else 0) + (ch + 1) * Z.of_nat (length (p :: t))) loc (P * ch - ch) prev p pal run out t Hch Hp Ha Hrun)
          as (pal' & run' & out' & Hs & Hr' & Hn' & Hsz' & Ho).
        { cbn [length] in Hloc. rewrite Nat2Z.inj_succ in Hloc. destruct t as [|q t]; [cbn in Hloc; lia|].
          cbn [length] in Hloc. rewrite Nat2Z.inj_succ in Hloc. apply Z.eqb_neq. nia. }
        { lia. }
        rewrite Ho. eapply Z.le_trans; [apply (IH p pal' run' out' (loc + ch)); [assumption| |assumption|assumption|]|lia].
        + intros E. destruct Hp as (_ & _ & _ & _ & Hp). exact (Hp E).
        + cbn [length] in Hloc. rewrite Nat2Z.inj_succ in Hloc. lia. }
    specialize (G ps start_px pal0 0 (header_bytes d) 0 HF (fun _ => eq_refl) ltac:(lia) (fun _ => eq_refl) ltac:(lia)).
    rewrite Hhl in G. change (0 <? 0) with false in G. cbv iota in G. lia. }
  change (Px 0 0 0 255) with start_px. rewrite emit_ok by (change (zlen END_OF_STREAM) with 8; lia).
  unfold enc_out, stream_of in *. rewrite <- !app_assoc in *. split; [reflexivity|].
  rewrite !zlen_app in *. change (zlen END_OF_STREAM) with 8. lia.
Qed.

Lemma px_ok_byte ch p : px_ok ch p -> px_byte p.
Proof. intros (A & B & C & D & _). repeat split; assumption || apply A || apply B || apply C || apply D. Qed.
Lemma px_ok_bytes ch ps : Forall (px_ok ch) ps -> Forall px_byte ps.
Proof. intros H. eapply Forall_impl; [|exact H]. apply px_ok_byte. Qed.
Lemma inv0 : inv pal0 nothing_seen. Proof. intros q Hq. exact Hq. Qed.
Lemma cur0 : cur start_px pal0. Proof. right. split; reflexivity. Qed.

Lemma stream_meaning u ps : upd_ok u -> Forall px_byte ps -> meaning_g u start_px nothing_seen (stream_of ps) = ps.
Proof.
  intros Hu HF. unfold stream_of. rewrite encs_meaning; [reflexivity|assumption|assumption|exact inv0|exact cur0|lia|reflexivity].
Qed.

(** ** The decoder *)
Lemma byte_at_app pre x post : byte_at (pre ++ x :: post) (zlen pre) = QOk x.
Proof.
  unfold byte_at, zlen. destruct (Z.ltb_spec (Z.of_nat (length pre)) 0); [lia|].
  rewrite Nat2Z.id, nth_error_app2, Nat.sub_diag by lia. reflexivity.
Qed.
Lemma extract_app n pre c post : n = zlen c -> extract n (pre ++ c ++ post) (zlen pre) = QOk c.
Proof.
  intros ->. unfold extract. rewrite !zlen_app.
  destruct (Z.leb_spec 0 (zlen pre)); [|unfold zlen in *; lia].
  destruct (Z.leb_spec (zlen pre + zlen c) (zlen pre + (zlen c + zlen post))); [|unfold zlen in *; lia].
  cbn [andb]. f_equal. unfold zlen. rewrite !Nat2Z.id.
  rewrite skipn_app, skipn_all, Nat.sub_diag. cbn [app skipn].
  rewrite firstn_app, firstn_all, Nat.sub_diag. cbn [firstn]. apply app_nil_r.
Qed.

Definition pal_upd (c : chunk) (s : palette) (q : px) : palette := if upd_c c then pal_set s (hash q) q else s.

Lemma dec_step_chunk c pre post p s : chunk_ok c -> px_byte p ->
  dec_step (pre ++ chunk_bytes c ++ post) (zlen pre) p s 0 =
    QOk (zlen (pre ++ chunk_bytes c), chunk_px p s c, pal_upd c s (chunk_px p s c),
         match c with CRun n => n - 1 | _ => 0 end).
Proof.
  intros Hc (Hr & Hg & Hb & Ha). rewrite zlen_app. unfold dec_step, pal_upd.
  destruct c as [r g b|r g b a|i|dr dg db|dg dr db|n]; cbn [chunk_bytes chunk_ok upd_c chunk_px] in *; unfold byte in *.
  - change ([254; r; g; b] ++ post) with (254 :: [r; g; b] ++ post). rewrite byte_at_app.
    change (254 :: [r; g; b] ++ post) with ([254; r; g; b] ++ post).
    rewrite (extract_app 4) by reflexivity. reflexivity.
  - change ([255; r; g; b; a] ++ post) with (255 :: [r; g; b; a] ++ post). rewrite byte_at_app.
    change (255 :: [r; g; b; a] ++ post) with ([255; r; g; b; a] ++ post).
    rewrite (extract_app 5) by reflexivity. reflexivity.
  - change ([i] ++ post) with (i :: post). rewrite byte_at_app. change (i :: post) with ([i] ++ post).
    rewrite (extract_app 1) by reflexivity. change (0 <? 0) with false. cbv iota.
    unfold OP_RGB, OP_RGBA, OP_INDEX.
    destruct (Z.eqb_spec i 254); [lia|]. destruct (Z.eqb_spec i 255); [lia|].
    destruct (Z.eqb_spec (i / 64) 0); [|lia]. rewrite Z.mod_small by lia. reflexivity.
  - set (x := 64 + (dr + 2) * 16 + (dg + 2) * 4 + (db + 2)).
    assert (Hx : 64 <= x <= 127) by (subst x; lia).
    assert (E1 : x / 16 mod 4 - 2 = dr) by (subst x; lia).
    assert (E2 : x / 4 mod 4 - 2 = dg) by (subst x; lia).
    assert (E3 : x mod 4 - 2 = db) by (subst x; lia).
    change ([x] ++ post) with (x :: post). rewrite byte_at_app. change (x :: post) with ([x] ++ post).
    rewrite (extract_app 1) by reflexivity. change (0 <? 0) with false. cbv iota.
    unfold OP_RGB, OP_RGBA, OP_INDEX, OP_DIFF. rewrite E1, E2, E3. clearbody x.
    destruct (Z.eqb_spec x 254); [lia|]. destruct (Z.eqb_spec x 255); [lia|].
    destruct (Z.eqb_spec (x / 64) 0); [lia|]. destruct (Z.eqb_spec (x / 64) 1); [|lia]. reflexivity.
  - set (x := 128 + (dg + 32)). set (y := (dr + 8) * 16 + (db + 8)).
    assert (Hx : 128 <= x <= 191) by (subst x; lia).
    assert (E1 : x mod 64 - 32 = dg) by (subst x; lia).
    assert (E2 : y / 16 mod 16 - 8 = dr) by (subst y; lia).
    assert (E3 : y mod 16 - 8 = db) by (subst y; lia).
    change ([x; y] ++ post) with (x :: [y] ++ post). rewrite byte_at_app. change (x :: [y] ++ post) with ([x; y] ++ post).
    rewrite (extract_app 2) by reflexivity. change (0 <? 0) with false. cbv iota zeta.
    unfold OP_RGB, OP_RGBA, OP_INDEX, OP_DIFF, OP_LUMA. rewrite E1, E2, E3. clearbody x y.
    destruct (Z.eqb_spec x 254); [lia|]. destruct (Z.eqb_spec x 255); [lia|].
    destruct (Z.eqb_spec (x / 64) 0); [lia|]. destruct (Z.eqb_spec (x / 64) 1); [lia|].
    destruct (Z.eqb_spec (x / 64) 2); [|lia].
    unfold wrap. rewrite !Z.add_mod_idemp_r by lia.
    replace (pr p + (dr + dg)) with (pr p + dg + dr) by lia. replace (pb p + (db + dg)) with (pb p + dg + db) by lia. reflexivity.
  - set (x := 192 + (n - 1)). assert (Hx : 192 <= x <= 253) by (subst x; lia).
    assert (E1 : x mod 64 = n - 1) by (subst x; lia).
    change ([x] ++ post) with (x :: post). rewrite byte_at_app. change (x :: post) with ([x] ++ post).
    rewrite (extract_app 1) by reflexivity. change (0 <? 0) with false. cbv iota.
    unfold OP_RGB, OP_RGBA, OP_INDEX, OP_DIFF, OP_LUMA, OP_RUN. rewrite E1. clearbody x.
    destruct (Z.eqb_spec x 254); [lia|]. destruct (Z.eqb_spec x 255); [lia|].
    destruct (Z.eqb_spec (x / 64) 0); [lia|]. destruct (Z.eqb_spec (x / 64) 1); [lia|].
    destruct (Z.eqb_spec (x / 64) 2); [lia|]. destruct (Z.eqb_spec (x / 64) 3); [|lia]. reflexivity.
Qed.

Lemma draw_px_bytes ch p : draw_px ch p = px_bytes ch p. Proof. reflexivity. Qed.

Definition prepend (l : list Z) (r : qres (list Z)) : qres (list Z) :=
  match r with QOk img => QOk (l ++ img) | QFault f => QFault f | QOob => QOob end.
Lemma prepend_app a b r : prepend a (prepend b r) = prepend (a ++ b) r.
Proof. destruct r; cbn [prepend]; [rewrite app_assoc|..]; reflexivity. Qed.

Lemma dec_run ch pre x post p s k : forall n,
  dec_loop ch (pre ++ x :: post) (k + n) (zlen pre) p s (Z.of_nat k) =
    prepend (image_bytes ch (repeat p k)) (dec_loop ch (pre ++ x :: post) n (zlen pre) p s 0).
Proof.
  induction k as [|k IH]; intros n.
  { cbn [plus repeat image_bytes flat_map]. destruct (dec_loop _ _ _ _ _ _ _); reflexivity. }
  cbn [plus dec_loop]. unfold dec_step. rewrite byte_at_app.
  destruct (Z.ltb_spec 0 (Z.of_nat (S k))); [|lia]. replace (Z.of_nat (S k) - 1) with (Z.of_nat k) by lia.
  rewrite IH. cbn [repeat]. rewrite image_bytes_cons, <- prepend_app. reflexivity.
Qed.

Lemma meaning_bytes c p (s : palette) : chunk_ok c -> px_byte p -> (forall i, px_byte (s i)) -> px_byte (chunk_px p s c).
Proof.
  intros Hc (Hr & Hg & Hb & Ha) Hs. destruct c; cbn [chunk_ok chunk_px] in *; try (apply Hs);
    unfold px_byte, wrap, byte in *; cbn [pr pg pb pa]; repeat split; lia.
Qed.

Lemma dec_chunks ch cs : forall n pre tail p s,
  Forall chunk_ok cs -> px_byte p -> (forall i, px_byte (s i)) -> tail <> [] ->
  length (meaning_g upd_c p s cs) = n ->
  dec_loop ch (pre ++ flat_map chunk_bytes cs ++ tail) n (zlen pre) p s 0 =
    QOk (image_bytes ch (meaning_g upd_c p s cs)).
Proof.
  induction cs as [|c cs IH]; intros n pre tail p s HF Hp Hs Ht Hn.
  { cbn [meaning_g length] in Hn. subst n. reflexivity. }
  inversion HF as [|? ? Hc Hcs]; subst.
  pose proof (meaning_bytes c p s Hc Hp Hs) as Hq.
  cbn [meaning_g flat_map]. cbv zeta. rewrite app_length, repeat_length.
  assert (Hk : exists k, chunk_count c = S k /\ match c with CRun n => n - 1 | _ => 0 end = Z.of_nat k).
  { destruct c; try (exists 0%nat; split; reflexivity). cbn [chunk_ok chunk_count] in *.
    exists (Z.to_nat (n - 1)). lia. }
  destruct Hk as (k & Hk & Hrun). rewrite Hk. cbn [plus dec_loop].
  rewrite <- app_assoc. rewrite dec_step_chunk by assumption. rewrite Hrun.
  set (q := chunk_px p s c) in *. set (pre' := pre ++ chunk_bytes c).
  assert (Ed : pre ++ chunk_bytes c ++ flat_map chunk_bytes cs ++ tail = pre' ++ flat_map chunk_bytes cs ++ tail).
  { unfold pre'. rewrite <- app_assoc. reflexivity. }
  rewrite Ed.
  assert (Hx : exists x post, flat_map chunk_bytes cs ++ tail = x :: post).
  { destruct (flat_map chunk_bytes cs ++ tail) as [|x post] eqn:E; [|eauto].
    apply app_eq_nil in E. destruct E as [_ E]. contradiction. }
  destruct Hx as (x & post & Hx).
  assert (Hpal : pal_upd c s q = (if upd_c c then see s q else s)) by (unfold pal_upd; destruct (upd_c c); reflexivity).
  rewrite Hpal. rewrite Hx, dec_run. rewrite <- Hx.
  rewrite IH; [| assumption|assumption| |assumption|reflexivity].
  - unfold prepend, image_bytes. cbn [repeat flat_map app]. rewrite draw_px_bytes, flat_map_app. reflexivity.
  - intros i. destruct (upd_c c); [|apply Hs]. unfold see. destruct (i =? place q); [assumption|apply Hs].
Qed.

Lemma read_be32_number a b c d : read_be32 [a; b; c; d] = number4 a b c d.
Proof. unfold read_be32, number4. lia. Qed.

Lemma decode_file d cs data ch : file d cs data -> Forall chunk_ok cs ->
  0 < dwidth d -> 0 < dheight d -> (dchannels d = 3 \/ dchannels d = 4) -> (dcolorspace d = 0 \/ dcolorspace d = 1) ->
  small_image d -> Z.of_nat (length (meaning_g upd_c start_px nothing_seen cs)) = dwidth d * dheight d ->
  decode data ch = QOk (d, image_bytes (asked ch d) (meaning_g upd_c start_px nothing_seen cs)).
Proof.
  intros (w1 & w2 & w3 & w4 & h1 & h2 & h3 & h4 & _ & _ & _ & _ & _ & _ & _ & _ & Hw & Hh & ->) HF Hw0 Hh0 Hc Hs Hsm Hlen.
  unfold small_image in Hsm. unfold decode.
  set (hdr := [113; 111; 105; 102; w1; w2; w3; w4; h1; h2; h3; h4; dchannels d; dcolorspace d]).
  set (body := flat_map chunk_bytes cs ++ [0; 0; 0; 0; 0; 0; 0; 1]).
  assert (Hz : (zlen (hdr ++ body) <? HEADER_SIZE + zlen END_OF_STREAM) = false).
  { unfold body. rewrite !zlen_app. change (zlen hdr) with 14. change (zlen END_OF_STREAM) with 8.
    change (zlen [0; 0; 0; 0; 0; 0; 0; 1]) with 8. unfold HEADER_SIZE. pose proof (zlen_nonneg (flat_map chunk_bytes cs)). lia. }
  rewrite Hz.
  assert (E1 : firstn 4 (hdr ++ body) = [113; 111; 105; 102]) by reflexivity.
  assert (E2 : firstn 4 (skipn 4 (hdr ++ body)) = [w1; w2; w3; w4]) by reflexivity.
  assert (E3 : firstn 4 (skipn 8 (hdr ++ body)) = [h1; h2; h3; h4]) by reflexivity.
  assert (E4 : nth 12 (hdr ++ body) 0 = dchannels d) by reflexivity.
  assert (E5 : nth 13 (hdr ++ body) 0 = dcolorspace d) by reflexivity.
  rewrite E1, E2, E3, E4, E5. cbv zeta. rewrite !read_be32_number, Hw, Hh.
  change (number4 113 111 105 102 =? 1903126886) with true. cbn [negb].
  set (P := dwidth d * dheight d) in *.
  destruct (negb ((dchannels d =? 0) || (dchannels d =? 3) || (dchannels d =? 4))) eqn:B1; [lia|].
  destruct (negb ((dcolorspace d =? 0) || (dcolorspace d =? 1))) eqn:B2; [lia|].
  destruct (Z.eqb_spec (dchannels d) 0); [lia|].
  destruct (Z.eqb_spec (dwidth d) 0); [lia|]. destruct (Z.eqb_spec (dheight d) 0); [lia|]. cbn [orb].
  destruct (Z.ltb_spec PIXELS_MAX P); [unfold PIXELS_MAX in *; lia|].
  change HEADER_SIZE with (zlen hdr). unfold body.
  change (Px 0 0 0 255) with start_px. change pal0 with nothing_seen.
  rewrite dec_chunks; [|assumption| | |discriminate|].
  - unfold asked. destruct d. reflexivity.
  - unfold px_byte, byte. cbn. lia.
  - intros i. unfold px_byte, byte. cbn. lia.
  - unfold P in *. rewrite <- Hlen, Nat2Z.id. reflexivity.
Qed.

Lemma be32_ok x : 0 <= x < 2 ^ 32 -> exists a b c d, be32 x = [a; b; c; d] /\ byte a /\ byte b /\ byte c /\ byte d /\ number4 a b c d = x.
Proof.
  intros Hx. eexists _, _, _, _. split; [reflexivity|]. unfold byte, number4. change (2 ^ 32) with 4294967296 in Hx.
  change (2 ^ 24) with 16777216. change (2 ^ 16) with 65536. change (2 ^ 8) with 256. lia.
Qed.
Lemma header_file d cs : 0 <= dwidth d < 2 ^ 32 -> 0 <= dheight d < 2 ^ 32 ->
  file d cs (header_bytes d ++ flat_map chunk_bytes cs ++ END_OF_STREAM).
Proof.
  intros Hw Hh. unfold header_bytes.
  destruct (be32_ok _ Hw) as (a & b & c & e & -> & ? & ? & ? & ? & ?).
  destruct (be32_ok _ Hh) as (a' & b' & c' & e' & -> & ? & ? & ? & ? & ?).
  exists a, b, c, e, a', b', c', e'. repeat (split; [assumption|]). reflexivity.
Qed.

Lemma upd_true : upd_ok (fun _ => true). Proof. intros c _. reflexivity. Qed.
Lemma upd_self : upd_ok upd_c. Proof. intros c H. exact H. Qed.

(** ** Agreement of the two ways of recording pixels *)
Definition agree (s1 s2 : seen) : Prop := forall i, s1 i = s2 i.
Lemma meaning_g_ext u cs : forall p s1 s2, agree s1 s2 -> meaning_g u p s1 cs = meaning_g u p s2 cs.
Proof.
  induction cs as [|c cs IH]; intros p s1 s2 H; cbn [meaning_g]; [reflexivity|]. cbv zeta.
  assert (E : chunk_px p s1 c = chunk_px p s2 c) by (destruct c; cbn [chunk_px]; auto).
  rewrite E. f_equal. apply IH. destruct (u c); [|exact H].
  intros i. unfold see. destruct (i =? _); [reflexivity|apply H].
Qed.
Lemma see_same s p : s (place p) = p -> agree (see s p) s.
Proof. intros H i. unfold see. destruct (Z.eqb_spec i (place p)); congruence. Qed.
Lemma see_self s p : see s p (place p) = p.
Proof. unfold see. rewrite Z.eqb_refl. reflexivity. Qed.
Lemma meaning_agree cs : forall p s, index_seen p s cs -> s (place p) = p ->
  meaning p s cs = meaning_g upd_c p s cs.
Proof.
  induction cs as [|c cs IH]; intros p s HI Hp; cbn [meaning meaning_g]; [reflexivity|].
  cbn [index_seen] in HI. destruct HI as [Hi HI]. cbv zeta. f_equal.
  rewrite IH by (assumption || apply see_self).
  destruct c; cbn [upd_c chunk_px] in *; try reflexivity; apply meaning_g_ext, see_same; congruence.
Qed.
Lemma pixels_agree cs : index_seen start_px nothing_seen cs -> run_first cs = false ->
  pixels_of cs = meaning_g upd_c start_px nothing_seen cs.
Proof.
  unfold pixels_of. destruct cs as [|c cs]; [reflexivity|]. intros HI Hr. cbn [index_seen] in HI. destruct HI as [Hi HI].
  cbn [meaning meaning_g]. cbv zeta. f_equal.
  rewrite meaning_agree by (assumption || apply see_self).
  destruct c; cbn [upd_c chunk_px run_first] in *; try reflexivity; try discriminate.
  apply meaning_g_ext, see_same. congruence.
Qed.

(** ** Malformed data: enough bytes *)
Lemma extract_ok n data pos : 0 <= n -> 0 <= pos -> pos + n <= zlen data ->
  exists l, extract n data pos = QOk l /\ length l = Z.to_nat n.
Proof.
  intros Hn Hp Hl. unfold extract. destruct (Z.leb_spec 0 pos); [|lia]. destruct (Z.leb_spec (pos + n) (zlen data)); [|lia].
  cbn [andb]. eexists. split; [reflexivity|]. rewrite firstn_length, skipn_length. unfold zlen in *. lia.
Qed.
Lemma byte_at_ok data pos : 0 <= pos < zlen data -> exists b, byte_at data pos = QOk b.
Proof.
  intros H. unfold byte_at. destruct (Z.ltb_spec pos 0); [lia|].
  destruct (nth_error data (Z.to_nat pos)) eqn:E; [eauto|]. apply nth_error_None in E. unfold zlen in H. lia.
Qed.
Lemma dec_step_safe data pos p s run : 0 <= pos -> pos + 5 <= zlen data ->
  exists pos' p' s' run', dec_step data pos p s run = QOk (pos', p', s', run') /\ pos <= pos' <= pos + 5.
Proof.
  intros Hp Hl. unfold dec_step. destruct (byte_at_ok data pos) as (tag & ->); [lia|].
  destruct (0 <? run). { do 4 eexists. split; [reflexivity|lia]. }
  destruct (tag =? OP_RGB).
  { destruct (extract_ok 4 data pos) as (l & -> & Hln); [lia|lia|lia|].
    destruct l as [|? [|? [|? [|? [|]]]]]; try discriminate Hln. do 4 eexists. split; [reflexivity|lia]. }
  destruct (tag =? OP_RGBA).
  { destruct (extract_ok 5 data pos) as (l & -> & Hln); [lia|lia|lia|].
    destruct l as [|? [|? [|? [|? [|? [|]]]]]]; try discriminate Hln. do 4 eexists. split; [reflexivity|lia]. }
  destruct (tag / 64 =? OP_INDEX).
  { destruct (extract_ok 1 data pos) as (l & -> & Hln); [lia|lia|lia|].
    destruct l as [|? [|]]; try discriminate Hln. do 4 eexists. split; [reflexivity|lia]. }
  destruct (tag / 64 =? OP_DIFF).
  { destruct (extract_ok 1 data pos) as (l & -> & Hln); [lia|lia|lia|].
    destruct l as [|? [|]]; try discriminate Hln. do 4 eexists. split; [reflexivity|lia]. }
  destruct (tag / 64 =? OP_LUMA).
  { destruct (extract_ok 2 data pos) as (l & -> & Hln); [lia|lia|lia|].
    destruct l as [|? [|? [|]]]; try discriminate Hln. do 4 eexists. split; [reflexivity|lia]. }
  destruct (tag / 64 =? OP_RUN).
  { destruct (extract_ok 1 data pos) as (l & -> & Hln); [lia|lia|lia|].
    destruct l as [|? [|]]; try discriminate Hln. do 4 eexists. split; [reflexivity|lia]. }
  do 4 eexists. split; [reflexivity|lia].
Qed.
Lemma dec_loop_safe ch data n : ch = 3 \/ ch = 4 -> forall pos p s run, 0 <= pos -> pos + 5 * Z.of_nat n <= zlen data ->
  exists img, dec_loop ch data n pos p s run = QOk img /\ zlen img = ch * Z.of_nat n.
Proof.
  intros Hch. induction n as [|n IH]; intros pos p s run Hp Hl; cbn [dec_loop].
  { exists []. split; [reflexivity|]. unfold zlen. cbn [length]. lia. }
  rewrite Nat2Z.inj_succ in Hl.
  destruct (dec_step_safe data pos p s run Hp) as (pos' & p' & s' & run' & -> & Hpos); [lia|].
  destruct (IH pos' p' s' run') as (img & -> & Hi); [lia|lia|].
  eexists. split; [reflexivity|]. rewrite zlen_app, Hi, Nat2Z.inj_succ.
  assert (zlen (draw_px ch p') = ch) by (unfold draw_px; destruct Hch as [->| ->]; reflexivity). lia.
Qed.

Lemma dec_loop_len ch data n : ch = 3 \/ ch = 4 -> forall pos p s run img,
  dec_loop ch data n pos p s run = QOk img -> zlen img = ch * Z.of_nat n.
Proof.
  intros Hch. induction n as [|n IH]; intros pos p s run img; cbn [dec_loop].
  { intros [= <-]. unfold zlen. cbn [length]. lia. }
  destruct (dec_step data pos p s run) as [[[[pos' p'] s'] run']| |]; try discriminate.
  destruct (dec_loop ch data n pos' p' s' run') as [img'| |] eqn:E; try discriminate.
  intros [= <-]. rewrite zlen_app, (IH _ _ _ _ _ E), Nat2Z.inj_succ.
  assert (zlen (draw_px ch p') = ch) by (unfold draw_px; destruct Hch as [->| ->]; reflexivity). lia.
Qed.

Lemma dec_loop_nofault ch data n : forall pos p s run f, dec_loop ch data n pos p s run <> QFault f.
Proof.
  induction n as [|n IH]; intros pos p s run f; cbn [dec_loop]; [discriminate|].
  destruct (dec_step data pos p s run) as [[[[pos' p'] s'] run']|f'|] eqn:E; try discriminate.
  - destruct (dec_loop ch data n pos' p' s' run') eqn:E'; try discriminate. intros _. exact (IH _ _ _ _ _ E').
  - unfold dec_step, byte_at in E. destruct (pos <? 0); [discriminate|]. destruct (nth_error _ _); [|discriminate].
    repeat match type of E with
           | (if ?b then _ else _) = _ => destruct b
           | match extract ?n ?d ?p with _ => _ end = _ => destruct (extract n d p) as [l| |]
           | match ?l with _ => _ end = _ => destruct l
           end; discriminate.
Qed.

Lemma decode_inv data ch : ch = 0 \/ ch = 3 \/ ch = 4 ->
  let w := read_be32 (firstn 4 (skipn 4 data)) in
  let h := read_be32 (firstn 4 (skipn 8 data)) in
  (exists f, decode data ch = QFault f) \/
  (w <> 0 /\ h <> 0 /\ w * h <= PIXELS_MAX /\ (nth 12 data 0 = 3 \/ nth 12 data 0 = 4) /\
   (nth 13 data 0 = 0 \/ nth 13 data 0 = 1) /\
   decode data ch =
     match dec_loop (asked ch (Desc w h (nth 12 data 0) (nth 13 data 0))) data (Z.to_nat (w * h)) HEADER_SIZE (Px 0 0 0 255) pal0 0 with
     | QOk img => QOk (Desc w h (nth 12 data 0) (nth 13 data 0), img) | QFault f => QFault f | QOob => QOob end).
Proof.
  intros Hch. cbv zeta. unfold decode, asked. cbn [dchannels]. cbv zeta.
  destruct (zlen data <? HEADER_SIZE + zlen END_OF_STREAM); [left; eauto|].
  destruct (negb (read_be32 (firstn 4 data) =? 1903126886)); [left; eauto|].
  set (w := read_be32 (firstn 4 (skipn 4 data))). set (h := read_be32 (firstn 4 (skipn 8 data))).
  set (c := nth 12 data 0). set (s := nth 13 data 0). clearbody w h c s.
  destruct (negb ((c =? 0) || (c =? 3) || (c =? 4))) eqn:E1; [left; eauto|].
  destruct (negb ((s =? 0) || (s =? 1))) eqn:E2; [left; eauto|].
  destruct (Z.eqb_spec c 0); [left; eauto|].
  destruct (Z.eqb_spec w 0) as [|Nw]; [left; eexists; reflexivity|].
  destruct (Z.eqb_spec h 0) as [|Nh].
  { idtac. left; eexists; reflexivity. }
  cbn [orb].
  destruct (Z.ltb_spec PIXELS_MAX (w * h)); [left; eauto|].
  right. do 5 (split; [lia|]). reflexivity.
Qed.
