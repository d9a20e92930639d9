(** The scanner, copying, lines and integers. *)
From Coq Require Import ZArith Bool List Lia.
From Verif Require Import IoModel IoSpec IoProofs IoProofs2.
Import ListNotations.

(** ** Scanner with a delimiter of one byte, over a stream that hands out all it is asked for. *)
Lemma find_here d a b : ~ In d a -> find (a ++ d :: b) [d] = Some (length a).
Proof.
  induction a as [|x a IH]; intros N; cbn; [now rewrite Z.eqb_refl|]. destruct (Z.eqb_spec d x) as [->|X]; [exfalso; apply N; left; reflexivity|]. cbn.
  rewrite IH; [reflexivity|]. intros Y; apply N; right; exact Y.
Qed.
Lemma find_not d a : ~ In d a -> find a [d] = None.
Proof.
  induction a as [|x a IH]; intros N; cbn; [reflexivity|]. destruct (Z.eqb_spec d x) as [->|X]; [exfalso; apply N; left; reflexivity|]. cbn.
  rewrite IH; [reflexivity|]. intros Y; apply N; right; exact Y.
Qed.
(** The bytes [win] are in the buffer and not yet scanned, [more] are still in the stream. *)
Definition sc_inv (cap : nat) (b : scanner) (win more : list Z) : Prop :=
  length (sc_buf b) = cap /\ sc_src b = Src more [] /\ (sc_r b < cap -> more = []) /\
  exists pre post, sc_buf b = pre ++ win ++ post /\ sc_p b = length pre /\ sc_r b = length pre + length win.
Lemma src_full more m : src_read (Src more []) m = match more with [] => (Fault EOF, Src [] []) | _ => (Got (firstn m more), Src (skipn m more) []) end.
Proof. unfold src_read; cbn. destruct more; reflexivity. Qed.
Lemma split_win (d : Z) x more : forall win p, win ++ more = p ++ d :: x ->
  (exists t, win = p ++ d :: t /\ x = t ++ more) \/ (exists t, p = win ++ t /\ more = t ++ d :: x).
Proof.
  induction win as [|a win IH]; intros p E; [right; exists p; auto|]. destruct p as [|b p]; cbn in E; injection E as -> E.
  - left. exists win. auto.
  - destruct (IH p E) as [(t & -> & ->)|(t & -> & ->)]; [left|right]; exists t; auto.
Qed.
Lemma sc_search_found cap b win more d p x : sc_inv cap b win more -> win ++ more = p ++ d :: x -> ~ In d p -> length p < cap ->
  exists b' win' more', sc_search b [d] = (Got p, b') /\ sc_inv cap b' win' more' /\ win' ++ more' = x /\ sc_r b' <> 0.
Proof.
  intros (L & HS & F & pre & post & E & P & R) D N C. unfold sc_search.
  replace (sc_r b <? sc_p b) with false by (symmetry; apply Nat.ltb_ge; lia). replace (sc_r b - sc_p b) with (length win) by lia. rewrite E, P, slice_mid.
  apply split_win in D as [(t & -> & ->)|(t & -> & ->)].
  - rewrite find_here by exact N.
    eexists _, t, more. split; [f_equal; f_equal; rewrite firstn_app, Nat.sub_diag, firstn_all; cbn; apply app_nil_r|].
    split; [|split; [auto|cbn; rewrite R, app_length; cbn; lia]]. unfold sc_inv; cbn [sc_buf sc_src sc_p sc_r]. rewrite <- E, L. repeat split; auto.
    exists (pre ++ p ++ [d]), post. rewrite E, !app_length. cbn [length]. rewrite <- !app_assoc. cbn [app]. repeat split; try lia.
    rewrite R, app_length. cbn. lia.
  - rewrite find_not by (intros Y; apply N, in_or_app; left; exact Y). rewrite app_length in C.
    assert (RC : cap <= sc_r b) by (destruct (Nat.ltb_spec (sc_r b) cap) as [Y|Y]; [specialize (F Y); destruct t; discriminate|exact Y]).
    assert (X : (length pre =? 0) || (sc_r b <? length (pre ++ win ++ post)) = false).
    { rewrite <- E, L. apply orb_false_intro; [apply Nat.eqb_neq; lia|apply Nat.ltb_ge; exact RC]. }
    rewrite X. rewrite E, !app_length in L.
    assert (PO : post = []) by (destruct post; [reflexivity|]; cbn in L; lia). subst post. rewrite app_nil_r in *. cbn [length] in L.
    pose proof (store_mid [] (pre ++ win) win) as T. cbn [app length] in T. rewrite T by (rewrite app_length; lia).
    set (tail := skipn (length win) (pre ++ win)) in *. assert (TL : length tail = length pre) by (unfold tail; rewrite skipn_length, app_length; lia). clearbody tail.
    rewrite app_length, TL. replace (length win + length pre - length win) with (length pre) by lia. unfold sc_refill. rewrite HS, src_full.
    assert (LT : length t < length pre) by lia.
    set (l := firstn (length pre) (t ++ d :: x)).
    assert (LE : l = t ++ d :: firstn (length pre - length t - 1) x).
    { unfold l. rewrite firstn_app, firstn_all2 by lia. f_equal. destruct (length pre - length t) as [|k] eqn:K; [lia|]. cbn. now rewrite Nat.sub_0_r. }
    assert (SE : skipn (length pre) (t ++ d :: x) = skipn (length pre - length t - 1) x).
    { rewrite skipn_app, skipn_all2 by lia. cbn [app]. destruct (length pre - length t) as [|k] eqn:K; [lia|]. cbn. now rewrite Nat.sub_0_r. }
    assert (LL : length l <= length pre) by (unfold l; rewrite firstn_length; lia).
    destruct (t ++ d :: x) as [|y0 l0] eqn:TD; [destruct t; discriminate|]. fold l. rewrite SE. clear TD. clearbody l. subst l. set (x1 := firstn (length pre - length t - 1) x) in *.
    assert (LX : length t + S (length x1) = length pre \/ (length x1 < length pre - length t - 1 /\ length x1 = length x)).
    { unfold x1. rewrite firstn_length. lia. }
    rewrite store_mid by lia. rewrite find_here by (intros Y; apply N, in_or_app; right; exact Y).
    eexists _, x1, (skipn (length pre - length t - 1) x). split; [f_equal|].
    { f_equal. rewrite firstn_app, firstn_all2 by lia. f_equal. replace (length win + length t - length win) with (length t) by lia. rewrite <- app_assoc.
      rewrite firstn_app, Nat.sub_diag, firstn_all. cbn. apply app_nil_r. }
    split; [|split; [unfold x1; apply firstn_skipn|cbn [sc_r]; rewrite app_length; cbn [length]; lia]]. unfold sc_inv; cbn [sc_buf sc_src sc_p sc_r]. rewrite app_length in LL. cbn [length] in LL. rewrite !app_length, skipn_length, ?app_length. cbn [length].
    repeat split; try lia.
    + intros Y. apply skipn_all2. lia.
    + exists (win ++ t ++ [d]), (skipn (length t + S (length x1)) tail). rewrite !app_length. cbn [length]. rewrite <- !app_assoc. cbn [app]. repeat split; lia.
Qed.
Lemma sc_search_none cap b win more d : sc_inv cap b win more -> ~ In d (win ++ more) -> fst (sc_search b [d]) = Fault NOT_FOUND.
Proof.
  intros (L & HS & F & pre & post & E & P & R) N. unfold sc_search.
  replace (sc_r b <? sc_p b) with false by (symmetry; apply Nat.ltb_ge; lia). replace (sc_r b - sc_p b) with (length win) by lia. rewrite E, P, slice_mid.
  rewrite find_not by (intros Y; apply N, in_or_app; left; exact Y). rewrite <- E, L.
  destruct ((length pre =? 0) || (sc_r b <? cap)) eqn:X; [reflexivity|]. apply orb_false_elim in X as (X1 & X2). apply Nat.ltb_ge in X2.
  pose proof (store_mid [] (sc_buf b) win) as T. cbn [app length] in T. rewrite E, !app_length in L. rewrite T by (rewrite E, !app_length; lia).
  assert (TL : length (skipn (length win) (sc_buf b)) = length pre) by (rewrite skipn_length, E, !app_length; lia). set (tail := skipn (length win) (sc_buf b)) in *. clearbody tail.
  rewrite app_length, TL. replace (length win + length pre - length win) with (length pre) by lia. unfold sc_refill. rewrite HS, src_full. destruct more as [|y more]; [reflexivity|].
  rewrite store_mid by (rewrite firstn_length; lia). rewrite find_not; [reflexivity|].
  intros Y. apply N, in_or_app. right. rewrite <- (firstn_skipn (length pre)). apply in_or_app. left. exact Y.
Qed.
Lemma joined_cons d p ps : joined d (p :: ps) = p ++ d :: joined d ps.
Proof. unfold joined; cbn. now rewrite <- app_assoc. Qed.
Lemma sc_run_ok cap d tail ps : forall b win more, sc_inv cap b win more -> sc_r b <> 0 -> win ++ more = joined d ps ++ tail ->
  Forall (fun p => ~ In d p /\ length p < cap) ps -> ~ In d tail ->
  fst (run (fun pat b => sc_scan b pat) (repeat [d] (length ps) ++ [[d]]) b) = map Got ps ++ [Fault NOT_FOUND].
Proof.
  induction ps as [|p ps IH]; intros b win more I R D F T; cbn [length repeat app run map].
  - cbn in D. unfold sc_scan. replace (sc_r b =? 0) with false by (symmetry; apply Nat.eqb_neq; lia). rewrite <- D in T.
    pose proof (sc_search_none cap b win more d I T) as N. destruct (sc_search b [d]) as [r b']. cbn [fst] in *. now rewrite N.
  - unfold sc_scan at 1. replace (sc_r b =? 0) with false by (symmetry; apply Nat.eqb_neq; lia).
    rewrite joined_cons, <- app_assoc in D. cbn [app] in D. destruct (Forall_inv F) as (F1 & F2).
    destruct (sc_search_found cap b win more d p _ I D F1 F2) as (b' & w' & m' & E & I' & D' & R'). rewrite E.
    specialize (IH b' w' m' I' R' D' (Forall_inv_tail F) T). destruct (run (fun pat b => sc_scan b pat) (repeat [d] (length ps) ++ [[d]]) b') as [rs b2]. cbn [fst] in *. now rewrite IH.
Qed.
Lemma scan_first b pat : sc_r b = 0 -> forall c l, sc_src b = Src (c :: l) [] -> 0 < length (sc_buf b) -> 
  exists b1, sc_scan b pat = sc_search b1 pat /\ sc_scan b1 pat = sc_search b1 pat /\ sc_r b1 <> 0 /\
    sc_inv (length (sc_buf b)) b1 (firstn (length (sc_buf b)) (c :: l)) (skipn (length (sc_buf b)) (c :: l)).
Proof.
  intros R c l S L. unfold sc_scan, sc_refill. rewrite R, S, src_full. cbn [Nat.eqb]. set (w := firstn (length (sc_buf b)) (c :: l)).
  assert (WL : length w <= length (sc_buf b)) by (unfold w; rewrite firstn_length; lia).
  assert (WN : length w <> 0) by (unfold w; rewrite firstn_length; cbn [length]; lia).
  pose proof (store_mid [] (sc_buf b) w) as T. cbn [app length] in T. rewrite T by exact WL.
  eexists; split; [reflexivity|]. cbn [sc_r]. replace (length w =? 0) with false by (symmetry; apply Nat.eqb_neq; lia). split; [reflexivity|]. split; [exact WN|].
  unfold sc_inv; cbn [sc_buf sc_src sc_p sc_r]. rewrite app_length, skipn_length. repeat split; try lia.
  - intros Y. apply skipn_all2. unfold w in Y. rewrite firstn_length in Y. lia.
  - exists [], (skipn (length w) (sc_buf b)). auto.
Qed.
Lemma scanner_ok buf d ps tail : buf <> [] -> Forall (fun p => ~ In d p /\ length p < length buf) ps -> ~ In d tail ->
  fst (run (fun pat b => sc_scan b pat) (repeat [d] (length ps) ++ [[d]]) (sc_init (Src (joined d ps ++ tail) []) buf)) = map Got ps ++ [Fault NOT_FOUND].
Proof.
  intros B F T. destruct (joined d ps ++ tail) as [|c l] eqn:D.
  - assert (ps = []) by (destruct ps as [|p ps]; [reflexivity|]; rewrite joined_cons in D; destruct p; discriminate). subst ps. reflexivity.
  - destruct (scan_first (sc_init (Src (c :: l) []) buf) [d] eq_refl c l eq_refl) as (b1 & E1 & E2 & R & I); [cbn; destruct buf; [congruence|cbn; lia]|].
    pose proof (sc_run_ok (length buf) d tail ps b1 _ _ I R) as H. rewrite firstn_skipn in H. specialize (H (eq_sym D) F T). rewrite <- H.
    destruct ps; cbn [length repeat app run]; rewrite E1, E2; reflexivity.
Qed.

(** ** Copying *)
Lemma copy_loop_ok fuel : forall s w m total, fair s -> 0 < m -> length (rest s) < fuel ->
  match copy_loop fuel s w m total with
  | (Got n, s', w') => n = total + length (rest s) /\ rest s' = [] /\ taken w' = taken w ++ rest s
  | (Fault INCOMPLETE_WRITE, s', w') => exists a b, rest s = a ++ b /\ taken w' = taken w ++ a
  | _ => False
  end.
Proof.
  induction fuel as [|f IH]; intros s w m total F M L; [lia|]. cbn [copy_loop]. pose proof (src_read_fair s m F) as R.
  destruct (src_read s m) as [[l|e|] s'].
  - destruct R as (R0 & (R1 & R2) & R3 & R4). specialize (R2 M). destruct (Nat.eqb_spec (length l) 0) as [Z|Z]; [destruct l; [congruence|discriminate]|].
    pose proof (snk_write_ok w l) as K. destruct (snk_write w l) as [n w1]. destruct K as (K1 & K2).
    destruct (Nat.eqb_spec n (length l)) as [N|N]; cbn [negb].
    + rewrite N, firstn_all in K2. assert (L2 : length (rest s') < f) by (rewrite R3, app_length in L; lia).
      specialize (IH s' w1 m (total + length l) R4 M L2). destruct (copy_loop f s' w1 m (total + length l)) as [[[k|e|] s2] w2]; try contradiction.
      * destruct IH as (I1 & I2 & I3). rewrite R3, app_length. split; [lia|]. split; [exact I2|]. rewrite I3, K2. now rewrite app_assoc.
      * destruct e; try contradiction. destruct IH as (a & b & I1 & I2). exists (l ++ a), b. rewrite R3, I1, I2, K2, !app_assoc. auto.
    + exists (firstn n l), (skipn n l ++ rest s'). rewrite K2, app_assoc, firstn_skipn. auto.
  - destruct e; try contradiction. destruct R as (R & ->). rewrite R. cbn. rewrite app_nil_r. repeat split; auto.
  - contradiction.
Qed.
Lemma copy_ok s w m : fair s -> 0 < m ->
  match copy_to s w m with
  | (Got n, s', w') => n = length (rest s) /\ rest s' = [] /\ taken w' = taken w ++ rest s
  | (Fault INCOMPLETE_WRITE, s', w') => exists a b, rest s = a ++ b /\ taken w' = taken w ++ a
  | _ => False
  end.
Proof. intros F M. exact (copy_loop_ok (S (length (rest s))) s w m 0 F M (Nat.lt_succ_diag_r _)). Qed.
Lemma copy_full s t m : fair s -> 0 < m -> exists s', copy_to s (Snk t []) m = (Got (length (rest s)), s', Snk (t ++ rest s) []) /\ rest s' = [].
Proof.
  intros F M. unfold copy_to. enough (H : forall fuel s t total, fair s -> length (rest s) < fuel ->
    exists s', copy_loop fuel s (Snk t []) m total = (Got (total + length (rest s)), s', Snk (t ++ rest s) []) /\ rest s' = []) by (apply (H _ s t 0 F); lia).
  clear s t F. induction fuel as [|f IH]; intros s t total F L; [lia|]. cbn [copy_loop]. pose proof (src_read_fair s m F) as R.
  destruct (src_read s m) as [[l|e|] s'].
  - destruct R as (R0 & (R1 & R2) & R3 & R4). specialize (R2 M). destruct (Nat.eqb_spec (length l) 0) as [Z|Z]; [destruct l; [congruence|discriminate]|].
    rewrite snk_full, Nat.eqb_refl. cbn [negb]. assert (L2 : length (rest s') < f) by (rewrite R3, app_length in L; lia).
    destruct (IH s' (t ++ l) (total + length l) R4 L2) as (s2 & E & Q). exists s2. rewrite E, R3, app_length, app_assoc, Nat.add_assoc. auto.
  - destruct e; try contradiction. destruct R as (R & ->). exists s. rewrite R. cbn. now rewrite app_nil_r, Nat.add_0_r.
  - contradiction.
Qed.

(** ** Lines *)
Lemma line_loop_ok fuel : forall s str, length (rest s) < fuel ->
  line_loop fuel s str = (Got (str ++ fst (first_line (rest s))), Src (snd (first_line (rest s))) (plan s)).
Proof.
  induction fuel as [|f IH]; intros [l p] str L; [lia|]. cbn [rest plan] in *. cbn [line_loop]. unfold src_read_byte. cbn [rest plan]. destruct l as [|c r]; [cbn; now rewrite app_nil_r|].
  cbn [length] in L. cbn [first_line]. destruct (Z.eqb_spec c 13) as [->|N].
  - cbn [Z.eqb Pos.eqb]. rewrite IH by (cbn; lia). cbn [rest plan]. destruct (first_line r). reflexivity.
  - destruct (Z.eqb_spec c 10) as [->|N2]; [cbn; now rewrite app_nil_r|]. rewrite IH by (cbn; lia). cbn [rest plan]. destruct (first_line r). cbn [fst snd]. now rewrite <- app_assoc.
Qed.
Lemma readline_ok s : readline s = match rest s with [] => (Fault EOF, s) | l => (Got (fst (first_line l)), Src (snd (first_line l)) (plan s)) end.
Proof.
  destruct s as [l p]. unfold readline, src_read_byte. cbn [rest plan]. destruct l as [|c r]; [reflexivity|]. cbn [first_line]. destruct (Z.eqb_spec c 10) as [->|N]; [reflexivity|].
  rewrite line_loop_ok by (cbn; lia). cbn [rest plan]. destruct (first_line r). cbn [fst snd]. destruct (c =? 13)%Z; reflexivity.
Qed.

(** ** read_all and read_fully *)
Lemma read_all_ok data m : m <= length data -> read_all (Src data []) m = (Got (firstn m data), Src (skipn m data) []).
Proof.
  intros L. unfold read_all. destruct (Nat.eqb_spec m 0) as [->|N]; [reflexivity|]. rewrite src_full. destruct data as [|c l]; [cbn in L; lia|].
  rewrite firstn_length. replace (Nat.min m (length (c :: l)) =? m) with true by (symmetry; apply Nat.eqb_eq; lia). reflexivity.
Qed.
Lemma read_all_sound s m l s' : fair s -> read_all s m = (Got l, s') -> length l = m /\ rest s = l ++ rest s'.
Proof.
  intros F. unfold read_all. destruct (Nat.eqb_spec m 0) as [->|N]; [intros [= <- <-]; auto|]. pose proof (src_read_fair s m F) as R. destruct (src_read s m) as [[k|e|] s1]; try discriminate.
  destruct R as (R0 & (R1 & R2) & R3 & R4). destruct (Nat.eqb_spec (length k) m); intros [= <- <-]. auto.
Qed.
Lemma read_fully_ok s avail : fair s -> avail <= length (rest s) -> exists s', read_fully s avail = (Got (firstn avail (rest s)), s') /\ rest s' = skipn avail (rest s).
Proof.
  intros F A. unfold read_fully. enough (H : forall fuel s data, fair s -> length data <= avail -> avail <= length data + length (rest s) -> length (rest s) < fuel ->
    exists s', read_fully_loop fuel s avail data = (Got (firstn avail (data ++ rest s)), s') /\ rest s' = skipn avail (data ++ rest s)) by (apply (H _ s []); auto; cbn; lia).
  clear s F A. induction fuel as [|f IH]; intros s data F D A L; [lia|]. cbn [read_fully_loop]. destruct (Nat.ltb_spec (length data) avail) as [G|G].
  - pose proof (src_read_fair s (avail - length data) F) as R. destruct (src_read s (avail - length data)) as [[k|e|] s1].
    + destruct R as (R0 & (R1 & R2) & R3 & R4). specialize (R2 ltac:(lia)). assert (length k <> 0) by (destruct k; [congruence|discriminate]).
      rewrite R3, app_length in *. destruct (IH s1 (data ++ k) R4) as (s2 & E & Q); rewrite ?app_length; try lia. exists s2. rewrite E, Q. rewrite <- !app_assoc. auto.
    + destruct e; try contradiction. destruct R as (R & ->). rewrite R in A. cbn in A. lia.
    + contradiction.
  - assert (avail = length data) by lia. subst avail. exists s. rewrite firstn_app, skipn_app, Nat.sub_diag, firstn_all, skipn_all. cbn. rewrite app_nil_r. auto.
Qed.

(** ** Integers *)
Local Open Scope Z_scope.
Lemma lor_add a b k : 0 <= k -> 0 <= a < 2 ^ k -> Z.lor a (b * 2 ^ k) = a + b * 2 ^ k.
Proof.
  intros K A. assert (Z.land a (b * 2 ^ k) = 0).
  { apply Z.bits_inj'. intros n N. rewrite Z.land_spec, Z.bits_0. destruct (Z.ltb_spec n k) as [L|L].
    - rewrite Z.mul_pow2_bits_low by lia. apply andb_false_r.
    - destruct (Z.eq_dec a 0) as [->|]; [now rewrite Z.bits_0|]. rewrite (Z.bits_above_log2 a n); [reflexivity|lia|]. apply Z.log2_lt_pow2; [lia|]. apply Z.lt_le_trans with (2 ^ k); [lia|]. apply Z.pow_le_mono_r; lia. }
  pose proof (Z.add_nocarry_lxor _ _ H) as X. rewrite X. symmetry. apply Z.lxor_lor. exact H.
Qed.
Lemma byte_check (f : Z -> bool) : forallb (fun n => f (Z.of_nat n)) (seq 0 256) = true -> forall z, 0 <= z < 256 -> f z = true.
Proof. intros H z Z. rewrite forallb_forall in H. specialize (H (Z.to_nat z)). rewrite Z2Nat.id in H by lia. apply H. apply in_seq. lia. Qed.
Lemma high_byte x : (Z.lor x 128) mod 256 = 128 + x mod 128.
Proof.
  change 256 with (2 ^ 8) at 1. rewrite <- Z.land_ones by lia. rewrite Z.land_lor_distr_l. rewrite Z.land_ones by lia. change (Z.land 128 (Z.ones 8)) with 128.
  assert (B : 0 <= x mod 2 ^ 8 < 256) by (apply Z.mod_pos_bound; lia).
  pose proof (byte_check (fun z => Z.lor z 128 =? 128 + z mod 128) eq_refl _ B) as H. apply Z.eqb_eq in H. rewrite H. f_equal.
  change 128 with (2 ^ 7). change 8 with (7 + 1). rewrite Z.pow_add_r by lia. rewrite Z.rem_mul_r by lia. rewrite Z.mul_comm, Z.mod_add by lia. apply Z.mod_mod. lia.
Qed.
Lemma read_varint_S c r left shift x sg : read_varint_loop (c :: r) (S left) shift x sg =
  if Z.land c 128 =? 0 then read_varint_loop (c :: r) (S left) shift x sg else read_varint_loop r left (shift + 7) (Z.lor x (u32 (Z.land c 127 * 2 ^ shift))) sg.
Proof. cbn [read_varint_loop]. destruct (Z.land c 128 =? 0); reflexivity. Qed.
Lemma varint_loop left : forall x shift acc r, (1 <= left)%nat -> 0 <= shift -> 0 <= x < 2 ^ (7 * Z.of_nat left - 6) -> 0 <= acc < 2 ^ shift -> acc + x * 2 ^ shift < 2 ^ 32 ->
  read_varint_loop (write_varint_loop left x ++ r) left shift acc false = (Got (acc + x * 2 ^ shift), r).
Proof.
  induction left as [|f IH]; intros x shift acc r L HS X A B; [lia|]. cbn [write_varint_loop].
  assert (P : 0 < 2 ^ shift) by (apply Z.pow_pos_nonneg; lia).
  destruct (Z.leb_spec 128 x) as [G|G].
  - destruct f as [|f]; [cbn in X; lia|]. cbn [app]. rewrite high_byte. pose proof (Z.mod_pos_bound x 128 eq_refl) as M. pose proof (Z.div_mod x 128 ltac:(lia)) as DM.
    set (y := x mod 128) in *. set (q := x / 128) in *.
    assert (E1 : (Z.land (128 + y) 128 =? 0) = false).
    { pose proof (byte_check (fun z => (z <? 128) || negb (Z.land z 128 =? 0)) eq_refl (128 + y) ltac:(lia)) as H. cbv beta in H.
      replace (128 + y <? 128) with false in H by (symmetry; apply Z.ltb_ge; lia). cbn in H. now apply negb_true_iff in H. }
    assert (E2 : Z.land (128 + y) 127 = y).
    { change 127 with (Z.ones 7). rewrite Z.land_ones by lia. change (2 ^ 7) with 128. replace (128 + y) with (y + 1 * 128) by lia. rewrite Z.mod_add by lia. apply Z.mod_small. lia. }
    rewrite read_varint_S, E1, E2. assert (Q : 0 <= q) by (unfold q; apply Z.div_pos; lia).
    assert (YB : y * 2 ^ shift < 2 ^ 32) by nia. unfold u32. rewrite Z.mod_small by nia. rewrite lor_add by lia.
    assert (PS : 2 ^ (shift + 7) = 128 * 2 ^ shift) by (rewrite Z.pow_add_r by lia; lia).
    rewrite (IH q (shift + 7) (acc + y * 2 ^ shift) r).
    + f_equal. f_equal. rewrite PS. nia.
    + lia.
    + lia.
    + split; [exact Q|]. assert (2 ^ (7 * Z.of_nat (S (S f)) - 6) = 128 * 2 ^ (7 * Z.of_nat (S f) - 6)).
      { replace (7 * Z.of_nat (S (S f)) - 6) with (7 + (7 * Z.of_nat (S f) - 6)) by lia. rewrite Z.pow_add_r by lia. reflexivity. } nia.
    + rewrite PS. nia.
    + rewrite PS. nia.
  - cbn [app]. rewrite Z.mod_small by lia. cbn [read_varint_loop]. assert (E1 : (Z.land x 128 =? 0) = true).
    { pose proof (byte_check (fun z => (127 <? z) || (Z.land z 128 =? 0)) eq_refl x ltac:(lia)) as H. cbv beta in H. replace (127 <? x) with false in H by (symmetry; apply Z.ltb_ge; lia). exact H. }
    rewrite E1. assert (O : ((S f =? 1)%nat && (1 <? x)) = false).
    { destruct (Nat.eqb_spec (S f) 1) as [H|H]; [|reflexivity]. assert (f = O) by lia. subst f. cbn in X. cbn. apply Z.ltb_ge. lia. }
    rewrite O. unfold u32. rewrite Z.mod_small by nia. now rewrite lor_add by lia.
Qed.
Lemma varint_ok x r : 0 <= x < 2 ^ 29 -> read_varint false (write_varint x ++ r) = (Got x, r).
Proof. intros X. unfold read_varint, write_varint. rewrite varint_loop; [f_equal; f_equal; lia|lia|lia|exact X|lia|lia]. Qed.

Lemma be_ok n : forall s val r, read_be n val (write_be n s ++ r) = (Got (val + s mod 2 ^ (8 * Z.of_nat n)), r).
Proof.
  induction n as [|n IH]; intros s val r; cbn [write_be read_be app].
  - cbn. f_equal. f_equal. rewrite Z.mod_1_r. lia.
  - rewrite IH. f_equal. f_equal. rewrite Z.shiftr_div_pow2, Z.shiftl_mul_pow2 by lia.
    replace (8 * Z.of_nat (S n)) with (8 * Z.of_nat n + 8) by lia. rewrite Z.pow_add_r by lia. rewrite (Z.rem_mul_r s (2 ^ (8 * Z.of_nat n)) (2 ^ 8)) by lia. change (2 ^ 8) with 256. lia.
Qed.
Lemma be_bytes n : forall s, length (write_be n s) = n /\ Forall (fun c => 0 <= c < 256) (write_be n s) /\
  forall v, fold_left (fun v c => v * 256 + c) (write_be n s) v = v * 256 ^ Z.of_nat n + s mod 256 ^ Z.of_nat n.
Proof.
  induction n as [|n IH]; intros s; cbn [write_be length fold_left].
  - repeat split; [constructor|]. intros v. cbn. rewrite Z.mod_1_r. lia.
  - destruct (IH s) as (I1 & I2 & I3). repeat split; [congruence|constructor; [apply Z.mod_pos_bound; lia|exact I2]|].
    intros v. rewrite I3, Z.shiftr_div_pow2 by lia. replace (2 ^ (8 * Z.of_nat n)) with (256 ^ Z.of_nat n) by (change 256 with (2 ^ 8); now rewrite <- Z.pow_mul_r by lia).
    replace (Z.of_nat (S n)) with (Z.of_nat n + 1) by lia. rewrite Z.pow_add_r by lia. rewrite (Z.rem_mul_r s (256 ^ Z.of_nat n) (256 ^ 1)) by lia. change (256 ^ 1) with 256. lia.
Qed.
Lemma bytearray_ok k data more : Z.of_nat (length data) < 2 ^ (8 * Z.of_nat k) -> read_bytearray k (Src (write_bytearray k data ++ more) []) = (Got data, Src more []).
Proof.
  intros L. unfold read_bytearray, write_bytearray. cbn [rest plan]. rewrite <- app_assoc, be_ok, Z.add_0_l, Z.mod_small by lia.
  destruct (Z.eqb_spec (Z.of_nat (length data)) 0) as [E|E]; [destruct data; [reflexivity|cbn in E; lia]|].
  rewrite Nat2Z.id, read_all_ok by (rewrite app_length; lia). rewrite firstn_app, skipn_app, Nat.sub_diag, firstn_all, skipn_all. cbn. now rewrite app_nil_r.
Qed.
