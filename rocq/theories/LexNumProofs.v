From Coq Require Import ZArith Bool List Lia ZifyBool.
From Verif Require Import Mach LexModel LexSpec LexProofs LexProofs4 LexNumSpec.
Import ListNotations.
Open Scope Z_scope.

(** ** Character classes *)
Lemma dec_iff c : is_digit c = true <-> dec_dig c. Proof. unfold is_digit, dec_dig. lia. Qed.
Lemma oct_iff c : is_oct c = true <-> oct_dig c. Proof. unfold is_oct, oct_dig. lia. Qed.
Lemma bin_iff c : is_bin c = true <-> bin_dig c. Proof. unfold is_bin, bin_dig. lia. Qed.
Lemma hex_iff c : is_hex c = true <-> hex_dig c. Proof. unfold is_hex, is_digit, hex_dig. lia. Qed.
Lemma word_iff c : is_alphanum_ c = true <-> word_char c. Proof. unfold is_alphanum_, is_letter, is_lower, is_upper, is_digit, is_us, word_char. lia. Qed.
Definition byte_all (f : Z -> bool) : bool := forallb f (map Z.of_nat (seq 0 256)).
Lemma byte_all_ok f a : byte_all f = true -> 0 <= a <= 255 -> f a = true.
Proof.
  unfold byte_all. intros H Ha. rewrite forallb_forall in H. apply H. apply in_map_iff. exists (Z.to_nat a). split; [lia|]. apply in_seq. lia.
Qed.
Lemma lor_is m a : m = 108 \/ m = 117 \/ m = 105 \/ m = 102 -> 0 <= a <= 255 -> (Z.lor a 32 =? m) = ((a =? m) || (a =? m - 32)).
Proof.
  intros Hm Ha. apply Bool.eqb_prop. apply (byte_all_ok (fun a => Bool.eqb (Z.lor a 32 =? m) ((a =? m) || (a =? m - 32)))); [|exact Ha].
  destruct Hm as [->|[->|[->| ->]]]; vm_compute; reflexivity.
Qed.
Lemma live_byte a r : live (a :: r) -> 0 <= a <= 255.
Proof. intros H. destruct (live_pos a r H) as [->|[? _]]; lia. Qed.

Definition pu (P : Z -> bool) (c : Z) : bool := P c || is_us c.
(** A class that has neither NUL nor newline. *)
Definition cls (P : Z -> bool) : Prop := P 0 = false /\ P 10 = false.
Definition stops (P : Z -> bool) (r : list Z) : Prop := exists x r', r = x :: r' /\ P x = false.
Definition nodouble (s : list Z) : Prop := forall u v, s <> u ++ 95 :: 95 :: v.
Lemma nodouble_nil : nodouble []. Proof. intros [|? ?] v; discriminate. Qed.
Lemma nodouble_cons x s : nodouble (x :: s) <-> nodouble s /\ ~ (x = 95 /\ exists v, s = 95 :: v).
Proof.
  split.
  - intros H. split.
    + intros u v E. apply (H (x :: u) v). rewrite E. reflexivity.
    + intros [-> (v & ->)]. apply (H [] v). reflexivity.
  - intros [H1 H2] u v E. destruct u as [|y u]; cbn [app] in E; injection E as -> ->; [apply H2; eauto|apply (H1 u v); reflexivity].
Qed.
Lemma next_same p x r k : x <> 10 -> next (Cur p (x :: r) k) = Ok (Cur (x :: p) r k).
Proof. intros H. rewrite next_cons, newlines_cons, newlines_nil. destruct (Z.eqb_spec x 10); [lia|]. do 2 f_equal. lia. Qed.

Lemma cls_dec : cls is_digit. Proof. split; reflexivity. Qed.
Lemma cls_oct : cls is_oct. Proof. split; reflexivity. Qed.
Lemma cls_bin : cls is_bin. Proof. split; reflexivity. Qed.
Lemma cls_hex : cls is_hex. Proof. split; reflexivity. Qed.
#[export] Hint Resolve cls_dec cls_oct cls_bin cls_hex : core.
Lemma cls10 P x : cls P -> P x = true -> x <> 10. Proof. intros [_ H] E ->. congruence. Qed.
Lemma pu10 P x : cls P -> pu P x = true -> x <> 10 /\ x <> 0.
Proof. intros [H0 H1] E. unfold pu, is_us in E. split; intros ->; rewrite ?H0, ?H1 in E; discriminate. Qed.

(** ** Runs of digits *)
Lemma digits_ok P : cls P -> forall s r p k fuel, (length s < fuel)%nat -> Forall (fun c => pu P c = true) s -> stops (pu P) r -> nodouble s ->
  digits_loop fuel P (Cur p (s ++ r) k) = Ok (true, Cur (rev s ++ p) r k).
Proof.
  intros HP. induction s as [|x s IH]; intros r p k fuel Hf F Hr Hn; (destruct fuel as [|f]; [cbn in Hf; lia|]); cbn [digits_loop app].
  - destruct Hr as (a & r' & -> & Ha). rewrite peek_cons. cbn [bind]. fold (pu P a). rewrite Ha. reflexivity.
  - inversion F as [|? ? Hx F']; subst. rewrite peek_cons. cbn [bind]. fold (pu P x). rewrite Hx. unfold next_no_multiple. rewrite next_same by (apply (pu10 P x HP Hx)). cbn [bind].
    apply nodouble_cons in Hn. destruct Hn as [Hn Hn2].
    assert (Hy : exists y w, s ++ r = y :: w /\ ~ (x = 95 /\ y = 95)).
    { destruct s as [|y s'].
      - destruct Hr as (a & r' & -> & Ha). exists a, r'. split; [reflexivity|]. intros [_ ->]. unfold pu, is_us in Ha. rewrite orb_true_r in Ha. discriminate.
      - exists y, (s' ++ r). split; [reflexivity|]. intros [-> ->]. apply Hn2. eauto. }
    destruct Hy as (y & w & Ey & Hy). rewrite Ey. rewrite peek_cons. cbn [bind]. change (prevc (Cur (x :: p) (y :: w) k)) with (Ok x). cbn [bind].
    replace (negb ((y =? 95) && (x =? 95))) with true by lia. cbn [bind]. rewrite <- Ey. cbn [length] in Hf. rewrite IH by (try assumption; lia).
    cbn [rev]. rewrite <- app_assoc. reflexivity.
Qed.
Lemma digits_inv P : cls P -> forall fuel l p k d, live l -> digits_loop fuel P (Cur p l k) = Ok (true, d) ->
  exists s r, l = s ++ r /\ Forall (fun c => pu P c = true) s /\ stops (pu P) r /\ nodouble s /\ d = Cur (rev s ++ p) r k /\ live r.
Proof.
  intros HP. induction fuel as [|f IH]; intros l p k d L H; [discriminate|]. cbn [digits_loop] in H.
  destruct l as [|x l]; [destruct (live_nil L)|]. rewrite peek_cons in H. cbn [bind] in H. fold (pu P x) in H. destruct (pu P x) eqn:Ex.
  - destruct (pu10 P x HP Ex) as [H10 H0]. unfold next_no_multiple in H. rewrite next_same in H by exact H10. cbn [bind] in H. destruct (live_cons x l L H0) as [_ Ll].
    destruct l as [|y w]; [destruct (live_nil Ll)|]. rewrite peek_cons in H. cbn [bind] in H. change (prevc (Cur (x :: p) (y :: w) k)) with (Ok x) in H. cbn [bind] in H.
    destruct (negb ((y =? 95) && (x =? 95))) eqn:En; [|discriminate]. apply IH in H; [|exact Ll]. destruct H as (s & r & E & F & Hr & Hn & -> & Lr).
    exists (x :: s), r. split; [cbn [app]; rewrite E; reflexivity|]. split; [constructor; assumption|]. split; [exact Hr|]. split; [|split; [cbn [rev]; rewrite <- app_assoc; reflexivity|exact Lr]].
    apply nodouble_cons. split; [exact Hn|]. intros [-> (v & ->)]. cbn [app] in E. injection E as -> _. discriminate.
  - injection H as <-. exists [], (x :: l). split; [reflexivity|]. split; [constructor|]. split; [exists x, l; auto|]. split; [apply nodouble_nil|]. split; [reflexivity|exact L].
Qed.

(** ** [while (digit) next] *)
Lemma while_inv P : cls P -> forall fuel l p k d, live l -> while_next fuel P (Cur p l k) = Ok d ->
  exists s r, l = s ++ r /\ Forall (fun c => P c = true) s /\ stops P r /\ d = Cur (rev s ++ p) r k /\ live r.
Proof.
  intros HP. induction fuel as [|f IH]; intros l p k d L H; [discriminate|]. cbn [while_next] in H.
  destruct l as [|x l]; [destruct (live_nil L)|]. rewrite peek_cons in H. cbn [bind] in H. destruct (P x) eqn:Ex.
  - assert (H0 : x <> 0) by (intros ->; destruct HP; congruence). rewrite next_same in H by (apply (cls10 P x HP Ex)). cbn [bind] in H. destruct (live_cons x l L H0) as [_ Ll].
    apply IH in H; [|exact Ll]. destruct H as (s & r & E & F & Hr & -> & Lr). exists (x :: s), r. split; [cbn [app]; rewrite E; reflexivity|]. split; [constructor; assumption|]. split; [exact Hr|].
    split; [cbn [rev]; rewrite <- app_assoc; reflexivity|exact Lr].
  - injection H as <-. exists [], (x :: l). split; [reflexivity|]. split; [constructor|]. split; [exists x, l; auto|]. split; [reflexivity|exact L].
Qed.
Lemma while_ok P : cls P -> forall s r p k fuel, (length s < fuel)%nat -> Forall (fun c => P c = true) s -> stops P r ->
  while_next fuel P (Cur p (s ++ r) k) = Ok (Cur (rev s ++ p) r k).
Proof.
  intros HP s r p k fuel Hf F Hr. rewrite while_next_app by assumption. replace (newlines s) with 0; [rewrite Z.add_0_r; reflexivity|].
  clear Hf Hr. induction F as [|x s Hx _ IH]; [reflexivity|]. rewrite newlines_cons, <- IH. pose proof (cls10 P x HP Hx). destruct (Z.eqb_spec x 10); lia.
Qed.
Lemma dec_all ds : Forall (fun c => is_digit c = true) ds <-> Forall dec_dig ds.
Proof. split; intros F; eapply Forall_impl; try exact F; intros c; apply dec_iff. Qed.

(** ** Suffixes *)
Lemma finish_inv b x (c : cursor) b' d :
  (if is_alphanum_ x then (c <- next c ;; Ok (false, b, c)) else Ok (true, b, c) : Res (bool * bool * cursor)) = Ok (true, b', d) -> is_alphanum_ x = false /\ b' = b /\ d = c.
Proof.
  destruct (is_alphanum_ x); [|intros H; injection H as <- <-; auto]. destruct (next c); cbn [bind]; intros H; discriminate.
Qed.
Definition wstop (r : list Z) : Prop := stops is_alphanum_ r.

Lemma suffix_inv fuel b q p l k b' d : live l -> number_suffix fuel b (Cur (q :: p) l k) = Ok (true, b', d) ->
  q <> 95 /\ exists s r, l = s ++ r /\ suffix b b' s /\ d = Cur (rev s ++ q :: p) r k /\ live r /\ wstop r.
Proof.
  intros L H. unfold number_suffix in H. change (prevc (Cur (q :: p) l k)) with (Ok q) in H. cbn [bind] in H.
  destruct (Z.eqb_spec q 95); [destruct (backtrack _) in H; cbn [bind] in H; discriminate|]. split; [assumption|].
  destruct l as [|a l]; [destruct (live_nil L)|]. rewrite peek_cons in H. cbn [bind] in H. pose proof (live_byte a l L) as Ba.
  destruct (is_alphanum_ a) eqn:Ea; cbn [negb] in H.
  2:{ injection H as <- <-. exists [], (a :: l). split; [reflexivity|]. split; [constructor|]. split; [reflexivity|]. split; [exact L|]. exists a, l. auto. }
  assert (A0 : a <> 0) by (intros ->; discriminate). assert (A10 : a <> 10) by (intros ->; discriminate). destruct (live_cons a l L A0) as [_ Ll].
  rewrite !lor_is in H by (tauto || lia). rewrite !next_same in H by exact A10. cbn [bind] in H.
  destruct l as [|x l']; [destruct (live_nil Ll)|]. rewrite !peek_cons in H. cbn [bind] in H.
  assert (W : forall b0 e, (c <- while_next fuel is_digit (Cur (a :: q :: p) (x :: l') k);; x <- peek c;; (if is_alphanum_ x then c0 <- next c;; Ok (false, b0, c0) else Ok (true, b0, c))) = Ok (true, b', e) ->
     b' = b0 /\ exists ds r, x :: l' = ds ++ r /\ Forall dec_dig ds /\ e = Cur (rev ds ++ a :: q :: p) r k /\ live r /\ wstop r).
  { intros b0 e E. destruct (while_next fuel is_digit _) as [c| |] eqn:Ew in E; cbn [bind] in E; try discriminate. apply while_inv in Ew; [|auto|exact Ll].
    destruct Ew as (ds & r & E1 & F & Hr & -> & Lr). destruct r as [|y r]; [destruct (live_nil Lr)|]. rewrite peek_cons in E. cbn [bind] in E. apply finish_inv in E. destruct E as (Ey & -> & ->).
    split; [reflexivity|]. exists ds, (y :: r). split; [exact E1|]. split; [apply dec_all; exact F|]. split; [reflexivity|]. split; [exact Lr|]. exists y, r. auto. }
  destruct ((a =? 108) || (a =? 108 - 32)) eqn:E1.
  { destruct b; [discriminate|]. apply finish_inv in H. destruct H as (Ex & -> & ->). exists [a], (x :: l'). split; [reflexivity|]. split; [constructor; lia|]. split; [reflexivity|]. split; [exact Ll|]. exists x, l'. auto. }
  destruct ((a =? 117) || (a =? 117 - 32)) eqn:E2.
  { destruct b; [discriminate|]. pose proof (live_byte x l' Ll) as Bx. rewrite lor_is in H by (tauto || lia). destruct ((x =? 108) || (x =? 108 - 32)) eqn:E3.
    - rewrite next_same in H by lia. cbn [bind] in H. destruct (live_cons x l' Ll ltac:(lia)) as [_ Ll']. destruct l' as [|y l'']; [destruct (live_nil Ll')|]. rewrite peek_cons in H. cbn [bind] in H.
      apply finish_inv in H. destruct H as (Ey & -> & ->). exists [a; x], (y :: l''). split; [reflexivity|]. split; [constructor; lia|]. split; [reflexivity|]. split; [exact Ll'|]. exists y, l''. auto.
    - apply W in H. destruct H as (-> & ds & r & E & F & -> & Lr & Hw). exists (a :: ds), r. cbn [app rev]. rewrite E. split; [reflexivity|]. split; [constructor; [lia|exact F]|].
      split; [rewrite <- app_assoc; reflexivity|]. auto. }
  destruct ((a =? 105) || (a =? 105 - 32)) eqn:E4.
  { destruct b; [discriminate|]. apply W in H. destruct H as (-> & ds & r & E & F & -> & Lr & Hw). exists (a :: ds), r. cbn [app rev]. rewrite E. split; [reflexivity|]. split; [constructor; [lia|exact F]|].
      split; [rewrite <- app_assoc; reflexivity|]. auto. }
  destruct ((a =? 102) || (a =? 102 - 32)) eqn:E5.
  { apply W in H. destruct H as (-> & ds & r & E & F & -> & Lr & Hw). exists (a :: ds), r. cbn [app rev]. rewrite E. split; [reflexivity|]. split; [constructor; [lia|exact F]|].
      split; [rewrite <- app_assoc; reflexivity|]. auto. }
  discriminate.
Qed.
Lemma suffix_ok fuel b b' q p s r k : suffix b b' s -> q <> 95 -> live r -> wstop r -> (length s < fuel)%nat ->
  number_suffix fuel b (Cur (q :: p) (s ++ r) k) = Ok (true, b', Cur (rev s ++ q :: p) r k).
Proof.
  intros Hs Hq L Hw Hf. unfold number_suffix. change (prevc (Cur (q :: p) (s ++ r) k)) with (Ok q). cbn [bind]. destruct (Z.eqb_spec q 95); [lia|].
  destruct Hw as (x & r' & -> & Hx). pose proof (live_byte x r' L) as Bx.
  assert (W : forall b0 a ds, Forall dec_dig ds -> (length ds < fuel)%nat ->
     (c <- while_next fuel is_digit (Cur (a :: q :: p) (ds ++ x :: r') k);; y <- peek c;; (if is_alphanum_ y then c0 <- next c;; Ok (false, b0, c0) else Ok (true, b0, c) : Res (bool * bool * cursor))) =
     Ok (true, b0, Cur (rev (a :: ds) ++ q :: p) (x :: r') k)).
  { intros b0 a ds F Hl. rewrite while_ok; [|auto|exact Hl|apply dec_all; exact F|].
    - cbn [bind]. rewrite peek_cons. cbn [bind]. rewrite Hx. cbn [rev]. rewrite <- app_assoc. reflexivity.
    - exists x, r'. split; [reflexivity|]. unfold is_alphanum_ in Hx. lia. }
  destruct Hs as [b|d Hd|c d Hc Hd|c ds Hc F|b c ds Hc F]; cbn [app].
  - rewrite peek_cons. cbn [bind]. rewrite Hx. reflexivity.
  - rewrite peek_cons. cbn [bind]. replace (is_alphanum_ d) with true by (destruct Hd as [-> | ->]; reflexivity). cbn [negb]. rewrite lor_is by (tauto || lia).
    replace ((d =? 108) || (d =? 108 - 32)) with true by lia. rewrite next_same by lia. cbn [bind]. rewrite peek_cons. cbn [bind]. rewrite Hx. reflexivity.
  - rewrite peek_cons. cbn [bind]. replace (is_alphanum_ c) with true by (destruct Hc as [-> | ->]; reflexivity). cbn [negb]. rewrite !lor_is by (tauto || lia).
    replace ((c =? 108) || (c =? 108 - 32)) with false by lia. replace ((c =? 117) || (c =? 117 - 32)) with true by lia. rewrite next_same by lia. cbn [bind]. rewrite peek_cons. cbn [bind].
    rewrite lor_is by (tauto || lia). replace ((d =? 108) || (d =? 108 - 32)) with true by lia. rewrite next_same by lia. cbn [bind]. rewrite peek_cons. cbn [bind]. rewrite Hx. reflexivity.
  - rewrite peek_cons. cbn [bind]. replace (is_alphanum_ c) with true by (destruct Hc as [-> | [-> | [-> | ->]]]; reflexivity). cbn [negb]. rewrite !lor_is by (tauto || lia).
    replace ((c =? 108) || (c =? 108 - 32)) with false by lia. rewrite next_same by lia. cbn [bind]. cbn [length] in Hf.
    assert (Hh : exists y w, ds ++ x :: r' = y :: w /\ (Z.lor y 32 =? 108) = false).
    { destruct ds as [|y ds].
      - exists x, r'. split; [reflexivity|]. rewrite lor_is by (tauto || lia). unfold is_alphanum_, is_letter, is_lower, is_upper in Hx. lia.
      - inversion F as [|? ? Hy _]; subst. exists y, (ds ++ x :: r'). split; [reflexivity|]. unfold dec_dig in Hy. rewrite lor_is by (tauto || lia). lia. }
    destruct Hh as (y & w & Ey & Hy). destruct ((c =? 117) || (c =? 117 - 32)) eqn:E2.
    + rewrite Ey, peek_cons. cbn [bind]. rewrite Hy, <- Ey. apply W; [exact F|lia].
    + replace ((c =? 105) || (c =? 105 - 32)) with true by lia. apply W; [exact F|lia].
  - rewrite peek_cons. cbn [bind]. replace (is_alphanum_ c) with true by (destruct Hc as [-> | ->]; reflexivity). cbn [negb]. rewrite !lor_is by (tauto || lia). cbn [length] in Hf.
    replace ((c =? 108) || (c =? 108 - 32)) with false by lia. replace ((c =? 117) || (c =? 117 - 32)) with false by lia. replace ((c =? 105) || (c =? 105 - 32)) with false by lia.
    replace ((c =? 102) || (c =? 102 - 32)) with true by lia. rewrite next_same by lia. cbn [bind]. apply W; [exact F|lia].
Qed.

(** ** Exponents *)
Lemma sign_cases (a : Z) : (a =? 43) || (a =? 45) = true -> In [a] [[]; [43]; [45]].
Proof. intros H. assert (E : a = 43 \/ a = 45) by lia. destruct E; subst a; cbn; auto. Qed.
Lemma exp_inv fuel mark m p l k d : m = mark \/ m = mark - 32 -> m <> 0 -> m <> 10 -> live (m :: l) -> scan_exponent fuel (Cur p (m :: l) k) = Ok (true, d) ->
  exists s r, m :: l = s ++ r /\ power mark s /\ d = Cur (rev s ++ p) r k /\ live r /\ stops is_digit r.
Proof.
  intros Hm M0 M10 L H. unfold scan_exponent in H. rewrite next_same in H by exact M10. cbn [bind] in H. destruct (live_cons m l L M0) as [_ Ll].
  destruct l as [|a l]; [destruct (live_nil Ll)|]. rewrite peek_cons in H. cbn [bind] in H.
  assert (D : forall q b w n, live (b :: w) -> (if negb (is_digit b) then if b =? 0 then c <- backtrack (Cur (b :: q) w (n + newlines [b]));; Ok (false, c) else Ok (false, Cur (b :: q) w (n + newlines [b]))
       else c <- while_next fuel is_digit (Cur (b :: q) w (n + newlines [b]));; Ok (true, c)) = Ok (true, d) ->
     exists ds r, b :: w = ds ++ r /\ ds <> [] /\ Forall dec_dig ds /\ d = Cur (rev ds ++ q) r n /\ live r /\ stops is_digit r).
  { intros q b w n Lb E. destruct (is_digit b) eqn:Eb; cbn [negb] in E.
    - assert (B0 : b <> 0) by (intros ->; discriminate). destruct (live_cons b w Lb B0) as [_ Lw]. replace (n + newlines [b]) with n in E.
      2:{ rewrite newlines_cons, newlines_nil. destruct (Z.eqb_spec b 10) as [->|]; [discriminate|lia]. }
      destruct (while_next fuel is_digit _) as [c| |] eqn:Ew in E; cbn [bind] in E; try discriminate. injection E as ->. apply while_inv in Ew; [|auto|exact Lw].
      destruct Ew as (s & r & E & F & Hr & -> & Lr). exists (b :: s), r. cbn [app rev]. rewrite E. split; [reflexivity|]. split; [discriminate|]. split; [constructor; [apply dec_iff; exact Eb|apply dec_all; exact F]|].
      split; [rewrite <- app_assoc; reflexivity|]. auto.
    - destruct (b =? 0); [|discriminate]. destruct (backtrack _) in E; cbn [bind] in E; discriminate. }
  rewrite next_cons in H. cbn [bind] in H. destruct ((a =? 43) || (a =? 45)) eqn:Es.
  - assert (A0 : a <> 0) by (intros ->; discriminate). destruct (live_cons a l Ll A0) as [_ Ll']. destruct l as [|b l]; [destruct (live_nil Ll')|]. rewrite peek_cons in H. cbn [bind] in H.
    rewrite next_cons in H. cbn [bind] in H. apply D in H; [|exact Ll']. destruct H as (ds & r & E & Hn & F & -> & Lr & Hr). exists (m :: [a] ++ ds), r.
    split; [cbn [app]; rewrite E; reflexivity|]. split; [constructor; auto using sign_cases|].
    split; [|auto]. rewrite newlines_cons, newlines_nil. destruct (Z.eqb_spec a 10) as [->|]; [discriminate|]. cbn [rev app]. rewrite <- !app_assoc. cbn [app]. f_equal. lia.
  - cbn [bind] in H. apply D in H; [|exact Ll]. destruct H as (ds & r & E & Hn & F & -> & Lr & Hr). exists (m :: [] ++ ds), r.
    split; [cbn [app]; rewrite E; reflexivity|]. split; [constructor; cbn; auto|]. split; [|auto]. cbn [rev app]. rewrite <- app_assoc. reflexivity.
Qed.
Lemma exp_ok fuel mark s p r k : power mark s -> 33 <= mark - 32 -> live r -> stops is_digit r -> (length s < fuel)%nat ->
  scan_exponent fuel (Cur p (s ++ r) k) = Ok (true, Cur (rev s ++ p) r k).
Proof.
  intros Hp Hk L Hr Hf. destruct Hp as [m sg ds Hm Hs Hn F]. unfold scan_exponent. cbn [app]. rewrite next_same by lia. cbn [bind].
  destruct ds as [|b ds]; [congruence|]. inversion F as [|? ? Hb F']; subst. unfold dec_dig in Hb. rewrite <- app_assoc.
  assert (D : forall q, (if negb (is_digit b) then if b =? 0 then c <- backtrack (Cur (b :: q) (ds ++ r) k);; Ok (false, c) else Ok (false, Cur (b :: q) (ds ++ r) k)
       else c <- while_next fuel is_digit (Cur (b :: q) (ds ++ r) k);; Ok (true, c)) = Ok (true, Cur (rev (b :: ds) ++ q) r k)).
  { intros q. replace (is_digit b) with true by (unfold is_digit; lia). cbn [negb]. cbn [length] in Hf. rewrite app_length in Hf. cbn [length] in Hf.
    rewrite while_ok; [cbn [bind rev]; rewrite <- app_assoc; reflexivity|auto|lia|apply dec_all; exact F'|exact Hr]. }
  destruct Hs as [<- |[<- |[<- |[]]]]; cbn [app]; rewrite peek_cons; cbn [bind]; rewrite next_same by lia; cbn [bind].
  - replace ((b =? 43) || (b =? 45)) with false by lia. cbn [bind]. rewrite D. cbn [rev app]. rewrite <- !app_assoc. reflexivity.
  - change ((43 =? 43) || (43 =? 45)) with true. cbv iota. rewrite peek_cons. cbn [bind]. rewrite next_same by lia. cbn [bind]. rewrite D. cbn [rev app]. rewrite <- !app_assoc. reflexivity.
  - change ((45 =? 43) || (45 =? 45)) with true. cbv iota. rewrite peek_cons. cbn [bind]. rewrite next_same by lia. cbn [bind]. rewrite D. cbn [rev app]. rewrite <- !app_assoc. reflexivity.
Qed.
