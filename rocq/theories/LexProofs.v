From Coq Require Import ZArith Bool List Lia ZifyBool.
From Verif Require Import Mach LexModel LexSpec.
Import ListNotations.
Open Scope Z_scope.

(** ** Basics *)
Lemma newlines_app a b : newlines (a ++ b) = newlines a + newlines b.
Proof. unfold newlines. rewrite filter_app, app_length. lia. Qed.
Lemma newlines_cons x b : newlines (x :: b) = (if x =? 10 then 1 else 0) + newlines b.
Proof. unfold newlines. cbn [filter]. destruct (x =? 10); cbn [length]; lia. Qed.
Lemma newlines_nil : newlines [] = 0. Proof. reflexivity. Qed.

Lemma peek_cons p x r k : peek (Cur p (x :: r) k) = Ok x. Proof. reflexivity. Qed.
Lemma peekn_cons1 p x y r k : peekn (Cur p (x :: y :: r) k) 1 = Ok y. Proof. reflexivity. Qed.
Lemma next_cons p x r k : next (Cur p (x :: r) k) = Ok (Cur (x :: p) r (k + newlines [x])).
Proof. unfold next. cbn [c_rest c_prev c_row]. rewrite newlines_cons, newlines_nil. destruct (x =? 10); do 2 f_equal; lia. Qed.
Lemma back_cons p x r k : backtrack (Cur (x :: p) r k) = Ok (Cur p (x :: r) (k - newlines [x])).
Proof. unfold backtrack. cbn [c_rest c_prev c_row]. rewrite newlines_cons, newlines_nil. destruct (x =? 10); do 2 f_equal; lia. Qed.
Lemma skip2_cons p x y r k : skip 2 (Cur p (x :: y :: r) k) = Ok (Cur (y :: x :: p) r (k + newlines [x; y])).
Proof. cbn [skip]. rewrite next_cons. cbn [bind]. rewrite next_cons. cbn [bind]. rewrite (newlines_cons x [y]), !newlines_cons, newlines_nil. do 2 f_equal. lia. Qed.

Lemma live_inv l : live l -> l = [0] \/ exists a r, l = a :: r /\ src_byte a /\ live r.
Proof.
  intros (t & -> & F). destruct t as [|a t]; [left; reflexivity|]. right. exists a, (t ++ [0]). inversion F; subst.
  split; [reflexivity|]. split; [assumption|]. exists t. auto.
Qed.
Lemma live_cons a r : live (a :: r) -> a <> 0 -> src_byte a /\ live r.
Proof. intros H Ha. destruct (live_inv _ H) as [E|(x & y & E & Hx & Hy)]; [injection E; intros; lia|]. injection E as -> ->. auto. Qed.
Lemma live_nil : ~ live []. Proof. intros (t & E & _). destruct t; discriminate. Qed.
Lemma live_pos a r : live (a :: r) -> a = 0 \/ src_byte a.
Proof. intros H. destruct (live_inv _ H) as [E|(x & y & E & Hx & Hy)]; injection E; intros; subst; auto. Qed.
Lemma live_app s r : live (s ++ r) -> Forall (fun c => c <> 0) s -> live r.
Proof. intros H F. induction F as [|a s Ha _ IH]; [exact H|]. apply IH. apply (live_cons a); assumption. Qed.

Lemma while_next_app P : forall s r p k fuel, (length s < fuel)%nat -> Forall (fun c => P c = true) s ->
  (exists a r', r = a :: r' /\ P a = false) ->
  while_next fuel P (Cur p (s ++ r) k) = Ok (Cur (rev s ++ p) r (k + newlines s)).
Proof.
  induction s as [|x s IH]; intros r p k fuel Hf F Hr; (destruct fuel as [|f]; [cbn in Hf; lia|]); cbn [while_next app].
  - destruct Hr as (a & r' & -> & Ha). rewrite peek_cons. cbn [bind]. rewrite Ha. cbn [rev app]. rewrite newlines_nil, Z.add_0_r. reflexivity.
  - inversion F; subst. rewrite peek_cons. cbn [bind]. rewrite H1, next_cons. cbn [bind]. rewrite IH; [|cbn in Hf; lia|assumption|assumption].
    cbn [rev]. rewrite <- app_assoc. cbn [app]. rewrite (newlines_cons x s), newlines_cons, newlines_nil. do 2 f_equal. lia.
Qed.
(** Splitting at the first character outside a set that does not contain NUL. *)
Lemma live_split P l : live l -> P 0 = false -> exists s a r, l = s ++ a :: r /\ Forall (fun c => P c = true) s /\ P a = false /\ Forall src_byte s /\ live (a :: r).
Proof.
  intros (t & -> & F) P0. induction F as [|x t Hx F IH].
  - exists [], 0, []. repeat split; auto. exists []. auto.
  - destruct (P x) eqn:E.
    + destruct IH as (s & a & r & E1 & H1 & H2 & H3 & H4). exists (x :: s), a, r. cbn [app]. rewrite E1. repeat split; auto.
    + exists [], x, (t ++ [0]). repeat split; auto. exists (x :: t). auto.
Qed.

(** ** Block comments *)
Lemma pieces_text : forall f t, (length t <= f)%nat -> text_of (pieces f t) = t.
Proof.
  induction f as [|f IH]; intros t Hl; [destruct t; [reflexivity|cbn in Hl; lia]|].
  destruct t as [|a [|b r]]; [reflexivity|reflexivity|]. cbn [length] in Hl. cbn [pieces].
  destruct ((a =? 47) && (b =? 42)) eqn:E1; [unfold text_of in *; cbn [map concat piece_text app]; rewrite IH by lia; f_equal; [lia|f_equal; lia]|].
  destruct ((a =? 42) && (b =? 47)) eqn:E2; unfold text_of in *; cbn [map concat piece_text app]; rewrite IH by (cbn [length]; lia).
  - f_equal; [lia|f_equal; lia].
  - reflexivity.
Qed.
Lemma text_of_app a b : text_of (a ++ b) = text_of a ++ text_of b.
Proof. unfold text_of. rewrite map_app, concat_app. reflexivity. Qed.

Lemma block_step_other f n p a r k : a <> 0 -> ~ (a = 47 /\ nth_error r 0 = Some 42) -> ~ (a = 42 /\ nth_error r 0 = Some 47) -> r <> [] ->
  block_comment (S f) n (Cur p (a :: r) k) = block_comment f n (Cur (a :: p) r (k + newlines [a])).
Proof.
  intros H0 H1 H2 Hr. destruct r as [|b r]; [congruence|]. cbn [nth_error] in *. cbn [block_comment]. rewrite peek_cons. cbn [bind].
  rewrite peekn_cons1. cbn [bind]. rewrite next_cons. cbn [bind].
  destruct (Z.eqb_spec a 42).
  - destruct (Z.eqb_spec b 47); [exfalso; apply H2; split; [assumption|congruence]|reflexivity].
  - destruct (Z.eqb_spec a 47).
    + destruct (Z.eqb_spec b 42); [exfalso; apply H1; split; [assumption|congruence]|reflexivity].
    + destruct (Z.eqb_spec a 0); [lia|reflexivity].
Qed.
Lemma block_open f n p r k : n <> 2147483647 -> block_comment (S f) n (Cur p (47 :: 42 :: r) k) = block_comment f (n + 1) (Cur (42 :: 47 :: p) r k).
Proof.
  intros Hn. cbn [block_comment]. rewrite peek_cons. cbn [bind]. rewrite peekn_cons1. cbn [bind]. change (47 =? 42) with false. change (47 =? 47) with true. change (42 =? 42) with true. cbv iota.
  rewrite skip2_cons. cbn [bind]. destruct (Z.eqb_spec n 2147483647); [lia|]. change (newlines [47; 42]) with 0. rewrite Z.add_0_r. reflexivity.
Qed.
Lemma block_close f n p r k : block_comment (S f) n (Cur p (42 :: 47 :: r) k) =
  if n - 1 =? 0 then Ok (Cur (47 :: 42 :: p) r k) else block_comment f (n - 1) (Cur (47 :: 42 :: p) r k).
Proof.
  cbn [block_comment]. rewrite peek_cons. cbn [bind]. rewrite peekn_cons1. cbn [bind]. change (42 =? 42) with true. change (47 =? 47) with true. cbv iota.
  rewrite skip2_cons. cbn [bind]. change (newlines [42; 47]) with 0. rewrite Z.add_0_r. reflexivity.
Qed.


Ltac nl := rewrite ?newlines_app, ?newlines_cons, ?newlines_nil in *.
Ltac cur := repeat first [rewrite <- app_assoc | progress cbn [app rev]].

Lemma block_comment_ok : forall pf t fuel n p k, (length t <= pf)%nat -> (pf < fuel)%nat -> Forall src_byte t ->
  1 <= n -> n + zlen t <= 2147483647 ->
  (forall ps qs, closes n ps qs (pieces pf t) ->
     block_comment fuel n (Cur p (t ++ [0]) k) = Ok (Cur (rev (text_of ps ++ [42; 47]) ++ p) (text_of qs ++ [0]) (k + newlines (text_of ps)))) /\
  ((forall a b, pieces pf t = a ++ b -> 1 <= depth n a) -> block_comment fuel n (Cur p (t ++ [0]) k) = Ok (Cur (rev t ++ p) [0] (k + newlines t))).
Proof.
  induction pf as [|pf IH]; intros t fuel n p k Hl Hf F Hn Hz.
  { destruct t; [|cbn in Hl; lia]. destruct fuel as [|f]; [lia|]. split.
    - intros ps qs (E & _). destruct ps; discriminate.
    - intros _. cbn. rewrite Z.add_0_r. reflexivity. }
  destruct fuel as [|f]; [lia|]. destruct t as [|a t].
  { split; [intros ps qs (E & _); destruct ps; discriminate|]. intros _. cbn. rewrite Z.add_0_r. reflexivity. }
  inversion F as [|? ? Ha F']; subst. cbn [length] in Hl.
  (* the generic step over one ordinary character *)
  assert (Gen : forall r, t = r -> ~ (a = 47 /\ nth_error (r ++ [0]) 0 = Some 42) -> ~ (a = 42 /\ nth_error (r ++ [0]) 0 = Some 47) ->
     pieces (S pf) (a :: t) = Other a :: pieces pf t ->
     (forall ps qs, closes n ps qs (pieces (S pf) (a :: t)) ->
        block_comment (S f) n (Cur p ((a :: t) ++ [0]) k) = Ok (Cur (rev (text_of ps ++ [42; 47]) ++ p) (text_of qs ++ [0]) (k + newlines (text_of ps)))) /\
     ((forall x y, pieces (S pf) (a :: t) = x ++ y -> 1 <= depth n x) -> block_comment (S f) n (Cur p ((a :: t) ++ [0]) k) = Ok (Cur (rev (a :: t) ++ p) [0] (k + newlines (a :: t))))).
  { intros r <- N1 N2 Ep. rewrite Ep. cbn [app]. rewrite block_step_other; [|destruct Ha; lia|exact N1|exact N2|destruct t; discriminate].
    rewrite zlen_cons in Hz. destruct (IH t f n (a :: p) (k + newlines [a]) ltac:(lia) ltac:(lia) F' Hn ltac:(lia)) as [I1 I2]. split.
    - intros ps qs (E & D & A). destruct ps as [|x ps]; [discriminate|]. injection E as <- E. cbn [depth] in D.
      rewrite (I1 ps qs).
      + unfold text_of. cbn [map concat piece_text]. cur. nl. do 2 f_equal. lia.
      + split; [exact E|]. split; [exact D|]. intros u v Huv. apply (A (Other a :: u) v). rewrite Huv. reflexivity.
    - intros A. rewrite I2.
      + cbn [rev]. cur. nl. do 2 f_equal. lia.
      + intros u v Huv. apply (A (Other a :: u) v). rewrite Huv. reflexivity. }
  destruct t as [|b t].
  { apply (Gen []); [reflexivity| | |destruct pf; reflexivity]; cbn; intros [_ E]; discriminate. }
  cbn [length] in Hl. inversion F' as [|? ? Hb F'']; subst. rewrite !zlen_cons in Hz. cbn [app].
  destruct ((a =? 47) && (b =? 42)) eqn:E1.
  { assert (a = 47 /\ b = 42) as [-> ->] by lia. cbn [pieces]. change ((47 =? 47) && (42 =? 42)) with true. cbv iota. pose proof (zlen_nonneg t).
    rewrite block_open by lia. destruct (IH t f (n + 1) (42 :: 47 :: p) k ltac:(lia) ltac:(lia) F'' ltac:(lia) ltac:(lia)) as [I1 I2]. split.
    - intros ps qs (E & D & A). destruct ps as [|x ps]; [discriminate|]. injection E as <- E. cbn [depth] in D.
      rewrite (I1 ps qs).
      + unfold text_of. cbn [map concat piece_text]. cur. nl. reflexivity.
      + split; [exact E|]. split; [exact D|]. intros u v Huv. apply (A (Open :: u) v). rewrite Huv. reflexivity.
    - intros A. rewrite I2.
      + cbn [rev]. cur. nl. reflexivity.
      + intros u v Huv. apply (A (Open :: u) v). rewrite Huv. reflexivity. }
  destruct ((a =? 42) && (b =? 47)) eqn:E2.
  { assert (a = 42 /\ b = 47) as [-> ->] by lia. cbn [pieces]. change ((42 =? 47) && (47 =? 42)) with false. change ((42 =? 42) && (47 =? 47)) with true. cbv iota. pose proof (zlen_nonneg t).
    rewrite block_close. split.
    - intros ps qs (E & D & A). destruct ps as [|x ps].
      + injection E as E. cbn [depth] in D. subst n. cbn [Z.sub Z.eqb]. change (1 - 1 =? 0) with true. cbv iota. rewrite <- E, pieces_text by lia.
        cbn. rewrite Z.add_0_r. reflexivity.
      + injection E as <- E. cbn [depth] in D. pose proof (A [Close] ps eq_refl) as A1. cbn [depth] in A1.
        destruct (Z.eqb_spec (n - 1) 0); [lia|].
        destruct (IH t f (n - 1) (47 :: 42 :: p) k ltac:(lia) ltac:(lia) F'' ltac:(lia) ltac:(lia)) as [I1 I2].
        rewrite (I1 ps qs).
        * unfold text_of. cbn [map concat piece_text]. cur. nl. reflexivity.
        * split; [exact E|]. split; [exact D|]. intros u v Huv. apply (A (Close :: u) v). rewrite Huv. reflexivity.
    - intros A. pose proof (A [Close] (pieces pf t) eq_refl) as A1. cbn [depth] in A1. destruct (Z.eqb_spec (n - 1) 0); [lia|].
      destruct (IH t f (n - 1) (47 :: 42 :: p) k ltac:(lia) ltac:(lia) F'' ltac:(lia) ltac:(lia)) as [I1 I2]. rewrite I2.
      + cbn [rev]. cur. nl. reflexivity.
      + intros u v Huv. apply (A (Close :: u) v). rewrite Huv. reflexivity. }
  apply (Gen (b :: t)); [reflexivity| | |].
  - cbn. intros [-> E]. injection E as ->. discriminate.
  - cbn. intros [-> E]. injection E as ->. discriminate.
  - cbn [pieces]. rewrite E1, E2. reflexivity.
Qed.

(** Every text either closes its comment at one place or never does. *)
Lemma closes_dec : forall all d, 1 <= d -> (exists ps qs, closes d ps qs all) \/ (forall a b, all = a ++ b -> 1 <= depth d a).
Proof.
  induction all as [|x all IH]; intros d Hd.
  - right. intros [|? ?] b E; [exact Hd|discriminate].
  - assert (Hcons : forall d', 1 <= d' -> (forall l, depth d (x :: l) = depth d' l) ->
      (exists ps qs, closes d ps qs (x :: all)) \/ (forall a b, x :: all = a ++ b -> 1 <= depth d a)).
    { intros d' Hd' Hx. destruct (IH d' Hd') as [(ps & qs & E & D & A)|A].
      - left. exists (x :: ps), qs. split; [rewrite E; reflexivity|]. split; [rewrite Hx; exact D|]. intros [|y u] v Huv; [exact Hd|]. injection Huv as <- Huv. rewrite Hx. apply (A u v Huv).
      - right. intros [|y u] v Huv; [exact Hd|]. injection Huv as <- Huv. rewrite Hx. apply (A u v Huv). }
    destruct x; [apply (Hcons (d + 1)); [lia|reflexivity]| |apply (Hcons d); [lia|reflexivity]].
    destruct (Z.eq_dec d 1) as [->|Hne]; [|apply (Hcons (d - 1)); [lia|reflexivity]].
    left. exists [], all. split; [reflexivity|]. split; [reflexivity|]. intros [|y u] v Huv; [exact Hd|discriminate].
Qed.

(** ** Line comments and white space *)
Lemma line_comment_ok s a r p k fuel : (length s < fuel)%nat -> Forall (fun c => c <> 0 /\ c <> 10) s -> a = 0 \/ a = 10 ->
  line_comment fuel (Cur p (s ++ a :: r) k) = Ok (if a =? 10 then Cur (a :: rev s ++ p) r (k + newlines s + 1) else Cur (rev s ++ p) (a :: r) (k + newlines s)).
Proof.
  intros Hf F Ha. unfold line_comment. rewrite while_next_app; [|exact Hf| |].
  - cbn [bind]. rewrite peek_cons. cbn [bind]. destruct (Z.eqb_spec a 10) as [->|]; [|reflexivity]. rewrite next_cons. reflexivity.
  - eapply Forall_impl; [|exact F]. cbn. intros c [? ?]. lia.
  - exists a, r. split; [reflexivity|]. lia.
Qed.
