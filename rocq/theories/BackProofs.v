From Coq Require Import ZArith Bool List Lia ZifyBool.
From Verif Require Import BackModel BackSpec.
Import ListNotations.
Local Open Scope Z_scope.

Lemma align_up_ok x al : 0 < al -> x <= align_up x al < x + al /\ align_up x al mod al = 0.
Proof.
  intros A. unfold align_up. pose proof (Z.div_mod (x + al - 1) al ltac:(lia)). pose proof (Z.mod_pos_bound (x + al - 1) al A). split; [lia|]. rewrite Z.mul_comm. apply Z.mod_mul. lia.
Qed.
Lemma align_up_mult x n al : 0 < al -> n mod al = 0 -> align_up (x + n) al = align_up x al + n.
Proof.
  intros A M. apply Z.mod_divide in M; [|lia]. destruct M as (q & ->). unfold align_up. replace (x + q * al + al - 1) with (x + al - 1 + q * al) by lia. rewrite Z.div_add by lia. lia.
Qed.
Definition good_al (al : Z) : Prop := 16 <= al /\ exists k, al = 16 * k.
Lemma alignment_ok al : al = 0 \/ power_of_two al -> good_al (alignment_for al).
Proof.
  unfold alignment_for, good_al. intros H. destruct (Z.ltb_spec al 16) as [L|L]; [split; [lia|exists 1; lia]|]. destruct H as [->|(k & K & ->)]; [lia|]. split; [lia|]. exists (2 ^ (k - 4)).
  assert (4 <= k). { destruct (Z.le_gt_cases 4 k); [assumption|]. assert (2 ^ k <= 2 ^ 3) by (apply Z.pow_le_mono_r; lia). lia. }
  change 16 with (2 ^ 4). rewrite <- Z.pow_add_r by lia. f_equal. lia.
Qed.
Lemma aligned16 x al : good_al al -> x mod al = 0 -> x mod 16 = 0.
Proof. intros (A & k & ->) M. apply Z.mod_divide in M; [|lia]. destruct M as (q & ->). replace (q * (16 * k)) with (q * k * 16) by lia. apply Z.mod_mul. lia. Qed.

(** ** The invariant *)
Definition apart (b c : block) : Prop := ptr b + size b <= ptr c - 8 \/ ptr c + size c <= ptr b - 8.
Fixpoint below (d : nat) (v : Z) (l : list Z) : Prop := match l with [] => True | m :: r => ((d <= length r)%nat -> v <= m) /\ below d v r end.
Definition chunk_ok (a : arena) (b : block) : Prop := base a <= ptr b - 8 /\ ptr b + size b <= base a + used a /\ ptr b + size b <= base a + capacity a /\ below (depth b) (ptr b + size b - base a) (marks a).
Definition paged_ok (a : arena) (b : block) : Prop := exists g, data g = ptr b /\ len g = size b /\ (In g (lost a) \/ In g (pages a) /\ below (depth b) (mark g) (marks a)).
Definition page_ok (a : arena) (g : page) : Prop := 0 < mark g /\ (0 < len g /\ 0 < total g) /\ start g <= data g - 8 /\ data g + len g <= start g + total g /\ (start g + total g <= base a \/ base a + capacity a <= start g).
Record inv (a : arena) : Prop := {
  iv_cap : 0 < capacity a; iv_used : 0 <= used a; iv_marks : Forall (fun m => 0 <= m) (marks a);
  iv_live : forall b, In b (live a) -> 0 < size b /\ ptr b mod 16 = 0 /\ if paged b then paged_ok a b else chunk_ok a b;
  iv_apart : ForallOrdPairs apart (live a);
  iv_len : forall b g, In b (live a) -> paged b = true -> In g (pages a ++ lost a) -> data g = ptr b -> len g = size b;
  iv_pages : forall g, In g (pages a ++ lost a) -> page_ok a g;
  iv_mark : forall g, In g (pages a) -> mark g <= used a;
  iv_sorted : ForallOrdPairs (fun g h => mark h < mark g) (pages a);
  iv_cp : forall b g, In b (live a) -> paged b = false -> In g (pages a) -> ptr b + size b < base a + mark g \/ base a + mark g <= ptr b }.

Lemma below_mono d v w l : v <= w -> below d w l -> below d v l.
Proof. intros L. induction l as [|m r IH]; cbn; [auto|]. intros (A & B). split; [intros D; specialize (A D); lia|auto]. Qed.
Lemma below_new l v : below (length l) v l.
Proof. assert (K : forall d, (length l <= d)%nat -> below d v l). { induction l as [|m r IH]; intros d D; cbn in *; [auto|]. split; [lia|]. apply IH. lia. } apply K. lia. Qed.
Lemma lookup_ok l p : match lookup l p with
  | Some (b, r) => In b l /\ ptr b = p /\ (forall c, In c r -> In c l) /\ (forall c, In c l -> c = b \/ In c r) /\ (ForallOrdPairs apart l -> ForallOrdPairs apart r /\ Forall (apart b) r)
  | None => forall b, In b l -> ptr b <> p end.
Proof.
  induction l as [|b r IH]; cbn [lookup]; [intros b []|]. destruct (Z.eqb_spec (ptr b) p) as [E|E].
  - repeat split; auto. + left; reflexivity. + intros c C. right; exact C. + intros c [->|C]; auto. + inversion H; assumption. + inversion H; assumption.
  - destruct (lookup r p) as [[x r']|]; [|intros c [<-|C]; auto]. destruct IH as (A & B & C & D & F). repeat split; auto.
    + right; exact A. + intros c [<-|X]; [left; reflexivity|right; apply C, X]. + intros c [<-|X]; [right; left; reflexivity|]. destruct (D c X) as [->|Y]; [left; reflexivity|right; right; exact Y].
    + inversion H as [|? ? H1 H2]; subst. destruct (F H2) as (F1 & F2). constructor; [|exact F1]. rewrite Forall_forall in *. intros c X. apply H1, C, X.
    + inversion H as [|? ? H1 H2]; subst. destruct (F H2) as (F1 & F2). constructor; [|exact F2]. rewrite Forall_forall in H1. specialize (H1 x A). unfold apart in *. lia.
Qed.
Lemma unlink_ok l p : match unlink l p with
  | Some (g, r) => In g l /\ data g = p /\ (forall c, In c r -> In c l) /\ (forall c, In c l -> c = g \/ In c r) /\ (forall P : page -> page -> Prop, ForallOrdPairs P l -> ForallOrdPairs P r)
  | None => forall g, In g l -> data g <> p end.
Proof.
  induction l as [|b r IH]; cbn [unlink]; [intros b []|]. destruct (Z.eqb_spec (data b) p) as [E|E].
  - repeat split; auto. + left; reflexivity. + intros c C. right; exact C. + intros c [->|C]; auto. + intros P H. inversion H; assumption.
  - destruct (unlink r p) as [[x r']|]; [|intros c [<-|C]; auto]. destruct IH as (A & B & C & D & F). repeat split; auto.
    + right; exact A. + intros c [<-|X]; [left; reflexivity|right; apply C, X]. + intros c [<-|X]; [right; left; reflexivity|]. destruct (D c X) as [->|Y]; [left; reflexivity|right; right; exact Y].
    + intros P H. inversion H as [|? ? H1 H2]; subst. constructor; [|exact (F P H2)]. rewrite Forall_forall in *. intros c X. apply H1, C, X.
Qed.

(** ** Making a block *)
Definition made (provide : provider) (n al : Z) (a : arena) (r : answer * arena) : Prop :=
  match r with
  | (Ptr q, a') => inv a' /\ (exists f, live a' = Block q n (length (marks a)) f :: live a) /\ bytes a' = bytes a /\ q mod al = 0 /\ lost a' = lost a /\ marks a' = marks a /\ base a' = base a /\ capacity a' = capacity a
  | (Refused, a') => a' = a /\ exists s, n <= s /\ provide s al (owned a) = None
  | _ => False
  end.
Lemma apart_memory (r s : Z * Z) : 0 < snd r -> 0 < snd s -> (forall x, in_memory r x -> ~ in_memory s x) -> fst r + snd r <= fst s \/ fst s + snd s <= fst r.
Proof.
  intros A B H. unfold in_memory in H. destruct (Z.le_gt_cases (fst r + snd r) (fst s)); [auto|]. destruct (Z.le_gt_cases (fst s + snd s) (fst r)); [auto|]. exfalso. apply (H (Z.max (fst r) (fst s))); lia.
Qed.
Lemma acquire_ok provide n al a : provides provide -> inv a -> 0 < n -> al = 0 \/ power_of_two al -> al <= 16 \/ n mod al = 0 -> made provide n (alignment_for al) a (acquire provide n al a).
Proof.
  intros PV I N AL CA. pose proof (alignment_ok al AL) as G. assert (CA' : alignment_for al = 16 \/ n mod (alignment_for al) = 0). { unfold alignment_for. destruct (Z.ltb_spec al 16); [auto|]. destruct CA; [left; lia|auto]. }
  clear CA AL. unfold acquire, HEADER. set (al' := alignment_for al) in *. clearbody al'. clear al. pose proof G as (G1 & _).
  destruct (align_up_ok (base a + used a) 8 ltac:(lia)) as (U1 & _). set (h := align_up (base a + used a) 8) in *. destruct (align_up_ok (h + 8) al' ltac:(lia)) as (V1 & V2). set (mem := align_up (h + 8) al') in *. clearbody mem h.
  pose proof I as [CAP I1 IM I2 I3 IL I4 I5 I6 I7]. destruct (Z.leb_spec (mem - base a + n) (capacity a)) as [F|F].
  - cbn [made live bytes lost marks base capacity]. split; [|repeat split; eauto]. constructor; cbn [used marks live pages lost base capacity]; auto; try lia.
    + intros b [<-|B].
      * cbn [size ptr paged]. split; [exact N|]. split; [exact (aligned16 mem al' G V2)|]. unfold chunk_ok; cbn [base used capacity ptr size depth marks]. repeat split; try lia. apply below_new.
      * destruct (I2 b B) as (A1 & A2 & A3). split; [exact A1|]. split; [exact A2|]. destruct (paged b); [exact A3|]. unfold chunk_ok in *; cbn [base used capacity ptr size depth marks] in *. destruct A3 as (A3 & A4 & A5 & A6). repeat split; auto; lia.
    + constructor; [|exact I3]. rewrite Forall_forall. intros b B. destruct (I2 b B) as (A1 & A2 & A3). unfold apart; cbn [ptr size]. destruct (paged b).
      * destruct A3 as (g & D1 & D2 & D3). destruct (I4 g) as (_ & (J0 & _) & J1 & J2 & J3); [rewrite in_app_iff; destruct D3 as [D3|(D3 & _)]; auto|]. lia.
      * destruct A3 as (A3 & A4 & _). lia.
    + intros b g [<-|B]; [discriminate|apply IL, B].
    + intros g Q. specialize (I5 g Q). lia.
    + intros b g [<-|B] PB Q; [|exact (I7 b g B PB Q)]. cbn [ptr size]. specialize (I5 g Q). lia.
  - set (sz := if 16 <? al' then _ else _). set (off := if 16 <? al' then _ else _).
    assert (K : 48 <= off /\ off + n <= sz /\ off mod 16 = 0 /\ (off mod al' = 0)).
    { unfold sz, off, PAGE. destruct (Z.ltb_spec 16 al') as [L|L].
      - destruct CA' as [->|M]; [lia|]. rewrite (align_up_mult 40 n al' ltac:(lia) M). destruct (align_up_ok 40 al' ltac:(lia)) as (W1 & W2). pose proof (aligned16 _ _ G W2) as W3.
        split; [|split; [lia|split; assumption]]. set (w := align_up 40 al') in *. clearbody w. pose proof (Z.div_mod w 16 ltac:(lia)). lia.
      - assert (al' = 16) by lia. subst al'. change (align_up 40 16) with 48. split; [lia|]. split; [lia|]. split; reflexivity. }
    destruct K as (K1 & K2 & K3 & K4). clearbody sz off. destruct (provide sz al' (owned a)) as [s|] eqn:P; [|cbn; split; [reflexivity|exists sz; split; [lia|exact P]]].
    destruct (PV _ _ _ _ P) as (W1 & W2).
    assert (M1 : (s + off) mod al' = 0). { apply Z.mod_divide in W1; [|lia]. apply Z.mod_divide in K4; [|lia]. apply Z.mod_divide; [lia|]. apply Z.divide_add_r; assumption. }
    assert (D1 : s + sz <= base a \/ base a + capacity a <= s).
    { pose proof (apart_memory (base a, capacity a) (s, sz) CAP ltac:(cbn; lia) (fun x => W2 (base a, capacity a) x ltac:(left; reflexivity))) as D. cbn [fst snd] in D. lia. }
    assert (D2 : forall g, In g (pages a ++ lost a) -> s + sz <= start g \/ start g + total g <= s).
    { intros g Q. pose proof (I4 g Q) as (_ & (_ & T) & _). pose proof (apart_memory (extent g) (s, sz) T ltac:(cbn; lia) (fun x => W2 (extent g) x ltac:(right; apply in_map, Q))) as D. cbn [fst snd extent] in D. lia. }
    cbn [made live bytes lost marks base capacity]. split; [|repeat split; eauto]. constructor; cbn [used marks live pages lost base capacity]; auto; try lia.
    + intros b [<-|B].
      * cbn [size ptr paged]. split; [exact N|]. split; [exact (aligned16 _ al' G M1)|]. exists (Page s sz (s + off) n (used a + 1)). cbn [data len ptr size depth pages marks mark lost]. split; [reflexivity|]. split; [reflexivity|]. right. split; [left; reflexivity|]. apply below_new.
      * destruct (I2 b B) as (A1 & A2 & A3). split; [exact A1|]. split; [exact A2|]. destruct (paged b).
        -- destruct A3 as (g & B1 & B2 & B3). exists g. cbn [pages lost marks]. split; [exact B1|]. split; [exact B2|]. destruct B3 as [B3|(B3 & B4)]; [left; exact B3|right; split; [right; exact B3|exact B4]].
        -- unfold chunk_ok in *; cbn [base used capacity ptr size depth marks] in *. destruct A3 as (A3 & A4 & A5 & A6). repeat split; auto; lia.
    + constructor; [|exact I3]. rewrite Forall_forall. intros b B. destruct (I2 b B) as (A1 & A2 & A3). unfold apart; cbn [ptr size]. destruct (paged b).
      * destruct A3 as (g & B1 & B2 & B3). assert (Q : In g (pages a ++ lost a)) by (rewrite in_app_iff; destruct B3 as [B3|(B3 & _)]; auto). destruct (I4 g Q) as (_ & (J0 & _) & J1 & J2 & J3). specialize (D2 g Q). lia.
      * destruct A3 as (A3 & _ & A4 & _). lia.
    + intros b g [<-|B] PB [<-|Q] D; cbn [data len ptr size] in *; [reflexivity| | |exact (IL b g B PB Q D)].
      * destruct (I4 g Q) as (_ & (J0 & _) & J1 & J2 & J3). specialize (D2 g Q). lia.
      * destruct (I2 b B) as (A1 & _ & A3). rewrite PB in A3. destruct A3 as (g & B1 & B2 & B3). assert (Q : In g (pages a ++ lost a)) by (rewrite in_app_iff; destruct B3 as [B3|(B3 & _)]; auto). destruct (I4 g Q) as (_ & (J0 & _) & J1 & J2 & J3). specialize (D2 g Q). lia.
    + intros g [<-|Q]; [unfold page_ok; cbn [mark total start data len base capacity]; repeat split; lia|exact (I4 g Q)].
    + intros g [<-|Q]; [cbn; lia|]. specialize (I5 g Q). lia.
    + constructor; [|exact I6]. rewrite Forall_forall. intros g Q. specialize (I5 g Q). cbn [mark]. lia.
    + intros b g [<-|B] PB [<-|Q]; cbn [ptr size paged mark] in *; [discriminate|discriminate| |exact (I7 b g B PB Q)].
      destruct (I2 b B) as (A1 & A2 & A3). rewrite PB in A3. destruct A3 as (A3 & A4 & _). lia.
Qed.

(** ** The other operations *)
Lemma release_ok p a r a' : inv a -> release p a = (r, a') -> r <> Misuse ->
  r = Done /\ inv a' /\ bytes a' = bytes a /\ lost a' = lost a /\ (forall b, In b (live a') -> In b (live a)) /\ (forall b, In b (live a) -> ptr b <> p -> In b (live a')).
Proof.
  intros I E NM. pose proof I as [CAP I1 IM I2 I3 IL I4 I5 I6 I7]. unfold release in E. pose proof (lookup_ok (live a) p) as L. destruct (lookup (live a) p) as [[b l]|]; [|injection E as <- <-; congruence].
  destruct L as (L1 & L2 & L3 & L4 & L5). destruct (L5 I3) as (L6 & L7). injection E as <- <-. cbn [bytes lost live]. split; [reflexivity|]. split; [|repeat split; auto; intros c C N; destruct (L4 c C) as [->|X]; [congruence|exact X]].
  set (u := if paged b then _ else _).
  destruct (I2 b L1) as (A1 & A2 & A3).
  assert (U : 0 <= u /\ (forall c, In c l -> paged c = false -> ptr c + size c <= base a + u) /\ (forall g, In g (pages a) -> mark g <= u)).
  { assert (K : forall c, In c l -> paged c = false -> ptr c + size c <= base a + used a). { intros c C PC. destruct (I2 c (L3 c C)) as (_ & _ & B3). rewrite PC in B3. destruct B3 as (_ & B3 & _). exact B3. }
    unfold u. destruct (paged b) eqn:PB.
    - destruct (Z.eqb_spec (p - 1) (base a + used a)); (split; [lia|]; split; [intros c C PC; specialize (K c C PC); lia|intros g Q; specialize (I5 g Q); lia]).
    - destruct (Z.eqb_spec (p + size b) (base a + used a)) as [E1|E1]; [|split; [lia|split; [exact K|exact I5]]]. destruct A3 as (A3 & A4 & A5 & _). split; [lia|]. split.
      + intros c C PC. specialize (K c C PC). rewrite Forall_forall in L7. specialize (L7 c C). destruct (I2 c (L3 c C)) as (B1 & _). unfold apart in L7. lia.
      + intros g Q. specialize (I5 g Q). specialize (I7 b g L1 PB Q). lia. }
  destruct U as (U1 & U2 & U3). clearbody u. constructor; cbn [capacity used marks live pages lost base]; auto.
  - intros c C. destruct (I2 c (L3 c C)) as (B1 & B2 & B3). split; [exact B1|]. split; [exact B2|]. destruct (paged c) eqn:PC; [exact B3|]. unfold chunk_ok in *; cbn [base used capacity marks] in *. destruct B3 as (B3 & B4 & B5 & B6). repeat split; auto.
Qed.
Lemma free_pages_ok l m : ForallOrdPairs (fun g h => mark h < mark g) l -> forall u, let (r, u') := free_pages l m u in
  (forall g, In g r -> In g l /\ mark g <= m) /\ (forall g, In g l -> mark g <= m -> In g r) /\ ForallOrdPairs (fun g h => mark h < mark g) r /\ (r = [] -> (l = [] /\ u' = u) \/ m < u').
Proof.
  intros F. induction F as [|g l H F IH]; intros u; cbn [free_pages]; [split; [intros g []|split; [intros g []|split; [constructor|auto]]]|]. destruct (Z.ltb_spec m (mark g)) as [L|L].
  - specialize (IH (mark g)). destruct (free_pages l m (mark g)) as [r u']. destruct IH as (A & B & C & D). split; [intros h Q; split; [right; apply A, Q|apply A, Q]|]. split; [|split; [exact C|]].
    + intros h [<-|Q] M; [lia|auto].
    + intros R. right. destruct (D R) as [(_ & ->)|X]; lia.
  - rewrite Forall_forall in H. split; [|split; [auto|split; [|discriminate]]].
    + intros h [<-|Q]; (split; [cbn; auto|]); [exact L|]. specialize (H h Q). lia.
    + constructor; [rewrite Forall_forall; exact H|exact F].
Qed.
Lemma fop_filter {A} (P : A -> A -> Prop) f l : ForallOrdPairs P l -> ForallOrdPairs P (filter f l).
Proof. intros F. induction F as [|x l H F IH]; cbn; [constructor|]. destruct (f x); [|exact IH]. constructor; [|exact IH]. rewrite Forall_forall in *. intros y Y. apply filter_In in Y. apply H, Y. Qed.
Lemma reset_ok safe provide a r a' : inv a -> step safe provide Reset a = (r, a') -> r <> Misuse -> r <> Crash ->
  r = Done /\ inv a' /\ lost a' = lost a /\ (safe = false -> bytes a' = bytes a) /\ (forall b, In b (live a') <-> In b (live a) /\ (depth b < length (marks a))%nat).
Proof.
  intros I E NM NC. pose proof I as [CAP I1 IM I2 I3 IL I4 I5 I6 I7]. cbn [step] in E. destruct (marks a) as [|m ms] eqn:EM; [injection E as <- <-; congruence|].
  unfold reset in E. pose proof (free_pages_ok (pages a) m I6 (used a)) as F. destruct (free_pages (pages a) m (used a)) as [gs u]. destruct F as (F1 & F2 & F3 & F4).
  assert (K : forall by', let a2 := Arena (base a) (capacity a) m gs (lost a) ms (filter (fun b => (depth b <=? length ms)%nat) (live a)) by' in inv a2 /\ lost a2 = lost a /\ (forall b, In b (live a2) <-> In b (live a) /\ (depth b < length (m :: ms))%nat)).
  { intros by' a2. split; [|split; [reflexivity|]].
    - constructor; cbn [capacity used marks live pages lost base a2]; auto.
      + exact (Forall_inv IM).
      + exact (Forall_inv_tail IM).
      + intros b B. apply filter_In in B. destruct B as (B & DB). destruct (I2 b B) as (A1 & A2 & A3). split; [exact A1|]. split; [exact A2|]. destruct (paged b).
        * destruct A3 as (g & B1 & B2 & B3). exists g. split; [exact B1|]. split; [exact B2|]. destruct B3 as [B3|(B3 & B4)]; [left; exact B3|]. right. rewrite EM in B4. cbn [below] in B4. destruct B4 as (B4 & B5). split; [apply F2; [exact B3|apply B4; lia]|exact B5].
        * destruct A3 as (C1 & C2 & C3 & C4). rewrite EM in C4. cbn [below] in C4. destruct C4 as (C4 & C5). unfold chunk_ok; cbn [base used capacity marks a2]. repeat split; auto. specialize (C4 ltac:(lia)). lia.
      + apply fop_filter, I3.
      + intros b g B PB Q. apply filter_In in B. apply (IL b g); [apply B|exact PB|]. apply in_app_iff in Q. apply in_app_iff. destruct Q as [Q|Q]; [left; apply F1, Q|right; exact Q].
      + intros g Q. apply in_app_iff in Q. apply I4. apply in_app_iff. destruct Q as [Q|Q]; [left; apply F1, Q|right; exact Q].
      + intros g Q. apply F1, Q.
      + intros b g B PB Q. apply filter_In in B. apply (I7 b g); [apply B|exact PB|apply F1, Q].
    - intros b. cbn [live a2]. rewrite filter_In. cbn [length]. split; intros (X & Y); split; auto; lia. }
  destruct (safe && match gs with [] => true | _ => false end) eqn:S.
  - destruct (u <? m); [injection E as <- <-; congruence|]. injection E as <- <-. destruct (K (fill (bytes a) (base a + m) (base a + u) 170)) as (K1 & K2 & K3). split; [reflexivity|]. split; [exact K1|]. split; [exact K2|]. split; [intros ->; discriminate|exact K3].
  - injection E as <- <-. destruct (K (bytes a)) as (K1 & K2 & K3). split; [reflexivity|]. split; [exact K1|]. split; [exact K2|]. split; [reflexivity|exact K3].
Qed.
Lemma inv_fields a : a = Arena (base a) (capacity a) (used a) (pages a) (lost a) (marks a) (live a) (bytes a).
Proof. destruct a; reflexivity. Qed.
(** Taking a block of the program away keeps the invariant. *)
Lemma inv_drop a c f l lo by' : inv a -> live a = c :: f -> (forall b, In b l -> In b f) -> (ForallOrdPairs apart f -> ForallOrdPairs apart l) -> (forall g, In g lo -> In g (lost a)) ->
  (forall b g, In b l -> data g = ptr b -> In g (lost a) -> In g lo) -> (forall g, In g (lost a) -> data g = ptr c -> In g lo) ->
  inv (Arena (base a) (capacity a) (used a) (pages a) lo (marks a) (c :: l) by').
Proof.
  intros I L IN AP LO LB LC. pose proof I as [CAP I1 IM I2 I3 IL I4 I5 I6 I7]. rewrite L in *. 
  constructor; cbn [capacity used marks live pages lost base]; auto.
  - intros b B. destruct (I2 b) as (A1 & A2 & A3); [destruct B as [<-|B]; [left; reflexivity|right; apply IN, B]|]. split; [exact A1|]. split; [exact A2|]. destruct (paged b); [|exact A3].
    destruct A3 as (g & B1 & B2 & B3). exists g. split; [exact B1|]. split; [exact B2|]. destruct B3 as [B3|B3]; [left|right; exact B3]. cbn [lost]. destruct B as [<-|B]; [apply LC; auto|apply (LB b); auto].
  - inversion I3 as [|? ? H1 H2]; subst. constructor; [|apply AP, H2]. rewrite Forall_forall in *. intros b B. apply H1, IN, B.
  - intros b g B PB Q. apply IL; [destruct B as [<-|B]; [left; reflexivity|right; apply IN, B]|exact PB|]. apply in_app_iff in Q. apply in_app_iff. destruct Q as [Q|Q]; auto.
  - intros g Q. apply I4. apply in_app_iff in Q. apply in_app_iff. destruct Q as [Q|Q]; auto.
  - intros b g B. apply I7. destruct B as [<-|B]; [left; reflexivity|right; apply IN, B].
Qed.
(** What a resize does. *)
Lemma resize_ok provide p n al a r a' : provides provide -> inv a -> sane (Resize p n al) -> careful (Resize p n al) -> resize provide p n al a = (r, a') -> r <> Misuse -> r <> Crash ->
  inv a' /\
  ((r = Refused /\ live a' = live a /\ bytes a' = bytes a) \/
   exists q b f, r = Ptr q /\ In b (live a) /\ ptr b = p /\ q mod (alignment_for al) = 0 /\ In (Block q n (length (marks a)) f) (live a') /\ lost a' = lost a /\ bytes a' = copy (bytes a) q p (size b) /\
     (forall c, In c (live a) -> ptr c <> p -> In c (live a')) /\ (forall c, In c (live a) -> apart (Block q n (length (marks a)) f) c)).
Proof.
  intros PV I (N & AL) CA E NM NC. cbn [careful] in CA. unfold resize in E. pose proof (lookup_ok (live a) p) as L. destruct (lookup (live a) p) as [[b l]|]; [|injection E as <- <-; congruence].
  pose proof I as [CAP I1 IM I2 I3 IL I4 I5 I6 I7]. destruct L as (L1 & L2 & L3 & L4 & L5). destruct (paged b) eqn:PB.
  - pose proof (unlink_ok (pages a) p) as U. destruct (unlink (pages a) p) as [[g gs]|]; [|injection E as <- <-; congruence]. destruct U as (U1 & U2 & U3 & U4 & U5).
    set (a1 := Arena (base a) (capacity a) (used a) gs (g :: lost a) (marks a) (live a) (bytes a)) in *.
    assert (J : inv a1).
    { constructor; cbn [capacity used marks live pages lost base a1]; auto.
      - intros c C. destruct (I2 c C) as (A1 & A2 & A3). split; [exact A1|]. split; [exact A2|]. destruct (paged c); [|exact A3].
        destruct A3 as (h & B1 & B2 & B3). exists h. split; [exact B1|]. split; [exact B2|]. cbn [lost pages marks a1]. destruct B3 as [B3|(B3 & B4)]; [left; right; exact B3|]. destruct (U4 h B3) as [->|X]; [left; left; reflexivity|right; split; [exact X|exact B4]].
      - intros c h C PC Q. apply IL; auto. apply in_app_iff in Q. apply in_app_iff. destruct Q as [Q|[<-|Q]]; auto.
      - intros h Q. apply I4. apply in_app_iff in Q. apply in_app_iff. destruct Q as [Q|[<-|Q]]; auto.
    }
    pose proof (acquire_ok provide n al a1 PV J N AL CA) as M. destruct (acquire provide n al a1) as [[q| | | |] a2]; cbn [made] in M; try contradiction; [|destruct M as (-> & _); injection E as <- <-; split; [exact J|left; auto]].
    destruct M as (M1 & (f & M2) & M3 & M4 & M5 & M6 & M7 & M8). injection E as <- <-. rewrite M2. cbn [paged].
    assert (AQ : forall c, In c (live a) -> apart (Block q n (length (marks a)) f) c). { destruct M1 as [_ _ _ _ Z1 _ _ _ _ _]. rewrite M2 in Z1. inversion Z1 as [|? ? H1 H2]; subst. rewrite Forall_forall in H1. exact H1. }
    split.
    + apply (inv_drop a2 _ (live a1)); auto.
      * intros X. apply L5, X.
      * rewrite M5. intros h Q. right. exact Q.
      * rewrite M5. cbn [lost a1]. intros c h C D [<-|Q]; [|exact Q]. exfalso. destruct (L5 I3) as (_ & L7). rewrite Forall_forall in L7. specialize (L7 c C). destruct (I2 c (L3 c C)) as (A1 & _). destruct (I2 b L1) as (A2 & _). unfold apart in L7. lia.
      * rewrite M5. cbn [lost a1 ptr]. intros h [<-|Q] D; [|exact Q]. exfalso. pose proof (AQ b L1) as X. destruct (I2 b L1) as (A2 & _). unfold apart in X; cbn [ptr size] in X. lia.
    + right. exists q, b, f. rewrite M3. cbn [live lost bytes a1]. 
      assert (LG : len g = size b) by (apply (IL b g L1 PB); [apply in_app_iff; left; exact U1|congruence]). rewrite LG.
      repeat split; auto. * left; reflexivity. * intros c C NP. right. destruct (L4 c C) as [->|X]; [congruence|exact X].
  - pose proof (acquire_ok provide n al a PV I N AL CA) as M. destruct (acquire provide n al a) as [[q| | | |] a2]; cbn [made] in M; try contradiction; [|destruct M as (-> & _); injection E as <- <-; split; [exact I|left; auto]].
    destruct M as (M1 & (f & M2) & M3 & M4 & M5 & M6 & M7 & M8). injection E as <- <-. rewrite M2. cbn [paged].
    assert (AQ : forall c, In c (live a) -> apart (Block q n (length (marks a)) f) c). { destruct M1 as [_ _ _ _ Z1 _ _ _ _ _]. rewrite M2 in Z1. inversion Z1 as [|? ? H1 H2]; subst. rewrite Forall_forall in H1. exact H1. }
    split.
    + apply (inv_drop a2 _ (live a)); auto. intros X. apply L5, X.
    + right. exists q, b, f. rewrite M3, M5. cbn [live lost bytes].
      repeat split; auto. * left; reflexivity. * intros c C NP. right. destruct (L4 c C) as [->|X]; [congruence|exact X].
Qed.

Lemma reach_inv safe provide b cap m a : provides provide -> 16 <= cap -> reach safe provide b cap m a -> inv a.
Proof.
  intros PV C R. induction R as [|a o r a' R I S CA E NM NC].
  - constructor; cbn; auto; try lia; try (intros ? []); try (intros ? ? []); try constructor.
  - destruct o as [n al|p|p n al| | |x v].
    + cbn [step sane careful] in *. destruct S as (N & AL). pose proof (acquire_ok provide n al a PV I N AL CA) as M. rewrite E in M. destruct r; cbn [made] in M; try contradiction; [apply M|]. destruct M as (-> & _). exact I.
    + cbn [step] in E. apply (release_ok p a r a' I E NM).
    + cbn [step] in E. apply (resize_ok provide p n al a r a' PV I S CA E NM NC).
    + cbn [step] in E. injection E as <- <-. pose proof I as [CAP I1 IM I2 I3 IL I4 I5 I6 I7]. constructor; cbn [capacity used marks live pages lost base]; auto.
      intros c C0. destruct (I2 c C0) as (A1 & A2 & A3). split; [exact A1|]. split; [exact A2|]. destruct (paged c).
      * destruct A3 as (g & B1 & B2 & B3). exists g. cbn [lost pages marks]. split; [exact B1|]. split; [exact B2|]. destruct B3 as [B3|(B3 & B4)]; [left; exact B3|]. right. split; [exact B3|]. cbn [below]. split; [intros _; apply I5, B3|exact B4].
      * destruct A3 as (C1 & C2 & C3 & C4). unfold chunk_ok; cbn [base used capacity marks below]. repeat split; auto. lia.
    + apply (reset_ok safe provide a r a' I E NM NC).
    + cbn [step] in E. injection E as <- <-. pose proof I as [CAP I1 IM I2 I3 IL I4 I5 I6 I7]. constructor; cbn [capacity used marks live pages lost base]; auto.
Qed.
Lemma served_lost safe provide b cap m a : provides provide -> 16 <= cap -> served safe provide b cap m a -> reach safe provide b cap m a /\ lost a = [].
Proof.
  intros PV C R. induction R as [|a o r a' R (I & L) S CA E NM NC NR]; [split; [constructor|reflexivity]|]. split; [econstructor; eauto|]. pose proof (reach_inv safe provide b cap m a PV C I) as J.
  destruct o as [n al|p|p n al| | |x v].
  - cbn [step sane careful] in *. destruct S as (N & AL). pose proof (acquire_ok provide n al a PV J N AL CA) as M. rewrite E in M. destruct r; cbn [made] in M; try contradiction. destruct M as (_ & _ & _ & _ & -> & _). exact L.
  - cbn [step] in E. destruct (release_ok p a r a' J E NM) as (_ & _ & _ & -> & _). exact L.
  - cbn [step] in E. destruct (resize_ok provide p n al a r a' PV J S CA E NM NC) as (_ & [(-> & _)|(q & c & f & _ & _ & _ & _ & _ & -> & _)]); [congruence|exact L].
  - cbn [step] in E. injection E as <- <-. exact L.
  - destruct (reset_ok safe provide a r a' J E NM NC) as (_ & _ & -> & _). exact L.
  - cbn [step] in E. injection E as <- <-. exact L.
Qed.
