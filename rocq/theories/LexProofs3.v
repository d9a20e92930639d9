(** Operators, identifiers, strings, bidirectional markers and the file clean-up. *)
From Coq Require Import ZArith Bool List Lia ZifyBool.
From Verif Require Import Mach LexModel LexSpec LexProofs LexProofs2.
Import ListNotations.
Open Scope Z_scope.

(** ** Operators *)
Fixpoint prefixb (o s : list Z) : bool :=
  match o, s with
  | [], _ => true
  | x :: o, y :: s => (x =? y) && prefixb o s
  | _, [] => false
  end.
Lemma prefixb_spec : forall o s, prefix_of o s -> prefixb o s = true.
Proof. induction o as [|x o IH]; intros s (r & ->); [reflexivity|]. cbn. rewrite Z.eqb_refl. apply IH. exists r. reflexivity. Qed.

Lemma alt_cons p x r k y f g : alt (Cur p (x :: r) k) y f g = if x =? y then f (Cur (x :: p) r (k + newlines [x])) else g (Cur p (x :: r) k).
Proof. unfold alt, matchc. rewrite peek_cons. cbn [bind]. destruct (x =? y); [rewrite next_cons; reflexivity|reflexivity]. Qed.
Lemma matchc_cons p x r k y : matchc (Cur p (x :: r) k) y = Ok (if x =? y then (true, Cur (x :: p) r (k + newlines [x])) else (false, Cur p (x :: r) k)).
Proof. unfold matchc. rewrite peek_cons. cbn [bind]. destruct (x =? y); [rewrite next_cons; reflexivity|reflexivity]. Qed.

Lemma longest_by o a r : In o operators -> prefix_of o (a :: r) ->
  forallb (fun o' => implb (prefixb o' (a :: r)) (Nat.leb (length o') (length o))) (filter (starts a) operators) = true -> longest o (a :: r).
Proof.
  intros H1 H2 H3. split; [exact H1|]. split; [exact H2|]. intros o' I' P'. rewrite forallb_forall in H3. specialize (H3 o').
  pose proof (prefixb_spec _ _ P') as Pb. rewrite Pb in H3. cbn [implb] in H3. apply Nat.leb_le, H3. apply filter_In. split; [exact I'|].
  destruct o' as [|x o']; [exfalso; cbn in I'; repeat destruct I' as [I'|I']; try discriminate; contradiction|].
  cbn in Pb. cbn. destruct (x =? a); [reflexivity|discriminate].
Qed.

(** [src] has at least three characters after the operator's first, by padding: we look at lists of the form a :: b :: c :: r. *)
Ltac isconst x := lazymatch x with Zpos _ => idtac | Z0 => idtac end.
Ltac consts := repeat match goal with |- context [?x =? ?y] => isconst x; isconst y; let v := eval vm_compute in (x =? y) in change (x =? y) with v; cbv iota end.
Ltac fork := repeat (consts; match goal with
  | |- context [?x =? ?y] => first [ is_var x | is_var y ]; destruct (Z.eqb_spec x y); [subst|]
  end); consts.

Lemma scan_op fuel p a r k : (2 < fuel)%nat -> live (a :: r) -> existsb (starts a) operators = true ->
  ~ prefix_of [47; 47] (a :: r) -> ~ prefix_of [47; 42] (a :: r) -> ~ prefix_of [60; 42] (a :: r) ->
  (forall b s, a :: r = 64 :: b :: s -> is_letter b || is_us b = false) ->
  exists o s, longest o (a :: r) /\ a :: r = o ++ s /\ scan_token fuel false (Cur p (a :: r) k) = Ok (false, Tok (TOp o) (Cur (rev o ++ p) s k)).
Proof.
  intros Hf Lv Ha N1 N2 N3 N4. destruct fuel as [|fuel]; [lia|].
  assert (Ha' : a <> 0) by (intros ->; vm_compute in Ha; discriminate).
  destruct (live_cons _ _ Lv Ha') as [_ Lr]. destruct r as [|b r]; [destruct (live_nil Lr)|].
  assert (Hn1 : ~ (a = 47 /\ b = 47)) by (intros [-> ->]; apply N1; exists r; reflexivity).
  assert (Hn2 : ~ (a = 47 /\ b = 42)) by (intros [-> ->]; apply N2; exists r; reflexivity).
  assert (Hn3 : ~ (a = 60 /\ b = 42)) by (intros [-> ->]; apply N3; exists r; reflexivity).
  assert (Hn4 : a = 64 -> is_letter b || is_us b = false) by (intros ->; apply (N4 b r); reflexivity).
  assert (Hws : skip_whitespace (S fuel) (S fuel) false (Cur p (a :: b :: r) k) = Ok (Cur p (a :: b :: r) k)).
  { cbn [skip_whitespace]. rewrite peek_cons, peekn_cons1. cbn [bind]. destruct (Z.eqb_spec a 47) as [->|].
    - destruct (Z.eqb_spec b 47); [lia|]. destruct (Z.eqb_spec b 42); [lia|reflexivity].
    - destruct (Z.eqb_spec a 10) as [->|]; [discriminate|]. destruct ((a =? 32) || (a =? 9) || (a =? 12)) eqn:B; [|destruct (Z.eqb_spec a 13) as [->|]; [discriminate|reflexivity]].
      exfalso. assert (a = 32 \/ a = 9 \/ a = 12) as [ -> | [ -> | -> ] ] by lia; discriminate. }
  unfold scan_token. rewrite Hws. cbn [bind]. rewrite peek_cons. cbn [bind]. destruct (Z.eqb_spec a 0); [lia|]. cbv zeta. rewrite next_cons. cbn [bind].
  assert (Cases : In a (map (fun o => hd 0 o) operators)).
  { apply existsb_exists in Ha. destruct Ha as (o & Io & Ho). apply in_map_iff. exists o. split; [|exact Io]. destruct o; [discriminate|]. cbn in *. lia. }
  assert (Third : (exists c s, r = c :: s) \/ b = 0).
  { destruct (Z.eq_dec b 0) as [->|Hb]; [right; reflexivity|]. left. destruct (live_cons _ _ Lr Hb) as [_ Lr']. destruct r as [|c s]; [destruct (live_nil Lr')|eauto]. }
  cbn in Cases. clear Ha N1 N2 N3 N4 Hws Lv Lr Hf n Ha'.
  repeat (destruct Cases as [<-|Cases]; [|]); try contradiction.
  all: consts.
  all: try (rewrite peek_cons; cbn [bind]; rewrite (Hn4 eq_refl)).
  all: rewrite ?alt_cons, ?matchc_cons; cbn [orb bind].
  all: destruct Third as [(c & s & ->) | -> ].
  all: fork; cbn [bind]; rewrite ?alt_cons, ?matchc_cons; fork; cbn [bind]; rewrite ?alt_cons; fork.
  all: try lia.
  all: cbn [bind op1].
  all: match goal with |- exists o s, longest o ?l /\ ?l = _ /\ Ok (false, Tok (TOp ?t) (Cur _ ?rest _)) = _ =>
    exists t, rest; split; [apply longest_by; [vm_compute; tauto|eexists; reflexivity|]|
      split; [reflexivity|cbn; rewrite ?Z.add_0_r; reflexivity]] end.
  all: match goal with |- forallb ?f ?l = true => let v := eval vm_compute in l in change l with v end; cbn -[Z.eqb]; fork; try lia; try reflexivity.
Qed.
