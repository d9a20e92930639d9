(** What every accepted text satisfies, and that the fuel always suffices. *)
From Coq Require Import Arith Bool List Lia.
From Verif Require Import PrattModel PrattSpec PrattProofs.
Import ListNotations.

Notation lv := real_level.

Lemma bare_app a b : bare (a ++ b) = bare a ++ bare b. Proof. apply flat_map_app. Qed.
Definition one (t : tok) : list tok := match t with TkLParen | TkRParen | TkComma => [] | TkBangBang => [TkBang; TkBang] | _ => [t] end.
Lemma bare_cons t a : bare (t :: a) = one t ++ bare a. Proof. reflexivity. Qed.

Definition clo (e : expr) (t : tok) : Prop :=
  match open_level lv e with None => True | Some m => if m <=? 2 then precedence t < m else precedence t <= m end.
Definition minl (p : nat) (e : expr) : Prop := match open_level lv e with None => True | Some m => p <= m end.

Definition Sound (p : nat) (ts : list tok) (e : expr) (r : list tok) : Prop :=
  exists used, ts = used ++ r /\ used <> [] /\ bare used = in_order e /\ well_nested lv e /\ minl p e /\ clo e (cur r).
Definition SoundA (ts : list tok) (a : args) (r : list tok) : Prop :=
  exists used, ts = used ++ r /\ used <> [] /\ bare used = in_order_args a /\ well_nested_args lv a.
Definition HP (pp : parser) := forall p ts e r, pp p ts = POk (e, r) -> Sound p ts e r.
Definition HA (pa : list tok -> PR (args * list tok)) := forall ts a r, pa ts = POk (a, r) -> SoundA ts a r.

Lemma open_level_le e m : open_level lv e = Some m -> m <= 9.
Proof. destruct e; try discriminate; cbn; destruct grouped; try discriminate; intros [= <-]; [apply real_level_range|lia|lia]. Qed.
Lemma minl_none p e : 10 <= p -> minl p e -> open_level lv e = None.
Proof.
  unfold minl. intros Hp H. destruct (open_level lv e) eqn:E; [|reflexivity]. apply open_level_le in E. lia.
Qed.
Lemma clo_left e t : clo e t -> left_ok lv (precedence t) e.
Proof.
  unfold clo, left_ok. destruct (open_level lv e) as [m|]; [|trivial].
  destruct (Nat.leb_spec m 2); destruct (Nat.leb_spec (precedence t) 2); lia.
Qed.
Lemma clo_none e t : clo e t -> 10 <= precedence t -> closed_operand lv e.
Proof.
  unfold clo, closed_operand. intros H Hp. destruct (open_level lv e) as [m|] eqn:E; [|reflexivity]. apply open_level_le in E.
  destruct (Nat.leb_spec m 2); lia.
Qed.
Lemma consume_inv ts t r : consume ts t = POk r -> (t = TkRParen \/ t = TkRBracket \/ t = TkColon) -> ts = t :: r.
Proof.
  unfold consume, tok_is. intros H Ht. destruct (tok_eqb_simple (cur ts) t) eqn:E; [|discriminate]. injection H as <-.
  destruct ts as [|x ts]; [destruct Ht as [->|[->| ->]]; discriminate|]. cbn [cur hd tl] in *.
  destruct x; destruct Ht as [->|[->| ->]]; try discriminate; reflexivity.
Qed.
Lemma try_consume_inv ts t b r : try_consume ts t = (b, r) -> (t = TkColon \/ t = TkDotDot \/ t = TkBitXor \/ t = TkComma) ->
  ts = (if b then [t] else []) ++ r.
Proof.
  unfold try_consume, tok_is. intros H Ht. destruct (tok_eqb_simple (cur ts) t) eqn:E; injection H as <- <-; [|reflexivity].
  destruct ts as [|x ts]; [destruct Ht as [->|[->|[->| ->]]]; discriminate|]. cbn [cur hd tl app] in *.
  destruct x; destruct Ht as [->|[->|[->| ->]]]; try discriminate; reflexivity.
Qed.

Lemma pbind_ok {A B} (x : PR A) (k : A -> PR B) b : pbind x k = POk b -> exists a, x = POk a /\ k a = POk b.
Proof. destruct x; cbn; intros H; try discriminate. exists a. split; [reflexivity|exact H]. Qed.

Lemma in_order_group e : in_order (group e) = in_order e. Proof. destruct e; reflexivity. Qed.
Lemma wn_group e : well_nested lv e -> well_nested lv (group e). Proof. destruct e; exact (fun H => H). Qed.

(** Prefix rules give an expression without an open operator. *)
Definition SoundP (ts : list tok) (e : expr) (r : list tok) : Prop :=
  exists used, ts = used ++ r /\ used <> [] /\ bare used = in_order e /\ well_nested lv e /\ open_level lv e = None.

Lemma unary_spec pp ts e r : HP pp -> prefix (cur ts) = Some PfUnary -> parse_unary_expr pp ts = POk (e, r) -> SoundP ts e r.
Proof.
  intros H Hp He. destruct ts as [|t ts]; [discriminate|]. unfold parse_unary_expr in He. cbn [cur hd tl] in *.
  apply pbind_ok in He. destruct He as [[x r'] [H1 H2]]. apply H in H1. destruct H1 as (u & -> & Hu & Hb & Hw & Hm & _).
  apply (minl_none 10) in Hm; [|unfold PREC_UNARY; lia].
  assert (D: (t = TkBangBang /\ e = EUnary UoNot (EUnary UoNot x) /\ r = r') \/ (one t = [un_symbol (unaryop_from_token t)] /\ e = EUnary (unaryop_from_token t) x /\ r = r')).
  { destruct t; try discriminate; injection H2 as <- <-; [right|right|left|right|right|right|right|right|right|right|right]; repeat split; reflexivity. }
  exists (t :: u). split; [destruct D as [(_ & _ & ->)|(_ & _ & ->)]; reflexivity|]. split; [discriminate|].
  rewrite bare_cons, Hb. destruct D as [(-> & -> & _)|(-> & -> & _)]; cbn; repeat split; assumption.
Qed.
Lemma grouping_spec pp ts e r : HP pp -> cur ts = TkLParen -> parse_grouping_expr pp ts = POk (e, r) -> SoundP ts e r.
Proof.
  intros H Hp He. destruct ts as [|t ts]; [discriminate|]. unfold parse_grouping_expr in He. cbn [cur hd tl] in *. subst t.
  apply pbind_ok in He. destruct He as [[x r'] [H1 He]]. apply H in H1. destruct H1 as (u & -> & Hu & Hb & Hw & Hm & _).
  apply pbind_ok in He. destruct He as [r2 [H2 He]]. apply consume_inv in H2; [|auto]. subst r'.
  assert (D: (exists ty inner, x = EType ty /\ e = ECast ty inner /\ pp PREC_CALL r2 = POk (inner, r)) \/ (e = group x /\ r = r2)).
  { destruct x; try (right; injection He as <- <-; split; reflexivity).
    destruct (prefix (cur r2)); [|right; injection He as <- <-; split; reflexivity].
    left. apply pbind_ok in He. destruct He as [[inner r3] [H3 He]]. injection He as <- <-. exists n, inner. repeat split. exact H3. }
  destruct D as [(ty & inner & -> & -> & H3)|[-> ->]].
  - apply H in H3. destruct H3 as (u3 & -> & Hu3 & Hb3 & Hw3 & Hm3 & _).
    apply (minl_none 11) in Hm3; [|lia].
    exists (TkLParen :: u ++ TkRParen :: u3). split; [cbn [app]; rewrite <- app_assoc; reflexivity|]. split; [discriminate|].
    split; [|split; [split; assumption|reflexivity]].
    rewrite bare_cons, bare_app, bare_cons, Hb, Hb3. reflexivity.
  - exists (TkLParen :: u ++ [TkRParen]). split; [cbn [app]; rewrite <- app_assoc; reflexivity|]. split; [discriminate|].
    split; [|split; [apply wn_group; exact Hw|destruct x; try destruct grouped; reflexivity]].
    rewrite bare_cons, bare_app, Hb, in_order_group. cbn. apply app_nil_r.
Qed.
Lemma prefix_spec pp ts e r : HP pp -> run_prefix pp ts = POk (e, r) -> SoundP ts e r.
Proof.
  intros H He. unfold run_prefix in He. destruct (prefix (cur ts)) as [fn|] eqn:Ef; [|discriminate]. destruct fn.
  - eapply unary_spec; eassumption.
  - apply (grouping_spec pp); try assumption. destruct ts as [|t ts]; [discriminate|]. destruct t; try discriminate. reflexivity.
  - destruct ts as [|t ts]; [discriminate|]. destruct t; try discriminate. injection He as <- <-. exists [TkName n]. repeat split; discriminate.
  - destruct ts as [|t ts]; [discriminate|]. destruct t; try discriminate. injection He as <- <-. exists [TkLit n]. repeat split; discriminate.
  - destruct ts as [|t ts]; [discriminate|]. destruct t; try discriminate. injection He as <- <-. exists [TkType n]. repeat split; discriminate.
Qed.

(** Infix rules. *)
Definition SoundI (e : expr) (ts : list tok) (e' : expr) (r : list tok) : Prop :=
  exists used, ts = used ++ r /\ used <> [] /\ in_order e' = in_order e ++ bare used /\ well_nested lv e'
  /\ (open_level lv e' = None \/ open_level lv e' = Some (precedence (cur ts))) /\ clo e' (cur r).

Lemma range_spec pp ts b lo n hi r : HP pp -> parse_range pp ts = POk (b, (lo, n, hi), r) ->
  exists used, ts = used ++ r /\ well_nested_bound lv lo /\ well_nested_bound lv hi
  /\ (if b then bare used = in_order_bound lo ++ (if n then TkColon else TkDotDot) :: in_order_bound hi
      else bare used = in_order_bound lo /\ lo <> BNone).
Proof.
  intros H He. unfold parse_range in He. apply pbind_ok in He. destruct He as [[lo' ts1] [H1 He]].
  assert (L: exists u1, ts = u1 ++ ts1 /\ well_nested_bound lv lo' /\ bare u1 = in_order_bound lo'
             /\ (lo' = BNone -> tok_is ts1 TkDotDot || tok_is ts1 TkColon = true)).
  { destruct (tok_is ts TkDotDot || tok_is ts TkColon) eqn:E1.
    - injection H1 as <- <-. exists []. repeat split; auto.
    - destruct (try_consume ts TkBitXor) as [fe ts2] eqn:E2. apply try_consume_inv in E2; [|auto].
      apply pbind_ok in H1. destruct H1 as [[e ts3] [H2 H1]]. injection H1 as <- <-. apply H in H2.
      destruct H2 as (u & -> & Hu & Hb & Hw & _ & _). exists ((if fe then [TkBitXor] else []) ++ u).
      split; [rewrite E2, <- app_assoc; reflexivity|]. split; [exact Hw|]. split; [|discriminate].
      rewrite bare_app, Hb. destruct fe; reflexivity. }
  destruct L as (u1 & -> & W1 & B1 & N1).
  destruct (try_consume ts1 TkColon) as [il ts2] eqn:E2. pose proof E2 as E2'. apply try_consume_inv in E2; [|auto].
  destruct (if il then (false, ts2) else try_consume ts2 TkDotDot) as [id ts3] eqn:E3.
  destruct (negb il && negb id) eqn:E4.
  - injection He as <- <- <- <- <-. exists u1. destruct il; [discriminate|]. destruct id; [discriminate|].
    pose proof E3 as E3'. apply try_consume_inv in E3; [|auto]. cbn [app] in E2, E3. subst ts2 ts3.
    split; [reflexivity|]. split; [exact W1|]. split; [exact I|]. split; [exact B1|].
    intros E. specialize (N1 E). unfold try_consume in *. destruct (tok_is ts1 TkColon); [discriminate|].
    destruct (tok_is ts1 TkDotDot); discriminate.
  - destruct (try_consume ts3 TkBitXor) as [fe ts4] eqn:E5. apply try_consume_inv in E5; [|auto].
    assert (S: ts1 = (if il then TkColon else TkDotDot) :: ts3).
    { destruct il; cbn [app] in E2; [injection E3 as <- <-; exact E2|]. apply try_consume_inv in E3; [|auto].
      subst ts2. destruct id; [exact E3|discriminate]. }
    clear E2 E2' N1. rewrite S in *. clear S H1.
    destruct (fe || match prefix (cur ts4) with Some _ => true | None => false end) eqn:E6.
    + apply pbind_ok in He. destruct He as [[e ts5] [H2 He]]. injection He as <- <- <- <- <-.
      apply H in H2. destruct H2 as (u & -> & Hu & Hb & Hw & _ & _).
      exists (u1 ++ (if il then TkColon else TkDotDot) :: (if fe then [TkBitXor] else []) ++ u).
      split; [rewrite E5; cbn [app]; rewrite <- !app_assoc; cbn [app]; rewrite <- app_assoc; reflexivity|].
      split; [exact W1|]. split; [exact Hw|]. rewrite bare_app, bare_cons, bare_app, B1, Hb. cbn [in_order_bound].
      destruct il, fe; reflexivity.
    + destruct il; [discriminate|]. injection He as <- <- <- <- <-. destruct fe; [discriminate|]. cbn [app] in E5. subst ts3.
      exists (u1 ++ [TkDotDot]). split; [rewrite <- app_assoc; reflexivity|]. split; [exact W1|]. split; [exact I|].
      rewrite bare_app, B1. reflexivity.
Qed.

Lemma minl_right k e : minl (if k <=? 2 then k else k + 1) e -> right_ok lv k e.
Proof. unfold minl, right_ok. destruct (open_level lv e); [|trivial]. destruct (k <=? 2); lia. Qed.

Lemma infix_binary_inv t : infix t = Some IfBinary ->
  bin_symbol (binaryop_from_token t) = t /\ real_level (binaryop_from_token t) = precedence t /\ one t = [t]
  /\ (precedence t = 1 \/ 3 <= precedence t).
Proof. destruct t; try discriminate; intros _; repeat split; cbv -[lt]; lia. Qed.

(** After an operator of level [k] with right operand [x], the next token does
    not bind tighter. *)
Lemma clo_bin op l x t k : real_level op = k -> clo x t -> minl (if k <=? 2 then k else k + 1) x ->
  precedence t < (if k <=? 2 then k else k + 1) -> clo (EBin op false l x) t.
Proof. intros Hk Hc Hm Ht. unfold clo. cbn [open_level]. rewrite Hk. destruct (k <=? 2); lia. Qed.

(** The parser stops only before a token below its level. *)
Definition HS (pp : parser) := forall p ts e r, pp p ts = POk (e, r) -> precedence (cur r) < p.

Lemma infix_spec pp pa e ts e' r : HP pp -> HS pp -> HA pa -> well_nested lv e -> clo e (cur ts) ->
  run_infix pp pa e ts = POk (e', r) -> SoundI e ts e' r.
Proof.
  intros H HSt HAr Hw Hc He. unfold run_infix in He. destruct (infix (cur ts)) as [fn|] eqn:Ef; [|discriminate].
  destruct ts as [|t ts]; [discriminate|]. cbn [cur hd] in *.
  pose proof (clo_left e t Hc) as HL.
  assert (HN: 10 <= precedence t -> closed_operand lv e) by (apply clo_none; exact Hc).
  destruct fn.
  - (* ternary *) assert (t = TkQuestion) by (destruct t; try discriminate; reflexivity). subst t.
    unfold parse_ternary_expr in He. cbn [tl] in He.
    match type of He with (if ?c then _ else _) = _ => destruct c eqn:E1 end.
    + injection He as <- <-. exists [TkQuestion]. split; [reflexivity|]. split; [discriminate|]. split; [reflexivity|].
      split; [split; [exact HL|exact Hw]|]. split; [left; reflexivity|exact I].
    + apply pbind_ok in He. destruct He as [[x r1] [H1 He]]. apply H in H1. destruct H1 as (u1 & -> & _ & B1 & W1 & _ & _).
      apply pbind_ok in He. destruct He as [r2 [H2 He]]. apply consume_inv in H2; [|auto]. subst r1.
      apply pbind_ok in He. destruct He as [[y r3] [H3 He]]. pose proof (HSt _ _ _ _ H3) as S3. apply H in H3. destruct H3 as (u3 & -> & _ & B3 & W3 & M3 & _).
      injection He as <- <-. exists (TkQuestion :: u1 ++ TkColon :: u3).
      split; [cbn [app]; rewrite <- app_assoc; reflexivity|]. split; [discriminate|].
      split; [rewrite bare_cons, bare_app, bare_cons, B1, B3; reflexivity|].
      split; [split; [split; [exact HL|exact Hw]|split; [exact W1|split; [apply minl_right; exact M3|exact W3]]]|].
      split; [right; reflexivity|]. exact S3.
  - (* orelse *) assert (t = TkQuestQuest) by (destruct t; try discriminate; reflexivity). subst t.
    unfold parse_orelse in He. cbn [tl] in He. apply pbind_ok in He. destruct He as [[y r3] [H3 He]].
    pose proof (HSt _ _ _ _ H3) as S3. apply H in H3. destruct H3 as (u3 & -> & _ & B3 & W3 & M3 & _).
    injection He as <- <-. exists (TkQuestQuest :: u3). split; [reflexivity|]. split; [discriminate|].
    split; [rewrite bare_cons, B3; reflexivity|].
    split; [split; [split; [exact HL|exact Hw]|split; [apply minl_right; exact M3|exact W3]]|].
    split; [right; reflexivity|exact S3].
  - (* elvis *) assert (t = TkElvis) by (destruct t; try discriminate; reflexivity). subst t.
    unfold parse_elvis_expr in He. cbn [tl] in He. apply pbind_ok in He. destruct He as [[y r3] [H3 He]].
    pose proof (HSt _ _ _ _ H3) as S3. apply H in H3. destruct H3 as (u3 & -> & _ & B3 & W3 & M3 & _).
    injection He as <- <-. exists (TkElvis :: u3). split; [reflexivity|]. split; [discriminate|].
    split; [rewrite bare_cons, B3; reflexivity|].
    split; [split; [split; [exact HL|exact Hw]|split; [apply minl_right; exact M3|exact W3]]|].
    split; [right; reflexivity|exact S3].
  - (* post *) injection He as <- <-. exists [t]. split; [reflexivity|]. split; [discriminate|].
    assert (D: precedence t = 11 /\ one t = [un_symbol (unaryop_from_token t)]) by (destruct t; try discriminate; split; reflexivity).
    destruct D as [D1 D2].
    split; [rewrite bare_cons, D2; reflexivity|]. split; [split; [apply HN; lia|exact Hw]|]. split; [left; reflexivity|exact I].
  - (* call *) assert (t = TkLParen) by (destruct t; try discriminate; reflexivity). subst t.
    unfold parse_call_expr in He. cbn [tl] in He. apply pbind_ok in He. destruct He as [[a r1] [H1 He]].
    apply pbind_ok in He. destruct He as [r2 [H2 He]]. apply consume_inv in H2; [|auto]. subst r1. injection He as <- <-.
    assert (L: exists u, ts = u ++ TkRParen :: r2 /\ bare u = in_order_args a /\ well_nested_args lv a).
    { destruct (tok_is ts TkRParen || tok_is ts TkEos).
      - injection H1 as <- ->. exists []. repeat split.
      - apply HAr in H1. destruct H1 as (u & -> & _ & B & W). exists u. repeat split; assumption. }
    destruct L as (u & -> & B & W). exists (TkLParen :: u ++ [TkRParen]).
    split; [cbn [app]; rewrite <- app_assoc; reflexivity|]. split; [discriminate|].
    split; [rewrite bare_cons, bare_app, B; cbn; rewrite app_nil_r; reflexivity|].
    split; [split; [split; [apply HN; plia|exact Hw]|exact W]|]. split; [left; reflexivity|exact I].
  - (* force *) assert (t = TkBangBang) by (destruct t; try discriminate; reflexivity). subst t. injection He as <- <-.
    exists [TkBangBang]. split; [reflexivity|]. split; [discriminate|]. split; [reflexivity|].
    split; [split; [apply HN; plia|exact Hw]|]. split; [left; reflexivity|exact I].
  - (* subscript *) assert (t = TkLBracket) by (destruct t; try discriminate; reflexivity). subst t.
    unfold parse_subscript_expr in He. cbn [tl] in He. apply pbind_ok in He. destruct He as [[[b [[lo n] hi]] r1] [H1 He]].
    apply range_spec in H1; [|exact H]. destruct H1 as (u & -> & Wlo & Whi & Hb).
    apply pbind_ok in He. destruct He as [r2 [H2 He]]. apply consume_inv in H2; [|auto]. subst r1.
    exists (TkLBracket :: u ++ [TkRBracket]).
    destruct b.
    + injection He as <- <-. split; [cbn [app]; rewrite <- app_assoc; reflexivity|]. split; [discriminate|].
      split; [rewrite bare_cons, bare_app, Hb; cbn [in_order one app]; rewrite <- app_assoc; reflexivity|].
      split; [split; [split; [apply HN; plia|exact Hw]|split; assumption]|]. split; [left; reflexivity|exact I].
    + destruct Hb as [Hb Hne]. destruct lo as [|fe i]; [congruence|]. injection He as <- <-.
      split; [cbn [app]; rewrite <- app_assoc; reflexivity|]. split; [discriminate|].
      split; [rewrite bare_cons, bare_app, Hb; cbn [in_order in_order_bound one app]; rewrite <- app_assoc; reflexivity|].
      split; [split; [split; [apply HN; plia|exact Hw]|assumption]|]. split; [left; reflexivity|exact I].
  - (* binary *) unfold parse_binary in He. cbn [cur hd tl] in He. apply pbind_ok in He. destruct He as [[y r3] [H3 He]].
    injection He as <- <-. destruct (infix_binary_inv t Ef) as (I1 & I2 & I3 & I4).
    assert (H4: pp (if precedence t <=? 2 then precedence t else precedence t + 1) ts = POk (y, r3)).
    { unfold PREC_ASSIGNMENT in H3. destruct I4 as [E|E].
      - rewrite E in *. exact H3.
      - rewrite (proj2 (Nat.eqb_neq (precedence t) 1)) in H3 by lia. rewrite (proj2 (Nat.leb_gt (precedence t) 2)) by lia. exact H3. }
    clear H3. pose proof (HSt _ _ _ _ H4) as S3. apply H in H4. destruct H4 as (u3 & -> & _ & B3 & W3 & M3 & C3).
    exists (t :: u3). split; [reflexivity|]. split; [discriminate|].
    split; [rewrite bare_cons, B3, I3; cbn [in_order]; rewrite I1; reflexivity|].
    split; [cbn [well_nested]; rewrite I2; split; [split; [exact HL|exact Hw]|split; [apply minl_right; exact M3|exact W3]]|].
    split; [right; cbn [open_level]; rewrite I2; reflexivity|].
    apply (clo_bin _ _ _ _ _ I2 C3 M3 S3).
  - (* access *) assert (t = TkDot) by (destruct t; try discriminate; reflexivity). subst t.
    unfold parse_access_expr in He. cbn [tl] in He. apply pbind_ok in He. destruct He as [[y r3] [H3 He]].
    apply H in H3. destruct H3 as (u3 & -> & _ & B3 & W3 & M3 & _). apply (minl_none 12) in M3; [|lia].
    injection He as <- <-. exists (TkDot :: u3). split; [reflexivity|]. split; [discriminate|].
    split; [rewrite bare_cons, B3; reflexivity|].
    split; [split; [split; [apply HN; plia|exact Hw]|split; assumption]|]. split; [left; reflexivity|exact I].
  - (* rethrow *) assert (t = TkBang) by (destruct t; try discriminate; reflexivity). subst t. injection He as <- <-.
    exists [TkBang]. split; [reflexivity|]. split; [discriminate|]. split; [reflexivity|].
    split; [split; [apply HN; plia|exact Hw]|]. split; [left; reflexivity|exact I].
Qed.

Lemma arg_spec pp ts n e r : HP pp -> parse_arg pp ts = POk (n, e, r) ->
  exists used, ts = used ++ r /\ used <> [] /\ bare used = arg_name n ++ in_order e /\ well_nested lv e.
Proof.
  intros H He. unfold parse_arg in He.
  assert (D: (exists x u, ts = TkName x :: TkColon :: u /\ n = Some x /\ pp 1 u = POk (e, r)) \/ (n = None /\ pp 1 ts = POk (e, r))).
  { destruct (cur ts) eqn:E1; try (right; apply pbind_ok in He; destruct He as [[y r3] [H3 He]]; injection He as <- <- <-; split; [reflexivity|exact H3]).
    destruct (peek ts) eqn:E2; try (right; apply pbind_ok in He; destruct He as [[y r3] [H3 He]]; injection He as <- <- <-; split; [reflexivity|exact H3]).
    left. destruct ts as [|t1 ts]; [discriminate|]. destruct ts as [|t2 ts]; [discriminate|]. unfold peek in E2. cbn [cur hd tl] in *. subst t1 t2.
    apply pbind_ok in He. destruct He as [[y r3] [H3 He]]. injection He as <- <- <-. exists n0, ts. repeat split. exact H3. }
  destruct D as [(x & u & -> & -> & H3)|[-> H3]]; apply H in H3; destruct H3 as (v & -> & Hv & B & W & _ & _).
  - exists (TkName x :: TkColon :: v). split; [reflexivity|]. split; [discriminate|]. split; [|exact W].
    rewrite !bare_cons, B. reflexivity.
  - exists v. repeat split; assumption.
Qed.

Lemma sound_all f :
  HP (pprec f) /\ HS (pprec f)
  /\ (forall e p ts e' r, well_nested lv e -> clo e (cur ts) -> minl p e -> ploop f e p ts = POk (e', r) ->
      (exists used, ts = used ++ r /\ in_order e' = in_order e ++ bare used /\ well_nested lv e' /\ minl p e' /\ clo e' (cur r))
      /\ precedence (cur r) < p)
  /\ HA (pargs f).
Proof.
  induction f as [|f (I1 & I2 & I3 & I4)].
  - repeat split; repeat intro; discriminate.
  - assert (L: forall e p ts e' r, well_nested lv e -> clo e (cur ts) -> minl p e -> ploop (S f) e p ts = POk (e', r) ->
      (exists used, ts = used ++ r /\ in_order e' = in_order e ++ bare used /\ well_nested lv e' /\ minl p e' /\ clo e' (cur r))
      /\ precedence (cur r) < p).
    { intros e p ts e' r Hw Hc Hm He. cbn [ploop] in He. destruct (Nat.ltb_spec (precedence (cur ts)) p) as [Hlt|Hge].
      - injection He as <- <-. split; [|exact Hlt]. exists []. repeat split; try assumption. cbn. rewrite app_nil_r. reflexivity.
      - apply pbind_ok in He. destruct He as [[x r1] [H1 He]].
        apply infix_spec in H1; [|assumption|assumption|assumption|assumption|assumption].
        destruct H1 as (u & -> & Hu & Ho & Hw' & Hop & Hc').
        apply I3 in He; [|exact Hw'|exact Hc'|].
        + destruct He as [(u2 & -> & O2 & W2 & M2 & C2) S2]. split; [|exact S2]. exists (u ++ u2).
          split; [rewrite <- app_assoc; reflexivity|]. split; [rewrite O2, Ho, bare_app, app_assoc; reflexivity|]. repeat split; assumption.
        + unfold minl. destruct Hop as [->| ->]; [exact I|exact Hge]. }
    assert (R: forall p ts e r, pprec (S f) p ts = POk (e, r) -> Sound p ts e r /\ precedence (cur r) < p).
    { intros p ts e r He. cbn [pprec] in He. apply pbind_ok in He. destruct He as [[x r1] [H1 He]].
      apply prefix_spec in H1; [|assumption]. destruct H1 as (u & -> & Hu & Hb & Hw & Ho).
      apply I3 in He; [|exact Hw|unfold clo; rewrite Ho; exact I|unfold minl; rewrite Ho; exact I].
      destruct He as [(u2 & -> & O2 & W2 & M2 & C2) S2]. split; [|exact S2]. exists (u ++ u2).
      split; [rewrite <- app_assoc; reflexivity|]. split; [destruct u; [congruence|discriminate]|].
      split; [rewrite bare_app, Hb, O2; reflexivity|]. repeat split; assumption. }
    split; [|split; [|split]].
    + intros p ts e r He. apply R. exact He.
    + intros p ts e r He. eapply R. exact He.
    + exact L.
    + intros ts a r He. cbn [pargs] in He. apply pbind_ok in He. destruct He as [[[n e] r1] [H1 He]].
      apply arg_spec in H1; [|assumption]. destruct H1 as (u & -> & Hu & Hb & Hw).
      destruct (try_consume r1 TkComma) as [c r2] eqn:E. apply try_consume_inv in E; [|auto]. subst r1.
      assert (D: bare (u ++ (if c then [TkComma] else [])) = arg_name n ++ in_order e).
      { rewrite bare_app, Hb. destruct c; cbn; apply app_nil_r. }
      destruct c; cbn [negb] in He.
      * destruct (tok_is r2 TkRParen).
        -- injection He as <- <-. exists (u ++ [TkComma]). split; [rewrite <- app_assoc; reflexivity|].
           split; [destruct u; discriminate|]. split; [rewrite D; cbn; rewrite app_nil_r; reflexivity|]. split; [exact Hw|exact I].
        -- apply pbind_ok in He. destruct He as [[a' r3] [H3 He]]. injection He as <- <-. apply I4 in H3.
           destruct H3 as (v & -> & Hv & Bv & Wv). exists ((u ++ [TkComma]) ++ v).
           split; [rewrite <- !app_assoc; reflexivity|]. split; [destruct u; discriminate|].
           split; [rewrite (bare_app (u ++ [TkComma])), D, Bv; cbn [in_order_args]; rewrite <- app_assoc; reflexivity|]. split; assumption.
      * injection He as <- <-. exists u. split; [reflexivity|]. split; [exact Hu|].
        split; [rewrite Hb; cbn; rewrite app_nil_r; reflexivity|]. split; [exact Hw|exact I].
Qed.

(** ** The fuel suffices *)
Definition shorter (pp : parser) := forall p ts e r, pp p ts = POk (e, r) -> length r < length ts.
Lemma pprec_shorter f : shorter (pprec f).
Proof.
  intros p ts e r H. apply (proj1 (sound_all f)) in H. destruct H as (u & -> & Hu & _).
  rewrite app_length. destruct u; [congruence|cbn; lia].
Qed.
Lemma pargs_shorter f ts a r : pargs f ts = POk (a, r) -> length r < length ts.
Proof.
  intros H. apply (proj2 (proj2 (proj2 (sound_all f)))) in H. destruct H as (u & -> & Hu & _).
  rewrite app_length. destruct u; [congruence|cbn; lia].
Qed.
Definition enough (pp : parser) (n : nat) := forall p ts, length ts <= n -> pp p ts <> PFuel.

Lemma pbind_fuel {A B} (x : PR A) (k : A -> PR B) : x <> PFuel -> (forall a, x = POk a -> k a <> PFuel) -> pbind x k <> PFuel.
Proof. destruct x; cbn; intros H1 H2; [apply H2; reflexivity|discriminate|congruence]. Qed.
Lemma tl_len {A} (l : list A) n : length l <= S n -> length (tl l) <= n.
Proof. destruct l; cbn; lia. Qed.
Lemma consume_fuel ts t : consume ts t <> PFuel.
Proof. unfold consume. destruct (tok_is ts t); discriminate. Qed.
Lemma consume_len ts t r : consume ts t = POk r -> length r <= length ts.
Proof. unfold consume. destruct (tok_is ts t); [|discriminate]. intros [= <-]. destruct ts; cbn; lia. Qed.
Lemma try_len ts t b r : try_consume ts t = (b, r) -> length r <= length ts.
Proof. unfold try_consume. destruct (tok_is ts t); intros [= <- <-]; destruct ts; cbn; lia. Qed.

Lemma range_fuel pp n ts : enough pp n -> shorter pp -> length ts <= n -> parse_range pp ts <> PFuel.
Proof.
  intros H Sh Hn. unfold parse_range. apply pbind_fuel.
  - destruct (tok_is ts TkDotDot || tok_is ts TkColon); [discriminate|]. destruct (try_consume ts TkBitXor) as [fe r] eqn:E.
    apply try_len in E. apply pbind_fuel; [apply H; lia|]. intros [? ?] _; discriminate.
  - intros [lo r1] H1.
    assert (L: length r1 <= length ts).
    { destruct (tok_is ts TkDotDot || tok_is ts TkColon); [injection H1 as <- <-; lia|]. destruct (try_consume ts TkBitXor) as [fe r] eqn:E.
      apply try_len in E. apply pbind_ok in H1. destruct H1 as [[e r2] [H1 H2]]. injection H2 as <- <-. apply Sh in H1. lia. }
    destruct (try_consume r1 TkColon) as [il r2] eqn:E2. apply try_len in E2.
    destruct (if il then (false, r2) else try_consume r2 TkDotDot) as [id r3] eqn:E3.
    assert (L3: length r3 <= length r2) by (destruct il; [injection E3 as <- <-; lia|apply try_len in E3; lia]).
    destruct (negb il && negb id); [discriminate|].
    destruct (try_consume r3 TkBitXor) as [fe r4] eqn:E4. apply try_len in E4.
    match goal with |- (if ?c then _ else _) <> _ => destruct c end; [|destruct il; discriminate].
    apply pbind_fuel; [apply H; lia|]. intros [? ?] _; discriminate.
Qed.
Lemma prefix_fuel pp n ts : enough pp n -> shorter pp -> length ts <= S n -> run_prefix pp ts <> PFuel.
Proof.
  intros H Sh Hn. unfold run_prefix. destruct (prefix (cur ts)) as [[]|]; try discriminate.
  - unfold parse_unary_expr. apply pbind_fuel; [apply H, tl_len; exact Hn|]. intros [? ?] _. destruct (cur ts); discriminate.
  - unfold parse_grouping_expr. apply pbind_fuel; [apply H, tl_len; exact Hn|]. intros [e r] H1. apply Sh in H1.
    pose proof (tl_len ts n Hn). apply pbind_fuel; [apply consume_fuel|]. intros r2 H2. apply consume_len in H2.
    destruct e; try discriminate. destruct (prefix (cur r2)); [|discriminate].
    apply pbind_fuel; [apply H; lia|]. intros [? ?] _; discriminate.
Qed.
Lemma infix_fuel pp pa n e ts : enough pp n -> shorter pp -> (forall u, length u <= n -> pa u <> PFuel) -> length ts <= S n ->
  run_infix pp pa e ts <> PFuel.
Proof.
  intros H Sh Ha Hn. pose proof (tl_len ts n Hn) as Ht. unfold run_infix. destruct (infix (cur ts)) as [[]|]; try discriminate.
  - unfold parse_ternary_expr. match goal with |- (if ?c then _ else _) <> _ => destruct c end; [discriminate|].
    apply pbind_fuel; [apply H; lia|]. intros [x r] H1. apply Sh in H1. apply pbind_fuel; [apply consume_fuel|]. intros r2 H2. apply consume_len in H2.
    apply pbind_fuel; [apply H; lia|]. intros [? ?] _; discriminate.
  - unfold parse_orelse. apply pbind_fuel; [apply H; lia|]. intros [? ?] _; discriminate.
  - unfold parse_elvis_expr. apply pbind_fuel; [apply H; lia|]. intros [? ?] _; discriminate.
  - unfold parse_call_expr. apply pbind_fuel.
    + destruct (tok_is (tl ts) TkRParen || tok_is (tl ts) TkEos); [discriminate|]. apply Ha. exact Ht.
    + intros [a r] _. apply pbind_fuel; [apply consume_fuel|]. discriminate.
  - unfold parse_subscript_expr. apply pbind_fuel; [eapply range_fuel; eassumption|]. intros [[b [[lo k] hi]] r] _.
    apply pbind_fuel; [apply consume_fuel|]. intros r2 _. destruct b; [discriminate|]. destruct lo; discriminate.
  - unfold parse_binary. apply pbind_fuel; [destruct (precedence (cur ts) =? PREC_ASSIGNMENT); apply H; lia|]. intros [? ?] _; discriminate.
  - unfold parse_access_expr. apply pbind_fuel; [apply H; lia|]. intros [? ?] _; discriminate.
Qed.
Lemma parse_arg_fuel pp n ts : enough pp n -> length ts <= n -> parse_arg pp ts <> PFuel.
Proof.
  intros H Hn. assert (Ht: length (tl (tl ts)) <= n) by (destruct ts as [|? [|? ?]]; cbn in *; lia).
  unfold parse_arg. destruct (cur ts); try (apply pbind_fuel; [apply H; lia|intros [? ?] _; discriminate]).
  destruct (peek ts); try (apply pbind_fuel; [apply H; lia|intros [? ?] _; discriminate]).
Qed.
Lemma parse_arg_len pp ts n e r : shorter pp -> parse_arg pp ts = POk (n, e, r) -> length r < length ts.
Proof.
  intros Sh. unfold parse_arg.
  assert (G: forall k m, (' (e, ts) <~ pp PREC_ASSIGNMENT k ;; POk (m, e, ts)) = POk (n, e, r) -> length k <= length ts -> length r < length ts).
  { intros k m He Hk. apply pbind_ok in He. destruct He as [[y r3] [H3 He]]. injection He as <- <- <-. apply Sh in H3. lia. }
  assert (Ht: length (tl (tl ts)) <= length ts) by (destruct ts as [|? [|? ?]]; cbn; lia).
  destruct (cur ts); try (intros He; apply (G _ _ He); lia).
  destruct (peek ts); intros He; apply (G _ _ He); lia.
Qed.
Lemma infix_len f e ts e' r : run_infix (pprec f) (pargs f) e ts = POk (e', r) -> length r < length ts.
Proof.
  intros He.
  pose proof (pprec_shorter f) as Sh.
  unfold run_infix in He. destruct (infix (cur ts)) as [fn|] eqn:Ef; [|discriminate].
  destruct ts as [|t ts]; [discriminate|]. cbn [length]. destruct fn; cbn [tl] in He.
  - unfold parse_ternary_expr in He. cbn [tl] in He. match type of He with (if ?c then _ else _) = _ => destruct c end; [injection He as <- <-; lia|].
    apply pbind_ok in He. destruct He as [[x r1] [H1 He]]. apply Sh in H1. apply pbind_ok in He. destruct He as [r2 [H2 He]]. apply consume_len in H2.
    apply pbind_ok in He. destruct He as [[y r3] [H3 He]]. apply Sh in H3. injection He as <- <-. lia.
  - apply pbind_ok in He. destruct He as [[x r1] [H1 He]]. apply Sh in H1. injection He as <- <-. cbn [tl] in H1. lia.
  - apply pbind_ok in He. destruct He as [[x r1] [H1 He]]. apply Sh in H1. injection He as <- <-. cbn [tl] in H1. lia.
  - injection He as <- <-. lia.
  - unfold parse_call_expr in He. cbn [tl] in He. apply pbind_ok in He. destruct He as [[x r1] [H1 He]].
    assert (L: length r1 <= length ts) by (destruct (tok_is ts TkRParen || tok_is ts TkEos); [injection H1 as <- <-; lia|apply pargs_shorter in H1; lia]).
    apply pbind_ok in He. destruct He as [r2 [H2 He]]. apply consume_len in H2. injection He as <- <-. lia.
  - injection He as <- <-. lia.
  - unfold parse_subscript_expr in He. cbn [tl] in He. apply pbind_ok in He. destruct He as [[[b [[lo n] hi]] r1] [H1 He]].
    apply range_spec in H1; [|exact (proj1 (sound_all f))]. destruct H1 as (u & -> & _).
    apply pbind_ok in He. destruct He as [r2 [H2 He]]. apply consume_len in H2. rewrite app_length.
    destruct b; [injection He as <- <-; lia|]. destruct lo; injection He as <- <-; lia.
  - unfold parse_binary in He. cbn [tl] in He. apply pbind_ok in He. destruct He as [[x r1] [H1 He]]. injection He as <- <-.
    destruct (precedence (cur (t :: ts)) =? PREC_ASSIGNMENT); apply Sh in H1; lia.
  - apply pbind_ok in He. destruct He as [[x r1] [H1 He]]. apply Sh in H1. injection He as <- <-. cbn [tl] in H1. lia.
  - injection He as <- <-. lia.
Qed.
Lemma prefix_len f ts e r : run_prefix (pprec f) ts = POk (e, r) -> length r < length ts.
Proof.
  intros H. apply prefix_spec in H; [|exact (proj1 (sound_all f))]. destruct H as (u & -> & Hu & _).
  rewrite app_length. destruct u; [congruence|cbn; lia].
Qed.

Lemma fuel_all f :
  (forall p ts, 3 * length ts + 2 <= f -> pprec f p ts <> PFuel)
  /\ (forall e p ts, 3 * length ts + 1 <= f -> ploop f e p ts <> PFuel)
  /\ (forall ts, 3 * length ts + 3 <= f -> pargs f ts <> PFuel).
Proof.
  induction f as [|f (I1 & I2 & I3)].
  - split; [|split]; intros; exfalso; lia.
  - split; [|split].
    + intros p ts Hf. cbn [pprec]. apply pbind_fuel.
      * destruct ts as [|t ts]; [discriminate|]. apply (prefix_fuel _ (length ts)); [|apply pprec_shorter|cbn [length]; lia].
        intros q u Hu. apply I1. cbn [length] in Hf. lia.
      * intros [e r] H1. apply prefix_len in H1. apply I2. lia.
    + intros e p ts Hf. cbn [ploop]. destruct (precedence (cur ts) <? p); [discriminate|]. apply pbind_fuel.
      * destruct ts as [|t ts]; [discriminate|]. cbn [length] in Hf. apply (infix_fuel _ _ (length ts)); [|apply pprec_shorter| |cbn [length]; lia].
        -- intros q u Hu. apply I1. lia.
        -- intros u Hu. apply I3. lia.
      * intros [e' r] H1. apply infix_len in H1. apply I2. lia.
    + intros ts Hf. cbn [pargs]. apply pbind_fuel.
      * apply (parse_arg_fuel _ (length ts)); [|lia]. intros q u Hu. apply I1. lia.
      * intros [[n e] r] H1. apply parse_arg_len in H1; [|apply pprec_shorter].
        destruct (try_consume r TkComma) as [c r2] eqn:E. apply try_len in E. destruct (negb c); [discriminate|].
        destruct (tok_is r2 TkRParen); [discriminate|]. apply pbind_fuel; [apply I3; lia|]. intros [? ?] _; discriminate.
Qed.

Lemma parse_expr_total ts : parse_expr ts <> PFuel.
Proof. apply (proj1 (fuel_all _)). lia. Qed.
Lemma runs_parse ts R : Runs 1 ts R -> parse_expr ts = POk R.
Proof.
  intros [f H]. pose proof (parse_expr_total ts) as T. unfold parse_expr, PREC_ASSIGNMENT in *.
  destruct (pprec_mono (3 * length ts + 2) (f + (3 * length ts + 2)) ltac:(lia) 1 ts) as [E|E]; [congruence|].
  rewrite E. exact (le_ok _ _ _ (pprec_mono f (f + (3 * length ts + 2)) ltac:(lia) 1 ts) H).
Qed.
Lemma stops_fol ts : stops ts -> precedence (cur ts) = 0 /\ prefix (cur ts) = None.
Proof. destruct ts as [|[] ts]; cbn; intros []; split; reflexivity. Qed.
Lemma writes_parse e ts rest : writes real_level 1 e ts -> stops rest -> parse_expr (ts ++ rest) = POk (e, rest).
Proof.
  intros H Hs. destruct (stops_fol rest Hs) as [H1 H2]. apply runs_parse.
  apply (P_operand 1); [apply parses_all; exact H|left; lia|apply fol_ends; assumption|lia].
Qed.
Lemma parse_sound ts e r : parse_expr ts = POk (e, r) ->
  exists used, ts = used ++ r /\ bare used = in_order e /\ well_nested real_level e /\ precedence (cur r) = 0.
Proof.
  intros H. pose proof (proj1 (proj2 (sound_all _)) _ _ _ _ H) as HS'. apply (proj1 (sound_all _)) in H.
  destruct H as (u & -> & _ & B & W & _). exists u. repeat split; try assumption. unfold PREC_ASSIGNMENT in HS'. lia.
Qed.

(** ** Without `+++` the two level tables agree *)
Lemma level_agree op : op <> BoCtConcat -> doc_level op = real_level op.
Proof. destruct op; try reflexivity. congruence. Qed.
Lemma writes_doc_real :
  (forall p e ts, writes doc_level p e ts -> no_concat e -> writes real_level p e ts)
  /\ (forall e ts, writes_suffix doc_level e ts -> no_concat e -> writes_suffix real_level e ts)
  /\ (forall b ts, writes_bound doc_level b ts -> no_concat_bound b -> writes_bound real_level b ts)
  /\ (forall a ts, writes_args doc_level a ts -> no_concat_args a -> writes_args real_level a ts).
Proof.
  apply writes_mind with
    (P := fun p e ts _ => no_concat e -> writes real_level p e ts)
    (P0 := fun e ts _ => no_concat e -> writes_suffix real_level e ts)
    (P1 := fun b ts _ => no_concat_bound b -> writes_bound real_level b ts)
    (P2 := fun a ts _ => no_concat_args a -> writes_args real_level a ts); intros; cbn [no_concat no_concat_bound no_concat_args] in *;
    repeat match goal with H : _ /\ _ |- _ => destruct H end;
    try solve [econstructor; eauto using writes, writes_suffix, writes_bound, writes_args].
  - constructor; [assumption|]. match goal with H : no_concat _ -> _ |- _ => apply H end. destruct e; assumption.
  - rewrite (level_agree op) in * by assumption. apply W_binary; auto.
  - rewrite (level_agree op) in * by assumption. apply W_assign; auto.
Qed.

(** ** Rendering *)
Lemma plain_group e : plain (group e) = plain e. Proof. destruct e; reflexivity. Qed.

Definition shown (p : nat) (e : expr) (ts : list tok) : Prop := exists e', writes real_level p e' ts /\ plain e' = plain e.
Lemma shown_parens (b : bool) p e ts : p <= 12 -> (b = false -> shown p e ts) -> shown 1 e ts -> shown p e (parens b ts).
Proof.
  intros Hp H0 H1. destruct b; [|apply H0; reflexivity]. destruct H1 as (e' & W & E). exists (group e').
  split; [apply W_paren; assumption|]. rewrite plain_group. exact E.
Qed.
(** A form whose own level is [k]. *)
Lemma shown_level k p e ts : 1 <= k -> p <= 12 -> (forall q, q <= k -> shown q e ts) -> shown p e (parens (k <? p) ts).
Proof.
  intros Hk Hp H. apply shown_parens; [exact Hp| |apply H; lia]. intros E. apply H. apply Nat.ltb_ge in E. exact E.
Qed.

Scheme expr_i := Induction for expr Sort Prop
with args_i := Induction for args Sort Prop
with bound_i := Induction for bound Sort Prop.
Combined Scheme expr_mind from expr_i, args_i, bound_i.

Definition shown_args (a : args) (ts : list tok) : Prop := exists a', writes_args real_level a' ts /\ plain_args a' = plain_args a.
Definition shown_bound (b : bound) (ts : list tok) : Prop := exists b', writes_bound real_level b' ts /\ plain_bound b' = plain_bound b.

Lemma render_bound_some fe i ti : shown 1 i ti -> shown_bound (BSome fe i) ((if fe then [TkBitXor] else []) ++ ti).
Proof.
  intros (i' & W & E). exists (BSome fe i'). split; [destruct fe; constructor; exact W|]. cbn [plain_bound]. rewrite E. reflexivity.
Qed.

Lemma render_all :
  (forall e, (sensible e -> forall p, p <= 12 -> shown p e (render real_level p e)))
  /\ (forall a, sensible_args a -> shown_args a (render_args real_level a))
  /\ (forall b, sensible_bound b -> shown_bound b (render_bound real_level b)).
Proof.
  apply expr_mind; cbn [sensible sensible_args sensible_bound].
  - intros n _ p Hp. exists (EName n). split; [constructor; exact Hp|reflexivity].
  - intros n _ p Hp. exists (ELit n). split; [constructor; exact Hp|reflexivity].
  - intros n [].
  - (* unary *) intros op e IH [Ho He] p Hp. cbn [render]. apply shown_level; [lia|exact Hp|]. intros q Hq.
    destruct (IH He 10 ltac:(lia)) as (e' & W & E). exists (EUnary op e'). split; [apply W_unary; assumption|]. cbn [plain]. rewrite E. reflexivity.
  - (* post *) intros op e IH [Ho He] p Hp. cbn [render]. apply shown_level; [lia|exact Hp|]. intros q Hq.
    destruct (IH He 11 ltac:(lia)) as (e' & W & E). exists (EPost op e'). split; [|cbn [plain]; rewrite E; reflexivity].
    destruct Ho as [->| ->]; [apply W_inc|apply W_dec]; assumption.
  - (* bin *) intros op g l IHl r IHr (Ho & Hl & Hr) p Hp. cbn [render].
    assert (Hk: 1 <= real_level op <= 9) by (destruct op; cbv; try lia; congruence).
    destruct (Nat.leb_spec (real_level op) 2) as [H2|H2]; apply shown_level; try lia; intros q Hq.
    + assert (D: real_level op = 1 \/ op = BoElse) by (destruct op; cbv in *; try lia; auto).
      destruct D as [D|D].
      * rewrite D in *. destruct (IHl Hl 2 ltac:(lia)) as (l' & Wl & El). destruct (IHr Hr 1 ltac:(lia)) as (r' & Wr & Er).
        exists (EBin op false l' r'). split; [apply W_assign; assumption|]. cbn [plain]. rewrite El, Er. reflexivity.
      * subst op. change (real_level BoElse) with 2 in *. destruct (IHl Hl 3 ltac:(lia)) as (l' & Wl & El). destruct (IHr Hr 2 ltac:(lia)) as (r' & Wr & Er).
        exists (EBin BoElse false l' r'). split; [apply W_orelse; [exact Hq|apply WS_or; exact Wl|exact Wr]|]. cbn [plain]. rewrite El, Er. reflexivity.
    + destruct (IHl Hl (real_level op) ltac:(lia)) as (l' & Wl & El). destruct (IHr Hr (real_level op + 1) ltac:(lia)) as (r' & Wr & Er).
      exists (EBin op false l' r'). split; [apply W_binary; try assumption; lia|]. cbn [plain]. rewrite El, Er. reflexivity.
  - (* tern *) intros g c IHc t IHt f IHf (Hc & Ht & Hf) p Hp. cbn [render]. apply shown_level; [lia|exact Hp|]. intros q Hq.
    destruct (IHc Hc 3 ltac:(lia)) as (c' & Wc & Ec). destruct (IHt Ht 1 ltac:(lia)) as (t' & Wt & Et). destruct (IHf Hf 2 ltac:(lia)) as (f' & Wf & Ef).
    exists (ETern false c' t' f'). split; [apply W_ternary; assumption|]. cbn [plain]. rewrite Ec, Et, Ef. reflexivity.
  - (* elvis *) intros g c IHc f IHf (Hc & Hf) p Hp. cbn [render]. apply shown_level; [lia|exact Hp|]. intros q Hq.
    destruct (IHc Hc 3 ltac:(lia)) as (c' & Wc & Ec). destruct (IHf Hf 2 ltac:(lia)) as (f' & Wf & Ef).
    exists (EElvis false c' f'). split; [apply W_elvis; [exact Hq|apply WS_or; exact Wc|exact Wf]|]. cbn [plain]. rewrite Ec, Ef. reflexivity.
  - (* opt *) intros e IH He p Hp. cbn [render]. apply shown_level; [lia|exact Hp|]. intros q Hq.
    destruct (IH He 3 ltac:(lia)) as (e' & W & E). exists (EOpt e'). split; [apply W_opt; assumption|]. cbn [plain]. rewrite E. reflexivity.
  - (* rethrow *) intros e IH He p Hp. cbn [render]. apply shown_level; [lia|exact Hp|]. intros q Hq.
    destruct (IH He 11 ltac:(lia)) as (e' & W & E). exists (ERethrow e'). split; [apply W_rethrow; assumption|]. cbn [plain]. rewrite E. reflexivity.
  - (* force *) intros e IH He p Hp. cbn [render]. apply shown_level; [lia|exact Hp|]. intros q Hq.
    destruct (IH He 11 ltac:(lia)) as (e' & W & E). exists (EForce e'). split; [apply W_force; assumption|]. cbn [plain]. rewrite E. reflexivity.
  - (* call *) intros f IHf a IHa (Hf & Ha) p Hp. cbn [render]. apply shown_level; [lia|exact Hp|]. intros q Hq.
    destruct (IHf Hf 11 ltac:(lia)) as (f' & Wf & Ef). destruct (IHa Ha) as (a' & Wa & Ea).
    exists (ECall f' a'). split; [apply W_call; assumption|]. cbn [plain]. rewrite Ef, Ea. reflexivity.
  - (* sub *) intros e IHe fe i IHi (He & Hi) p Hp. cbn [render]. apply shown_level; [lia|exact Hp|]. intros q Hq.
    destruct (IHe He 11 ltac:(lia)) as (e' & We & Ee). destruct (IHi Hi 1 ltac:(lia)) as (i' & Wi & Ei).
    exists (ESub e' fe i'). split; [|cbn [plain]; rewrite Ee, Ei; reflexivity].
    rewrite (app_assoc (if fe then [TkBitXor] else [])). apply W_sub; [assumption|assumption|]. destruct fe; constructor; exact Wi.
  - (* slice *) intros e IHe lo IHlo n hi IHhi (He & Hlo & Hhi & Hn) p Hp. cbn [render]. apply shown_level; [lia|exact Hp|]. intros q Hq.
    destruct (IHe He 11 ltac:(lia)) as (e' & We & Ee). destruct (IHlo Hlo) as (lo' & Wlo & Elo). destruct (IHhi Hhi) as (hi' & Whi & Ehi).
    exists (ESlice e' lo' n hi'). split; [|cbn [plain]; rewrite Ee, Elo, Ehi; reflexivity].
    destruct n; [|apply W_slice; assumption]. destruct hi' as [|fe x]; [destruct hi; [exfalso; apply Hn; reflexivity|discriminate]|].
    apply W_slice_len; assumption.
  - (* access *) intros e IHe c IHc (He & Hc) p Hp. cbn [render]. apply shown_level; [lia|exact Hp|]. intros q Hq.
    destruct (IHc Hc 12 ltac:(lia)) as (c' & Wc & Ec).
    assert (D: (exists t, e = EType t) \/ sensible e) by (destruct e; try (right; exact He); left; eauto).
    destruct D as [[t ->]|D].
    + exists (EAccess (EType t) c'). split; [apply W_type_access; assumption|]. cbn [plain]. rewrite Ec. reflexivity.
    + destruct (IHe D 11 ltac:(lia)) as (e' & We & Ee). exists (EAccess e' c'). split; [apply W_access; assumption|]. cbn [plain]. rewrite Ee, Ec. reflexivity.
  - (* cast *) intros t e IH He p Hp. cbn [render]. apply shown_level; [lia|exact Hp|]. intros q Hq.
    destruct (IH He 10 ltac:(lia)) as (e' & W & E). exists (ECast t e'). split; [apply W_cast; assumption|]. cbn [plain]. rewrite E. reflexivity.
  - intros _. exists ANil. split; [constructor|reflexivity].
  - intros name e IHe r IHr (He & Hr). destruct (IHe He 1 ltac:(lia)) as (e' & We & Ee). destruct (IHr Hr) as (r' & Wr & Er).
    destruct r as [|n2 e2 r2].
    + exists (ACons name e' ANil). split; [apply WA_one; exact We|]. cbn [plain_args]. rewrite Ee. reflexivity.
    + destruct r' as [|n3 e3 r3]; [discriminate|]. exists (ACons name e' (ACons n3 e3 r3)).
      split; [exact (WA_cons _ name e' _ n3 e3 r3 _ We Wr)|]. cbn [plain_args] in *. rewrite Ee, Er. reflexivity.
  - intros _. exists BNone. split; [constructor|reflexivity].
  - intros fe e IH He. cbn [render_bound]. apply render_bound_some. apply IH; [exact He|lia].
Qed.
Lemma render_parse e : sensible e ->
  exists e', parse_expr (render real_level 1 e) = POk (e', []) /\ plain e' = plain e.
Proof.
  intros H. destruct (proj1 render_all e H 1 ltac:(lia)) as (e' & W & E). exists e'. split; [|exact E].
  rewrite <- (app_nil_r (render real_level 1 e)). apply writes_parse; [exact W|exact I].
Qed.

(** With the documented levels, for trees without `+++`. *)
Lemma render_agree :
  (forall e, no_concat e -> forall p, render doc_level p e = render real_level p e)
  /\ (forall a, no_concat_args a -> render_args doc_level a = render_args real_level a)
  /\ (forall b, no_concat_bound b -> render_bound doc_level b = render_bound real_level b).
Proof.
  apply expr_mind; cbn [no_concat no_concat_args no_concat_bound]; intros; cbn [render render_args render_bound];
    repeat match goal with H : _ /\ _ |- _ => destruct H end; try reflexivity;
    try (rewrite level_agree by assumption);
    repeat match goal with
    | H : no_concat ?e -> forall p, _, K : no_concat ?e |- _ => specialize (H K)
    | H : no_concat_args ?e -> _, K : no_concat_args ?e |- _ => specialize (H K)
    | H : no_concat_bound ?e -> _, K : no_concat_bound ?e |- _ => specialize (H K)
    end;
    repeat match goal with H : forall p, render _ p _ = _ |- _ => rewrite !H; clear H
           | H : render_args _ _ = _ |- _ => rewrite H; clear H | H : render_bound _ _ = _ |- _ => rewrite H; clear H end; try reflexivity.
Qed.
Lemma render_parse_doc e : sensible e -> no_concat e ->
  exists e', parse_expr (render doc_level 1 e) = POk (e', []) /\ plain e' = plain e.
Proof. intros H1 H2. rewrite (proj1 render_agree e H2). apply render_parse. exact H1. Qed.
