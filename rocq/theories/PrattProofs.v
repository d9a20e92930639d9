(** Proofs about the expression parser. *)
From Coq Require Import Arith Bool List Lia.
From Verif Require Import PrattModel PrattSpec.
Import ListNotations.

Ltac plia := cbv -[lt Nat.add]; lia.

(** ** Fuel *)

Definition le_res {A} (x y : PR A) : Prop := x = PFuel \/ x = y.
Lemma le_res_bind {A B} (x y : PR A) (k l : A -> PR B) :
  le_res x y -> (forall a, le_res (k a) (l a)) -> le_res (pbind x k) (pbind y l).
Proof.
  intros [->| ->] H; [left; reflexivity|]. destruct y; cbn [pbind]; [apply H|right; reflexivity|left; reflexivity].
Qed.
Lemma le_res_refl {A} (x : PR A) : le_res x x. Proof. right; reflexivity. Qed.
Definition le_pp (a b : parser) := forall p ts, le_res (a p ts) (b p ts).
Definition le_pa (a b : list tok -> PR (args * list tok)) := forall ts, le_res (a ts) (b ts).

Ltac mono :=
  repeat first
    [ apply le_res_refl
    | match goal with H : le_pp _ _ |- le_res (_ _ _) (_ _ _) => apply H end
    | match goal with H : le_pa _ _ |- le_res (_ _) (_ _) => apply H end
    | apply le_res_bind; [|intros; try match goal with a : (_ * _)%type |- _ => destruct a end]
    | match goal with |- context [let '(_, _) := ?x in _] => destruct x end
    | match goal with |- le_res (if ?b then _ else _) _ => destruct b end
    | match goal with |- context [match ?x with _ => _ end] => destruct x end ].

Lemma parse_range_mono a b ts : le_pp a b -> le_res (parse_range a ts) (parse_range b ts).
Proof. intros H. unfold parse_range. mono. Qed.
Lemma run_prefix_mono a b ts : le_pp a b -> le_res (run_prefix a ts) (run_prefix b ts).
Proof. intros H. unfold run_prefix, parse_unary_expr, parse_grouping_expr. destruct (prefix (cur ts)) as [[]|]; mono. Qed.
Lemma run_infix_mono a b c d e ts : le_pp a b -> le_pa c d -> le_res (run_infix a c e ts) (run_infix b d e ts).
Proof.
  intros H H2. unfold run_infix. destruct (infix (cur ts)) as [[]|]; try apply le_res_refl;
  unfold parse_ternary_expr, parse_orelse, parse_elvis_expr, parse_call_expr, parse_binary, parse_access_expr, parse_subscript_expr; try solve [mono].
Qed.
Lemma parse_arg_mono a b ts : le_pp a b -> le_res (parse_arg a ts) (parse_arg b ts).
Proof. intros H. unfold parse_arg. mono. Qed.

Lemma fuel_mono1 f :
  le_pp (pprec f) (pprec (S f)) /\ (forall e, le_pp (fun p ts => ploop f e p ts) (fun p ts => ploop (S f) e p ts))
  /\ le_pa (pargs f) (pargs (S f)).
Proof.
  induction f as [|f (I1 & I2 & I3)].
  - split; [|split]; repeat intro; left; reflexivity.
  - split; [|split].
    + intros p ts. change (le_res (' (l, ts) <~ run_prefix (pprec f) ts ;; ploop f l p ts)
                                  (' (l, ts) <~ run_prefix (pprec (S f)) ts ;; ploop (S f) l p ts)).
      apply le_res_bind; [apply run_prefix_mono; exact I1|]. intros [l ts']. apply (I2 l p ts').
    + intros e p ts.
      change (le_res (if precedence (cur ts) <? p then POk (e, ts) else ' (l, ts) <~ run_infix (pprec f) (pargs f) e ts ;; ploop f l p ts)
                     (if precedence (cur ts) <? p then POk (e, ts) else ' (l, ts) <~ run_infix (pprec (S f)) (pargs (S f)) e ts ;; ploop (S f) l p ts)).
      destruct (precedence (cur ts) <? p); [apply le_res_refl|].
      apply le_res_bind; [apply run_infix_mono; assumption|]. intros [l ts']. apply (I2 l p ts').
    + intros ts.
      change (pargs (S (S f)) ts) with
        (' (name, e, ts) <~ parse_arg (pprec (S f)) ts ;;
         let '(comma, ts) := try_consume ts TkComma in
         if negb comma then POk (ACons name e ANil, ts)
         else if tok_is ts TkRParen then POk (ACons name e ANil, ts)
         else ' (r, ts) <~ pargs (S f) ts ;; POk (ACons name e r, ts)).
      change (pargs (S f) ts) with
        (' (name, e, ts) <~ parse_arg (pprec f) ts ;;
         let '(comma, ts) := try_consume ts TkComma in
         if negb comma then POk (ACons name e ANil, ts)
         else if tok_is ts TkRParen then POk (ACons name e ANil, ts)
         else ' (r, ts) <~ pargs f ts ;; POk (ACons name e r, ts)).
      apply le_res_bind; [apply parse_arg_mono; exact I1|]. intros [[n e] ts'].
      destruct (try_consume ts' TkComma) as [c ts2]. mono.
Qed.
Lemma le_trans_res {A} (x y z : PR A) : le_res x y -> le_res y z -> le_res x z.
Proof. intros [->| ->] H; [left; reflexivity|exact H]. Qed.
Lemma pprec_mono f g : f <= g -> le_pp (pprec f) (pprec g).
Proof.
  intros H. induction H as [|g H IH]; intros p ts; [apply le_res_refl|].
  eapply le_trans_res; [apply IH|apply (proj1 (fuel_mono1 g))].
Qed.
Lemma ploop_mono f g e p ts : f <= g -> le_res (ploop f e p ts) (ploop g e p ts).
Proof.
  intros H. induction H as [|g H IH]; [apply le_res_refl|].
  eapply le_trans_res; [apply IH|apply (proj1 (proj2 (fuel_mono1 g)) e p ts)].
Qed.
Lemma pargs_mono f g : f <= g -> le_pa (pargs f) (pargs g).
Proof.
  intros H. induction H as [|g H IH]; intros ts; [apply le_res_refl|].
  eapply le_trans_res; [apply IH|apply (proj2 (proj2 (fuel_mono1 g)))].
Qed.
Lemma le_ok {A} (x y : PR A) a : le_res x y -> x = POk a -> y = POk a.
Proof. intros [E|E] H; rewrite H in E; [discriminate|symmetry; exact E]. Qed.

(** ** Runs with some fuel *)

Definition Runs p ts R := exists f, pprec f p ts = POk R.
Definition Loops e p ts R := exists f, ploop f e p ts = POk R.
Definition Args ts R := exists f, pargs f ts = POk R.

Lemma runs_prefix p ts l ts' R :
  (exists f, run_prefix (pprec f) ts = POk (l, ts')) -> Loops l p ts' R -> Runs p ts R.
Proof.
  intros [f H] [g G]. exists (S (f + g)).
  change ((' (l, ts) <~ run_prefix (pprec (f + g)) ts ;; ploop (f + g) l p ts) = POk R).
  rewrite (le_ok _ _ _ (run_prefix_mono _ _ ts (pprec_mono f (f + g) ltac:(lia))) H). cbn [pbind].
  exact (le_ok _ _ _ (ploop_mono g (f + g) l p ts' ltac:(lia)) G).
Qed.
Lemma loops_stop e p ts : precedence (cur ts) < p -> Loops e p ts (e, ts).
Proof. intros H. exists 1. cbn [ploop]. rewrite (proj2 (Nat.ltb_lt _ _) H). reflexivity. Qed.
Lemma loops_step e p ts e' ts' R : p <= precedence (cur ts) ->
  (exists f, run_infix (pprec f) (pargs f) e ts = POk (e', ts')) -> Loops e' p ts' R -> Loops e p ts R.
Proof.
  intros Hp [f H] [g G]. exists (S (f + g)).
  change ((if precedence (cur ts) <? p then POk (e, ts) else ' (l, ts) <~ run_infix (pprec (f + g)) (pargs (f + g)) e ts ;; ploop (f + g) l p ts) = POk R).
  rewrite (proj2 (Nat.ltb_ge _ _) Hp).
  rewrite (le_ok _ _ _ (run_infix_mono _ _ _ _ e ts (pprec_mono f (f + g) ltac:(lia)) (pargs_mono f (f + g) ltac:(lia))) H). cbn [pbind].
  exact (le_ok _ _ _ (ploop_mono g (f + g) e' p ts' ltac:(lia)) G).
Qed.

(** ** The first token of a written expression *)
Definition first_ok (ts : list tok) : Prop :=
  exists t r, ts = t :: r /\ prefix t <> None
  /\ (t = TkBang \/ t = TkBangBang -> prefix (cur r) <> None)
  /\ (forall n, t = TkName n -> cur r <> TkColon).

Lemma first_ok_app ts s : first_ok ts -> cur s <> TkColon -> first_ok (ts ++ s).
Proof.
  intros (t & r & -> & H1 & H2 & H3) Hs. exists t, (r ++ s). split; [reflexivity|]. split; [exact H1|]. split.
  - intros Hb. specialize (H2 Hb). destruct r as [|x r]; [exfalso; apply H2; reflexivity|exact H2].
  - intros n Hn. specialize (H3 n Hn). destruct r; [exact Hs|exact H3].
Qed.
Lemma bin_symbol_colon op : bin_symbol op <> TkColon.
Proof. destruct op; discriminate. Qed.
Lemma un_symbol_prefix op : prefix (un_symbol op) <> None.
Proof. destruct op; discriminate. Qed.
Lemma first_ok_cur ts s : first_ok ts -> prefix (cur (ts ++ s)) <> None.
Proof. intros (t & r & -> & H & _). exact H. Qed.

Lemma first_leaf t : prefix t <> None -> t <> TkBang -> t <> TkBangBang -> first_ok [t].
Proof.
  intros H1 H2 H3. exists t, []. split; [reflexivity|]. split; [exact H1|]. split; [intros [E|E]; congruence|].
  intros n E. discriminate.
Qed.
Lemma first_cons t r : prefix t <> None -> (t = TkBang \/ t = TkBangBang -> prefix (cur r) <> None) ->
  (forall n, t <> TkName n) -> first_ok (t :: r).
Proof. intros H1 H2 H3. exists t, r. repeat split; [exact H1|exact H2|]. intros n E. exfalso. exact (H3 n E). Qed.
Lemma first_prefix ts : first_ok ts -> prefix (cur ts) <> None.
Proof. intros (t & r & -> & H & _). exact H. Qed.


Scheme writes_i := Induction for writes Sort Prop
with writes_suffix_i := Induction for writes_suffix Sort Prop
with writes_bound_i := Induction for writes_bound Sort Prop
with writes_args_i := Induction for writes_args Sort Prop.
Combined Scheme writes_mind from writes_i, writes_suffix_i, writes_bound_i, writes_args_i.

Lemma writes_first_all lv :
  (forall p e ts, writes lv p e ts -> first_ok ts)
  /\ (forall e ts, writes_suffix lv e ts -> first_ok ts)
  /\ (forall b ts, writes_bound lv b ts -> True)
  /\ (forall a ts, writes_args lv a ts -> True).
Proof.
  apply writes_mind with
    (P := fun p e ts _ => first_ok ts) (P0 := fun e ts _ => first_ok ts)
    (P1 := fun b ts _ => True) (P2 := fun a ts _ => True); intros; try exact I;
    try (apply first_ok_app; [assumption|cbn [cur hd]; first [discriminate|apply bin_symbol_colon]]);
    try (apply first_leaf; discriminate);
    try (apply first_cons; [discriminate|intros [E|E]; discriminate|discriminate]); try assumption.
  - apply first_cons; [apply un_symbol_prefix| |destruct op; discriminate].
    intros _. apply first_prefix. assumption.
  - apply first_cons; [discriminate| |discriminate]. intros _. apply first_prefix. assumption.
Qed.
Lemma writes_first lv p e ts : writes lv p e ts -> first_ok ts.
Proof. apply (proj1 (writes_first_all lv)). Qed.

(** ** What may follow an expression of level [p] *)
Definition fol (p : nat) (t : tok) : Prop :=
  (p <= 2 -> prefix t = None)
  /\ (if (p =? 1) || (p =? 2) || (p =? 10) then precedence t < p else precedence t <= p).
Lemma fol_mono p q t : p <= q -> fol p t -> fol q t.
Proof.
  intros H [F1 F2]. split; [intros; apply F1; lia|].
  destruct ((p =? 1) || (p =? 2) || (p =? 10)) eqn:Ep; destruct ((q =? 1) || (q =? 2) || (q =? 10)) eqn:Eq; try lia.
  destruct (Nat.eq_dec p q) as [->|Hn]; [congruence|lia].
Qed.
Lemma fol_lt p t : (p = 1 \/ p = 2 \/ p = 10) -> fol p t -> precedence t < p.
Proof. intros H [_ F]. destruct H as [->|[->| ->]]; exact F. Qed.
Lemma fol_le p t : fol p t -> precedence t <= p.
Proof. intros [_ F]. destruct ((p =? 1) || (p =? 2) || (p =? 10)); lia. Qed.
Lemma fol_ends p t : precedence t = 0 -> prefix t = None -> fol p t.
Proof.
  intros H1 H2. split; [intros; exact H2|]. rewrite H1. destruct p as [|p]; [plia|].
  destruct ((S p =? 1) || (S p =? 2) || (S p =? 10)); lia.
Qed.

Definition P (p : nat) (e : expr) (ts : list tok) : Prop :=
  forall q rest R, (q <= p \/ (p = 10 /\ q = 11)) -> fol p (cur rest) -> Loops e q rest R -> Runs q (ts ++ rest) R.

(** A complete operand of level [k]. *)
Lemma P_operand p e ts rest k : P p e ts -> (k <= p \/ (p = 10 /\ k = 11)) -> fol p (cur rest) -> precedence (cur rest) < k ->
  Runs k (ts ++ rest) (e, rest).
Proof. intros H1 H2 H3 H4. apply (H1 k rest (e, rest) H2 H3). apply loops_stop. exact H4. Qed.

Lemma real_level_prec op : op <> BoError -> precedence (bin_symbol op) = real_level op.
Proof. destruct op; reflexivity. Qed.
Lemma real_level_range op : real_level op <= 9.
Proof. destruct op; plia. Qed.

Lemma infix_binary op : 1 <= real_level op -> op <> BoElse -> infix (bin_symbol op) = Some IfBinary.
Proof. destruct op; cbn; try reflexivity; try congruence; lia. Qed.
Lemma binop_symbol op : 1 <= real_level op -> binaryop_from_token (bin_symbol op) = op.
Proof. destruct op; cbn; try reflexivity; lia. Qed.

Lemma runs_ok k ts R : Runs k ts R -> exists f, pprec f k ts = POk R. Proof. exact (fun H => H). Qed.

(** Single infix steps, given runs of their operands. *)
Lemma inf_binary op e r rest ts : 1 <= real_level op -> op <> BoElse ->
  Runs (if real_level op =? 1 then 1 else real_level op + 1) ts (r, rest) ->
  exists f, run_infix (pprec f) (pargs f) e (bin_symbol op :: ts) = POk (EBin op false e r, rest).
Proof.
  intros H1 H2 [f H]. exists f. unfold run_infix. cbn [cur hd]. rewrite (infix_binary op H1 H2).
  unfold parse_binary. cbn [cur hd tl].
  assert (Hp: precedence (bin_symbol op) = real_level op) by (apply real_level_prec; intros ->; cbv in H1; lia).
  rewrite Hp, (binop_symbol op H1). unfold PREC_ASSIGNMENT.
  destruct (real_level op =? 1); rewrite H; reflexivity.
Qed.
Lemma inf_orelse e r rest ts : Runs 2 ts (r, rest) ->
  exists f, run_infix (pprec f) (pargs f) e (TkQuestQuest :: ts) = POk (EBin BoElse false e r, rest).
Proof. intros [f H]. exists f. unfold run_infix, parse_orelse. cbn [cur hd tl infix]. unfold PREC_TERNARY. rewrite H. reflexivity. Qed.
Lemma inf_elvis e r rest ts : Runs 2 ts (r, rest) ->
  exists f, run_infix (pprec f) (pargs f) e (TkElvis :: ts) = POk (EElvis false e r, rest).
Proof. intros [f H]. exists f. unfold run_infix, parse_elvis_expr. cbn [cur hd tl infix]. unfold PREC_TERNARY. rewrite H. reflexivity. Qed.
Lemma inf_access e r rest ts : Runs 12 ts (r, rest) ->
  exists f, run_infix (pprec f) (pargs f) e (TkDot :: ts) = POk (EAccess e r, rest).
Proof. intros [f H]. exists f. unfold run_infix, parse_access_expr. cbn [cur hd tl infix]. unfold PREC_PRIMARY. rewrite H. reflexivity. Qed.
Lemma inf_opt e rest : prefix (cur rest) = None ->
  exists f, run_infix (pprec f) (pargs f) e (TkQuestion :: rest) = POk (EOpt e, rest).
Proof. intros H. exists 0. unfold run_infix, parse_ternary_expr. cbn [cur hd tl infix]. rewrite H. reflexivity. Qed.
Lemma inf_opt_bang e rest : prefix (cur rest) = None ->
  exists f, run_infix (pprec f) (pargs f) e (TkQuestion :: TkBang :: rest) = POk (EOpt e, TkBang :: rest).
Proof.
  intros H. exists 0. unfold run_infix, parse_ternary_expr, peek. cbn [cur hd tl infix prefix]. unfold cur in H. rewrite H.
  reflexivity.
Qed.
Lemma inf_ternary e t f rest ts s : first_ok ts -> Runs 1 (ts ++ TkColon :: s) (t, TkColon :: s) -> Runs 2 s (f, rest) ->
  exists g, run_infix (pprec g) (pargs g) e (TkQuestion :: ts ++ TkColon :: s) = POk (ETern false e t f, rest).
Proof.
  intros (x & r & -> & F1 & F2 & _) [g G] [h H]. exists (g + h).
  apply (le_ok _ _ _ (pprec_mono g (g + h) ltac:(lia) 1 _)) in G.
  apply (le_ok _ _ _ (pprec_mono h (g + h) ltac:(lia) 2 _)) in H.
  unfold run_infix, parse_ternary_expr, peek. cbn [cur hd tl infix app].
  destruct (prefix x) as [px|] eqn:Ex; [|congruence]. cbn [orb].
  replace ((match x with TkBang | TkBangBang => true | _ => false end) && (match prefix (hd TkEof (r ++ TkColon :: s)) with Some _ => false | None => true end)) with false.
  2:{ symmetry. destruct x; try reflexivity; cbn [andb].
      - specialize (F2 (or_intror eq_refl)). destruct r as [|y r]; [exfalso; apply F2; reflexivity|].
        cbn [app hd]. cbn [cur hd] in F2. destruct (prefix y); [reflexivity|congruence].
      - specialize (F2 (or_introl eq_refl)). destruct r as [|y r]; [exfalso; apply F2; reflexivity|].
        cbn [app hd]. cbn [cur hd] in F2. destruct (prefix y); [reflexivity|congruence]. }
  unfold PREC_ASSIGNMENT, PREC_TERNARY. change (x :: r ++ TkColon :: s) with ((x :: r) ++ TkColon :: s). rewrite G. cbn [pbind].
  unfold consume, tok_is. cbn [cur hd tok_eqb_simple pbind tl]. rewrite H. reflexivity.
Qed.
Lemma inf_call_nil e rest : exists g, run_infix (pprec g) (pargs g) e (TkLParen :: TkRParen :: rest) = POk (ECall e ANil, rest).
Proof. exists 0. reflexivity. Qed.
Lemma inf_call e a rest ts : prefix (cur ts) <> None -> Args ts (a, TkRParen :: rest) ->
  exists g, run_infix (pprec g) (pargs g) e (TkLParen :: ts) = POk (ECall e a, rest).
Proof.
  intros H [g G]. exists g. unfold run_infix, parse_call_expr. cbn [cur hd tl infix].
  replace (tok_is ts TkRParen || tok_is ts TkEos) with false.
  2:{ unfold tok_is. destruct (cur ts); try reflexivity; exfalso; apply H; reflexivity. }
  rewrite G. reflexivity.
Qed.
(** [bound_run b ts]: the bound, if present, is read back from its tokens. *)
Definition PB (b : bound) (ts : list tok) : Prop :=
  match b with
  | BNone => ts = []
  | BSome fe e => exists te, ts = (if fe then [TkBitXor] else []) ++ te /\ first_ok te
                   /\ forall rest, fol 1 (cur rest) -> Runs 1 (te ++ rest) (e, rest)
  end.
Lemma not_closer t : prefix t <> None -> tok_eqb_simple t TkDotDot = false /\ tok_eqb_simple t TkColon = false
  /\ tok_eqb_simple t TkBitXor = false /\ tok_eqb_simple t TkRParen = false /\ tok_eqb_simple t TkEos = false.
Proof. destruct t; cbn; try (intros; repeat split; reflexivity); congruence. Qed.
Lemma inf_sub e fe i ti rest : PB (BSome fe i) ti ->
  exists g, run_infix (pprec g) (pargs g) e (TkLBracket :: ti ++ TkRBracket :: rest) = POk (ESub e fe i, rest).
Proof.
  intros (te & -> & F & H). destruct (H (TkRBracket :: rest)) as [g G]; [apply fol_ends; reflexivity|]. exists g.
  unfold run_infix, parse_subscript_expr. cbn [cur hd tl infix]. unfold parse_range, PREC_ASSIGNMENT.
  pose proof (not_closer _ (first_ok_cur te (TkRBracket :: rest) F)) as (N1 & N2 & N3 & _).
  destruct fe; rewrite <- app_assoc; cbn [app].
  - unfold tok_is at 1 2. cbn [cur hd tok_eqb_simple orb]. unfold try_consume at 1. unfold tok_is at 1. cbn [cur hd tok_eqb_simple tl].
    rewrite G. cbn [pbind]. reflexivity.
  - unfold tok_is at 1 2. rewrite N1, N2. cbn [orb]. unfold try_consume at 1. unfold tok_is at 1. rewrite N3. rewrite G. cbn [pbind]. reflexivity.
Qed.
Lemma range_lo pp lo tlo x s : (x = TkDotDot \/ x = TkColon) ->
  match lo with BNone => tlo = [] | BSome fe e => exists te, tlo = (if fe then [TkBitXor] else []) ++ te /\ first_ok te
     /\ pp 1 (te ++ x :: s) = POk (e, x :: s) end ->
  (if tok_is (tlo ++ x :: s) TkDotDot || tok_is (tlo ++ x :: s) TkColon then POk (BNone, tlo ++ x :: s)
   else let '(fe, ts) := try_consume (tlo ++ x :: s) TkBitXor in
        ' (e, ts) <~ pp PREC_ASSIGNMENT ts ;; POk (BSome fe e, ts)) = POk (lo, x :: s).
Proof.
  intros Hx H. destruct lo as [|fe e].
  - subst tlo. cbn [app]. destruct Hx as [->| ->]; reflexivity.
  - destruct H as (te & -> & F & G). pose proof (not_closer _ (first_ok_cur te (x :: s) F)) as (N1 & N2 & N3 & _).
    destruct fe; cbn [app].
    + unfold tok_is at 1 2, try_consume, tok_is. cbn [cur hd tok_eqb_simple orb tl]. unfold PREC_ASSIGNMENT. rewrite G. reflexivity.
    + unfold try_consume, tok_is. rewrite N1, N2, N3. cbn [orb]. unfold PREC_ASSIGNMENT. rewrite G. reflexivity.
Qed.
Lemma PB_run b ts x s : PB b ts -> (x = TkDotDot \/ x = TkColon \/ x = TkRBracket) ->
  exists f, match b with BNone => ts = [] | BSome fe e => exists te, ts = (if fe then [TkBitXor] else []) ++ te /\ first_ok te
     /\ forall g, f <= g -> pprec g 1 (te ++ x :: s) = POk (e, x :: s) end.
Proof.
  intros H Hx. destruct b as [|fe e]; [exists 0; exact H|]. destruct H as (te & -> & F & G).
  destruct (G (x :: s)) as [f Hf]; [apply fol_ends; destruct Hx as [->|[->| ->]]; reflexivity|].
  exists f, te. split; [reflexivity|]. split; [exact F|]. intros g Hg. exact (le_ok _ _ _ (pprec_mono f g Hg 1 _) Hf).
Qed.
Lemma inf_slice e lo tlo hi thi rest : PB lo tlo -> PB hi thi ->
  exists g, run_infix (pprec g) (pargs g) e (TkLBracket :: tlo ++ TkDotDot :: thi ++ TkRBracket :: rest) = POk (ESlice e lo false hi, rest).
Proof.
  intros Hlo Hhi.
  destruct (PB_run lo tlo TkDotDot (thi ++ TkRBracket :: rest) Hlo ltac:(auto)) as [f Hf].
  destruct (PB_run hi thi TkRBracket rest Hhi ltac:(auto)) as [h Hh]. exists (f + h).
  unfold run_infix, parse_subscript_expr. cbn [cur hd tl infix]. unfold parse_range.
  rewrite (range_lo (pprec (f + h)) lo tlo TkDotDot (thi ++ TkRBracket :: rest)); [|auto|].
  2:{ destruct lo; [exact Hf|]. destruct Hf as (te & -> & F & G). exists te. split; [reflexivity|]. split; [exact F|]. apply G. lia. }
  cbn [pbind]. unfold try_consume at 1 2, tok_is at 1 2. cbn [cur hd tok_eqb_simple tl negb andb]. unfold PREC_ASSIGNMENT.
  destruct hi as [|fe x].
  - subst thi. cbn [app]. reflexivity.
  - destruct Hh as (te & -> & F & G). specialize (G (f + h) ltac:(lia)).
    pose proof (not_closer _ (first_ok_cur te (TkRBracket :: rest) F)) as (N1 & N2 & N3 & _).
    pose proof (first_ok_cur te (TkRBracket :: rest) F) as Fc.
    destruct fe; cbn [app].
    + unfold try_consume, tok_is at 1. cbn [cur hd tok_eqb_simple tl orb]. rewrite G. reflexivity.
    + unfold try_consume, tok_is at 1. rewrite N3. cbn [orb].
      destruct (prefix (cur (te ++ TkRBracket :: rest))); [|congruence]. rewrite G. reflexivity.
Qed.
Lemma inf_slice_len e lo tlo fe x thi rest : PB lo tlo -> PB (BSome fe x) thi ->
  exists g, run_infix (pprec g) (pargs g) e (TkLBracket :: tlo ++ TkColon :: thi ++ TkRBracket :: rest) = POk (ESlice e lo true (BSome fe x), rest).
Proof.
  intros Hlo Hhi.
  destruct (PB_run lo tlo TkColon (thi ++ TkRBracket :: rest) Hlo ltac:(auto)) as [f Hf].
  destruct (PB_run _ thi TkRBracket rest Hhi ltac:(auto)) as [h Hh]. exists (f + h).
  unfold run_infix, parse_subscript_expr. cbn [cur hd tl infix]. unfold parse_range.
  rewrite (range_lo (pprec (f + h)) lo tlo TkColon (thi ++ TkRBracket :: rest)); [|auto|].
  2:{ destruct lo; [exact Hf|]. destruct Hf as (te & -> & F & G). exists te. split; [reflexivity|]. split; [exact F|]. apply G. lia. }
  cbn [pbind]. unfold try_consume at 1 2, tok_is at 1 2. cbn [cur hd tok_eqb_simple tl negb andb]. unfold PREC_ASSIGNMENT.
  destruct Hh as (te & -> & F & G). specialize (G (f + h) ltac:(lia)).
  pose proof (not_closer _ (first_ok_cur te (TkRBracket :: rest) F)) as (N1 & N2 & N3 & _).
  pose proof (first_ok_cur te (TkRBracket :: rest) F) as Fc.
  destruct fe; cbn [app].
  - unfold try_consume, tok_is at 1. cbn [cur hd tok_eqb_simple tl orb]. rewrite G. reflexivity.
  - unfold try_consume, tok_is at 1. rewrite N3. cbn [orb].
    destruct (prefix (cur (te ++ TkRBracket :: rest))); [|congruence]. rewrite G. reflexivity.
Qed.

Definition PA (a : args) (ts : list tok) : Prop :=
  match a with
  | ANil => ts = []
  | _ => prefix (cur ts) <> None /\ forall rest, Args (ts ++ TkRParen :: rest) (a, TkRParen :: rest)
  end.

Lemma parse_arg_run pp name e te s : first_ok te -> cur s <> TkColon -> pp 1 (te ++ s) = POk (e, s) ->
  parse_arg pp (arg_name name ++ te ++ s) = POk (name, e, s).
Proof.
  intros F Hs H. unfold parse_arg, peek, PREC_ASSIGNMENT. destruct name as [n|]; cbn [arg_name app].
  - cbn [cur hd tl]. rewrite H. reflexivity.
  - destruct F as (t & r & -> & F1 & F2 & F3). cbn [app cur hd tl].
    assert (Hp: forall n, t = TkName n -> hd TkEof (r ++ s) <> TkColon).
    { intros n Hn. specialize (F3 n Hn). destruct r; [exact Hs|exact F3]. }
    cbn [app] in H.
    destruct t; try (rewrite H; reflexivity). specialize (Hp n eq_refl).
    destruct (hd TkEof (r ++ s)); try (rewrite H; reflexivity). congruence.
Qed.
Lemma args_last name e te rest : P 1 e te -> first_ok te ->
  Args (arg_name name ++ te ++ TkRParen :: rest) (ACons name e ANil, TkRParen :: rest).
Proof.
  intros H F. assert (Hr: Runs 1 (te ++ TkRParen :: rest) (e, TkRParen :: rest)) by (apply (P_operand 1); [exact H|left; lia|apply fol_ends; reflexivity|plia]).
  destruct Hr as [f G].
  exists (S f). cbn [pargs]. rewrite (parse_arg_run _ name e te _ F); [|discriminate|exact G]. reflexivity.
Qed.
Lemma args_trail name e te rest : P 1 e te -> first_ok te ->
  Args (arg_name name ++ te ++ TkComma :: TkRParen :: rest) (ACons name e ANil, TkRParen :: rest).
Proof.
  intros H F. assert (Hr: Runs 1 (te ++ TkComma :: TkRParen :: rest) (e, TkComma :: TkRParen :: rest)) by (apply (P_operand 1); [exact H|left; lia|apply fol_ends; reflexivity|plia]).
  destruct Hr as [f G].
  exists (S f). cbn [pargs]. rewrite (parse_arg_run _ name e te _ F); [|discriminate|exact G]. reflexivity.
Qed.
Lemma args_more name e te ts r R : P 1 e te -> first_ok te -> prefix (cur ts) <> None -> Args ts (r, R) ->
  Args (arg_name name ++ te ++ TkComma :: ts) (ACons name e r, R).
Proof.
  intros H F Hn [g G]. assert (Hr: Runs 1 (te ++ TkComma :: ts) (e, TkComma :: ts)) by (apply (P_operand 1); [exact H|left; lia|apply fol_ends; reflexivity|plia]).
  destruct Hr as [f K].
  exists (S (f + g)). cbn [pargs].
  rewrite (parse_arg_run _ name e te _ F); [|discriminate|exact (le_ok _ _ _ (pprec_mono f (f + g) ltac:(lia) 1 _) K)]. cbn [pbind].
  unfold try_consume, tok_is at 1. cbn [cur hd tok_eqb_simple tl negb].
  unfold tok_is. destruct (not_closer _ Hn) as (_ & _ & _ & N & _). rewrite N.
  rewrite (le_ok _ _ _ (pargs_mono g (f + g) ltac:(lia) _) G). reflexivity.
Qed.
Lemma arg_name_first name te s : first_ok te -> prefix (cur (arg_name name ++ te ++ s)) <> None.
Proof. intros F. destruct name; [discriminate|]. cbn [arg_name app]. apply first_ok_cur. exact F. Qed.

(** Prefix rules. *)
Lemma pre_unary op e rest ts : op <> UoError -> Runs 10 ts (e, rest) ->
  exists f, run_prefix (pprec f) (un_symbol op :: ts) = POk (EUnary op e, rest).
Proof.
  intros Ho [f H]. exists f. unfold run_prefix, parse_unary_expr, PREC_UNARY. cbn [cur hd tl].
  destruct op; try congruence; cbn [un_symbol prefix unaryop_from_token]; rewrite H; reflexivity.
Qed.
Lemma pre_notnot e rest ts : Runs 10 ts (e, rest) ->
  exists f, run_prefix (pprec f) (TkBangBang :: ts) = POk (EUnary UoNot (EUnary UoNot e), rest).
Proof. intros [f H]. exists f. unfold run_prefix, parse_unary_expr, PREC_UNARY. cbn [cur hd tl prefix]. rewrite H. reflexivity. Qed.
Lemma pre_group e ts rest : (forall t, e <> EType t) -> Runs 1 (ts ++ TkRParen :: rest) (e, TkRParen :: rest) ->
  exists f, run_prefix (pprec f) (TkLParen :: ts ++ TkRParen :: rest) = POk (group e, rest).
Proof.
  intros Ht [f H]. exists f. unfold run_prefix, parse_grouping_expr, PREC_ASSIGNMENT. cbn [cur hd tl prefix]. rewrite H. cbn [pbind].
  unfold consume, tok_is. cbn [cur hd tok_eqb_simple pbind tl].
  destruct e; try reflexivity. exfalso. exact (Ht n eq_refl).
Qed.
Lemma pre_cast t e ts rest : prefix (cur ts) <> None -> Runs 11 ts (e, rest) ->
  exists f, run_prefix (pprec f) (TkLParen :: TkType t :: TkRParen :: ts) = POk (ECast t e, rest).
Proof.
  intros Ht [f H]. exists (f + 2). unfold run_prefix, parse_grouping_expr, PREC_ASSIGNMENT. cbn [cur hd tl prefix].
  assert (G: pprec (f + 2) 1 (TkType t :: TkRParen :: ts) = POk (EType t, TkRParen :: ts)).
  { apply (le_ok _ _ _ (pprec_mono 2 (f + 2) ltac:(lia) 1 _)). reflexivity. }
  rewrite G. cbn [pbind]. unfold consume, tok_is. cbn [cur hd tok_eqb_simple pbind tl].
  change (hd TkEof ts) with (cur ts). destruct (prefix (cur ts)); [|congruence]. unfold PREC_CALL.
  rewrite (le_ok _ _ _ (pprec_mono f (f + 2) ltac:(lia) 11 _) H). reflexivity.
Qed.
Definition is_type (e : expr) : bool := match e with EType _ => true | _ => false end.
Lemma writes_not_type_all lv :
  (forall p e ts, writes lv p e ts -> is_type e = false)
  /\ (forall e ts, writes_suffix lv e ts -> True)
  /\ (forall b ts, writes_bound lv b ts -> True)
  /\ (forall a ts, writes_args lv a ts -> True).
Proof.
  apply writes_mind with
    (P := fun p e ts _ => is_type e = false) (P0 := fun e ts _ => True)
    (P1 := fun b ts _ => True) (P2 := fun a ts _ => True); intros; try exact I; try reflexivity.
  destruct e; try reflexivity. assumption.
Qed.
Lemma writes_not_type lv p e ts : writes lv p e ts -> forall t, e <> EType t.
Proof. intros H t ->. pose proof (proj1 (writes_not_type_all lv) _ _ _ H). discriminate. Qed.

Definition PS (e : expr) (ts : list tok) : Prop :=
  forall q rest R, q <= 2 -> precedence (cur rest) = 2 -> prefix (cur rest) = None -> Loops e q rest R -> Runs q (ts ++ rest) R.

Lemma any_fol11 t : fol 11 t.
Proof. split; [lia|]. destruct t; plia. Qed.
Lemma any_fol12 t : fol 12 t.
Proof. split; [lia|]. destruct t; plia. Qed.
Lemma prec_lt12 t : precedence t < 12. Proof. destruct t; plia. Qed.

(** Postfix forms: the operand is at level 11 and the rule applies at once. *)
Lemma P_post e te p e' (x : tok) s : P 11 e te -> precedence x = 11 ->
  (forall rest, exists f, run_infix (pprec f) (pargs f) e (x :: s ++ rest) = POk (e', rest)) ->
  p <= 11 -> P p e' (te ++ x :: s).
Proof.
  intros H Hx Hs Hp q rest R Hq Hf HL. rewrite <- app_assoc. cbn [app].
  apply H; [left; lia|apply any_fol11|]. apply loops_step with (e' := e') (ts' := rest); [cbn [cur hd]; lia|apply Hs|exact HL].
Qed.
Lemma P_opt e te q rest R : P 3 e te -> q <= 2 -> prefix (cur rest) = None -> Loops (EOpt e) q rest R ->
  Runs q ((te ++ [TkQuestion]) ++ rest) R.
Proof.
  intros H Hq Hn HL. rewrite <- app_assoc. apply H; [left; lia|split; plia|].
  apply loops_step with (e' := EOpt e) (ts' := rest); [plia|apply inf_opt; exact Hn|exact HL].
Qed.
Lemma P_opt_rethrow e te q rest R : P 3 e te -> q <= 2 -> prefix (cur rest) = None -> Loops (ERethrow (EOpt e)) q rest R ->
  Runs q ((te ++ [TkQuestion; TkBang]) ++ rest) R.
Proof.
  intros H Hq Hn HL. rewrite <- app_assoc. apply H; [left; lia|split; plia|].
  apply loops_step with (e' := EOpt e) (ts' := TkBang :: rest); [plia|apply (inf_opt_bang e rest); exact Hn|].
  apply loops_step with (e' := ERethrow (EOpt e)) (ts' := rest); [plia|exists 0; reflexivity|exact HL].
Qed.

Lemma parses_all :
  (forall p e ts, writes real_level p e ts -> P p e ts)
  /\ (forall e ts, writes_suffix real_level e ts -> PS e ts)
  /\ (forall b ts, writes_bound real_level b ts -> PB b ts)
  /\ (forall a ts, writes_args real_level a ts -> PA a ts).
Proof.
  apply writes_mind with
    (P := fun p e ts _ => P p e ts) (P0 := fun e ts _ => PS e ts)
    (P1 := fun b ts _ => PB b ts) (P2 := fun a ts _ => PA a ts).
  - (* name *) intros p n Hp q rest R Hq Hf HL. apply runs_prefix with (l := EName n) (ts' := rest); [exists 0; reflexivity|exact HL].
  - (* lit *) intros p n Hp q rest R Hq Hf HL. apply runs_prefix with (l := ELit n) (ts' := rest); [exists 0; reflexivity|exact HL].
  - (* paren *) intros p e ts Hp Hw IH q rest R Hq Hf HL. apply runs_prefix with (l := group e) (ts' := rest); [|exact HL].
    cbn [app]. rewrite <- app_assoc. cbn [app]. apply pre_group; [exact (writes_not_type _ _ _ _ Hw)|].
    apply (P_operand 1); [exact IH|left; lia|apply fol_ends; reflexivity|plia].
  - (* type access *) intros p t c tc Hp Hw IH q rest R Hq Hf HL. cbn [app].
    apply runs_prefix with (l := EType t) (ts' := TkDot :: tc ++ rest); [exists 0; reflexivity|].
    apply loops_step with (e' := EAccess (EType t) c) (ts' := rest); [plia| |exact HL].
    apply inf_access. apply (P_operand 12); [exact IH|left; lia|apply any_fol12|apply prec_lt12].
  - (* access *) intros p e te c tc Hp Hw IH Hw2 IH2. apply (P_post e te); [exact IH|reflexivity| |exact Hp].
    intros rest. apply inf_access. apply (P_operand 12); [exact IH2|left; lia|apply any_fol12|apply prec_lt12].
  - intros p e te Hp Hw IH. apply (P_post e te); [exact IH|reflexivity|intros; exists 0; reflexivity|exact Hp].
  - intros p e te Hp Hw IH. apply (P_post e te); [exact IH|reflexivity|intros; exists 0; reflexivity|exact Hp].
  - intros p e te Hp Hw IH. apply (P_post e te); [exact IH|reflexivity|intros; exists 0; reflexivity|exact Hp].
  - intros p e te Hp Hw IH. apply (P_post e te); [exact IH|reflexivity|intros; exists 0; reflexivity|exact Hp].
  - (* sub *) intros p e te fe i ti Hp Hw IH Hb IHb. apply (P_post e te); [exact IH|reflexivity| |exact Hp].
    intros rest. rewrite <- app_assoc. cbn [app]. apply inf_sub. exact IHb.
  - (* slice *) intros p e te lo tlo hi thi Hp Hw IH Hlo IHlo Hhi IHhi. apply (P_post e te); [exact IH|reflexivity| |exact Hp].
    intros rest. rewrite <- app_assoc. cbn [app]. rewrite <- app_assoc. cbn [app]. apply inf_slice; assumption.
  - (* slice len *) intros p e te lo tlo fe x thi Hp Hw IH Hlo IHlo Hhi IHhi. apply (P_post e te); [exact IH|reflexivity| |exact Hp].
    intros rest. rewrite <- app_assoc. cbn [app]. rewrite <- app_assoc. cbn [app]. apply inf_slice_len; assumption.
  - (* call *) intros p e te a ta Hp Hw IH Ha IHa. apply (P_post e te); [exact IH|reflexivity| |exact Hp].
    intros rest. rewrite <- app_assoc. cbn [app]. destruct a as [|n x r].
    + cbn in IHa. subst ta. apply inf_call_nil.
    + destruct IHa as [Hc Hr]. apply inf_call; [|apply Hr].
      destruct ta; [exfalso; apply Hc; reflexivity|exact Hc].
  - (* unary *) intros p op e te Hp Ho Hw IH q rest R Hq Hf HL. cbn [app].
    apply runs_prefix with (l := EUnary op e) (ts' := rest); [|exact HL].
    assert (F10: fol 10 (cur rest)) by (apply (fol_mono p); assumption).
    apply pre_unary; [exact Ho|]. apply (P_operand 10); [exact IH|left; lia|exact F10|]. apply fol_lt; [auto|exact F10].
  - (* notnot *) intros p e te Hp Hw IH q rest R Hq Hf HL. cbn [app].
    apply runs_prefix with (l := EUnary UoNot (EUnary UoNot e)) (ts' := rest); [|exact HL].
    assert (F10: fol 10 (cur rest)) by (apply (fol_mono p); assumption).
    apply pre_notnot. apply (P_operand 10); [exact IH|left; lia|exact F10|]. apply fol_lt; [auto|exact F10].
  - (* cast *) intros p t e te Hp Hw IH q rest R Hq Hf HL. cbn [app].
    apply runs_prefix with (l := ECast t e) (ts' := rest); [|exact HL].
    assert (F10: fol 10 (cur rest)) by (apply (fol_mono p); assumption).
    apply pre_cast; [apply first_ok_cur; exact (writes_first _ _ _ _ Hw)|].
    apply (P_operand 10); [exact IH|right; lia|exact F10|]. pose proof (fol_lt 10 _ ltac:(auto) F10). lia.
  - (* binary *) intros p op l tl r tr Hp Hk Hl IHl Hr IHr q rest R Hq Hf HL. rewrite <- app_assoc. cbn [app].
    assert (Fk: fol (real_level op) (cur rest)) by (apply (fol_mono p); assumption).
    assert (Ho: op <> BoError) by (intros ->; cbv in Hk; lia).
    apply IHl; [left; lia| |].
    + cbn [cur hd]. split; [lia|]. rewrite (real_level_prec op Ho).
      replace ((real_level op =? 1) || (real_level op =? 2) || (real_level op =? 10)) with false; [lia|].
      symmetry. rewrite !orb_false_iff, !Nat.eqb_neq. lia.
    + apply loops_step with (e' := EBin op false l r) (ts' := rest); [|  |exact HL].
      * cbn [cur hd]. rewrite (real_level_prec op Ho). lia.
      * apply inf_binary; [lia|intros ->; cbv in Hk; lia|].
        rewrite (proj2 (Nat.eqb_neq (real_level op) 1)) by lia.
        apply (P_operand (real_level op + 1)); [exact IHr|left; lia|apply (fol_mono (real_level op)); [lia|exact Fk]|].
        pose proof (fol_le _ _ Fk). lia.
  - (* opt *) intros p e te Hp Hw IH q rest R Hq Hf HL. apply (P_opt e); [exact IH|lia|apply Hf; lia|exact HL].
  - (* opt rethrow *) intros p e te Hp Hw IH q rest R Hq Hf HL. apply (P_opt_rethrow e); [exact IH|lia|apply Hf; lia|exact HL].
  - (* ternary *) intros p c tc t tt f tf Hp Hc IHc Ht IHt Hf IHf q rest R Hq Hfo HL.
    assert (F2: fol 2 (cur rest)) by (apply (fol_mono p); assumption).
    rewrite <- app_assoc. cbn [app]. rewrite <- app_assoc. cbn [app].
    apply IHc; [left; lia|split; plia|].
    apply loops_step with (e' := ETern false c t f) (ts' := rest); [plia| |exact HL].
    apply inf_ternary; [exact (writes_first _ _ _ _ Ht)| |].
    + apply (P_operand 1); [exact IHt|left; lia|apply fol_ends; reflexivity|plia].
    + apply (P_operand 2); [exact IHf|left; lia|exact F2|apply fol_lt; [auto|exact F2]].
  - (* elvis *) intros p c tc f tf Hp Hc IHc Hf IHf q rest R Hq Hfo HL.
    assert (F2: fol 2 (cur rest)) by (apply (fol_mono p); assumption).
    rewrite <- app_assoc. cbn [app]. apply IHc; [lia|reflexivity|reflexivity|].
    apply loops_step with (e' := EElvis false c f) (ts' := rest); [plia| |exact HL].
    apply inf_elvis. apply (P_operand 2); [exact IHf|left; lia|exact F2|apply fol_lt; [auto|exact F2]].
  - (* orelse *) intros p c tc f tf Hp Hc IHc Hf IHf q rest R Hq Hfo HL.
    assert (F2: fol 2 (cur rest)) by (apply (fol_mono p); assumption).
    rewrite <- app_assoc. cbn [app]. apply IHc; [lia|reflexivity|reflexivity|].
    apply loops_step with (e' := EBin BoElse false c f) (ts' := rest); [plia| |exact HL].
    apply inf_orelse. apply (P_operand 2); [exact IHf|left; lia|exact F2|apply fol_lt; [auto|exact F2]].
  - (* assign *) intros p op l tl r tr Hp Ho Hl IHl Hr IHr q rest R Hq Hf HL.
    assert (F1: fol 1 (cur rest)) by (apply (fol_mono p); assumption).
    rewrite <- app_assoc. cbn [app]. assert (Hq1: q <= 1) by lia.
    assert (Hne: op <> BoError) by (intros ->; cbv in Ho; lia).
    apply IHl; [left; lia| |].
    + cbn [cur hd]. split; [intros _; destruct op; cbn in Ho; try lia; reflexivity|]. rewrite (real_level_prec op Hne), Ho. cbn. lia.
    + apply loops_step with (e' := EBin op false l r) (ts' := rest); [| |exact HL].
      * cbn [cur hd]. rewrite (real_level_prec op Hne). lia.
      * apply inf_binary; [lia|intros ->; cbv in Ho; lia|]. rewrite Ho. cbn [Nat.eqb].
        apply (P_operand 1); [exact IHr|left; lia|exact F1|apply fol_lt; [auto|exact F1]].
  - (* suffix or *) intros e te Hw IH q rest R Hq Hp Hn HL. apply IH; [left; lia| |exact HL]. split; [lia|]. rewrite Hp. cbn. lia.
  - intros e te Hw IH q rest R Hq Hp Hn HL. apply (P_opt e); assumption.
  - intros e te Hw IH q rest R Hq Hp Hn HL. apply (P_opt_rethrow e); assumption.
  - reflexivity.
  - (* bound *) intros e te Hw IH. exists te. split; [reflexivity|]. split; [exact (writes_first _ _ _ _ Hw)|].
    intros rest F1. apply (P_operand 1); [exact IH|left; lia|exact F1|apply fol_lt; [auto|exact F1]].
  - intros e te Hw IH. exists te. split; [reflexivity|]. split; [exact (writes_first _ _ _ _ Hw)|].
    intros rest F1. apply (P_operand 1); [exact IH|left; lia|exact F1|apply fol_lt; [auto|exact F1]].
  - reflexivity.
  - intros name e te Hw IH. pose proof (writes_first _ _ _ _ Hw) as F. split.
    + rewrite <- (app_nil_r te). apply arg_name_first. exact F.
    + intros rest. rewrite <- app_assoc. apply args_last; assumption.
  - intros name e te Hw IH. pose proof (writes_first _ _ _ _ Hw) as F. split.
    + apply arg_name_first. exact F.
    + intros rest. rewrite <- !app_assoc. cbn [app]. apply args_trail; assumption.
  - intros name e te n2 e2 r tr Hw IH Ha [Hc Hr]. pose proof (writes_first _ _ _ _ Hw) as F. split.
    + apply arg_name_first. exact F.
    + intros rest. rewrite <- !app_assoc. cbn [app]. apply args_more; [exact IH|exact F| |apply Hr].
      destruct tr; [exfalso; apply Hc; reflexivity|exact Hc].
Qed.
