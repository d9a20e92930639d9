(** Proofs about made-up names. *)
From Coq Require Import String ZArith List Bool Lia ZifyBool.
From Verif Require Import JsonWModel JsonSpec JsonWProofs MangModel MangSpec.
Import ListNotations.
Open Scope Z_scope.

(** ** Texts without a given byte *)
Lemma split_eq (x : Z) w1 : forall w2 r1 r2, ~ In x w1 -> ~ In x w2 -> w1 ++ x :: r1 = w2 ++ x :: r2 -> w1 = w2 /\ r1 = r2.
Proof.
  induction w1 as [|a w1 IH]; intros [|b w2] r1 r2 N1 N2 E; cbn [app] in E.
  - injection E as E. auto.
  - injection E as E _. subst b. exfalso. apply N2. left. reflexivity.
  - injection E as E _. subst a. exfalso. apply N1. left. reflexivity.
  - injection E as -> E. destruct (IH w2 r1 r2) as (-> & ->); auto; intros I; [apply N1|apply N2]; right; exact I.
Qed.
Lemma word_not x s : Forall word_char s -> ~ word_char x -> ~ In x s.
Proof. intros F N I. apply N. exact (proj1 (Forall_forall _ _) F x I). Qed.
Lemma not_word x : x = 36 \/ x = 46 \/ x = 58 -> ~ word_char x.
Proof. unfold word_char. lia. Qed.
Lemma digits_word l : Forall digit l -> Forall word_char l.
Proof. apply Forall_impl. unfold digit, word_char. lia. Qed.
Lemma sep_cons2 s x y l : sep s (x :: y :: l) = x ++ s ++ sep s (y :: l).
Proof. reflexivity. Qed.
Lemma sep_not_in x s l : ~ In x s -> Forall (fun w => ~ In x w) l -> ~ In x (sep s l).
Proof.
  intros Ns F. induction F as [|w [|v l'] Hw F IH]; [intros []|exact Hw|]. rewrite sep_cons2. rewrite !in_app_iff. intros [I|[I|I]]; auto.
Qed.

(** ** Paths *)
Lemma amn_word e w : Forall word_char w -> forall r, append_module_name e (w ++ r) = w ++ append_module_name e r.
Proof.
  intros F r. induction F as [|c w H F IH]; [reflexivity|]. cbn [app append_module_name].
  replace (c =? 58) with false by (unfold word_char in H; lia). replace (c =? 46) with false by (unfold word_char in H; lia). rewrite IH. reflexivity.
Qed.
Lemma amn_path e p : Forall (Forall word_char) p -> append_module_name e (sep (lit "::") p) = sep (if e then lit "_" else lit ".") p.
Proof.
  intros F. induction F as [|w [|v l'] H F IH]; [reflexivity| |].
  - cbn [sep]. rewrite <- (app_nil_r w) at 1. rewrite amn_word by exact H. cbn [append_module_name]. apply app_nil_r.
  - rewrite !sep_cons2, amn_word by exact H. change (lit "::" ++ sep (lit "::") (v :: l')) with (58 :: 58 :: sep (lit "::") (v :: l')). cbn [append_module_name].
    change (58 =? 58) with true. cbv iota. rewrite IH. destruct e; reflexivity.
Qed.
Lemma amn_id w : ~ In 58 w -> append_module_name false w = w.
Proof.
  induction w as [|c w IH]; intros N; [reflexivity|]. cbn [append_module_name]. cbn [In] in N. destruct (Z.eqb_spec c 58); [exfalso; auto|].
  rewrite IH by auto. destruct (Z.eqb_spec c 46) as [->|]; reflexivity.
Qed.
Lemma path_words p : module_path p -> Forall (Forall word_char) p.
Proof. intros (_ & F). revert F. apply Forall_impl. intros w ((_ & H) & _). exact H. Qed.
Lemma sep_ext_eq x p : forall q, ~ In x [] -> p <> [] -> q <> [] -> Forall (fun w => ~ In x w) p -> Forall (fun w => ~ In x w) q -> sep [x] p = sep [x] q -> p = q.
Proof.
  induction p as [|a p IH]; intros [|b q] _ Np Nq Fp Fq E; try congruence. inversion_clear Fp as [|? ? Ha Fp']. inversion_clear Fq as [|? ? Hb Fq'].
  destruct p as [|a' p], q as [|b' q].
  - cbn [sep] in E. congruence.
  - exfalso. rewrite sep_cons2 in E. change (sep [x] [a]) with a in E. apply Ha. rewrite E, in_app_iff. right. left. reflexivity.
  - exfalso. rewrite sep_cons2 in E. change (sep [x] [b]) with b in E. apply Hb. rewrite <- E, in_app_iff. right. left. reflexivity.
  - rewrite !sep_cons2 in E. cbn [app] in E. apply (split_eq x) in E; [|exact Ha|exact Hb]. destruct E as (-> & E). f_equal. apply IH; auto; discriminate.
Qed.
Lemma sep_snoc s l x : l <> [] -> sep s (l ++ [x]) = sep s l ++ s ++ x.
Proof.
  induction l as [|a [|b l] IH]; intros N; [congruence|reflexivity|]. change ((a :: b :: l) ++ [x]) with (a :: b :: (l ++ [x])).
  rewrite !sep_cons2. change (b :: l ++ [x]) with ((b :: l) ++ [x]). rewrite IH by discriminate. rewrite <- !app_assoc. reflexivity.
Qed.

(** ** Every name of a good type starts with a segment that says how it goes on *)
Definition args_text (l : list arg) : text := flat_map (fun a => mangle_arg a ++ [36]) l.
Lemma sep_args l : l <> [] -> sep (lit "$") (map mangle_arg l) ++ lit "$" = args_text l.
Proof.
  induction l as [|a [|b l] IH]; intros N; [congruence|cbn; rewrite app_nil_r; reflexivity|]. cbn [map]. rewrite sep_cons2. change (args_text (a :: b :: l)) with ((mangle_arg a ++ [36]) ++ args_text (b :: l)).
  rewrite <- IH by discriminate. cbn [map]. rewrite <- !app_assoc. reflexivity.
Qed.

Fixpoint prefix_digits (ds : text) : bool := match ds with [] => true | c :: r => (48 <=? c) && (c <=? 57) && prefix_digits r end.
Lemma prefix_digits_ok ds : prefix_digits ds = true <-> Forall digit ds.
Proof.
  induction ds as [|c r IH]; cbn [prefix_digits]; [split; [constructor|reflexivity]|]. rewrite !andb_true_iff, IH. split.
  - intros ((A & B) & F). constructor; [unfold digit; lia|exact F].
  - intros F. inversion_clear F. unfold digit in *. repeat split; [lia|lia|assumption].
Qed.
Definition in_texts (w : text) (l : list text) : bool := existsb (text_eqb w) l.
Lemma text_eqb_eq a : forall b, text_eqb a b = true <-> a = b.
Proof.
  induction a as [|x a IH]; intros [|y b]; cbn [text_eqb]; try (split; congruence). rewrite andb_true_iff, IH, Z.eqb_eq. split; [intros (-> & ->); reflexivity|intros E; injection E; auto].
Qed.
Lemma in_texts_ok w l : in_texts w l = true <-> In w l.
Proof.
  unfold in_texts. rewrite existsb_exists. split; [intros (x & I & E); apply text_eqb_eq in E; subst; exact I|intros I; exists w; split; [exact I|apply text_eqb_eq; reflexivity]].
Qed.
(** The kind of a segment. *)
Definition class (w : text) : Z :=
  if existsb (Z.eqb 46) w then 1 else if in_texts w keyword_types then 2 else if text_eqb w (lit "any") then 3 else if text_eqb w (lit "p") then 4
  else if text_eqb w (lit "sa") then 5 else if text_eqb w (lit "String") then 6
  else match w with
       | c :: ((_ :: _) as ds) => if prefix_digits ds then if c =? 97 then 7 else if c =? 118 then 8 else 9 else 9
       | _ => 9
       end.
Definition seg (t : ty) : text :=
  match t with
  | Prim n => n | Any => lit "any" | Ptr _ => lit "p" | Slice _ => lit "sa" | Flex _ => lit "a0"
  | Vec n _ => lit "v" ++ decimal_of n | Arr n _ => lit "a" ++ decimal_of n
  | User (Plain p _) n None _ _ => sep (lit ".") p ++ lit "." ++ n
  | User (Plain p _) n (Some e) _ _ => e
  | User (Inst p _ args) n _ _ _ => joined p
  | _ => []
  end.
Definition tail (t : ty) (r : text) : text :=
  match t with
  | Any => 36 :: r
  | Ptr t | Slice t | Flex t | Vec _ t | Arr _ t => mangle t ++ 36 :: r
  | User (Inst p _ args) n _ _ _ => args_text args ++ lit "." ++ n ++ 36 :: r
  | _ => r
  end.
Definition tag (t : ty) : Z :=
  match t with
  | Prim _ => 2 | Any => 3 | Ptr _ => 4 | Slice _ => 5 | Flex _ | Arr _ _ => 7 | Vec _ _ => 8
  | User (Plain _ _) _ None _ _ => 1 | User (Plain _ _) _ (Some _) _ _ => 6 | User (Inst _ _ _) _ _ _ _ => 9 | _ => 0
  end.

Scheme good_ty_mind := Minimality for good_ty Sort Prop
with good_mod_mind := Minimality for good_mod Sort Prop
with good_args_mind := Minimality for good_args Sort Prop
with good_arg_mind := Minimality for good_arg Sort Prop.
Combined Scheme good_mutind from good_ty_mind, good_mod_mind, good_args_mind, good_arg_mind.

Section Decode.
Variable P : program.
Hypothesis C : clean P.

Lemma good_args_nonempty p ks args : In (p, ks) P -> good_args P ks args -> args <> [].
Proof. intros I G. destruct (proj1 C _ I) as (_ & N & _). cbn [snd] in N. inversion G; subst; [congruence|discriminate]. Qed.

Lemma joined_words p : module_path p -> Forall word_char (joined p).
Proof.
  intros H. apply path_words in H. unfold joined. induction H as [|w [|v l'] Hw F IH]; [constructor|exact Hw|]. rewrite sep_cons2. apply Forall_app. split; [exact Hw|].
  apply Forall_app. split; [constructor; [right; right; right; reflexivity|constructor]|exact IH].
Qed.

Lemma no_colon_int v : ~ In 58 (mangle_int v) /\ ~ In 36 (mangle_int v).
Proof.
  unfold mangle_int. destruct (Z.ltb_spec v 0).
  - destruct (decimal_of_ok (- v) ltac:(lia)) as (_ & F & _). apply digits_word in F. split; intros [A|A]; try lia; revert A; apply word_not; try exact F; apply not_word; lia.
  - destruct (decimal_of_ok v ltac:(lia)) as (_ & F & _). apply digits_word in F. split; apply word_not; try exact F; apply not_word; lia.
Qed.
Lemma keyword_words n : In n keyword_types -> Forall word_char n.
Proof.
  intros I. apply Forall_forall. intros c Ic. unfold word_char.
  assert (A : forallb (fun w => forallb (fun c => (48 <=? c) && (c <=? 57) || (65 <=? c) && (c <=? 90) || (97 <=? c) && (c <=? 122) || (c =? 95)) w) keyword_types = true) by reflexivity.
  pose proof (proj1 (forallb_forall _ _) A n I) as B. cbv beta in B. pose proof (proj1 (forallb_forall _ _) B c Ic) as D. lia.
Qed.

Lemma no_colon :
  (forall t, good_ty P t -> ~ In 58 (mangle t)) /\ (forall m, good_mod P m -> ~ In 58 (mod_text m false)) /\
  (forall ks l, good_args P ks l -> ~ In 58 (args_text l)) /\ (forall k a, good_arg P k a -> ~ In 58 (mangle_arg a)).
Proof.
  assert (D : forall n, 1 <= n -> ~ In 58 (decimal_of n)).
  { intros n Hn. destruct (decimal_of_ok n ltac:(lia)) as (_ & F & _). apply (word_not 58 _ (digits_word _ F)), not_word. lia. }
  assert (W : forall n, Forall word_char n -> ~ In 58 n) by (intros n F; apply (word_not 58 _ F), not_word; lia).
  apply good_mutind; cbn [mangle].
  - intros n I. apply W, keyword_words, I.
  - intros I. cbn in I. repeat destruct I as [I|I]; try discriminate I. exact I.
  - intros I. cbn in I. repeat destruct I as [I|I]; try discriminate I. exact I.
  - intros t _ IH. rewrite in_app_iff. intros [I|I]; [cbn in I; lia|auto].
  - intros t _ IH. rewrite in_app_iff. intros [I|I]; [cbn in I; lia|auto].
  - intros t _ IH. rewrite in_app_iff. intros [I|I]; [cbn in I; lia|auto].
  - intros n t Hn _ IH. rewrite !in_app_iff. intros [I|[I|[I|I]]]; [cbn in I; lia|revert I; apply D, Hn|cbn in I; lia|auto].
  - intros n t Hn _ IH. rewrite !in_app_iff. intros [I|[I|[I|I]]]; [cbn in I; lia|revert I; apply D, Hn|cbn in I; lia|auto].
  - intros m n _ IH ((_ & F) & _). cbn [decl_symbol]. rewrite !in_app_iff. intros [I|[I|I]]; [auto|cbn in I; lia|revert I; apply W, F].
  - intros p H. cbn [mod_text]. unfold append_module. rewrite (amn_path false) by (apply path_words, H). apply sep_not_in; [cbn; lia|].
    eapply Forall_impl; [|apply path_words, H]. exact W.
  - intros p ks args I G IH. cbn [mod_text]. unfold append_module. rewrite (amn_path true) by (apply path_words, (proj1 C _ I)). fold (joined p).
    rewrite sep_args by exact (good_args_nonempty p ks args I G).
    assert (N : ~ In 58 (joined p ++ lit "$" ++ args_text args)).
    { rewrite !in_app_iff. intros [J|[J|J]]; [revert J; apply W, joined_words, (proj1 C _ I)|cbn in J; lia|auto]. }
    rewrite amn_id by exact N. exact N.
  - intros [].
  - intros k ks a args _ IHa _ IH. unfold args_text in *. cbn [flat_map]. rewrite !in_app_iff. intros [[I|I]|I]; [auto|cbn in I; lia|auto].
  - intros t _ IH. exact IH.
  - intros b. destruct b; cbn; lia.
  - intros t v. apply no_colon_int.
  - intros t n _ IH (_ & F). cbn [mangle_arg]. rewrite !in_app_iff. intros [I|[I|I]]; [auto|cbn in I; lia|revert I; apply W, F].
Qed.

Lemma plain_text p : module_path p -> mod_text (Plain p None) false = sep (lit ".") p.
Proof. intros H. cbn [mod_text]. unfold append_module. rewrite amn_path by (apply path_words, H). reflexivity. Qed.
Lemma instance_text p ks args : In (p, ks) P -> good_args P ks args -> instance_name p None args = joined p ++ 36 :: args_text args.
Proof.
  intros I G. unfold instance_name, append_module. rewrite (amn_path true) by (apply path_words, (proj1 C _ I)). fold (joined p).
  rewrite sep_args by exact (good_args_nonempty p ks args I G). reflexivity.
Qed.
Lemma inst_text p ks args : In (p, ks) P -> good_args P ks args -> mod_text (Inst p None args) false = joined p ++ 36 :: args_text args.
Proof.
  intros I G. cbn [mod_text]. fold (instance_name p None args). rewrite (instance_text _ _ _ I G). apply amn_id.
  pose proof (proj1 (proj2 no_colon) (Inst p None args) (good_inst P p ks args I G)) as N. cbn [mod_text] in N. fold (instance_name p None args) in N. rewrite (instance_text _ _ _ I G) in N.
  intros J. apply N. revert J. rewrite !in_app_iff. cbn [In]. intros [J|[J|J]].
  - exfalso. revert J. apply (word_not 58 _ (joined_words p (proj1 (proj1 C _ I)))), not_word. lia.
  - lia.
  - exfalso. revert J. apply (proj1 (proj2 (proj2 no_colon)) ks args G).
Qed.

Lemma seg_tail t r : good_ty P t -> mangle t ++ 36 :: r = seg t ++ 36 :: tail t r.
Proof.
  intros G. inversion G; subst; cbn [mangle seg tail]; try (rewrite <- ?app_assoc; reflexivity).
  inversion H; subst; cbn [decl_symbol].
  - rewrite plain_text by assumption. rewrite <- !app_assoc. reflexivity.
  - rewrite (inst_text p ks args) by assumption. rewrite <- !app_assoc. cbn [app]. rewrite <- ?app_assoc. reflexivity.
Qed.
Lemma seg_no_dollar t : good_ty P t -> ~ In 36 (seg t).
Proof.
  assert (D : forall n, 1 <= n -> ~ In 36 (decimal_of n)).
  { intros n Hn. destruct (decimal_of_ok n ltac:(lia)) as (_ & F & _). apply (word_not 36 _ (digits_word _ F)), not_word. lia. }
  assert (W : forall n, Forall word_char n -> ~ In 36 n) by (intros n F; apply (word_not 36 _ F), not_word; lia).
  intros G. inversion G; subst; cbn [seg]; try (intros I; cbn in I; lia).
  - apply W, keyword_words, H.
  - rewrite in_app_iff. intros [I|I]; [cbn in I; lia|revert I; apply D; assumption].
  - rewrite in_app_iff. intros [I|I]; [cbn in I; lia|revert I; apply D; assumption].
  - destruct H0 as ((_ & F) & _). inversion H; subst.
    + rewrite !in_app_iff. intros [I|[I|I]]; [|cbn in I; lia|revert I; apply W, F].
      revert I. apply sep_not_in; [cbn; lia|]. eapply Forall_impl; [|apply path_words, H0]. exact W.
    + apply W, joined_words, (proj1 C _ H0).
Qed.
Lemma word_no_dot w : Forall word_char w -> existsb (Z.eqb 46) w = false.
Proof. intros F. destruct (existsb (Z.eqb 46) w) eqn:E; [|reflexivity]. exfalso. apply existsb_exists in E. destruct E as (x & I & E). assert (x = 46) by lia. subst x. revert I. apply (word_not 46 _ F), not_word. lia. Qed.
Lemma class_digits c ds : ds <> [] -> Forall digit ds -> (c = 97 \/ c = 118) -> class (c :: ds) = if c =? 97 then 7 else 8.
Proof.
  intros N F Hc. unfold class. rewrite word_no_dot by (constructor; [unfold word_char; lia|apply digits_word, F]).
  destruct ds as [|d ds]; [congruence|]. assert (Dd : digit d) by (inversion F; assumption). unfold digit in Dd.
  assert (K : in_texts (c :: d :: ds) keyword_types = false).
  { destruct (in_texts (c :: d :: ds) keyword_types) eqn:E; [|reflexivity]. exfalso. apply in_texts_ok in E. cbn in E. repeat destruct E as [E|E]; try (injection E; lia). exact E. }
  rewrite K. assert (A : text_eqb (c :: d :: ds) (lit "any") = false) by (cbn; lia). rewrite A.
  assert (A2 : text_eqb (c :: d :: ds) (lit "p") = false) by (cbn; lia). rewrite A2.
  assert (A3 : text_eqb (c :: d :: ds) (lit "sa") = false) by (cbn; lia). rewrite A3.
  assert (A4 : text_eqb (c :: d :: ds) (lit "String") = false) by (cbn; lia). rewrite A4.
  pose proof (proj2 (prefix_digits_ok (d :: ds)) F) as PD. lazy iota. destruct Hc as [-> | ->]; rewrite PD; reflexivity.
Qed.
Lemma class_keyword n : In n keyword_types -> class n = 2.
Proof. intros I. unfold class. rewrite word_no_dot by (apply keyword_words, I). rewrite (proj2 (in_texts_ok _ _) I). reflexivity. Qed.
Lemma class_other w : Forall word_char w -> ~ reserved w -> class w = 9.
Proof.
  intros F R. unfold class. rewrite word_no_dot by exact F. unfold reserved in R.
  destruct (in_texts w keyword_types) eqn:E1; [apply in_texts_ok in E1; exfalso; auto 10|].
  destruct (text_eqb w (lit "any")) eqn:E2; [apply text_eqb_eq in E2; exfalso; auto 10|].
  destruct (text_eqb w (lit "p")) eqn:E3; [apply text_eqb_eq in E3; exfalso; auto 10|].
  destruct (text_eqb w (lit "sa")) eqn:E4; [apply text_eqb_eq in E4; exfalso; auto 10|].
  destruct (text_eqb w (lit "String")) eqn:E5; [apply text_eqb_eq in E5; exfalso; auto 10|].
  destruct w as [|c [|d ds]]; [reflexivity|reflexivity|]. destruct (prefix_digits (d :: ds)) eqn:E6; [|reflexivity]. apply prefix_digits_ok in E6.
  assert (Q : c = 97 \/ c = 118 -> False).
  { intros Hc. apply R. do 5 right. exists (d :: ds). split; [discriminate|]. split; [exact E6|]. destruct Hc as [-> | ->]; [left|right]; reflexivity. }
  destruct (Z.eqb_spec c 97); [exfalso; auto|]. destruct (Z.eqb_spec c 118); [exfalso; auto|]. reflexivity.
Qed.
Lemma seg_class t : good_ty P t -> class (seg t) = tag t.
Proof.
  intros G. inversion G; subst; cbn [seg tag]; try reflexivity.
  - apply class_keyword, H.
  - destruct (decimal_of_ok n ltac:(lia)) as (_ & F & N & _). exact (class_digits 118 (decimal_of n) N F ltac:(lia)).
  - destruct (decimal_of_ok n ltac:(lia)) as (_ & F & N & _). exact (class_digits 97 (decimal_of n) N F ltac:(lia)).
  - inversion H; subst.
    + unfold class. assert (E : existsb (Z.eqb 46) (sep (lit ".") p ++ lit "." ++ n) = true).
      { apply existsb_exists. exists 46. split; [|reflexivity]. rewrite !in_app_iff. right. left. left. reflexivity. }
      rewrite E. reflexivity.
    + destruct (proj1 C _ H1) as (Hp & _ & Hr). apply class_other; [apply joined_words, Hp|exact Hr].
Qed.
Lemma decimal_inj a b : 0 <= a -> 0 <= b -> decimal_of a = decimal_of b -> a = b.
Proof. intros Ha Hb E. rewrite <- (proj1 (decimal_of_ok a Ha)), <- (proj1 (decimal_of_ok b Hb)), E. reflexivity. Qed.
Lemma mangle_int_inj a b : mangle_int a = mangle_int b -> a = b.
Proof.
  unfold mangle_int. assert (D : forall a l, 0 <= a -> decimal_of a <> 95 :: l).
  { intros x l H E. destruct (decimal_of_ok x H) as (_ & F & _). rewrite E in F. inversion_clear F. unfold digit in *. lia. }
  destruct (Z.ltb_spec a 0), (Z.ltb_spec b 0); intros E.
  - injection E as E. apply decimal_inj in E; lia.
  - exfalso. symmetry in E. revert E. apply D. lia.
  - exfalso. revert E. apply D. lia.
  - apply decimal_inj in E; lia.
Qed.
Lemma name_no_dollar n : name n -> ~ In 36 n.
Proof. intros (_ & F). apply (word_not 36 _ F), not_word. lia. Qed.

(** ** A name tells what it was made from, and where it ends *)
Lemma decode :
  (forall t1, good_ty P t1 -> forall t2 r1 r2, good_ty P t2 -> mangle t1 ++ 36 :: r1 = mangle t2 ++ 36 :: r2 -> t1 = t2 /\ r1 = r2) /\
  (forall m1, good_mod P m1 -> match m1 with
     | Plain _ _ => True
     | Inst p1 _ a1 => forall p2 a2 ks2 r1 r2, In (p2, ks2) P -> good_args P ks2 a2 -> joined p1 = joined p2 -> args_text a1 ++ r1 = args_text a2 ++ r2 -> p1 = p2 /\ a1 = a2 /\ r1 = r2 end) /\
  (forall ks l1, good_args P ks l1 -> forall l2 r1 r2, good_args P ks l2 -> args_text l1 ++ r1 = args_text l2 ++ r2 -> l1 = l2 /\ r1 = r2) /\
  (forall k a1, good_arg P k a1 -> forall a2 r1 r2, good_arg P k a2 -> mangle_arg a1 ++ 36 :: r1 = mangle_arg a2 ++ 36 :: r2 -> a1 = a2 /\ r1 = r2).
Proof.
  assert (START : forall t1 t2 r1 r2, good_ty P t1 -> good_ty P t2 -> mangle t1 ++ 36 :: r1 = mangle t2 ++ 36 :: r2 -> tag t1 = tag t2 /\ seg t1 = seg t2 /\ tail t1 r1 = tail t2 r2).
  { intros t1 t2 r1 r2 G1 G2 E. rewrite (seg_tail t1 r1 G1), (seg_tail t2 r2 G2) in E. apply split_eq in E; [|apply seg_no_dollar; assumption|apply seg_no_dollar; assumption].
    destruct E as (Es & Et). split; [|auto]. rewrite <- (seg_class t1 G1), <- (seg_class t2 G2), Es. reflexivity. }
  apply good_mutind.
  - intros n I t2 r1 r2 G2 E. destruct (START _ _ _ _ (good_prim P n I) G2 E) as (T & S & R). destruct G2; try discriminate T; cbn [seg tail] in *; [subst; auto|].
    destruct H; discriminate T.
  - intros t2 r1 r2 G2 E. destruct (START _ _ _ _ (good_any P) G2 E) as (T & S & R). destruct G2; try discriminate T; cbn [seg tail] in *; [injection R as R; auto|].
    destruct H; discriminate T.
  - intros t2 r1 r2 G2 E. destruct (START _ _ _ _ (good_string P) G2 E) as (T & S & R). destruct G2; try discriminate T; cbn [seg tail] in *; [auto|].
    destruct H; discriminate T.
  - intros t G IH t2 r1 r2 G2 E. destruct (START _ _ _ _ (good_ptr P t G) G2 E) as (T & S & R). destruct G2; try discriminate T; cbn [seg tail] in *.
    + destruct (IH _ _ _ G2 R) as (-> & ->). auto.
    + destruct H; discriminate T.
  - intros t G IH t2 r1 r2 G2 E. destruct (START _ _ _ _ (good_slice P t G) G2 E) as (T & S & R). destruct G2; try discriminate T; cbn [seg tail] in *.
    + destruct (IH _ _ _ G2 R) as (-> & ->). auto.
    + destruct H; discriminate T.
  - intros t G IH t2 r1 r2 G2 E. destruct (START _ _ _ _ (good_flex P t G) G2 E) as (T & S & R). destruct G2; try discriminate T; cbn [seg tail] in *.
    + destruct (IH _ _ _ G2 R) as (-> & ->). auto.
    + exfalso. change (lit "a0") with (lit "a" ++ decimal_of 0) in S. apply app_inv_head in S. apply decimal_inj in S; lia.
    + destruct H; discriminate T.
  - intros n t Hn G IH t2 r1 r2 G2 E. destruct (START _ _ _ _ (good_vec P n t Hn G) G2 E) as (T & S & R). destruct G2; try discriminate T; cbn [seg tail] in *.
    + destruct (IH _ _ _ G2 R) as (-> & ->). apply app_inv_head in S. apply decimal_inj in S; [|lia|lia]. subst. auto.
    + destruct H; discriminate T.
  - intros n t Hn G IH t2 r1 r2 G2 E. destruct (START _ _ _ _ (good_arr P n t Hn G) G2 E) as (T & S & R). destruct G2; try discriminate T; cbn [seg tail] in *.
    + exfalso. change (lit "a0") with (lit "a" ++ decimal_of 0) in S. apply app_inv_head in S. apply decimal_inj in S; lia.
    + destruct (IH _ _ _ G2 R) as (-> & ->). apply app_inv_head in S. apply decimal_inj in S; [|lia|lia]. subst. auto.
    + destruct H; discriminate T.
  - intros m n G IH Tn t2 r1 r2 G2 E. pose proof (START _ _ _ _ (good_user P m n G Tn) G2 E) as (T & S & R). destruct G as [p Hp|p ks args I Ga].
    + destruct G2; try discriminate T. destruct H as [p2 Hp2|p2 ks2 args2 I2 Ga2]; [|discriminate T]. cbn [seg tail] in S, R. subst r2. split; [|reflexivity].
      assert (Q : sep [46] (p ++ [n]) = sep [46] (p2 ++ [n0])) by (rewrite !sep_snoc; [exact S|apply Hp2|apply Hp]).
      assert (W : forall w, Forall word_char w -> ~ In 46 w) by (intros w F; apply (word_not 46 _ F), not_word; lia).
      apply sep_ext_eq in Q.
      * apply app_inj_tail in Q. destruct Q as (-> & ->). reflexivity.
      * intros [].
      * intros X. apply app_eq_nil in X. destruct X. discriminate.
      * intros X. apply app_eq_nil in X. destruct X. discriminate.
      * apply Forall_app. split; [eapply Forall_impl; [|apply path_words, Hp]; exact W|constructor; [apply W, Tn|constructor]].
      * apply Forall_app. split; [eapply Forall_impl; [|apply path_words, Hp2]; exact W|constructor; [apply W, H0|constructor]].
    + destruct G2; try discriminate T. destruct H as [p2 Hp2|p2 ks2 args2 I2 Ga2]; [discriminate T|]. cbn [seg tail] in S, R.
      destruct (IH p2 args2 ks2 _ _ I2 Ga2 S R) as (-> & -> & Q). apply app_inv_head in Q. apply split_eq in Q; [|apply name_no_dollar, Tn|apply name_no_dollar, H0]. destruct Q as (-> & ->). auto.
  - intros. exact Logic.I.
  - intros p ks args I Ga IH p2 a2 ks2 r1 r2 I2 Ga2 J E. assert (Q : (p, ks) = (p2, ks2)) by (apply (proj2 C); [exact I|exact I2|exact J]). injection Q as <- <-.
    destruct (IH _ _ _ Ga2 E) as (-> & ->). auto.
  - intros l2 r1 r2 G2 E. inversion G2; subst. auto.
  - intros k ks a args Ga IHa Gl IH l2 r1 r2 G2 E. inversion G2 as [|k' ks' a' args' Ga' Gl']; subst. unfold args_text in E. cbn [flat_map] in E. rewrite <- !app_assoc in E. cbn [app] in E.
    destruct (IHa _ _ _ Ga' E) as (-> & E'). destruct (IH _ _ _ Gl' E') as (-> & ->). auto.
  - intros t Gt IH a2 r1 r2 G2 E. inversion G2 as [t' Gt'| | |]; subst. cbn [mangle_arg] in E. destruct (IH _ _ _ Gt' E) as (-> & ->). auto.
  - intros b a2 r1 r2 G2 E. inversion G2; subst. destruct b, b0; cbn in E; try discriminate E; injection E as E; auto.
  - intros t v a2 r1 r2 G2 E. inversion G2; subst. cbn [mangle_arg] in E. apply split_eq in E; [|apply no_colon_int|apply no_colon_int]. destruct E as (E & ->). apply mangle_int_inj in E. subst. auto.
  - intros t n Gt IH Hn a2 r1 r2 G2 E. inversion G2; subst. cbn [mangle_arg] in E. rewrite <- !app_assoc in E. apply app_inv_head in E. cbn in E. injection E as E.
    apply split_eq in E; [|apply name_no_dollar, Hn|apply name_no_dollar; assumption]. destruct E as (-> & ->). auto.
Qed.

Lemma mangle_inj t1 t2 : good_ty P t1 -> good_ty P t2 -> mangle t1 = mangle t2 -> t1 = t2.
Proof. intros G1 G2 E. apply (proj1 decode t1 G1 t2 [] [] G2). rewrite E. reflexivity. Qed.
Lemma instance_inj p1 ks1 a1 p2 ks2 a2 : In (p1, ks1) P -> good_args P ks1 a1 -> In (p2, ks2) P -> good_args P ks2 a2 -> instance_name p1 None a1 = instance_name p2 None a2 -> p1 = p2 /\ a1 = a2.
Proof.
  intros I1 G1 I2 G2 E. rewrite (instance_text _ _ _ I1 G1), (instance_text _ _ _ I2 G2) in E.
  apply split_eq in E; [|apply (word_not 36 _ (joined_words _ (proj1 (proj1 C _ I1)))), not_word; lia|apply (word_not 36 _ (joined_words _ (proj1 (proj1 C _ I2)))), not_word; lia].
  destruct E as (J & E). pose proof (proj1 (proj2 decode) _ (good_inst P p1 ks1 a1 I1 G1)) as D. cbv beta iota in D.
  destruct (D p2 a2 ks2 [] [] I2 G2 J) as (A & B & _); [rewrite !app_nil_r; exact E|auto].
Qed.
Lemma request_inj r1 r2 : good_request P r1 -> good_request P r2 -> instance_name (r_path r1) (r_ext r1) (r_args r1) = instance_name (r_path r2) (r_ext r2) (r_args r2) -> r1 = r2.
Proof.
  destruct r1 as [p1 e1 a1], r2 as [p2 e2 a2]. unfold good_request. cbn [r_path r_ext r_args]. intros (-> & ks1 & I1 & G1) (-> & ks2 & I2 & G2) E.
  destruct (instance_inj _ _ _ _ _ _ I1 G1 I2 G2 E) as (-> & ->). reflexivity.
Qed.

(** ** The table of instances *)
Definition filed (l : instances) : Prop :=
  Forall (fun e => fst e = instance_name (r_path (snd e)) (r_ext (snd e)) (r_args (snd e)) /\ good_request P (snd e)) l /\ NoDup (map snd l).
Lemma find_some l name i : find_instance l name = Some i -> exists r, nth_error l i = Some (name, r).
Proof.
  revert i. induction l as [|(n, r) l IH]; intros i E; cbn [find_instance] in E; [discriminate|]. destruct (text_eqb n name) eqn:T.
  - injection E as <-. apply text_eqb_eq in T. subst. exists r. reflexivity.
  - destruct (find_instance l name) as [j|]; [|discriminate]. injection E as <-. destruct (IH j eq_refl) as (r' & H). exists r'. exact H.
Qed.
Lemma find_none l name : find_instance l name = None -> ~ In name (map fst l).
Proof.
  induction l as [|(n, r) l IH]; intros E; cbn [find_instance] in E; [intros []|]. destruct (text_eqb n name) eqn:T; [discriminate|].
  destruct (find_instance l name) eqn:F; [discriminate|]. cbn [map In fst]. intros [X|X]; [subst; rewrite (proj2 (text_eqb_eq name name) eq_refl) in T; discriminate|]. apply IH; auto.
Qed.
Lemma instantiate_ok l r l' i : filed l -> good_request P r -> instantiate l r = (l', i) ->
  filed l' /\ made_from l' i = Some r /\ (exists k, l' = l ++ k) .
Proof.
  intros (F & N) G. unfold instantiate. destruct (find_instance l (instance_name (r_path r) (r_ext r) (r_args r))) as [j|] eqn:E; intros X; injection X as <- <-.
  - destruct (find_some _ _ _ E) as (r' & H). split; [split; assumption|]. split; [|exists []; rewrite app_nil_r; reflexivity].
    unfold made_from. rewrite H. cbn [option_map snd]. f_equal. pose proof (proj1 (Forall_forall _ _) F _ (nth_error_In _ _ H)) as (A & B). cbn [fst snd] in A, B.
    symmetry. apply request_inj; assumption.
  - split; [|split; [|eexists; reflexivity]].
    + split; [apply Forall_app; split; [exact F|constructor; [split; [reflexivity|exact G]|constructor]]|]. rewrite map_app. apply find_none in E.
      assert (Nin : ~ In r (map snd l)).
      { intros I. apply E. apply in_map_iff in I. destruct I as ((n & r') & Er & I). cbn [snd] in Er. subst r'. pose proof (proj1 (Forall_forall _ _) F _ I) as (A & _). cbn [fst snd] in A. rewrite <- A. apply (in_map fst) in I. exact I. }
      clear -N Nin. cbn [map snd]. induction (map snd l) as [|x m IH]; [constructor; [intros []|constructor]|]. cbn [app]. inversion_clear N. constructor; [rewrite in_app_iff; cbn [In]; intros [A|[A|[]]]; [auto|apply Nin; left; auto]|].
      apply IH; [assumption|]. intros A. apply Nin. right. exact A.
    + unfold made_from. rewrite nth_error_app2 by lia. rewrite Nat.sub_diag. reflexivity.
Qed.
Lemma made_from_app l k i r : made_from l i = Some r -> made_from (l ++ k) i = Some r.
Proof.
  unfold made_from. destruct (nth_error l i) as [e|] eqn:E; [|discriminate]. intros H. rewrite nth_error_app1 by (apply nth_error_Some; rewrite E; discriminate). rewrite E. exact H.
Qed.
Lemma instantiate_all_ok rs : forall l l' is, filed l -> Forall (good_request P) rs -> instantiate_all l rs = (l', is) ->
  filed l' /\ map (made_from l') is = map Some rs /\ (exists k, l' = l ++ k).
Proof.
  induction rs as [|r rs IH]; intros l l' is F G E; cbn [instantiate_all] in E.
  - injection E as <- <-. split; [exact F|]. split; [reflexivity|]. exists []. rewrite app_nil_r. reflexivity.
  - destruct (instantiate l r) as (l1 & i) eqn:E1. destruct (instantiate_all l1 rs) as (l2 & is2) eqn:E2. injection E as <- <-. inversion_clear G as [|? ? Gr Grs].
    destruct (instantiate_ok _ _ _ _ F Gr E1) as (F1 & M1 & k1 & K1). destruct (IH _ _ _ F1 Grs E2) as (F2 & M2 & k2 & K2).
    split; [exact F2|]. split; [|exists (k1 ++ k2); rewrite K2, K1, app_assoc; reflexivity]. cbn [map]. rewrite M2. f_equal. rewrite K2. apply made_from_app, M1.
Qed.
Lemma made_from_inj l i j r : filed l -> made_from l i = Some r -> made_from l j = Some r -> i = j.
Proof.
  intros (_ & N) A B. unfold made_from in *. rewrite <- nth_error_map in A, B. assert (L : (i < length (map snd l))%nat) by (apply nth_error_Some; rewrite A; discriminate).
  apply (proj1 (NoDup_nth_error (map snd l)) N i j L). rewrite A, B. reflexivity.
Qed.

(** ** Symbols *)
Lemma lower_not_type n m : type_name n -> module_name m -> n <> m.
Proof. intros (_ & c & E & L) (_ & (c' & E' & L') & _) ->. rewrite E in E'. injection E' as ->. lia. Qed.
Definition parts (d : sdecl) : list text :=
  match s_parent d with Some (User _ pn _ _ _) => [pn; s_name d] | Some p => [ty_name p; s_name d] | None => [s_name d] end.
Definition home (d : sdecl) : modu := match s_parent d with Some (User m _ _ _ _) => m | _ => s_mod d end.
Lemma symbol_eq d : good_decl P d -> good_mod P (home d) /\ symbol d = mod_text (home d) false ++ lit "." ++ sep (lit ".") (parts d).
Proof.
  destruct d as [m p n e x y]. unfold good_decl, symbol, home, parts. cbn [s_ext s_extern s_export s_mod s_name s_parent]. intros (-> & -> & -> & G & N & H).
  destruct p as [[]|]; try contradiction; (split; [tauto|]); reflexivity.
Qed.
Lemma parts_words d : good_decl P d -> parts d <> [] /\ Forall (fun w => ~ In 46 w /\ ~ In 36 w) (parts d).
Proof.
  assert (W : forall w, Forall word_char w -> ~ In 46 w /\ ~ In 36 w) by (intros w F; split; (apply (word_not _ _ F), not_word; lia)).
  destruct d as [m p n e x y]. unfold good_decl, parts. cbn [s_ext s_extern s_export s_mod s_name s_parent]. intros (-> & -> & -> & G & N & H).
  destruct p as [[]|]; try contradiction; (split; [discriminate|]); cbn [ty_name].
  - constructor; [apply W, keyword_words, H|]. constructor; [apply W, N|constructor].
  - change (lit "any") with [97; 110; 121]. constructor; [apply W; repeat (apply Forall_cons; [unfold word_char; lia|]); apply Forall_nil|]. constructor; [apply W, N|constructor].
  - constructor; [apply W, H|]. constructor; [apply W, N|constructor].
  - constructor; [apply W, N|constructor].
Qed.
Lemma parts_same d e : good_decl P d -> good_decl P e -> home d = home e -> parts d = parts e -> same_declared d e.
Proof.
  destruct d as [m p n ex x y], e as [m2 p2 n2 ex2 x2 y2]. unfold good_decl, parts, home, same_declared, declared_type. cbn [s_ext s_extern s_export s_mod s_name s_parent].
  intros (-> & -> & -> & G & N & H) (-> & -> & -> & G2 & N2 & H2) EH EP.
  assert (K : forall n, In n keyword_types -> type_name n -> False).
  { intros w I (_ & c & F & L). unfold keyword_types in I. cbn in I. repeat destruct I as [<-|I]; try (cbn in F; injection F as <-; lia). exact I. }
  assert (KA : ~ In (lit "any") keyword_types) by (intros I; apply in_texts_ok in I; discriminate I).
  assert (KT : ~ type_name (lit "any")) by (intros (_ & c & F & L); cbn in F; injection F as <-; lia).
  destruct p as [[]|], p2 as [[]|]; try contradiction; cbn [ty_name] in EP; try discriminate EP; injection EP; intros; subst;
    try (exfalso; eapply K; [eassumption|apply H2]); try (exfalso; eapply K; [eassumption|apply H]); try (exfalso; apply KT, H); try (exfalso; apply KT, H2); try (exfalso; auto; fail);
    repeat split; try reflexivity; try (intros; discriminate); auto.
Qed.
Lemma sep_no_dollar l : Forall (fun w => ~ In 46 w /\ ~ In 36 w) l -> ~ In 36 (sep (lit ".") l).
Proof. intros F. apply sep_not_in; [cbn; lia|]. revert F. apply Forall_impl. tauto. Qed.
Lemma plain_no_dollar p : module_path p -> ~ In 36 (sep (lit ".") p).
Proof.
  intros H. apply sep_not_in; [cbn; lia|]. eapply Forall_impl; [|apply path_words, H]. intros w F. apply (word_not 36 _ F), not_word. lia.
Qed.
Lemma parts_shape d : good_decl P d -> parts d = [s_name d] \/ exists T, parts d = [T; s_name d] /\ ~ module_name T.
Proof.
  destruct d as [m p n e x y]. unfold good_decl, parts. cbn [s_ext s_extern s_export s_mod s_name s_parent]. intros (-> & -> & -> & G & N & H).
  destruct p as [[]|]; try contradiction; [right; eexists; split; [reflexivity|]..|left; reflexivity]; cbn [ty_name].
  - intros (_ & _ & X). apply X. right. exact H.
  - intros (_ & _ & X). apply X. left. reflexivity.
  - intros X. exact (lower_not_type _ _ (proj2 H) X eq_refl).
Qed.
Lemma split_parts d e p q : good_decl P d -> good_decl P e -> module_path p -> module_path q -> p ++ parts d = q ++ parts e -> p = q /\ parts d = parts e.
Proof.
  intros Gd Ge (_ & Hp) (_ & Hq) E. destruct (parts_shape d Gd) as [D|(T & D & Nt)], (parts_shape e Ge) as [D2|(T2 & D2 & Nt2)]; rewrite D, D2 in *.
  - apply app_inj_tail in E. destruct E as (-> & ->). auto.
  - change [T2; s_name e] with ([T2] ++ [s_name e]) in E. rewrite app_assoc in E. apply app_inj_tail in E. destruct E as (-> & _). exfalso. apply Nt2.
    apply Forall_app in Hp. destruct Hp as (_ & Hp). inversion Hp. assumption.
  - change [T; s_name d] with ([T] ++ [s_name d]) in E. rewrite app_assoc in E. apply app_inj_tail in E. destruct E as (<- & _). exfalso. apply Nt.
    apply Forall_app in Hq. destruct Hq as (_ & Hq). inversion Hq. assumption.
  - change [T2; s_name e] with ([T2] ++ [s_name e]) in E. change [T; s_name d] with ([T] ++ [s_name d]) in E. rewrite !app_assoc in E. apply app_inj_tail in E. destruct E as (E & En).
    apply app_inj_tail in E. destruct E as (-> & ->). rewrite En. auto.
Qed.
Lemma sep_app l k : l <> [] -> k <> [] -> sep (lit ".") (l ++ k) = sep (lit ".") l ++ lit "." ++ sep (lit ".") k.
Proof.
  induction l as [|a [|b l] IH]; intros Nl Nk; [congruence|destruct k; [congruence|reflexivity]|]. change ((a :: b :: l) ++ k) with (a :: b :: (l ++ k)). rewrite !sep_cons2.
  change (b :: l ++ k) with ((b :: l) ++ k). rewrite IH by (try discriminate; exact Nk). rewrite <- !app_assoc. reflexivity.
Qed.
Lemma symbol_inj d e : good_decl P d -> good_decl P e -> symbol d = symbol e -> same_declared d e.
Proof.
  intros Gd Ge E. destruct (symbol_eq d Gd) as (Hd & Sd). destruct (symbol_eq e Ge) as (He & Se). rewrite Sd, Se in E.
  destruct (parts_words d Gd) as (Nd & Fd). destruct (parts_words e Ge) as (Ne & Fe).
  enough (home d = home e /\ parts d = parts e) as (A & B) by (apply parts_same; assumption).
  destruct Hd as [p Hp|p ks a I Ga], He as [q Hq|q ks2 a2 I2 Ga2].
  - rewrite !plain_text in E by assumption. rewrite <- !sep_app in E by (try assumption; first [apply Hp|apply Hq]).
    assert (W : forall w, Forall word_char w -> ~ In 46 w) by (intros w F; apply (word_not 46 _ F), not_word; lia).
    apply (sep_ext_eq 46) in E.
    + destruct (split_parts d e p q Gd Ge Hp Hq E) as (-> & B). auto.
    + intros [].
    + intros Q. apply app_eq_nil in Q. destruct Q. auto.
    + intros Q. apply app_eq_nil in Q. destruct Q. auto.
    + apply Forall_app. split; [eapply Forall_impl; [|apply path_words, Hp]; exact W|]. revert Fd. apply Forall_impl. tauto.
    + apply Forall_app. split; [eapply Forall_impl; [|apply path_words, Hq]; exact W|]. revert Fe. apply Forall_impl. tauto.
  - exfalso. rewrite plain_text in E by assumption. rewrite (inst_text q ks2 a2) in E by assumption.
    assert (Q : In 36 (sep (lit ".") p ++ lit "." ++ sep (lit ".") (parts d))) by (rewrite E, !in_app_iff; left; right; left; reflexivity).
    rewrite !in_app_iff in Q. destruct Q as [Q|[Q|Q]]; [revert Q; apply plain_no_dollar, Hp|cbn in Q; lia|revert Q; apply sep_no_dollar, Fd].
  - exfalso. rewrite plain_text in E by assumption. rewrite (inst_text p ks a) in E by assumption.
    assert (Q : In 36 (sep (lit ".") q ++ lit "." ++ sep (lit ".") (parts e))) by (rewrite <- E, !in_app_iff; left; right; left; reflexivity).
    rewrite !in_app_iff in Q. destruct Q as [Q|[Q|Q]]; [revert Q; apply plain_no_dollar, Hq|cbn in Q; lia|revert Q; apply sep_no_dollar, Fe].
  - rewrite (inst_text p ks a), (inst_text q ks2 a2) in E by assumption. rewrite <- !app_assoc in E. cbn [app] in E.
    apply split_eq in E; [|apply (word_not 36 _ (joined_words _ (proj1 (proj1 C _ I)))), not_word; lia|apply (word_not 36 _ (joined_words _ (proj1 (proj1 C _ I2)))), not_word; lia].
    destruct E as (J & E). pose proof (proj1 (proj2 decode) _ (good_inst P p ks a I Ga)) as D. cbv beta iota in D.
    destruct (D q a2 ks2 _ _ I2 Ga2 J E) as (-> & -> & R). split; [reflexivity|]. injection R as R. apply (sep_ext_eq 46) in R; try assumption; [intros []| |].
    + revert Fd. apply Forall_impl. tauto.
    + revert Fe. apply Forall_impl. tauto.
Qed.
End Decode.

(** ** Checking a program *)
Definition wordb (c : Z) : bool := (48 <=? c) && (c <=? 57) || (65 <=? c) && (c <=? 90) || (97 <=? c) && (c <=? 122) || (c =? 95).
Definition nameb (s : text) : bool := negb (text_eqb s []) && forallb wordb s.
Definition module_nameb (s : text) : bool :=
  nameb s && match first_letter s with Some c => (97 <=? c) && (c <=? 122) | None => false end && negb (in_texts s (lit "any" :: keyword_types)).
Definition type_nameb (s : text) : bool := nameb s && match first_letter s with Some c => (65 <=? c) && (c <=? 90) | None => false end.
Definition module_pathb (p : list text) : bool := negb (Nat.eqb (length p) 0) && forallb module_nameb p.
Lemma nameb_ok s : nameb s = true -> name s.
Proof.
  unfold nameb, name. intros H. apply andb_true_iff in H. destruct H as (A & B). split; [intros ->; discriminate A|]. apply Forall_forall. intros c I.
  pose proof (proj1 (forallb_forall _ _) B c I) as W. unfold wordb, word_char in *. lia.
Qed.
Lemma module_nameb_ok s : module_nameb s = true -> module_name s.
Proof.
  unfold module_nameb, module_name. rewrite !andb_true_iff. intros ((A & B) & D). split; [apply nameb_ok, A|]. split.
  - destruct (first_letter s) as [c|]; [|discriminate]. exists c. split; [reflexivity|lia].
  - intros I. apply in_texts_ok in I. rewrite I in D. discriminate D.
Qed.
Lemma type_nameb_ok s : type_nameb s = true -> type_name s.
Proof.
  unfold type_nameb, type_name. rewrite !andb_true_iff. intros (A & B). split; [apply nameb_ok, A|]. destruct (first_letter s) as [c|]; [|discriminate]. exists c. split; [reflexivity|lia].
Qed.
Lemma module_pathb_ok p : module_pathb p = true -> module_path p.
Proof.
  unfold module_pathb, module_path. rewrite andb_true_iff. intros (A & B). split; [intros ->; discriminate A|]. apply Forall_forall. intros w I. apply module_nameb_ok. exact (proj1 (forallb_forall _ _) B w I).
Qed.
Lemma class_reserved w : reserved w -> class w <> 9.
Proof.
  intros [->|[->|[->|[->|[I|(ds & N & F & [-> | ->])]]]]]; try discriminate.
  - rewrite class_keyword by exact I. discriminate.
  - change (lit "a" ++ ds) with (97 :: ds). rewrite (class_digits 97 ds N F) by lia. discriminate.
  - change (lit "v" ++ ds) with (118 :: ds). rewrite (class_digits 118 ds N F) by lia. discriminate.
Qed.
Definition cleanb (P : program) : bool :=
  forallb (fun g => module_pathb (fst g) && negb (Nat.eqb (length (snd g)) 0) && (class (joined (fst g)) =? 9)) P.
Lemma cleanb_ok P : cleanb P = true -> NoDup (map (fun g => joined (fst g)) P) -> clean P.
Proof.
  intros H N. split.
  - intros g I. pose proof (proj1 (forallb_forall _ _) H g I) as B. cbv beta in B. rewrite !andb_true_iff in B. destruct B as ((A & L) & K).
    split; [apply module_pathb_ok, A|]. split; [intros E; rewrite E in L; discriminate L|]. intros R. apply class_reserved in R. lia.
  - intros g h Ig Ih E. clear H. induction P as [|k P IH]; [contradiction|]. cbn [map] in N. inversion_clear N as [|? ? Nk NP].
    destruct Ig as [->|Ig], Ih as [->|Ih]; [reflexivity| | |exact (IH NP Ig Ih)].
    + exfalso. apply Nk. rewrite E. apply (in_map (fun g => joined (fst g))) in Ih. exact Ih.
    + exfalso. apply Nk. rewrite <- E. apply (in_map (fun g => joined (fst g))) in Ig. exact Ig.
Qed.
Fixpoint nodupb (l : list text) : bool := match l with [] => true | x :: r => negb (in_texts x r) && nodupb r end.
Lemma nodupb_ok l : nodupb l = true -> NoDup l.
Proof. induction l as [|x r IH]; cbn [nodupb]; [constructor|]. rewrite andb_true_iff. intros (A & B). constructor; [|auto]. intros I. apply in_texts_ok in I. rewrite I in A. discriminate A. Qed.
