(** C101-C104: dynamic strings. *)
From Coq Require Import String Ascii ZArith List Bool Lia ZifyBool.
From Verif Require Import Mach LexSpec UtfSpec StrModel StrSpec StrThms DstrModel DstrSpec DstrProofs DstrProofs2.
Import ListNotations.
Open Scope Z_scope.

(** C101: a dynamic string shows exactly the text its history of operations gives, and no operation whose conditions hold reads or writes outside its memory. *)
Theorem C101_view d t : built d t -> str_view d = Ok t /\ dlen d = len t.
Proof. intros H. apply rep_view, built_rep, H. Qed.
Theorem C101_zero_terminated d t : built d t -> len t + 1 < 2 ^ 62 -> exists d', zstr_view d = Ok (d', t ++ [0]) /\ str_view d' = Ok t.
Proof. intros H Hs. destruct (zstr_view_ok d t (built_rep _ _ H) Hs) as (d' & E & R). exists d'. split; [exact E|apply (rep_view _ _ R)]. Qed.
Theorem C101_step d t o : built d t -> allowed t o -> exists d', apply d o = Ok d' /\ str_view d' = Ok (after t o).
Proof. intros H Ho. destruct (apply_ok d t o (built_rep _ _ H) Ho) as (d' & E & R). exists d'. split; [exact E|apply (rep_view _ _ R)]. Qed.
Theorem C101_history d t os : built d t -> history t os -> exists d', run d os = Ok d' /\ str_view d' = Ok (text_of t os) /\ dlen d' = len (text_of t os).
Proof. intros H Ho. destruct (run_ok os d t (built_rep _ _ H) Ho) as (d' & E & R). exists d'. split; [exact E|apply (rep_view _ _ R)]. Qed.
Theorem C101_new t : len t < 2 ^ 62 -> exists b, new t = Ok b /\ str_view (Some b) = Ok t.
Proof. intros H. destruct (new_ok t H) as (b & E & R). exists b. split; [exact E|apply (rep_view (Some b) _ R)]. Qed.
Theorem C101_copy d t : built d t -> exists b, copy d = Ok b /\ str_view (Some b) = Ok t.
Proof. intros H. destruct (copy_ok d t (built_rep _ _ H)) as (b & E & R). exists b. split; [exact E|apply (rep_view (Some b) _ R)]. Qed.
Theorem C101_concat d t e u : built d t -> built e u -> len t + len u < 2 ^ 62 -> exists r, concat d e = Ok r /\ str_view r = Ok (t ++ u).
Proof. intros H H' Hs. destruct (concat_ok d t e u (built_rep _ _ H) (built_rep _ _ H') Hs) as (r & E & R). exists r. split; [exact E|apply (rep_view _ _ R)]. Qed.
Theorem C101_join ss j : len j * Z.of_nat (length ss) + len (List.concat ss) < 2 ^ 62 -> exists r, djoin ss j = Ok r /\ str_view r = Ok (glue j ss).
Proof. intros Hs. destruct (djoin_ok ss j Hs) as (r & E & R). exists r. split; [exact E|apply (rep_view _ _ R)]. Qed.
(** Replacing a byte in a string that was never given any memory follows a null pointer; every other operation takes such a string as the empty text. *)
Theorem C101_null_refuted : built None [] /\ replace_char None 97 98 = Oob /\ forall o, allowed [] o -> exists d', apply None o = Ok d'.
Proof.
  split; [constructor|]. split; [reflexivity|]. intros o Ho. destruct (apply_ok None [] o eq_refl Ho) as (d' & E & _). eauto.
Qed.
Example C101_example :
  let os := [AppendChars (tx "hello wonderful world"); InsertChar 0 64; Delete 6 10; AppendChar32 8364; Reverse; AppendRepeat 33 3; Chop 12; InsertUtf32 2 [228; 128512]; SetAt 0 65] in
  history [] os /\ exists d, run None os = Ok d /\ str_view d = Ok (text_of [] os) /\ len (text_of [] os) = 18.
Proof. cbv zeta. split.
  { cbn [history]. unfold allowed. repeat match goal with |- _ /\ _ => split | |- code_point _ => split | |- Forall _ [] => constructor | |- Forall _ (_ :: _) => constructor end;
      first [exact I | vm_compute; reflexivity | vm_compute; discriminate]. }
   eexists. split; [vm_compute; reflexivity|]. split; vm_compute; reflexivity. Qed.

(** C102: replace(needle, replacement) replaces occurrences of the needle and nothing else. *)
Theorem C102_only_occurrences d s needle repl : built d s -> needle <> [] -> len s * (len repl + 1) < 2 ^ 62 ->
  exists d' t, replace d needle repl = Ok d' /\ str_view d' = Ok t /\ replaced_some needle repl s t.
Proof. intros H Hn Hs. destruct (replace_ok d s needle repl (built_rep _ _ H) Hn Hs) as (d' & t & E & R & P). exists d', t. split; [exact E|]. split; [apply (rep_view _ _ R)|exact P]. Qed.
(** A needle of one byte: all of them. *)
Theorem C102_every_occurrence_partial d s x repl : built d s -> len s * (len repl + 1) < 2 ^ 62 ->
  exists d', replace d [x] repl = Ok d' /\ str_view d' = Ok (flat_map (fun c => if c =? x then repl else [c]) s).
Proof. intros H Hs. destruct (replace_one_ok d s x repl (built_rep _ _ H) Hs) as (d' & E & R). exists d'. split; [exact E|apply (rep_view _ _ R)]. Qed.
(** A longer needle is missed where it starts inside a failed match: "ab" in "aab". *)
Theorem C102_every_occurrence_refuted : exists d b t, new (tx "aab") = Ok b /\ replace (Some b) (tx "ab") (tx "X") = Ok d /\ str_view d = Ok t /\
  t = tx "aab" /\ occurs_at (tx "ab") (tx "aab") 1 /\ ~ replaced_all (tx "ab") (tx "X") (tx "aab") t.
Proof.
  eexists. eexists. eexists. split; [vm_compute; reflexivity|]. split; [vm_compute; reflexivity|]. split; [vm_compute; reflexivity|]. split; [reflexivity|]. split.
  - exists (tx "a"), []. split; reflexivity.
  - intros (ps & Hc & E). assert (Hne : tx "ab" <> []) by discriminate. destruct (StrProofs.cut_index _ _ _ Hne Hc) as [[Ei _]|(p & r & ps' & _ & -> & Hr & _)]; [vm_compute in Ei; discriminate|].
    rewrite StrProofs.glue_cons in E by (eapply StrProofs.cut_nonempty; eauto). match type of E with ?l = _ => assert (Hin : In 88 l) by (rewrite E; apply in_or_app; right; left; reflexivity) end.
    vm_compute in Hin. intuition discriminate.
Qed.
(** An empty needle is read outside. *)
Theorem C102_empty_needle_refuted b s repl : built (Some b) s -> s <> [] -> replace (Some b) [] repl = Oob.
Proof.
  intros H Hs. cbn [replace]. pose proof (C101_view _ _ H) as [V L]. cbn [dlen] in L. rewrite L. change (zlen (@nil Z)) with 0. change (len s) with (zlen s). pose proof (zlen_nonneg s). replace (zlen s <? 0) with false by lia. cbn [Z.eqb andb].
  rewrite V. cbn [bind]. destruct s as [|c s]; [congruence|]. reflexivity.
Qed.
Example C102_example : exists b d, new (tx "one, two, three") = Ok b /\ replace (Some b) (tx ", ") (tx "; and ") = Ok d /\ str_view d = Ok (tx "one; and two; and three").
Proof. eexists. eexists. split; [vm_compute; reflexivity|]. split; vm_compute; reflexivity. Qed.

(** C103: equals tells if two dynamic strings hold the same text, whatever their capacities and even if one has no memory. *)
Theorem C103_equals d t e u : built d t -> built e u -> exists r, equals d e = Ok r /\ (r = true <-> t = u).
Proof. intros H H'. apply equals_ok; now apply built_rep. Qed.
(** less orders by length, and among texts of one length answers true only if every byte is below the other's. *)
Theorem C103_less_partial b t c u : built (Some b) t -> built (Some c) u -> exists r, less (Some b) (Some c) = Ok r /\ (r = true <-> len t < len u \/ Forall2 Z.lt t u).
Proof. intros H H'. apply less_ok; [exact (built_rep _ _ H)|exact (built_rep _ _ H')]. Qed.
(** So it is no order: different texts of which neither is less, and equal texts of which each is less than the other. *)
Theorem C103_order_refuted :
  (exists b c, new (tx "ab") = Ok b /\ new (tx "ac") = Ok c /\ less (Some b) (Some c) = Ok false /\ less (Some c) (Some b) = Ok false /\ equals (Some b) (Some c) = Ok false) /\
  (let b := with_capacity 0 in let c := with_capacity 64 in less (Some b) (Some c) = Ok true /\ less (Some c) (Some b) = Ok true /\ equals (Some b) (Some c) = Ok true) /\
  less (Some (with_capacity 0)) None = Ok true /\ equals (Some (with_capacity 0)) None = Ok true.
Proof. split; [eexists; eexists; split; [vm_compute; reflexivity|]; split; [vm_compute; reflexivity|]; vm_compute; auto|]. split; vm_compute; auto. Qed.
Example C103_example : exists b c, new (tx "same") = Ok b /\ apply (Some (with_capacity 99)) (AppendChars (tx "same")) = Ok c /\ equals (Some b) c = Ok true /\ less (Some b) c = Ok false.
Proof. eexists. eexists. split; [vm_compute; reflexivity|]. split; [vm_compute; reflexivity|]. split; vm_compute; reflexivity. Qed.

(** C104: a part of a dynamic string can be appended to it, or inserted into it. *)
Theorem C104_append_own_partial b (x v y : list Z) : built (Some b) (x ++ v ++ y) -> len (x ++ v ++ y) + len v <= cap b ->
  exists d, append_own (Some b) (len x) (len v) = Ok d /\ str_view d = Ok ((x ++ v ++ y) ++ v).
Proof. intros H Hc. destruct (append_own_ok b x v y (built_rep _ _ H) Hc) as (d & E & R). exists d. split; [exact E|apply (rep_view _ _ R)]. Qed.
Theorem C104_insert_own_partial b (x v y : list Z) i : built (Some b) (x ++ v ++ y) -> x <> [] -> 0 <= i <= len (x ++ v ++ y) -> len (x ++ v ++ y) + len v <= cap b ->
  exists d, insert_own (Some b) i (len x) (len v) = Ok d /\ str_view d = Ok (take i (x ++ v ++ y) ++ v ++ drop i (x ++ v ++ y)).
Proof. intros H Hx Hi Hc. destruct (insert_own_ok b x v y i (built_rep _ _ H) Hx Hi Hc) as (d & E & R). exists d. split; [exact E|apply (rep_view _ _ R)]. Qed.
(** Without the capacity the argument is freed before it is read; and a part that starts at the first byte is never inserted. *)
Theorem C104_own_refuted : exists b, new (tx "0123456789abcdef") = Ok b /\ built (Some b) (tx "0123456789abcdef") /\
  append_own (Some b) 3 5 = Oob /\ insert_own (Some b) 2 3 5 = Oob /\
  exists b', new (tx "abc") = Ok b' /\ built (Some b') (tx "abc") /\ insert_own (Some b') 3 0 3 = Ok (Some b') /\ str_view (Some b') = Ok (tx "abc").
Proof.
  eexists. split; [vm_compute; reflexivity|]. split; [apply built_new; [vm_compute; reflexivity|vm_compute; reflexivity]|]. split; [vm_compute; reflexivity|]. split; [vm_compute; reflexivity|].
  eexists. split; [vm_compute; reflexivity|]. split; [apply built_new; [vm_compute; reflexivity|vm_compute; reflexivity]|]. split; vm_compute; reflexivity.
Qed.
Example C104_example : exists b d, apply (Some (with_capacity 40)) (AppendChars (tx "hello world")) = Ok (Some b) /\
  insert_own (Some b) 4 1 6 = Ok d /\ str_view d = Ok (tx "hellello wo world") /\ exists e, append_own (Some b) 6 5 = Ok e /\ str_view e = Ok (tx "hello worldworld").
Proof. eexists. eexists. split; [vm_compute; reflexivity|]. split; [vm_compute; reflexivity|]. split; [vm_compute; reflexivity|]. eexists. split; vm_compute; reflexivity. Qed.

Print Assumptions C101_view.
Print Assumptions C101_zero_terminated.
Print Assumptions C101_step.
Print Assumptions C101_history.
Print Assumptions C101_new.
Print Assumptions C101_copy.
Print Assumptions C101_concat.
Print Assumptions C101_join.
Print Assumptions C101_null_refuted.
Print Assumptions C102_only_occurrences.
Print Assumptions C102_every_occurrence_partial.
Print Assumptions C102_every_occurrence_refuted.
Print Assumptions C102_empty_needle_refuted.
Print Assumptions C103_equals.
Print Assumptions C103_less_partial.
Print Assumptions C103_order_refuted.
Print Assumptions C104_append_own_partial.
Print Assumptions C104_insert_own_partial.
Print Assumptions C104_own_refuted.
