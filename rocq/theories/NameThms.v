(** C113, C114, C115, C116, C117: what a name in the source stands for. *)
From Coq Require Import String ZArith List Bool Lia Permutation.
From Verif Require Import Mach NameModel NameSpec NameProofs NameProofs2 NameProofs3 NameExamples DistModel DistSpec DistProofs.
Import ListNotations.
Open Scope Z_scope.

(** C113: a written path names exactly the modules whose path ends with its words. *)
Theorem C113_path_suffix p q : path_ok p -> path_ok q -> (matches_subpath (dotted p) (dotted q) = true <-> exists r, p = r ++ q).
Proof. exact (matches_suffix p q). Qed.
(** Different paths are different texts, and two modules are related exactly if the words of one begin the words of the other. *)
Theorem C113_path_text p q : path_ok p -> path_ok q -> dotted p = dotted q -> p = q.
Proof. exact (dotted_inj p q). Qed.
Theorem C113_related m m' p q : path_ok p -> path_ok q -> base m = dotted p -> base m' = dotted q -> exists b, module_inclusion_match m m' = Some b /\ (b = true <-> related p q).
Proof. exact (inclusion_spec m m' p q). Qed.
Example C113_ex : path_ok mem /\ path_ok [lit "core"; lit "mem"] /\ matches_subpath (dotted mem) (lit "core::mem") = true /\ matches_subpath (dotted mem) (lit "re::mem") = false /\
  module_inclusion_match (mk util) (mk app) = Some true /\ module_inclusion_match (mk http) (mk app) = Some false /\ ~ related http app.
Proof.
  split; [pathok|]. split; [pathok|]. repeat match goal with |- _ /\ _ => split end; try (vm_compute; reflexivity).
  intros [[r E]|[r E]]; vm_compute in E; discriminate E.
Qed.
Print Assumptions C113_path_suffix. Print Assumptions C113_related.

(** C114: what a name finds is what it can stand for: the innermost name of the function, or else a declaration of that name that is visible and
    in a module its path names. Two declarations are reported as a clash only if they are two. No null pointer is used. *)
Theorem C114_sound w path name d : WellFormed w -> Path_ok path -> resolve w (written path) name = Found d ->
  path = None /\ Scoped name (w_locals w) (Some d) \/ Candidate w path name d.
Proof.
  intros W HP E. destruct (scoped_total name (w_locals w)) as [[x|] S].
  - destruct path as [q|]; [right|left].
    + pose proof (resolve_sound w (Some q) name W HP ltac:(discriminate)) as R. rewrite E in R. exact R.
    + split; [reflexivity|]. cbn [written option_map resolve] in E. unfold resolve_no_path_symbol in E. rewrite (find_local_scoped _ _ _ S) in E. injection E as <-. exact S.
  - right. pose proof (resolve_sound w path name W HP ltac:(intros _; exact S)) as R. rewrite E in R. exact R.
Qed.
Theorem C114_clash w path name d d2 : WellFormed w -> Path_ok path -> resolve w (written path) name = Clash d d2 -> Candidate w path name d /\ Candidate w path name d2 /\ d <> d2.
Proof.
  intros W HP E. assert (S : path = None -> Scoped name (w_locals w) None).
  { intros ->. destruct (scoped_total name (w_locals w)) as [[x|] S]; [exfalso | exact S]. cbn [written option_map resolve] in E. unfold resolve_no_path_symbol in E. rewrite (find_local_scoped _ _ _ S) in E. discriminate. }
  pose proof (resolve_sound w path name W HP S) as R. rewrite E in R. exact R.
Qed.
Theorem C114_no_null w path name : WellFormed w -> Path_ok path -> resolve w (written path) name <> Crash.
Proof.
  intros W HP E. assert (S : path = None -> Scoped name (w_locals w) None).
  { intros ->. destruct (scoped_total name (w_locals w)) as [[x|] S]; [exfalso | exact S]. cbn [written option_map resolve] in E. unfold resolve_no_path_symbol in E. rewrite (find_local_scoped _ _ _ S) in E. discriminate. }
  pose proof (resolve_sound w path name W HP S) as R. rewrite E in R. exact R.
Qed.
Example C114_ex : WellFormed program /\ Path_ok (Some net) /\ resolve program (Some (lit "net")) (lit "open") = Found (fn 6 "open" net 5 Public) /\
  resolve program None (lit "open") = Clash (fn 6 "open" net 5 Public) (fn 7 "open" http 6 Public) /\ resolve program None (lit "x") = Found (fn 90 "x" app 1 Local) /\
  resolve program None (lit "copy") = Found (fn 5 "copy" mem 4 Public) /\ resolve program None (lit "hidden") = NotFound /\ resolve program None (lit "draw") = NotFound.
Proof. split; [exact program_ok|]. split; [pathok|]. repeat match goal with |- _ /\ _ => split end; vm_compute; reflexivity. Qed.
Print Assumptions C114_sound. Print Assumptions C114_clash. Print Assumptions C114_no_null.

(** C115: a name of the function is found first; a name that can stand for one declaration only finds it; a name that can stand for nothing finds nothing.
    Partial: with a path, for declarations that are not @local and for paths other than the word std. *)
Theorem C115_function_scope w name d : Scoped name (w_locals w) (Some d) -> resolve w None name = Found d.
Proof. intro S. unfold resolve, resolve_no_path_symbol. rewrite (find_local_scoped _ _ _ S). reflexivity. Qed.
Theorem C115_complete_partial w path name d : WellFormed w -> Path_ok path -> (path = None -> Scoped name (w_locals w) None) ->
  (path <> None -> d_vis d <> Local /\ path <> Some [lit "std"]) -> Candidate w path name d -> (forall d', Candidate w path name d' -> d' = d) -> resolve w (written path) name = Found d.
Proof. intros. apply resolve_unique; assumption. Qed.
Theorem C115_not_silent_partial w path name d : WellFormed w -> Path_ok path -> (path = None -> Scoped name (w_locals w) None) ->
  (path <> None -> d_vis d <> Local /\ path <> Some [lit "std"]) -> Candidate w path name d -> resolve w (written path) name <> NotFound.
Proof. intros. apply (resolve_complete w path name d); assumption. Qed.
Theorem C115_nothing w path name : WellFormed w -> Path_ok path -> (path = None -> Scoped name (w_locals w) None) -> (forall d, ~ Candidate w path name d) -> resolve w (written path) name = NotFound.
Proof.
  intros W HP S N. pose proof (resolve_sound w path name W HP S) as R. destruct (resolve w (written path) name); cbn [answer_ok] in R; [destruct (N _ R) | destruct (N _ (proj1 R)) | reflexivity | destruct R].
Qed.
Example C115_ex : WellFormed program /\ Scoped (lit "connect") (w_locals program) None /\ Candidate program None (lit "connect") (fn 11 "connect" http 6 Public) /\
  (forall d', Candidate program None (lit "connect") d' -> d' = fn 11 "connect" http 6 Public) /\ Scoped (lit "x") (w_locals program) (Some (fn 90 "x" app 1 Local)) /\
  Candidate program (Some [lit "http"]) (lit "open") (fn 7 "open" http 6 Public) /\ (forall d, ~ Candidate program None (lit "nothing") d).
Proof.
  split; [exact program_ok|]. split; [constructor; [vm_compute; discriminate | constructor]|].
  assert (V : forall d, d_mod d = mk http -> d_vis d = Public -> Visible program d).
  { intros d E P. apply (imported program d (Import (mk net) false false)); [left; reflexivity | left; exact P | rewrite E; reflexivity|]. right. split; [reflexivity|]. rewrite E.
    exists net, http. repeat match goal with |- _ /\ _ => split end; try pathok; try reflexivity. right. exists [lit "http"]. reflexivity. }
  split; [repeat match goal with |- _ /\ _ => split | |- Candidate _ _ _ _ => unfold Candidate end; try reflexivity; [cbn; tauto | apply V; reflexivity]|].
  split; [intros d' (H & E & _); cbn [program w_decls In] in H; repeat (destruct H as [<-|H]; [first [reflexivity | exfalso; vm_compute in E; discriminate E]|]); destruct H|].
  split; [constructor; reflexivity|]. split.
  - repeat match goal with |- _ /\ _ => split | |- Candidate _ _ _ _ => unfold Candidate end; try reflexivity; [cbn; tauto | apply V; reflexivity|].
    exists [lit "net"]. split; [|reflexivity]. constructor; [split; [discriminate | vm_compute; intuition discriminate] | constructor].
  - intros d (H & E & _). cbn [program w_decls In] in H. repeat (destruct H as [<-|H]; [vm_compute in E; discriminate E|]). destruct H.
Qed.
(** An @local function is not found by the path of its module, in its own file. *)
Theorem C115_local_refuted : exists w path name d, WellFormed w /\ Path_ok path /\ path <> None /\ Candidate w path name d /\ (forall d', Candidate w path name d' -> d' = d) /\ resolve w (written path) name = NotFound.
Proof.
  exists local_program, (Some app), (lit "setup"), (fn 1 "setup" app 1 Local). split; [exact local_ok|]. split; [pathok|]. split; [discriminate|]. split.
  - repeat match goal with |- _ /\ _ => split | |- Candidate _ _ _ _ => unfold Candidate end; try reflexivity; [left; reflexivity | apply own_file; reflexivity | exists []; split; [constructor | reflexivity]].
  - split; [intros d' ([<-|[]] & _); reflexivity | vm_compute; reflexivity].
Qed.
(** A path of the one word std finds nothing, whatever module ends with it. *)
Theorem C115_std_refuted : exists w name d, WellFormed w /\ d_vis d = Public /\ Candidate w (Some [lit "std"]) name d /\ (forall d', Candidate w (Some [lit "std"]) name d' -> d' = d) /\
  resolve w (Some (lit "std")) name = NotFound.
Proof.
  exists std_program, (lit "sum"), (fn 1 "sum" mystd 2 Public). split; [exact std_ok|]. split; [reflexivity|]. split.
  - repeat match goal with |- _ /\ _ => split | |- Candidate _ _ _ _ => unfold Candidate end; try reflexivity; [left; reflexivity | |].
    + apply (imported std_program _ (Import (mk mystd) false false)); [left; reflexivity | left; reflexivity | reflexivity | left; reflexivity].
    + exists [lit "my"]. split; [constructor; [split; [discriminate | vm_compute; intuition discriminate] | constructor] | reflexivity].
  - split; [intros d' ([<-|[]] & _); reflexivity | vm_compute; reflexivity].
Qed.
Print Assumptions C115_function_scope. Print Assumptions C115_complete_partial. Print Assumptions C115_not_silent_partial. Print Assumptions C115_nothing.
Print Assumptions C115_local_refuted. Print Assumptions C115_std_refuted.

(** C116: what a name stands for does not depend on the order of the declarations and the imports of a program.
    Partial: for programs without `import … @public` and without @weak aliases. *)
Theorem C116_order_partial w w' path name : WellFormed w -> shuffled w w' -> (forall i, In i (w_imports w) -> i_private i = false) -> (forall d, In d (w_decls w) -> d_weak d = None) -> Path_ok path ->
  same_answer (resolve w (written path) name) (resolve w' (written path) name).
Proof. intros W S NP NW HP. exact (resolve_shuffled w w' W S NP NW path name HP). Qed.
Example C116_ex : WellFormed program /\ shuffled program (World 1 (mk app) (rev (w_imports program)) (w_locals program) (rev (w_decls program))) /\
  (forall i, In i (w_imports program) -> i_private i = false) /\ (forall d, In d (w_decls program) -> d_weak d = None) /\
  resolve (World 1 (mk app) (rev (w_imports program)) (w_locals program) (rev (w_decls program))) None (lit "open") = Clash (fn 7 "open" http 6 Public) (fn 6 "open" net 5 Public).
Proof.
  split; [exact program_ok|]. split; [repeat match goal with |- _ /\ _ => split | |- shuffled _ _ => unfold shuffled end; try reflexivity; apply Permutation_rev|].
  split; [intros i [<-|[]]; reflexivity|]. split; [|vm_compute; reflexivity]. intros d H. cbn [program w_decls In] in H. repeat (destruct H as [<-|H]; [reflexivity|]). destruct H.
Qed.
(** Of two modules imported with @public, the first one gives the function, without a word about the other. *)
Theorem C116_imports_refuted : exists w w' name d d', WellFormed w /\ shuffled w w' /\ resolve w None name = Found d /\ resolve w' None name = Found d' /\ d <> d'.
Proof.
  exists first_net, first_game, (lit "init"), (fn 1 "init" net 2 Private), (fn 2 "init" game 3 Private). split; [exact first_net_ok|].
  split; [repeat match goal with |- _ /\ _ => split | |- shuffled _ _ => unfold shuffled end; try reflexivity; apply perm_swap|].
  split; [vm_compute; reflexivity|]. split; [vm_compute; reflexivity | discriminate].
Qed.
(** Two types of one name clash, unless a @weak alias of the later one is declared before both. *)
Theorem C116_weak_refuted : exists w w' name d d2 d', WellFormed w /\ shuffled w w' /\ resolve w None name = Clash d d2 /\ resolve w' None name = Found d'.
Proof.
  exists (three [type_a; type_b; weak_c]), (three [weak_c; type_b; type_a]), (lit "Box"), type_a, type_b, type_a. split; [exact three_ok|].
  split; [repeat match goal with |- _ /\ _ => split | |- shuffled _ _ => unfold shuffled end; try reflexivity; exact (Permutation_rev [type_a; type_b; weak_c])|].
  split; vm_compute; reflexivity.
Qed.
Print Assumptions C116_order_partial. Print Assumptions C116_imports_refuted. Print Assumptions C116_weak_refuted.

(** C117: the distance of two names, for the names that are proposed. Partial: it stays inside the texts and does not depend on what the stack held, it is 0 for equal names only,
    and lies between the difference and the greater of the lengths, for names below 256 bytes of which the first is at most one byte longer. *)
Theorem C117_distance_partial junk a b : Z.of_nat (length a) < 256 -> Z.of_nat (length b) < 256 -> Z.of_nat (length a) <= Z.of_nat (length b) + 1 \/ Z.of_nat (length b) = 0 ->
  exists d, distance junk a b = Ok d /\ Z.abs (Z.of_nat (length a) - Z.of_nat (length b)) <= d <= Z.max (Z.of_nat (length a)) (Z.of_nat (length b)) /\ (d = 0 <-> a = b).
Proof. exact (distance_ok a b junk). Qed.
Example C117_ex : distance (fun _ _ => -7) (lit "lenght") (lit "length") = Ok 1 /\ Z.of_nat (length (lit "lenght")) <= Z.of_nat (length (lit "length")) + 1.
Proof. split; [vm_compute; reflexivity | vm_compute; discriminate]. Qed.
(** It is not the number of edits: one letter put in front counts as three. *)
Theorem C117_edits_refuted : exists a b, Distance a b 1 /\ forall junk, distance junk a b = Ok 3.
Proof.
  exists (lit "ab"), (lit "xab"). split.
  - split.
    + vm_compute. apply edits_insert, edits_keep, edits_keep, edits_end.
    + intros m H. destruct m; [|lia]. exfalso. vm_compute in H. inversion H.
  - intro junk. vm_compute. reflexivity.
Qed.
(** Of a name that is more than one byte longer than another, the other is read past its end. *)
Theorem C117_bounds_refuted a b : 0 < Z.of_nat (length b) -> Z.of_nat (length b) + 1 < Z.of_nat (length a) -> Z.of_nat (length a) < 256 -> forall junk, distance junk a b = Oob.
Proof. intros H1 H2 H3 junk. apply distance_past; assumption. Qed.
Example C117_bounds_ex : distance (fun _ _ => 0) (lit "print") (lit "abc") = Oob.
Proof. vm_compute. reflexivity. Qed.
Print Assumptions C117_distance_partial. Print Assumptions C117_edits_refuted. Print Assumptions C117_bounds_refuted.
