(** Programs for the theorems about names. *)
From Coq Require Import String ZArith List Bool Lia Permutation.
From Verif Require Import NameModel NameSpec NameProofs.
Import ListNotations.
Open Scope Z_scope.

Definition mk (p : list text) : modu := Mod (dotted p) false None.
Ltac pathok := split; [discriminate | repeat (apply Forall_cons; [split; [discriminate | vm_compute; intuition discriminate]|]); apply Forall_nil].
Ltac inlist H := cbn [In modules map app w_mod w_imports w_decls i_mod d_mod] in H; repeat (destruct H as [H|H]); try contradiction H; subst.
Ltac named_module m H := inlist H; match goal with |- exists p, path_ok p /\ _ (mk ?q) = _ => exists q; split; [pathok | reflexivity] end.
Ltac wellformed :=
  constructor;
  [ intros m H; named_module m H
  | intros m H; named_module m H
  | intros m m' H H' E; inlist H; inlist H'; first [reflexivity | exfalso; vm_compute in E; discriminate E]
  | reflexivity
  | intros d H U; inlist H; first [reflexivity | exfalso; vm_compute in U; discriminate U]
  | cbn [w_decls]; repeat (apply NoDup_cons; [cbn [In]; intuition discriminate|]); apply NoDup_nil
  | intros d d' H H' U E; inlist H; inlist H'; first [reflexivity | exfalso; vm_compute in U; discriminate U | exfalso; vm_compute in E; discriminate E]
  | intros d d' H H' V V' M E; inlist H; inlist H'; first [reflexivity | exfalso; vm_compute in M; discriminate M | exfalso; vm_compute in E; discriminate E]
  | cbn [w_imports map i_mod]; repeat (apply NoDup_cons; [cbn [In]; intuition discriminate|]); apply NoDup_nil
  | intros i H; inlist H; discriminate
  | intros i H; inlist H; reflexivity ].

Definition app := [lit "app"].
Definition util := [lit "app"; lit "util"].
Definition mem := [lit "std"; lit "core"; lit "mem"].
Definition net := [lit "net"].
Definition http := [lit "net"; lit "http"].
Definition game := [lit "game"].
Definition fn (id : Z) (name : string) (m : list text) (unit : Z) (v : visibility) : decl := Decl id (lit name) (mk m) unit v false id None.

(** A file of the module app that imports net, among files of other modules; `open` is declared four times. *)
Definition program : world := World 1 (mk app) [Import (mk net) false false] [Var (fn 90 "x" app 1 Local)]
  [fn 1 "main" app 1 Local; fn 2 "helper" app 2 Private; fn 3 "secret" app 2 Local; fn 4 "join" util 3 Public; fn 5 "copy" mem 4 Public; fn 6 "open" net 5 Public;
   fn 7 "open" http 6 Public; fn 8 "hidden" net 5 Private; fn 9 "open" game 7 Public; fn 10 "draw" game 7 Public; fn 11 "connect" http 6 Public; fn 12 "open" util 3 Private].
Lemma program_ok : WellFormed program.
Proof. unfold program, fn. wellformed. Qed.
(** An @local function is written with the path of its own module. *)
Definition local_program : world := World 1 (mk app) [] [] [fn 1 "setup" app 1 Local].
Lemma local_ok : WellFormed local_program. Proof. unfold local_program, fn. wellformed. Qed.
(** A module whose path ends with the word std. *)
Definition mystd := [lit "my"; lit "std"].
Definition std_program : world := World 1 (mk app) [Import (mk mystd) false false] [] [fn 1 "sum" mystd 2 Public].
Lemma std_ok : WellFormed std_program. Proof. unfold std_program, fn. wellformed. Qed.
(** Two modules imported with @public, each with a private function of the same name. *)
Definition two_private (l : list import) : world := World 1 (mk app) l [] [fn 1 "init" net 2 Private; fn 2 "init" game 3 Private].
Definition first_net := two_private [Import (mk net) true false; Import (mk game) true false].
Definition first_game := two_private [Import (mk game) true false; Import (mk net) true false].
Lemma first_net_ok : WellFormed first_net. Proof. unfold first_net, two_private, fn. wellformed. Qed.
(** Two types and a @weak alias of one of them, all of one name. *)
Definition ui := [lit "ui"].
Definition type_a := Decl 1 (lit "Box") (mk net) 2 Public false 1 None.
Definition type_b := Decl 2 (lit "Box") (mk game) 3 Public false 2 None.
Definition weak_c := Decl 3 (lit "Box") (mk ui) 4 Public false 3 (Some (ToDecl type_a)).
Definition three (l : list decl) : world := World 1 (mk app) [Import (mk net) false false; Import (mk game) false false; Import (mk ui) false false] [] l.
Lemma three_ok : WellFormed (three [type_a; type_b; weak_c]). Proof. unfold three, type_a, type_b, weak_c. wellformed. Qed.
