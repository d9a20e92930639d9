(** C61: rewriting a project file keeps what it says. *)
From Coq Require Import String Ascii ZArith QArith Qreduction List Bool Lia.
From Verif Require Import JsonModel JsonSpec JsonProofs JsonSound JsonWModel JsonWSpec JsonWProofs.
Import ListNotations.
Open Scope Z_scope.

(** A value without nulls, with plain strings and with numbers of at most six decimals is written as an RFC 8259 document of that value, and reads back as it. *)
Theorem C61_round_trip_partial : forall v, plain v -> exists text, save v = Some text /\ document false text v /\ load text = Value v.
Proof. intros v P. destruct (save_ok v P) as (t & S & D). exists t. split; [exact S|]. split; [exact D|apply (load_document false), D]. Qed.
Print Assumptions C61_round_trip_partial.

Example C61_round_trip_example :
  let v := JObj [(bytes "version", JStr (bytes "0.1.0")); (bytes "opt", JNum (5 # 4)); (bytes "targets", JObj [(bytes "a", JArr [JObj []; JNum 7; JArr []; JBool true])])] in
  plain v /\ (exists text, save v = Some text /\ load text = Value v).
Proof.
  cbv zeta. split.
  - cbn [plain fold_right fst snd]. unfold plain_text. repeat split; try (repeat constructor; vm_compute; intuition congruence); try (vm_compute; congruence); eexists; [instantiate (1 := 1250000)|instantiate (1 := 7000000)]; reflexivity.
  - eexists. split; [vm_compute; reflexivity|vm_compute; reflexivity].
Qed.

(** Values the writer does not keep: a null in an array is a NULL dereference; a null member gives a file that cannot be read; quotes, backslashes and line breaks
    in strings are not escaped; numbers are cut to six decimals. *)
Theorem C61_round_trip_refuted :
  save (JArr [JNull]) = None
  /\ (exists t, save (JObj [(bytes "a", JNull)]) = Some t /\ load t = Reported)
  /\ (exists t, save (JStr [97; 34; 98]) = Some t /\ load t = Reported)
  /\ (exists t, save (JStr (bytes "C:\new")) = Some t /\ load t = Value (JStr [67; 58; 10; 101; 119]))
  /\ (exists t, save (JNum (1 # 8000000)) = Some t /\ load t = Value (JNum 0)).
Proof. split; [reflexivity|]. repeat split; eexists; (split; [vm_compute; reflexivity|vm_compute; reflexivity]). Qed.
Print Assumptions C61_round_trip_refuted.

(** Every one of these values comes from a file the reader accepts. *)
Example C61_round_trip_reachable : load (bytes "[null]") = Value (JArr [JNull]) /\ load (bytes "{""a"": null}") = Value (JObj [(bytes "a", JNull)])
  /\ load (bytes """a\""b""") = Value (JStr [97; 34; 98]) /\ load (bytes """C:\\new""") = Value (JStr (bytes "C:\new")) /\ load (bytes "0.000000125") = Value (JNum (1 # 8000000)).
Proof. vm_compute. repeat split; reflexivity. Qed.

(** Adding a target to a project file of such values: the written file reads back as the project with that target added. Every other entry of the project and every
    other target has the value it had, and no entry is doubled. *)
Theorem C61_add_target_partial : forall project name ty sources project', plain (JObj project) -> plain_text name -> plain_text ty -> Forall plain_text sources ->
  add_target project name ty sources = Some project' ->
  (exists text, save (JObj project') = Some text /\ load text = Value (JObj project'))
  /\ (forall k, k <> bytes "targets" -> map_get project' k = map_get project k)
  /\ (exists targets, map_get project' (bytes "targets") = JObj targets
      /\ map_get targets name = JObj [(bytes "type", JStr ty); (bytes "sources", JArr (map JStr sources))]
      /\ forall k, k <> name -> map_get targets k = match map_get project (bytes "targets") with JObj t => map_get t k | _ => JNull end)
  /\ (NoDup (map fst project) -> NoDup (map fst project')).
Proof.
  intros l name ty src l' P N T S E. apply plain_obj in P. pose proof (add_target_plain l name ty src l' P N T S E) as P'. split.
  { destruct (save_ok (JObj l') (proj2 (plain_obj l') P')) as (t & SA & D). exists t. split; [exact SA|apply (load_document false), D]. }
  change (bytes "targets") with key_targets. change (bytes "type") with key_type. change (bytes "sources") with key_sources. unfold add_target in E. rewrite target_is in E.
  destruct (map_get l key_targets) as [| | | | |t] eqn:G; try discriminate.
  - injection E as <-. split; [intros k K; apply map_get_set_other, K|]. split.
    + eexists. split; [apply map_get_set|]. split; [apply map_get_set|]. intros k K. rewrite map_get_set_other by exact K. reflexivity.
    + intros ND. pose proof (get_absent l key_targets P G) as A. rewrite map_set_absent by exact A. rewrite map_app. cbn [map fst]. clear - ND A.
      induction l as [|[k v] l IH]; cbn [map app fst] in *; [constructor; [intros []|constructor]|]. inversion ND; subst. constructor; [|apply IH; [assumption|intros X; apply A; right; exact X]]. rewrite in_app_iff. cbn [In]. intros [X|[X|[]]]; [contradiction|]. subst k. apply A. left. reflexivity.
  - destruct (map_get t name) eqn:GN; try discriminate. injection E as <-. split; [intros k K; apply map_get_first_other, K|]. split.
    + eexists. split; [apply map_get_first; congruence|]. split; [apply map_get_set|]. intros k K. apply map_get_set_other, K.
    + intros ND. replace (map fst (set_first l key_targets (JObj (map_set t name (JObj [(key_type, JStr ty); (key_sources, JArr (map JStr src))]))))) with (map fst l); [exact ND|].
      clear. induction l as [|[k v] l IH]; [reflexivity|]. cbn [set_first]. destruct (eqb_str k key_targets); cbn [map fst]; [reflexivity|]. rewrite IH. reflexivity.
Qed.
Print Assumptions C61_add_target_partial.

Example C61_add_target_example :
  let project := [(bytes "version", JStr (bytes "0.1.0")); (bytes "targets", JObj [(bytes "a", JObj [(bytes "type", JStr (bytes "executable"))])])] in
  exists project', add_target project (bytes "b") (bytes "static-lib") [bytes "src/**"] = Some project' /\ length project' = 2%nat
    /\ add_target project (bytes "a") (bytes "static-lib") [] = None.
Proof. cbv zeta. eexists. split; [vm_compute; reflexivity|]. split; reflexivity. Qed.

(** Adding libraries: the dependencies become the old ones followed by the new names that were not among them, each once, and the written file says so. *)
Theorem C61_add_libraries_partial : forall project libs project' have, plain (JObj project) -> Forall plain_text libs ->
  map_get project (bytes "dependencies") = JArr (map JStr have) -> add_libraries project libs = Some project' ->
  (exists text, save (JObj project') = Some text /\ load text = Value (JObj project'))
  /\ (forall k, k <> bytes "dependencies" -> map_get project' k = map_get project k)
  /\ (exists new, map_get project' (bytes "dependencies") = JArr (map JStr (have ++ new)) /\ NoDup new /\ forall x, In x new <-> In x libs /\ ~ In x have).
Proof.
  intros l libs l' have P L G E. apply plain_obj in P. pose proof (add_libraries_plain l libs l' P L E) as P'. split.
  { destruct (save_ok (JObj l') (proj2 (plain_obj l') P')) as (t & SA & D). exists t. split; [exact SA|apply (load_document false), D]. }
  change (bytes "dependencies") with key_dependencies in *. unfold add_libraries in E. rewrite G, strings_of in E. injection E as <-. split; [intros k K; apply map_get_first_other, K|].
  destruct (add_new_spec libs have) as (new & EN & SP & ND). exists new. rewrite EN. split; [apply map_get_first; congruence|]. auto.
Qed.
Print Assumptions C61_add_libraries_partial.

(** It succeeds whenever the project has an array of strings as dependencies. *)
Theorem C61_add_libraries_succeeds : forall project libs have, map_get project (bytes "dependencies") = JArr (map JStr have) -> exists project', add_libraries project libs = Some project'.
Proof. intros l libs have G. change (bytes "dependencies") with key_dependencies in G. unfold add_libraries. rewrite G, strings_of. eauto. Qed.
Print Assumptions C61_add_libraries_succeeds.

Example C61_add_libraries_example : add_libraries [(bytes "dependencies", JArr [JStr (bytes "x")])] [bytes "y"; bytes "x"; bytes "y"] = Some [(bytes "dependencies", JArr [JStr (bytes "x"); JStr (bytes "y")])].
Proof. reflexivity. Qed.

(** A project without dependencies makes it dereference NULL. *)
Theorem C61_add_libraries_refuted : add_libraries [(bytes "version", JStr (bytes "0.1.0"))] [bytes "y"] = None.
Proof. reflexivity. Qed.
Print Assumptions C61_add_libraries_refuted.

(** Setting a member makes reading it give the new value and leaves the others; but a member that was there is doubled. *)
Theorem C61_set_then_get : forall members k v, map_get (map_set members k v) k = v /\ forall k', k' <> k -> map_get (map_set members k v) k' = map_get members k'.
Proof. intros l k v. split; [apply map_get_set|]. intros k' N. apply map_get_set_other, N. Qed.
Print Assumptions C61_set_then_get.

Theorem C61_set_once_refuted : map fst (map_set [(bytes "a", JNum 1)] (bytes "a") (JNum 2)) = [bytes "a"; bytes "a"].
Proof. reflexivity. Qed.
Print Assumptions C61_set_once_refuted.
