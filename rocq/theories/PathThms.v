(** C105, C106: paths. *)
From Coq Require Import String Ascii ZArith List Bool Lia.
From Verif Require Import Mach StrModel StrSpec PathModel PathSpec PathProofs3.
From Verif Require StrThms.
Import ListNotations.
Open Scope Z_scope.
Notation tx := StrThms.tx.

(** C105: normalising a POSIX path stays inside the string, for every string; the result is no longer than the argument. *)
Theorem C105_in_bounds p : match normalize false p with Ok (Some m) => zlen (fst m) = zlen p /\ 0 <= snd m <= zlen p | Ok None => True | _ => False end.
Proof. exact (normalize_bounded p). Qed.
(** The path that comes out is rooted exactly if the argument is, and leads to the same place. *)
Theorem C105_same_place p m : normalize false p = Ok (Some m) -> p <> [] -> rooted (path_string m) = rooted p /\ place_of (path_string m) = place_of p.
Proof. exact (normalize_place p m). Qed.
Example C105_place_ex : exists m, normalize false (tx "/usr//lib/./x86/../gcc/") = Ok (Some m) /\ path_string m = tx "/usr/lib/gcc" /\ names (place_of (tx "/usr//lib/./x86/../gcc/")) = [tx "usr"; tx "lib"; tx "gcc"].
Proof. eexists. split; [vm_compute; reflexivity|]. split; vm_compute; reflexivity. Qed.
(** Normalising twice is normalising once. *)
Theorem C105_idempotent p m : normalize false p = Ok (Some m) -> exists m', normalize false (path_string m) = Ok (Some m') /\ path_string m' = path_string m.
Proof. exact (normalize_again p m). Qed.
(** For every path without an element of two bytes whose first is a dot and whose second is not: it is refused exactly if it holds a zero byte
    or climbs above the root, and what comes out is the shortest text of the place. *)
Theorem C105_canonical_partial p : p <> [] -> Forall (fun e => ~ looks_like_dotdot e) (elements slash (body p)) ->
  if existsb (Z.eqb 0) p || (rooted p && climbs here (elements slash (body p))) then normalize false p = Ok None
  else exists m, normalize false p = Ok (Some m) /\ path_string m = canonical p.
Proof. exact (normalize_canonical p). Qed.
Example C105_canonical_ex : Forall (fun e => ~ looks_like_dotdot e) (elements slash (body (tx "../a/.././../b"))) /\ canonical (tx "../a/.././../b") = tx "../../b" /\
  Forall (fun e => ~ looks_like_dotdot e) (elements slash (body (tx "/a/../.."))) /\ climbs here (elements slash (body (tx "/a/../.."))) = true.
Proof.
  repeat match goal with |- _ /\ _ => split end; try (vm_compute; reflexivity); vm_compute; repeat constructor; intros (x & E & Hx); try discriminate E; injection E as <-; now apply Hx.
Qed.
(** Without that condition: a .. behind such a name is kept, and one that climbs above the root is let through. *)
Theorem C105_canonical_refuted :
  (exists p m, normalize false p = Ok (Some m) /\ path_string m <> canonical p) /\
  (exists p m, normalize false p = Ok (Some m) /\ rooted p = true /\ climbs here (elements slash (body p)) = true).
Proof.
  split; [exists (tx "/a/.b/..")|exists (tx "/.b/../..")]; eexists; (split; [vm_compute; reflexivity|]); [vm_compute; discriminate|split; vm_compute; reflexivity].
Qed.
(** The zero-terminated text handed to the operating system is the text of the path, unless that is a single dot. *)
Theorem C105_zstr_partial p m : normalize false p = Ok (Some m) -> path_string m <> dot -> as_zstr m = path_string m.
Proof. exact (normalize_zstr p m). Qed.
Theorem C105_zstr_refuted : exists p m, normalize false p = Ok (Some m) /\ path_string m = tx "." /\ as_zstr m = tx "./..".
Proof. exists (tx "a/.."). eexists. split; [vm_compute; reflexivity|]. split; vm_compute; reflexivity. Qed.
(** WIN32 paths with a drive letter and a root: never out of bounds; the drive is kept, the separators become backslashes, the place is the same. *)
Theorem C105_drive c s b : letter c -> bs s = true ->
  match normalize true (c :: 58 :: s :: b) with
  | Ok (Some m) => exists t, path_string m = c :: 58 :: 92 :: t /\ reach true (elements bs t) = reach true (elements bs b) /\ ~ In 47 t /\ zlen (fst m) = zlen (c :: 58 :: s :: b)
  | Ok None => True
  | _ => False
  end.
Proof. exact (normalize_drive c s b). Qed.
Example C105_drive_ex : exists m, normalize true (tx "c:/a\./b/../d") = Ok (Some m) /\ path_string m = tx "c:\a\d" /\ letter 99.
Proof. eexists. split; [vm_compute; reflexivity|]. split; [vm_compute; reflexivity|unfold letter; lia]. Qed.
(** With a drive and no root, the second .. is taken for a name and takes the first away. *)
Theorem C105_drive_refuted : exists m, normalize true (tx "c:../..") = Ok (Some m) /\ path_string m = tx "c:" /\ reach false (elements bs (tx "../..")) <> reach false (elements bs (tx "")).
Proof. eexists. split; [vm_compute; reflexivity|]. split; [vm_compute; reflexivity|vm_compute; discriminate]. Qed.

(** C106: the base name is what follows the last slash, the directory what stands before it. *)
Theorem C106_parts p :
  (~ In 47 p -> basename p = Ok p /\ dirname p = Ok (tx ".")) /\
  (forall q b, p = q ++ 47 :: b -> ~ In 47 b -> basename p = Ok b /\ dirname p = Ok (match q with [] => tx "/" | _ => q end)) /\
  (In 47 p -> exists q b, p = q ++ 47 :: b /\ ~ In 47 b).
Proof.
  repeat match goal with |- _ /\ _ => split end.
  - intros H. split; [now apply basename_none|]. unfold dirname. now rewrite base_none.
  - intros q b -> H. split; [now apply basename_some|now apply dirname_some].
  - intros H. destruct (last_slash p) as [?|?]; [assumption|easy].
Qed.
Example C106_parts_ex : basename (tx "/usr/lib/x.so") = Ok (tx "x.so") /\ dirname (tx "/usr/lib/x.so") = Ok (tx "/usr/lib") /\ dirname (tx "/x") = Ok (tx "/").
Proof. repeat split; vm_compute; reflexivity. Qed.
(** The parent is what stands before the last slash; the root and a path without a slash have none. *)
Theorem C106_parent_partial p :
  (~ In 47 p \/ p = [47] -> parent p = Ok None) /\
  (forall q b, p = q ++ 47 :: b -> ~ In 47 b -> q <> [] \/ b <> [] -> parent p = Ok (Some q)).
Proof. split; [apply parent_none|]. intros q b -> H1 H2. now apply parent_some. Qed.
Example C106_parent_ex : parent (tx "/usr/lib") = Ok (Some (tx "/usr")) /\ parent (tx "/") = Ok None. Proof. split; vm_compute; reflexivity. Qed.
(** So the parent of a directory in the root is the empty path, which is not rooted, while its dirname is the root. *)
Theorem C106_parent_refuted : exists p q, rooted p = true /\ parent p = Ok (Some q) /\ rooted q = false /\ dirname p = Ok (tx "/").
Proof. exists (tx "/a"), []. repeat split; vm_compute; reflexivity. Qed.
(** has_extension answers whether the base name ends with a dot and the extension. *)
Theorem C106_has_extension p ext b : basename p = Ok b -> exists r, has_extension p ext = Ok r /\ (r = true <-> exists s, b = s ++ 46 :: ext).
Proof. exact (has_extension_ok p ext b). Qed.
(** extension answers what follows the last dot, nothing if that dot comes first, and a fault if there is no dot. *)
Theorem C106_extension p b : basename p = Ok b ->
  (~ In 46 b -> extension p = Ok None) /\ (forall s e, b = s ++ 46 :: e -> ~ In 46 e -> extension p = Ok (Some (match s with [] => [] | _ => e end))).
Proof. exact (extension_ok p b). Qed.
Example C106_extension_ex : basename (tx "/a.b/c.tar.gz") = Ok (tx "c.tar.gz") /\ extension (tx "/a.b/c.tar.gz") = Ok (Some (tx "gz")) /\ has_extension (tx "/a.b/c.tar.gz") (tx "tar.gz") = Ok true.
Proof. repeat split; vm_compute; reflexivity. Qed.
(** The two do not agree on a name that starts with its only dot. *)
Theorem C106_extension_refuted : exists p e, extension p = Ok (Some []) /\ e <> [] /\ has_extension p e = Ok true.
Proof. exists (tx ".foo"), (tx "foo"). split; [vm_compute; reflexivity|]. split; [discriminate|vm_compute; reflexivity]. Qed.
(** Appending to a path that does not end with a slash: the result is the place reached from the path along the elements of the appended text. *)
Theorem C106_append_partial p f m : (exists q c, p = q ++ [c] /\ c <> 47) -> append p f = Ok (Some m) ->
  rooted (path_string m) = rooted p /\ place_of (path_string m) = fold_left (walk (rooted p)) (elements slash f) (place_of p).
Proof.
  intros H Ha. pose proof (append_ok p f H) as [E1 E2]. rewrite E1 in Ha. assert (Hne : p ++ [47] ++ f <> []) by (destruct p; discriminate).
  destruct (normalize_place _ _ Ha Hne) as [P1 P2]. rewrite P1, P2, E2. split; [|reflexivity]. destruct H as (q & c & -> & _). now destruct q.
Qed.
Example C106_append_ex : exists m, append (tx "/usr/lib") (tx "../bin") = Ok (Some m) /\ path_string m = tx "/usr/bin". Proof. eexists. split; vm_compute; reflexivity. Qed.
(** The root itself is a path normalize answers, and appending to it fails the assertion. *)
Theorem C106_append_refuted : exists p m f, normalize false p = Ok (Some m) /\ append (path_string m) f = Oob.
Proof. exists (tx "/"). eexists. exists (tx "a"). split; vm_compute; reflexivity. Qed.

Print Assumptions C105_in_bounds.
Print Assumptions C105_same_place.
Print Assumptions C105_idempotent.
Print Assumptions C105_canonical_partial.
Print Assumptions C105_canonical_refuted.
Print Assumptions C105_zstr_partial.
Print Assumptions C105_zstr_refuted.
Print Assumptions C105_drive.
Print Assumptions C105_drive_refuted.
Print Assumptions C106_parts.
Print Assumptions C106_parent_partial.
Print Assumptions C106_parent_refuted.
Print Assumptions C106_has_extension.
Print Assumptions C106_extension.
Print Assumptions C106_extension_refuted.
Print Assumptions C106_append_partial.
Print Assumptions C106_append_refuted.
