(** C26, C27: the compiler's lookup tables. *)
From Coq Require Import ZArith Bool List Lia.
From Verif Require Import Mach TabModel TabSpec TabProbe TabProofs TabProofs2.
Import ListNotations.
Open Scope Z_scope.

(** ** C26 *)
(** For every history of insertions of spellings shorter than 65536 bytes, handles are equal exactly when the
    spellings are, each insertion reports the token type of the first insertion of its spelling, and afterwards a search finds exactly the
    inserted spellings, with what their first insertion was given. Missing from the full statement: longer spellings, where it is false. *)
Theorem C26_interning_identifies_spellings_partial : forall cap hist, 256 <= cap <= 2 ^ 31 ->
  Forall (fun p => zlen (fst p) < 2 ^ 16) hist ->
  exists st rs, intern_all (symtab_init cap) hist = Done (st, rs) /\
    handles_identify hist rs /\
    Forall2 (fun p r => first_type hist (fst p) = Some (snd r)) hist rs /\
    (forall text, symtab_find st text (fnv1a text) = Done (first_result hist rs text)).
Proof.
  intros cap hist C B. destruct (symtab_history cap hist C B) as (st & rs & R & H & T & F).
  exists st, rs. split; [exact R|]. split; [exact H|]. split; [exact T|]. intros text. rewrite F. f_equal. symmetry. apply first_result_spec; [exact T|apply H].
Qed.
(* "bd" and "ea" share a bucket of the 256; "glbvs" and "yacxa" have the same 32-bit hash. *)
Example C26_collisions :
  let hist := [([98; 100], 1); ([101; 97], 2); ([103; 108; 98; 118; 115], 3); ([121; 97; 99; 120; 97], 4); ([98; 100], 5)] in
  Z.land (fnv1a [98; 100]) 255 = Z.land (fnv1a [101; 97]) 255 /\
  fnv1a [103; 108; 98; 118; 115] = fnv1a [121; 97; 99; 120; 97] /\
  Forall (fun p => zlen (fst p) < 2 ^ 16) hist /\
  match intern_all (symtab_init 256) hist with Done (_, rs) => rs = [(1, 1); (2, 2); (3, 3); (4, 4); (1, 1)] | _ => False end.
Proof. split; [vm_compute; reflexivity|]. split; [vm_compute; reflexivity|]. split; [repeat constructor; vm_compute; reflexivity|vm_compute; reflexivity]. Qed.

(** The hash the lexer builds while scanning an identifier is the hash of its whole spelling, so keywords and names
    entered from elsewhere are the same symbols. *)
Theorem C26_lexer_hash_is_spelling_hash : forall prefix underscores rest, 0 <= prefix ->
  scan_hash prefix underscores rest = fnv1a ((if prefix =? 0 then [] else [prefix]) ++ underscores ++ rest).
Proof.
  intros prefix u r P. unfold scan_hash, fnv1a. cbv zeta. rewrite !fold_left_app. destruct (prefix =? 0); reflexivity.
Qed.
Example C26_lexer_hash_ex : scan_hash 64 [95] [97; 98] = fnv1a [64; 95; 97; 98] /\ scan_hash 0 [] [105; 102] = fnv1a [105; 102].
Proof. vm_compute. auto. Qed.

(** The full statement fails: the stored length is 16 bits wide. A spelling of 65536 bytes gets a new handle each time … *)
Theorem C26_same_spelling_same_handle_refuted : exists text,
  match intern_all (symtab_init 256) [(text, 1); (text, 1)] with Done (_, [(h1, _); (h2, _)]) => h1 <> h2 | _ => False end.
Proof. exists (repeat 97 (Z.to_nat 65536)). vm_compute. discriminate. Qed.
(** … and a short spelling can be given the handle of a long one. *)
Theorem C26_different_spelling_different_handle_refuted : exists t1 t2, t1 <> t2 /\
  match intern_all (symtab_init 256) [(t1, 1); (t2, 1)] with Done (_, [(h1, _); (h2, _)]) => h1 = h2 | _ => False end.
Proof.
  exists ([120] ++ repeat 97 (Z.to_nat 65528) ++ [112; 115; 103; 103; 97; 99; 112; 109]), [120].
  split; [|vm_compute; reflexivity]. discriminate.
Qed.

(** ** C27 *)
(** The overwriting table: after any history of writes a lookup returns the last value written for the key and NULL for other keys;
    each write returns the value it replaces. No search loops forever and no assertion fails. *)
Theorem C27_overwriting_table_returns_last : forall c hist, 0 <= c <= 28 -> writes_ok hist -> zlen hist < 2 ^ 28 ->
  exists t olds, stable_run (stable_init (2 ^ c)) hist = Done (t, olds) /\
    (forall k, ptr_ok k -> stable_get t k = Done (last_set hist k)) /\
    olds = answers (fun before p => last_set before (fst p)) [] hist.
Proof.
  intros c hist C W B. destruct (stable_run_spec hist [] (stable_init (2 ^ c)) (stable_init_inv c C) W) as (t & olds & R & I & E); [cbn; lia|rewrite zlen_nil; lia|].
  exists t, olds. split; [exact R|]. split; [|exact E]. intros k K. apply (stable_get_spec t _ k I). unfold ptr_ok in K. lia.
Qed.
(* Two slots to start with, three keys with the same home slot: collisions and two growths. *)
Example C27_overwriting_ex : let hist := [(2, 10); (34, 11); (66, 12); (2, 13); (98, 14)] in
  writes_ok hist /\ match stable_run (stable_init 2) hist with
    | Done (t, olds) => olds = [0; 0; 0; 10; 0] /\ st_capacity t = 32 /\ map (fun k => stable_get t k) [2; 34; 66; 98; 130] = map Done [13; 11; 12; 14; 0]
    | _ => False end.
Proof. split; [repeat constructor|vm_compute; auto]. Qed.

(** The chained table keeps the first value set for a key: lookups return it, later sets return it to the caller and change nothing.
    Every bucket index lies inside the allocated bucket array although fewer buckets are requested than used. *)
Theorem C27_chained_table_returns_first : forall n hist, 1 <= n <= 2 ^ 31 -> writes_ok hist ->
  exists t olds, htable_run (htable_init n) hist = Done (t, olds) /\
    (forall k, htable_get t k = Done (first_set hist k)) /\
    olds = answers (fun before p => first_set before (fst p)) [] hist.
Proof.
  intros n hist N W. destruct (htable_run_spec hist [] (htable_init n) (htable_init_inv n N)) as (t & olds & R & I & E); [constructor|exact W|].
  exists t, olds. split; [exact R|]. split; [|exact E]. intros k. apply (htable_get_spec t _ k I).
Qed.
Example C27_chained_ex : let hist := [(1, 10); (5, 11); (1, 12); (9, 13)] in
  writes_ok hist /\ match htable_run (htable_init 3) hist with
    | Done (t, olds) => olds = [0; 0; 10; 0] /\ map (fun k => htable_get t k) [1; 5; 9; 13] = map Done [10; 11; 13; 0]
    | _ => False end.
Proof. split; [repeat constructor|vm_compute; auto]. Qed.

(** Global declarations: looking up a name yields exactly the declarations made under it, in order of declaration, whatever the
    collisions and growths. *)
Theorem C27_declarations_found_in_order : forall c names, 0 <= c <= 28 -> zlen names < 2 ^ 28 ->
  exists t ids, declare_all (decltable_init (2 ^ c)) names = Done (t, ids) /\
    length ids = length names /\ NoDup ids /\
    forall name, exists id, decltable_get t name = Done id /\ decls_of (dt_heap t) id = declared_as names ids name.
Proof.
  intros c names C B. destruct (declare_all_spec names [] [] (decltable_init (2 ^ c)) (decltable_init_inv c C)) as (t & ids & R & I & L & ND & _); [cbn; lia|rewrite zlen_nil; lia|].
  exists t, ids. split; [exact R|]. split; [exact L|]. split; [exact ND|]. intros name. apply (decltable_get_spec t names ids name I).
Qed.
Example C27_declarations_ex :
  match declare_all (decltable_init 2) [7; 9; 7; 8; 7; 9; 71] with
  | Done (t, ids) => ids = [1; 2; 3; 5; 6; 7; 9] /\ dt_capacity t = 32 /\
      map (fun n => match decltable_get t n with Done id => decls_of (dt_heap t) id | _ => [] end) [7; 9; 8; 71; 10] = [[1; 3; 6]; [2; 7]; [5]; [9]; []]
  | _ => False end.
Proof. vm_compute. auto. Qed.

Print Assumptions C26_interning_identifies_spellings_partial.
Print Assumptions C26_lexer_hash_is_spelling_hash.
Print Assumptions C26_same_spelling_same_handle_refuted.
Print Assumptions C26_different_spelling_different_handle_refuted.
Print Assumptions C27_overwriting_table_returns_last.
Print Assumptions C27_chained_table_returns_first.
Print Assumptions C27_declarations_found_in_order.
