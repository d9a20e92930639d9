(** C24 and C59: concatenation of constant lists, and the other operations on them. *)
From Coq Require Import ZArith List Bool Lia.
From Verif Require Import ConstArrModel ConstArrSpec ConstArrProofs ConstArrProofs2 LexSpec.
Import ListNotations.
Open Scope Z_scope.

(** *** C24: concatenation. *)
(** Two arrays or slices of one element type, in each of the nine pairs of representations: the elements of the result are
    those of the left operand followed by those of the right one, and the result is a well-formed array again. *)
Theorem C24_arrays : forall x y, wf x -> wf y ->
  exists a, concat_inits x y = Ok a /\ wf a /\ alen a = alen x + alen y /\ elements a = elements x ++ elements y /\
    forall i, 0 <= i < alen a -> value_at (ainit a) i = if i <? alen x then value_at (ainit x) i else value_at (ainit y) (i - alen x).
Proof.
  intros x y X Y. destruct (concat_inits_ok x y X Y) as (a & E & L & W & H). exists a. split; [exact E|]. split; [exact W|]. split; [exact L|]. split; [exact H|].
  intros i I. pose proof (elements_nth a (Z.to_nat i) ltac:(lia)) as N. rewrite H in N. pose proof (elements_length x) as LX. rewrite Z2Nat.id in N by lia. rewrite <- N. destruct X as [X1 _], Y as [Y1 _]. destruct (i <? alen x) eqn:Q.
  - apply Z.ltb_lt in Q. rewrite app_nth1 by lia. rewrite elements_nth by lia. rewrite Z2Nat.id by lia. reflexivity.
  - apply Z.ltb_ge in Q. rewrite app_nth2 by lia. rewrite elements_nth by lia. f_equal. lia.
Qed.
Print Assumptions C24_arrays.
(** The same for the operator itself: [right] is not an element of [left], and can be cast to a list [r] of its element type. *)
Theorem C24_typed_partial : forall left right k r ls rs,
  match left with CSlice _ | CInit _ => True | _ => False end -> match right with CUntyped _ | CSlice _ | CInit _ => True | _ => False end ->
  match r with CSlice _ | CInit _ => True | _ => False end ->
  as_elem k = None -> as_list k = Some r -> wf_const left -> wf_const r -> items left = Some ls -> items r = Some rs -> ls ++ rs <> [] ->
  exists c, concat left right k = Ok c /\ wf_const c /\ items c = Some (ls ++ rs).
Proof.
  intros left right k r ls rs L R L2 E1 E2 W1 W2 I1 I2 NE.
  assert (Q : init_of left <> None \/ init_of r <> None).
  { destruct left as [| [a|] | a | | |]; try contradiction; [left; discriminate| |left; discriminate]. destruct r as [| [b|] | b | | |]; try contradiction; [right; discriminate| |right; discriminate].
    cbn [items] in *. injection I1 as <-. injection I2 as <-. exfalso; apply NE; reflexivity. }
  destruct (concat_typed_ok left r L L2 W1 W2 Q) as (c & x & y & E & W & X & Y & C). exists c. split; [|split; [exact W|congruence]].
  destruct left as [| la | la | | |]; try contradiction; destruct right as [| ra | ra | | ra |]; try contradiction; unfold concat; rewrite ?E1, E2; exact E.
Qed.
Print Assumptions C24_typed_partial.
(** Untyped lists, and lists that cannot be cast: the result is the untyped list of the elements, when the elements mentioned
    are scalars. *)
Theorem C24_untyped_partial : forall left right k ls rs,
  match left with CUntyped _ | CSlice _ | CInit _ => True | _ => False end -> match right with CUntyped _ | CSlice _ | CInit _ => True | _ => False end ->
  match left with CUntyped _ => True | _ => as_elem k = None /\ as_list k = None end ->
  wf_const left -> wf_const right -> plain left -> plain right -> items left = Some ls -> items right = Some rs ->
  concat left right k = Ok (CUntyped (ls ++ rs)).
Proof.
  intros left right k ls rs L R N W1 W2 P1 P2 I1 I2. rewrite <- (concat_untyped_ok left right ls rs) by auto.
  destruct left as [| la | la | | la |]; try contradiction; destruct right as [| ra | ra | | ra |]; try contradiction; unfold concat; try reflexivity; destruct N as [E1 E2]; rewrite ?E1, E2; reflexivity.
Qed.
Print Assumptions C24_untyped_partial.
(** An element after a list: the last element of the result is [right] cast to the type of the elements. *)
Theorem C24_append_partial : forall left v k e ls, match left with CSlice _ | CInit _ => True | _ => False end -> ls <> [] ->
  as_elem k = Some e -> wf_const left -> items left = Some ls ->
  exists c, concat left (CScalar v) k = Ok c /\ wf_const c /\ items c = Some (ls ++ [e]).
Proof.
  intros left v k e ls L NE E W I. assert (Q : init_of left <> None) by (destruct left as [| [a|] | a | | |]; try contradiction; try discriminate; cbn [items] in I; congruence).
  destruct (append_one_ok left e ls (EVal v) L Q W I) as (c & E1 & W1 & I1). exists c. split; [|auto]. destruct left as [| la | la | | |]; try contradiction; unfold concat, const_append; rewrite E; exact E1.
Qed.
Print Assumptions C24_append_partial.
Theorem C24_append_untyped : forall l v k, concat (CUntyped l) (CScalar v) k = Ok (CUntyped (l ++ [EVal v])).
Proof. reflexivity. Qed.
Print Assumptions C24_append_untyped.
(** Strings and byte arrays: bytes after bytes, code points after a string as UTF-8, lists of bytes after bytes and before them. *)
Theorem C24_bytes : forall s t a b k, concat (CBytes s a) (CBytes t b) k = Ok (CBytes s (a ++ b)).
Proof. reflexivity. Qed.
Print Assumptions C24_bytes.
Theorem C24_string_char : forall a u k, 0 <= u <= 1114111 -> concat (CBytes true a) (CScalar (SInt u)) k = Ok (CBytes true (a ++ utf8 u)).
Proof. intros. apply string_char; auto. Qed.
Print Assumptions C24_string_char.
Theorem C24_string_char_rejected : forall a u k, ~ 0 <= u <= 1114111 -> concat (CBytes true a) (CScalar (SInt u)) k = Error.
Proof. intros a u k H. unfold concat, concat_bytes. replace ((u <? 0) || (1114111 <? u)) with true; [reflexivity|]. symmetry. rewrite orb_true_iff, !Z.ltb_lt. lia. Qed.
Print Assumptions C24_string_char_rejected.
Theorem C24_bytes_list_partial : forall s a right r k rs, match right with CUntyped _ | CSlice _ | CInit _ => True | _ => False end -> as_list k = Some r -> wf_const r -> scalars r -> items r = Some rs ->
  concat (CBytes s a) right k = Ok (CBytes s (a ++ map byte_of rs)).
Proof. intros. apply (bytes_list s a right r); auto. Qed.
Print Assumptions C24_bytes_list_partial.
Theorem C24_list_bytes_partial : forall left s b k ls, match left with CSlice _ | CInit _ => True | _ => False end -> same k = false -> chars k = true -> wf_const left -> scalars left -> items left = Some ls ->
  concat left (CBytes s b) k = Ok (CBytes false (map byte_of ls ++ b)).
Proof. intros. apply list_bytes; auto. Qed.
Print Assumptions C24_list_bytes_partial.

(** Cases that meet the hypotheses: [int[3]{} +++ int[2]{[1] = 7}], [{1, 2} +++ int[2]{}], ["a" +++ 'é']. *)
Example C24_arrays_case :
  let x := mkArr 3 IZero in let y := mkArr 2 (ISparse [(1, EVal (SInt 7))]) in
  wf x /\ wf y /\ concat_inits x y = Ok (mkArr 5 (ISparse [(4, EVal (SInt 7))])) /\ elements x ++ elements y = [EZero; EZero; EZero; EZero; EVal (SInt 7)].
Proof. cbv zeta. split; [split; cbn; auto; lia|]. split; [split; cbn; [lia|split; [discriminate|lia]]|]. split; vm_compute; reflexivity. Qed.
Example C24_typed_case :
  let l := CSlice (Some (mkArr 2 (IFull [EVal (SInt 1); EVal (SInt 2)]))) in let r := CInit (mkArr 2 IZero) in
  wf_const l /\ wf_const r /\ concat l r (mkCasts None (Some r) None false false) = Ok (CInit (mkArr 4 (IFull [EVal (SInt 1); EVal (SInt 2); EZero; EZero]))).
Proof. cbv zeta. split; [split; cbn; lia|]. split; [split; cbn; auto; lia|]. vm_compute; reflexivity. Qed.
Example C24_untyped_case :
  let r := CInit (mkArr 3 (ISparse [(1, EVal (SInt 9))])) in
  wf_const r /\ plain r /\ concat (CUntyped [EVal (SOther 4)]) r (mkCasts None None None false false) = Ok (CUntyped [EVal (SOther 4); EZero; EVal (SInt 9); EZero]).
Proof. cbv zeta. split; [split; cbn; [lia|split; [discriminate|lia]]|]. split; [exact I|]. vm_compute; reflexivity. Qed.
Example C24_append_case :
  concat (CInit (mkArr 3 IZero)) (CScalar (SInt 5)) (mkCasts (Some (EVal (SInt 5))) None None false false) = Ok (CInit (mkArr 4 (ISparse [(3, EVal (SInt 5))]))).
Proof. vm_compute; reflexivity. Qed.
Example C24_string_char_case : concat (CBytes true [97]) (CScalar (SInt 233)) (mkCasts None None None false false) = Ok (CBytes true [97; 195; 169]).
Proof. vm_compute; reflexivity. Qed.
Example C24_list_bytes_case :
  let l := CInit (mkArr 2 (ISparse [(1, EVal (SInt 65))])) in
  wf_const l /\ scalars l /\ concat l (CBytes true [66]) (mkCasts None None None false true) = Ok (CBytes false [0; 65; 66]).
Proof. cbv zeta. split; [split; cbn; [lia|split; [discriminate|lia]]|]. split; [repeat constructor; exists (SInt 65); reflexivity|]. vm_compute; reflexivity. Qed.

(** What is missing is false of the code.  An array with a zero among its elements, as [int[1]{} +++ int[1]{1}] gives it,
    cannot be added to an untyped list, and [char[1]{} +++ char[1]{1}] cannot be followed by a string. *)
Theorem C24_untyped_zero_refuted : exists x y a k, wf x /\ wf y /\ concat_inits x y = Ok a /\ concat (CUntyped []) (CInit a) k = Crash.
Proof.
  exists (mkArr 1 IZero), (mkArr 1 (IFull [EVal (SInt 1)])), (mkArr 2 (IFull [EZero; EVal (SInt 1)])), (mkCasts None None None false false).
  split; [split; cbn; auto; lia|]. split; [split; cbn; auto; lia|]. split; vm_compute; reflexivity.
Qed.
Print Assumptions C24_untyped_zero_refuted.
Theorem C24_bytes_zero_refuted : exists x y a b k, wf x /\ wf y /\ concat_inits x y = Ok a /\ chars k = true /\ concat (CInit a) (CBytes true b) k = Crash.
Proof.
  exists (mkArr 1 IZero), (mkArr 1 (IFull [EVal (SInt 1)])), (mkArr 2 (IFull [EZero; EVal (SInt 1)])), [97], (mkCasts None None None false true).
  split; [split; cbn; auto; lia|]. split; [split; cbn; auto; lia|]. split; [|split]; vm_compute; reflexivity.
Qed.
Print Assumptions C24_bytes_zero_refuted.
(** A struct cannot follow an untyped list. *)
Theorem C24_untyped_struct_refuted : exists l n k, concat (CUntyped l) (CStruct n) k = Crash.
Proof. exists [], 0, (mkCasts None None None false false). reflexivity. Qed.
Print Assumptions C24_untyped_struct_refuted.
(** The element after an empty slice is not cast to the type of the elements: with [char[]] and 300, for example, where the
    cast is an error, 300 is kept. *)
Theorem C24_append_empty_refuted : exists v k, as_elem k = None /\ concat (CSlice None) (CScalar v) k = Ok (CSlice (Some (mkArr 1 (IFull [EVal v])))).
Proof. exists (SInt 300), (mkCasts None None None false true). split; reflexivity. Qed.
Print Assumptions C24_append_empty_refuted.

(** *** C59: the other operations. *)
(** Indexing gives the element, from either end. *)
Theorem C59_index : forall a i, wf a -> 0 <= i < alen a -> fold_to_index a i = Ok (value_at (ainit a) i).
Proof. intros. apply fold_to_index_ok; auto. Qed.
Print Assumptions C59_index.
Theorem C59_index_simple : forall a i (back : bool), wf a -> (if back then 0 < i <= alen a else 0 <= i < alen a) ->
  at_index a i back = Ok (match value_at (ainit a) (if back then alen a - i else i) with EAgg _ => None | e => Some e end).
Proof. intros. apply at_index_ok; auto. Qed.
Print Assumptions C59_index_simple.
(** An index that fits in 32 bits is accepted exactly when it is in the array. *)
Theorem C59_index_check_partial : forall len i (back : bool), 0 <= len < 2 ^ 31 -> - 2 ^ 31 <= i < 2 ^ 31 ->
  index_check len i back = if (if back then (0 <? i) && (i <=? len) else (0 <=? i) && (i <? len)) then Ok (if back then len - i else i) else Error.
Proof. intros. apply index_check_small; auto. Qed.
Print Assumptions C59_index_check_partial.
(** Assigning an element changes that element, and no other. *)
Theorem C59_assign : forall a i e, wf a -> 0 <= i < alen a ->
  exists a', rewrite_at a i e = Ok a' /\ wf a' /\ alen a' = alen a /\ elements a' = firstn (Z.to_nat i) (elements a) ++ e :: skipn (S (Z.to_nat i)) (elements a).
Proof.
  intros a i e W I. destruct (rewrite_at_ok a i e W I) as (a' & E & L & W' & V). exists a'. split; [exact E|]. split; [exact W'|]. split; [exact L|]. apply set_list_elements; auto.
Qed.
Print Assumptions C59_assign.
(** A list of designators: the last one that covers an index decides, other elements are zero. *)
Theorem C59_designated : forall len l, 0 < len -> Forall (fun d => let '(low, high, _) := d in 0 <= low <= high /\ high < len) l ->
  exists a, designate len l = Ok a /\ wf a /\ alen a = len /\ forall i, 0 <= i < len -> value_at (ainit a) i = designated l i EZero.
Proof. intros len l L F. destruct (designate_ok len l L F) as (a & E & A & W & V). exists a. auto. Qed.
Print Assumptions C59_designated.
(** A range that is accepted means what it says, and starts inside; a range inside the list is accepted. *)
Theorem C59_range_partial : forall len start back e s n, 0 <= len -> range len start back e = Ok (Some (s, n)) -> range_means len start back e s n /\ 0 <= s < len /\ 0 <= n <= len.
Proof. intros. apply range_sound; auto. Qed.
Print Assumptions C59_range_partial.
Theorem C59_range_accepted : forall len start back e s n, 0 <= len < 2 ^ 31 -> 0 <= start -> match e with NoEnd => True | EndAt z | EndBack z | Length z | LengthBack z => 0 <= z end ->
  range_means len start back e s n -> 0 <= s < len -> (match e with Length _ | LengthBack _ => 0 <= n | _ => 0 < n end) -> s + n <= len ->
  range len start back e = Ok (Some (s, n)).
Proof. intros. apply range_complete; auto. unfold max_index. lia. Qed.
Print Assumptions C59_range_accepted.
(** A slice has the elements of its range, for arrays that are zero or full, for bytes and untyped lists, and for the front
    of sparse arrays. *)
Theorem C59_slice_partial : forall c s n l, wf_const c -> match c with CBytes true b => ~ In 0 b | CSlice (Some a) | CInit a => match ainit a with ISparse _ => s = 0 | _ => True end | _ => True end ->
  items c = Some l -> 0 <= s -> 0 <= n -> s + n <= Z.of_nat (length l) ->
  exists c', slice c s n = Ok c' /\ wf_const c' /\ items c' = Some (part l s n).
Proof. intros. apply slice_ok; auto. Qed.
Print Assumptions C59_slice_partial.
(** $foreach runs over the elements, for arrays and for slices that are full. *)
Theorem C59_foreach_partial : forall c l, wf_const c -> match c with CSlice (Some a) => match ainit a with IFull _ => True | _ => False end | _ => True end ->
  items c = Some l -> Forall (fun e => match e with EAgg _ => False | _ => True end) l -> foreach c = Ok l.
Proof. intros. apply foreach_ok; auto. Qed.
Print Assumptions C59_foreach_partial.
(** The LLVM constant of an array has its elements, whatever the representation. *)
Theorem C59_emitted : forall v a, wf a -> exists k p, emit v a = Ok (k, p) /\ expand p = elements a.
Proof. intros. apply emit_ok; auto. Qed.
Print Assumptions C59_emitted.

Definition seven : Elem := EVal (SInt 7).
Example C59_index_case : let a := mkArr 4 (ISparse [(1, seven)]) in wf a /\ at_index a 3 true = Ok (Some seven) /\ fold_to_index a 2 = Ok EZero.
Proof. cbv zeta. split; [split; cbn; [lia|split; [discriminate|lia]]|]. split; vm_compute; reflexivity. Qed.
Example C59_index_check_case : index_check 4 1 true = Ok 3 /\ index_check 4 4 false = Error /\ index_check 4 0 true = Error.
Proof. split; [|split]; vm_compute; reflexivity. Qed.
Example C59_assign_case : let a := mkArr 4 (ISparse [(1, seven); (3, seven)]) in wf a /\ rewrite_at a 2 (EVal (SInt 1)) = Ok (mkArr 4 (ISparse [(1, seven); (2, EVal (SInt 1)); (3, seven)])).
Proof. cbv zeta. split; [split; cbn; [lia|split; [discriminate|lia]]|]. vm_compute; reflexivity. Qed.
Example C59_designated_case : designate 4 [(0, 2, seven); (1, 1, EVal (SInt 1))] = Ok (mkArr 4 (ISparse [(0, seven); (1, EVal (SInt 1)); (2, seven)])).
Proof. vm_compute; reflexivity. Qed.
Example C59_range_case : range 5 1 false (EndBack 2) = Ok (Some (1, 3)) /\ range_means 5 1 false (EndBack 2) 1 3.
Proof. split; [vm_compute; reflexivity|split; reflexivity]. Qed.
Example C59_slice_case : slice (CBytes true [97; 98; 99; 100]) 1 2 = Ok (CBytes true [98; 99]).
Proof. vm_compute; reflexivity. Qed.
Example C59_foreach_case : foreach (CInit (mkArr 3 (ISparse [(1, seven)]))) = Ok [EZero; seven; EZero].
Proof. vm_compute; reflexivity. Qed.
Example C59_emitted_case : emit false (mkArr 9 (ISparse [(1, seven); (5, seven)])) = Ok (KStruct, [PElem EZero; PElem seven; PZeros 3; PElem seven; PZeros 3]).
Proof. vm_compute; reflexivity. Qed.

(** The rest is false.  Indices are cut to 32 bits before they are compared with the length. *)
Theorem C59_index_check_refuted : exists len i, 0 <= len /\ len <= i /\ index_check len i false = Ok i.
Proof. exists 4, 4294967297. split; [lia|]. split; [lia|]. vm_compute; reflexivity. Qed.
Print Assumptions C59_index_check_refuted.
(** The end of a range is not compared with the length: ["abcd"[2..5]] is accepted and reads after the string. *)
Theorem C59_range_refuted : exists b s n, range (Z.of_nat (length b)) 2 false (EndAt 5) = Ok (Some (s, n)) /\ slice (CBytes true b) s n = Crash.
Proof. exists [97; 98; 99; 100], 2, 4. split; vm_compute; reflexivity. Qed.
Print Assumptions C59_range_refuted.
(** The elements of a slice of a sparse array keep their old indices. *)
Theorem C59_slice_sparse_refuted : exists a s n c, wf a /\ range (alen a) s false (Length n) = Ok (Some (s, n)) /\ s + n <= alen a /\ slice (CInit a) s n = Ok c /\ items c <> Some (part (elements a) s n) /\ ~ wf_const c.
Proof.
  exists (mkArr 4 (ISparse [(3, seven)])), 2, 2, (CSlice (Some (mkArr 2 (ISparse [(3, seven)])))).
  split; [split; cbn; [lia|split; [discriminate|lia]]|]. split; [vm_compute; reflexivity|]. split; [cbn; lia|]. split; [vm_compute; reflexivity|]. split; [vm_compute; discriminate|].
  intros [_ [_ [H _]]]. cbn in H. lia.
Qed.
Print Assumptions C59_slice_sparse_refuted.
(** A slice of a constant string ends at the first NUL. *)
Theorem C59_slice_nul_refuted : exists b s n c, 0 <= s /\ 0 <= n /\ s + n <= Z.of_nat (length b) /\ slice (CBytes true b) s n = Ok c /\ items c <> Some (part (map (fun x => EVal (SInt x)) b) s n).
Proof. exists [97; 0; 98], 0, 3, (CBytes true [97]). split; [lia|]. split; [lia|]. split; [cbn; lia|]. split; [vm_compute; reflexivity|vm_compute; discriminate]. Qed.
Print Assumptions C59_slice_nul_refuted.
(** $foreach does not run over a slice of zeros, and rejects a sparse slice. *)
Theorem C59_foreach_refuted : exists c d l, wf_const c /\ wf_const d /\ items c = Some l /\ l <> [] /\ foreach c = Ok [] /\ foreach d = Error.
Proof.
  exists (CSlice (Some (mkArr 2 IZero))), (CSlice (Some (mkArr 2 (ISparse [(1, seven)])))), [EZero; EZero]. split; [split; cbn; auto; lia|]. split; [split; cbn; [lia|split; [discriminate|lia]]|].
  split; [vm_compute; reflexivity|]. split; [discriminate|]. split; vm_compute; reflexivity.
Qed.
Print Assumptions C59_foreach_refuted.
(** A sparse vector with a gap is emitted as a struct, not as a vector. *)
Theorem C59_emitted_vector_refuted : exists a p, wf a /\ emit true a = Ok (KStruct, p).
Proof. eexists (mkArr 4 (ISparse [(0, seven)])), _. split; [split; cbn; [lia|split; [discriminate|lia]]|]. vm_compute; reflexivity. Qed.
Print Assumptions C59_emitted_vector_refuted.
