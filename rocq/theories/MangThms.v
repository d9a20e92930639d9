(** C95, C96: instances of generic modules and linker symbols. *)
From Coq Require Import String ZArith List Bool Lia.
From Verif Require Import JsonWModel JsonSpec MangModel MangSpec MangProofs.
Import ListNotations.
Open Scope Z_scope.

(** C95.  In every history of uses of generic modules of a clean program, every use gets an instance that was made from exactly the module and the
    arguments it names, and two uses share an instance exactly when they agree. *)
Theorem C95_instances_partial : forall P rs l is, clean P -> Forall (good_request P) rs -> instantiate_all [] rs = (l, is) ->
  map (made_from l) is = map Some rs /\
  forall a b r s i j, nth_error rs a = Some r -> nth_error rs b = Some s -> nth_error is a = Some i -> nth_error is b = Some j -> (i = j <-> r = s).
Proof.
  intros P rs l is C G E. assert (F : filed P []) by (split; constructor). destruct (instantiate_all_ok P C rs [] l is F G E) as (FL & M & _). split; [exact M|].
  assert (Q : forall k x y, nth_error rs k = Some x -> nth_error is k = Some y -> made_from l y = Some x).
  { intros k x y Hx Hy. apply (f_equal (fun m => nth_error m k)) in M. rewrite !nth_error_map, Hx, Hy in M. cbn [option_map] in M. congruence. }
  intros a b r s i j Hr Hs Hi Hj. pose proof (Q a r i Hr Hi) as A. pose proof (Q b s j Hs Hj) as B. split.
  - intros ->. congruence.
  - intros ->. exact (made_from_inj P l i j s FL A B).
Qed.

(** Generic modules of the standard library, with the parameters they take. *)
Definition path (l : list string) : list text := map lit l.
Definition library : program :=
  [(path ["std"; "atomic"; "types"], [PType]); (path ["std"; "collections"; "bitset"], [PInt (Prim (lit "uint"))]);
   (path ["std"; "collections"; "elastic_array"], [PType; PInt (Prim (lit "int"))]); (path ["std"; "collections"; "enummap"], [PType; PType]);
   (path ["std"; "collections"; "enumset"], [PType]); (path ["std"; "collections"; "growablebitset"], [PType]);
   (path ["std"; "collections"; "linkedlist"], [PType]); (path ["std"; "collections"; "list"], [PType]);
   (path ["std"; "collections"; "map"], [PType; PType]); (path ["std"; "collections"; "maybe"], [PType]);
   (path ["std"; "collections"; "priorityqueue"; "private"], [PType; PBool]); (path ["std"; "collections"; "priorityqueue"], [PType]);
   (path ["std"; "collections"; "range"], [PType]); (path ["std"; "collections"; "ringbuffer"], [PType]);
   (path ["std"; "collections"; "triple"], [PType; PType; PType]); (path ["std"; "collections"; "tuple"], [PType; PType]);
   (path ["std"; "core"; "array"; "slice"], [PType]); (path ["std"; "experimental"; "scheduler"], [PType]);
   (path ["std"; "hash"; "hmac"], [PType; PInt (Prim (lit "int")); PInt (Prim (lit "int"))]); (path ["std"; "math"; "complex"], [PType]);
   (path ["std"; "math"; "matrix"], [PType]); (path ["std"; "math"; "quaternion"], [PType]); (path ["std"; "sort"; "cs"], [PType; PType]);
   (path ["std"; "sort"; "is"], [PType; PType; PType]); (path ["std"; "sort"; "qs"], [PType; PType; PType]);
   (path ["std"; "thread"; "channel"], [PType]); (path ["std"; "thread"; "pool"], [PInt (Prim (lit "int"))])]%string.
Example library_clean : clean library.
Proof. apply cleanb_ok; [vm_compute; reflexivity|]. apply nodupb_ok. vm_compute. reflexivity. Qed.
Definition int_t : ty := Prim (lit "int").
Definition list_of (t : ty) : ty := User (Inst (path ["std"; "collections"; "list"]%string) None [AType t]) (lit "List") None false false.
Definition map_path := path ["std"; "collections"; "map"]%string.
(** HashMap{String, List{int*}} and HashMap{String, List{int}*} are two instances, and a third use of the first finds it again. *)
Example C95_used :
  let a := Request map_path None [AType String_type; AType (list_of (Ptr int_t))] in
  let b := Request map_path None [AType String_type; AType (Ptr (list_of int_t))] in
  Forall (good_request library) [a; b; a] /\ snd (instantiate_all [] [a; b; a]) = [0; 1; 0]%nat.
Proof.
  cbv zeta. split; [|vm_compute; reflexivity].
  assert (L : forall t, good_ty library t -> good_ty library (list_of t)).
  { intros t G. apply good_user; [|apply type_nameb_ok; reflexivity]. apply (good_inst _ _ [PType]); [cbn; auto 20|]. apply good_cons; [apply good_type, G|apply good_nil]. }
  assert (I : good_ty library int_t) by (apply good_prim, in_texts_ok; reflexivity).
  assert (R : forall t, good_ty library t -> good_request library (Request map_path None [AType String_type; AType t])).
  { intros t G. split; [reflexivity|]. exists [PType; PType]. split; [cbn; auto 20|]. apply good_cons; [apply good_type, good_string|]. apply good_cons; [apply good_type, G|apply good_nil]. }
  constructor; [apply R, L, good_ptr, I|]. constructor; [apply R, good_ptr, L, I|]. constructor; [apply R, L, good_ptr, I|constructor].
Qed.

(** C95 in full fails: a use can get the instance made for other arguments or even for another module.
    1. modules a::b and a_b;
    2. a generic module named p: Foo{int*} and Foo{int}* inside a List;
    3. faults of the same name from two modules;
    4. the enum value Ea.A_B and the enum value Ea_A.B;
    5. pointers to functions taking an int** and taking an int[];
    6. pointers to functions taking a x::Foo and taking a y::Foo;
    7. pointers to a function with and without C varargs;
    8. the int 1 and the char 1. *)
Theorem C95_instances_refuted :
  let m := path ["m"]%string in let user p n := User (Plain (path p) None) (lit n) None false false in
  mixed_up [Request (path ["a"; "b"]%string) None [AType int_t]; Request (path ["a_b"]%string) None [AType int_t]] /\
  (let foo t := User (Inst (path ["p"]%string) None [AType t]) (lit "Foo") None false false in
   mixed_up [Request m None [AType (foo (Ptr int_t))]; Request m None [AType (Ptr (foo int_t))]]) /\
  mixed_up [Request m None [AFault (Plain (path ["a"]%string) None) (lit "NOPE")]; Request m None [AFault (Plain (path ["b"]%string) None) (lit "NOPE")]] /\
  mixed_up [Request m None [AEnum (user ["a"]%string "Ea"%string) (lit "A_B")]; Request m None [AEnum (user ["a"]%string "Ea_A"%string) (lit "B")]] /\
  mixed_up [Request m None [AType (Fun (Prim (lit "void")) [Ptr (Ptr int_t)] false)]; Request m None [AType (Fun (Prim (lit "void")) [Slice int_t] false)]] /\
  mixed_up [Request m None [AType (Fun (Prim (lit "void")) [user ["x"]%string "Foo"%string] false)]; Request m None [AType (Fun (Prim (lit "void")) [user ["y"]%string "Foo"%string] false)]] /\
  mixed_up [Request m None [AType (Fun (Prim (lit "void")) [int_t] false)]; Request m None [AType (Fun (Prim (lit "void")) [int_t] true)]] /\
  mixed_up [Request m None [AInt int_t 1]; Request m None [AInt (Prim (lit "char")) 1]].
Proof.
  cbv zeta. repeat match goal with |- _ /\ _ => split end;
    (exists 1%nat; eexists; eexists; eexists; eexists; eexists; split; [reflexivity|]; split; [reflexivity|]; split; [reflexivity|]; split; [reflexivity|]; intros E; apply (f_equal (fun r => (map (map Z.to_nat) (r_path r), r_args r))) in E; discriminate E).
Qed.

(** C96.  Declarations of a clean program that get the same symbol declare the same thing. *)
Theorem C96_symbols_partial : forall P d e, clean P -> good_decl P d -> good_decl P e -> symbol d = symbol e -> same_declared d e.
Proof. intros P d e C Gd Ge E. exact (symbol_inj P C d e Gd Ge E). Qed.
(** Types that get the same typeid symbol are the same type. *)
Theorem C96_typeids_partial : forall P t u, clean P -> good_ty P t -> good_ty P u -> typeid_symbol t = typeid_symbol u -> t = u.
Proof. intros P t u C Gt Gu E. apply (mangle_inj P C t u Gt Gu). unfold typeid_symbol in E. apply app_inv_head in E. exact E. Qed.
(** std::collections::list{int*}: List.push and a function push in the same instance. *)
Example C96_used :
  let m := Inst (path ["std"; "collections"; "list"]%string) None [AType (Ptr int_t)] in
  let d := SDecl m (Some (list_of (Ptr int_t))) (lit "push") None false false in
  let e := SDecl m None (lit "push") None false false in
  good_decl library d /\ good_decl library e /\ symbol d = lit "std_collections_list$p$int$.List.push" /\ symbol e = lit "std_collections_list$p$int$.push".
Proof.
  cbv zeta. assert (G : good_mod library (Inst (path ["std"; "collections"; "list"]%string) None [AType (Ptr int_t)])).
  { apply (good_inst _ _ [PType]); [cbn; auto 20|]. apply good_cons; [apply good_type, good_ptr, good_prim, in_texts_ok; reflexivity|apply good_nil]. }
  unfold good_decl. cbn [s_ext s_extern s_export s_mod s_name s_parent list_of].
  repeat match goal with |- _ /\ _ => split end; try reflexivity; try exact G; try (apply nameb_ok; reflexivity); try (apply type_nameb_ok; reflexivity).
Qed.

(** C96 in full fails: distinct declarations get one symbol.
    1. exported functions of the modules a::b and a_b;
    2. an exported function b__c of a and an exported function c of a::_b;
    3. private methods of the same name that two modules add to a type of a third;
    4. methods that one module adds to slices of the types Foo of two other modules;
    and distinct types get one typeid: functions taking an int** or an int[]. *)
Theorem C96_symbols_refuted :
  let m l := Plain (path l) None in let foo l := User (m l) (lit "Foo") None false false in
  let twin d e := symbol d = symbol e /\ ~ same_declared d e in
  twin (SDecl (m ["a"; "b"]%string) None (lit "c") None false true) (SDecl (m ["a_b"]%string) None (lit "c") None false true) /\
  twin (SDecl (m ["a"]%string) None (lit "b__c") None false true) (SDecl (m ["a"; "_b"]%string) None (lit "c") None false true) /\
  (let d := SDecl (m ["b"]%string) (Some (foo ["a"]%string)) (lit "f") None false false in
   let e := SDecl (m ["c"]%string) (Some (foo ["a"]%string)) (lit "f") None false false in symbol d = symbol e /\ s_mod d <> s_mod e) /\
  twin (SDecl (m ["z"]%string) (Some (Slice (foo ["x"]%string))) (lit "f") None false false) (SDecl (m ["z"]%string) (Some (Slice (foo ["y"]%string))) (lit "f") None false false) /\
  (let f t := Fun (Prim (lit "void")) [t] false in
   typeid_symbol (f (Ptr (Ptr int_t))) = typeid_symbol (f (Slice int_t)) /\ f (Ptr (Ptr int_t)) <> f (Slice int_t)).
Proof.
  cbv zeta. repeat match goal with |- _ /\ _ => split end; try reflexivity; try discriminate.
  - intros (_ & _ & H). destruct (H eq_refl) as (_ & E). discriminate E.
  - intros (H & _). discriminate H.
  - intros (_ & _ & H). destruct (H eq_refl) as (E & _). discriminate E.
Qed.
Print Assumptions C95_instances_partial.
Print Assumptions C95_instances_refuted.
Print Assumptions C96_symbols_partial.
Print Assumptions C96_typeids_partial.
Print Assumptions C96_symbols_refuted.
