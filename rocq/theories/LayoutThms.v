(** C18, C19, C20 and C56: the layout of structs, unions and bitstructs. *)
From Coq Require Import ZArith List Bool Lia.
From Verif Require Import LayoutModel LayoutSpec LayoutProofs LayoutProofs2 LayoutProofs3 LayoutProofs4 LayoutProofs5 LayoutProofs6.
Import ListNotations.
Open Scope Z_scope.

Definition char_t : Info := mkInfo 1 1 1 1 1.
Definition int_t : Info := mkInfo 4 4 4 4 4.
Definition bytes_t (n : Z) : Info := mkInfo n 1 1 n 1.
Definition mem (t : Info) : Member := mkMember 0 false t.

(** Members in order, each at the least multiple of its alignment that is past the one before, and the size the least
    multiple of the alignment that holds them all.  Partial: [small] says that no offset leaves 32 bits. *)
Theorem C18_layout_partial : forall packed nop bare galign a ms s, Forall wf_member ms -> wf_given galign -> small a galign ms ->
  struct_layout packed nop bare galign ms = Good s ->
  map info (members s) = map ty ms /\ s_align s = struct_align packed galign ms /\
  exists hi, laid packed 0 ms (map off (members s)) hi /\ least_multiple (s_align s) hi (s_size s).
Proof.
  intros packed nop bare galign a ms s HF HG HS H. pose proof (layout_good packed nop bare galign a ms s HF HG HS H) as G. cbv zeta in G.
  destruct G as (G1 & G2 & _ & G4 & G5 & _). destruct (da_props packed galign a ms HF HG HS) as [P _].
  split; [exact G5|]. split; [exact G2|]. exists (wend packed 0 ms). split; [rewrite G4; apply laid_walk; auto|].
  rewrite G1, G2. apply least_round. apply pow2_pos; auto.
Qed.
Print Assumptions C18_layout_partial.
(** No two members share a byte and none reaches past the struct. *)
Theorem C18_disjoint_partial : forall packed nop bare galign a ms s, Forall wf_member ms -> wf_given galign -> small a galign ms ->
  struct_layout packed nop bare galign ms = Good s ->
  forall i j p q, (i < j)%nat -> nth_error (members s) i = Some p -> nth_error (members s) j = Some q ->
  0 <= off p /\ off p + size (info p) <= off q /\ off q + size (info q) <= s_size s.
Proof.
  intros packed nop bare galign a ms s HF HG HS H i j p q Hij Hp Hq.
  destruct (C18_layout_partial packed nop bare galign a ms s HF HG HS H) as (E & _ & hi & L & (_ & M & _)).
  assert (Len : length (members s) = length ms) by (rewrite <- (map_length info), E, map_length; reflexivity).
  assert (O : forall k x, nth_error (members s) k = Some x -> (k < length ms)%nat /\ nth k (map off (members s)) 0 = off x /\
                          nth k (map (fun m => size (ty m)) ms) 0 = size (info x)).
  { intros k x Hk. split; [rewrite <- Len; apply nth_error_Some; congruence|]. split.
    - apply nth_error_nth. apply map_nth_error. exact Hk.
    - rewrite <- (map_map ty size), <- E, map_map. apply nth_error_nth. apply (map_nth_error (fun x => size (info x))). exact Hk. }
  destruct (O i p Hp) as (I1 & I2 & I3), (O j q Hq) as (J1 & J2 & J3).
  destruct (laid_disjoint packed ms _ 0 hi HF L j J1) as (A & B & C). specialize (C i Hij).
  destruct (laid_disjoint packed ms _ 0 hi HF L i I1) as (A' & _ & _). lia.
Qed.
Print Assumptions C18_disjoint_partial.
(** A packed struct without any @align has no gaps at all. *)
Theorem C18_packed_no_gaps_partial : forall nop bare a ms s, Forall wf_member ms -> (forall m, In m ms -> given m = 0) -> small a 0 ms ->
  struct_layout true nop bare 0 ms = Good s -> gapless 0 (members s) (s_size s).
Proof.
  intros nop bare a ms s HF H0 HS H. destruct (C18_layout_partial true nop bare 0 a ms s HF (or_introl eq_refl) HS H) as (E & A & hi & L & M).
  assert (EA : s_align s = 1).
  { rewrite A. unfold struct_align. rewrite (map_ext_in given (fun _ => 0) ms H0). cbv zeta.
    assert (Z0 : max_of (map (fun _ : Member => 0) ms) 0 = 0) by (clear; induction ms; [reflexivity|cbn [map]; rewrite max_of_cons; exact IHms]).
    rewrite Z0. reflexivity. }
  rewrite EA in M. destruct M as (_ & M1 & M2). specialize (M2 hi (Z.mod_1_r hi) ltac:(lia)). assert (s_size s = hi) by lia. subst hi. clear H HS HF A EA M1 M2.
  revert E L. generalize (members s) as ps, (s_size s) as hi, 0 as lo. induction ms as [|m r IH]; intros [|p ps] hi lo E L; try discriminate; [exact L|].
  cbn [map] in *. injection E as E1 E2. cbn [laid gapless] in *. destruct L as [(_ & L1 & L2) L3].
  unfold member_align in L2. rewrite (H0 m (or_introl eq_refl)) in L2. cbn in L2. specialize (L2 lo (Z.mod_1_r lo) ltac:(lia)).
  assert (EO : off p = lo) by lia. split; [exact EO|]. rewrite EO, <- E1 in L3. apply IH; auto. intros; apply H0; right; auto.
Qed.
Print Assumptions C18_packed_no_gaps_partial.
(** @nopadding on the struct: accepted exactly when the layout without it has no gap. *)
Theorem C18_nopadding_partial : forall packed galign a ms, Forall wf_member ms -> wf_given galign -> small a galign ms ->
  Forall (fun m => nopad m = false) ms ->
  (exists s, struct_layout packed true false galign ms = Good s) <->
  (exists s, struct_layout packed false false galign ms = Good s /\ gapless 0 (members s) (s_size s)).
Proof. exact nopadding_iff. Qed.
Print Assumptions C18_nopadding_partial.
(** @nopadding on a member: accepted only if the member starts where the one before ends. *)
Theorem C18_member_nopadding_partial : forall packed nop bare galign a ms s, Forall wf_member ms -> wf_given galign -> small a galign ms ->
  struct_layout packed nop bare galign ms = Good s ->
  forall i m p, nth_error ms i = Some m -> nth_error (members s) i = Some p -> nopad m = true ->
  off p = match i with O => 0 | S j => match nth_error (members s) j with Some q => off q + size (info q) | None => -1 end end.
Proof. exact member_nopadding. Qed.
Print Assumptions C18_member_nopadding_partial.
(** The compiler's assertions hold for packed structs without any @align, and for others whose members are not aligned
    below the alignment natural to them. *)
Theorem C18_no_assert_partial : forall packed nop bare galign a ms, Forall wf_member ms -> wf_given galign -> small a galign ms ->
  (packed = true -> galign = 0 /\ forall m, In m ms -> given m = 0) ->
  (packed = false -> forall m, In m ms -> nat_align (ty m) <= member_align false m) ->
  struct_layout packed nop bare galign ms <> Violated.
Proof. exact no_assert. Qed.
Print Assumptions C18_no_assert_partial.

(** struct { char a; int b; char c; } *)
Example C18_case : struct_layout false false false 0 [mem char_t; mem int_t; mem char_t] =
  Good (mkStruct [mkPlaced 0 0 1 char_t; mkPlaced 4 0 4 int_t; mkPlaced 8 0 1 char_t] 12 4 false 0 4) /\
  Forall wf_member [mem char_t; mem int_t; mem char_t] /\ small 4 0 [mem char_t; mem int_t; mem char_t] /\
  struct_layout true true false 0 [mem char_t; mem int_t] = Good (mkStruct [mkPlaced 0 0 1 char_t; mkPlaced 1 0 1 int_t] 5 1 true 0 4) /\
  struct_layout false true false 0 [mem char_t; mem int_t] = Refused.
Proof.
  split; [vm_compute; reflexivity|]. assert (P1 : pow2 1) by apply pow2_1. assert (P4 : pow2 4) by (exists 2; split; [lia|reflexivity]).
  split; [repeat constructor; cbn; auto; lia|]. split; [|split; vm_compute; reflexivity].
  split; [lia|]. split; [lia|]. split; [|vm_compute; reflexivity]. intros m [<-|[<-|[<-|[]]]]; cbn; lia.
Qed.

(** Refuted without [small]: struct { char[4294967295] a; int b; } puts b at offset 0, on top of a. *)
Theorem C18_overflow_refuted : exists ms s p q, Forall wf_member ms /\ struct_layout false false false 0 ms = Good s /\
  nth_error (members s) 0 = Some p /\ nth_error (members s) 1 = Some q /\ off p = 0 /\ 0 < size (info p) /\ off q = 0 /\ 0 < size (info q) /\ s_size s = 4.
Proof.
  exists [mem (bytes_t (2 ^ 32 - 1)); mem int_t]. eexists. eexists. eexists.
  assert (P1 : pow2 1) by apply pow2_1. assert (P4 : pow2 4) by (exists 2; split; [lia|reflexivity]).
  split; [repeat constructor; cbn; auto; lia|]. split; [vm_compute; reflexivity|]. cbn [members nth_error]. do 2 (split; [reflexivity|]).
  vm_compute. repeat split; discriminate || reflexivity.
Qed.
Print Assumptions C18_overflow_refuted.
(** Refuted: struct @packed @align(16) { char a; int b; } stops the compiler on its assertion !decl->strukt.padding. *)
Theorem C18_assert_refuted : exists ms, Forall wf_member ms /\ small 16 16 ms /\ struct_layout true false false 16 ms = Violated.
Proof.
  exists [mem char_t; mem int_t].
  assert (P1 : pow2 1) by apply pow2_1. assert (P4 : pow2 4) by (exists 2; split; [lia|reflexivity]).
  split; [repeat constructor; cbn; auto; lia|]. split; [|vm_compute; reflexivity].
  split; [lia|]. split; [lia|]. split; [|vm_compute; reflexivity]. intros m [<-|[<-|[]]]; cbn; lia.
Qed.
Print Assumptions C18_assert_refuted.

(** A union is as large as its largest member, rounded up to its alignment, and its representative with the explicit
    padding is exactly as large.  Partial: the size has to fit in 32 bits. *)
Theorem C19_union_partial : forall packed g ms u, ms <> [] -> Forall wf_member ms -> wf_given g -> largest ms + union_align packed g ms < 2 ^ 32 ->
  union_layout packed g ms = Good u ->
  u_align u = union_align packed g ms /\ least_multiple (u_align u) (largest ms) (u_size u) /\
  (forall m, In m ms -> size (ty m) <= u_size u) /\
  exists rep, nth_error ms (u_rep u) = Some rep /\ size (ty rep) + u_pad u = u_size u /\ 0 <= u_pad u.
Proof.
  intros packed g ms u Hn HF HG HS H. destruct (union_good packed g ms u Hn HF HG HS H) as (A & B & _ & _ & rep & R1 & _ & R3 & R4).
  pose proof (union_align_pow2 packed g ms Hn HF HG) as P. apply pow2_pos in P. split; [exact A|]. rewrite A, B.
  pose proof (least_round (largest ms) (union_align packed g ms) P) as L. split; [exact L|]. split; [|exists rep; rewrite <- B; auto].
  intros m Hm. destruct L as (_ & L & _). etransitivity; [|exact L]. unfold largest. apply max_of_in. apply (in_map (fun m => size (ty m))). exact Hm.
Qed.
Print Assumptions C19_union_partial.
(** union { char[5] a; int b; }: eight bytes, represented by b and four bytes of padding. *)
Example C19_case : union_layout false 0 [mem (bytes_t 5); mem int_t] = Good (mkUnion 8 4 1 4 false) /\
  Forall wf_member [mem (bytes_t 5); mem int_t] /\ largest [mem (bytes_t 5); mem int_t] + union_align false 0 [mem (bytes_t 5); mem int_t] < 2 ^ 32.
Proof.
  split; [vm_compute; reflexivity|]. assert (P1 : pow2 1) by apply pow2_1. assert (P4 : pow2 4) by (exists 2; split; [lia|reflexivity]).
  split; [repeat constructor; cbn; auto; lia|vm_compute; reflexivity].
Qed.
(** Refuted without the bound: union { char[4294967295] a; int b; } has the size 0. *)
Theorem C19_overflow_refuted : exists ms u, Forall wf_member ms /\ union_layout false 0 ms = Good u /\ u_size u = 0 /\ largest ms = 2 ^ 32 - 1.
Proof.
  exists [mem (bytes_t (2 ^ 32 - 1)); mem int_t]. eexists.
  assert (P1 : pow2 1) by apply pow2_1. assert (P4 : pow2 4) by (exists 2; split; [lia|reflexivity]).
  split; [repeat constructor; cbn; auto; lia|]. split; [vm_compute; reflexivity|]. vm_compute. auto.
Qed.
Print Assumptions C19_overflow_refuted.

(** An accepted bitstruct: one range per member, inside the container, and without @overlap no bit is shared. *)
Theorem C20_bitstruct : forall bits consecutive overlap ms r, (forall m, In m ms -> 0 <= b_start m) ->
  bitstruct bits consecutive overlap [] ms = Some r ->
  length r = length ms /\ Forall (in_container bits) r /\ (overlap = false -> ForallOrdPairs apart r).
Proof.
  intros bits c ov ms r HP H. destruct (bitstruct_sound bits c ov ms [] r HP H (Forall_nil _) (fun _ => FOP_nil _)) as (A & B & C). auto.
Qed.
Print Assumptions C20_bitstruct.
(** The other way: ranges that are inside the container, no wider than the types and pairwise apart are accepted. *)
Theorem C20_accepts : forall bits ov ms r, bits <= 4096 ->
  Forall2 (fun m p => b_start m = fst p /\ b_end m = Some (snd p) /\ in_container bits p /\ snd p + 1 - fst p <= b_width m) ms r ->
  ForallOrdPairs apart r -> bitstruct bits false ov [] ms = Some r.
Proof.
  intros bits ov ms r HB F A. enough (K : forall earlier, Forall (in_container bits) earlier -> ForallOrdPairs apart (earlier ++ r) ->
    bitstruct bits false ov earlier ms = Some (earlier ++ r)) by (apply (K []); auto; constructor).
  clear A. induction F as [|m p ms r (E1 & E2 & (C1 & C2) & W) F IH]; intros earlier HE A; cbn [bitstruct]; [rewrite app_nil_r; reflexivity|].
  replace (4096 <? bits) with false by lia. unfold bit_member, bit_range. rewrite E1, E2. destruct p as [s e]. cbn [fst snd] in *.
  replace (s <? 0) with false by lia. replace (bits <=? s) with false by lia. replace (e <? 0) with false by lia. replace (bits <=? e) with false by lia.
  replace (e <? s) with false by lia. rewrite u32_id by lia. replace (b_width m <? e + 1 - s) with false by lia.
  assert (X : existsb (fun o => bits_overlap s e (fst o) (snd o)) earlier = false).
  { destruct (existsb _ _) eqn:X; [|reflexivity]. apply existsb_exists in X. destruct X as (o & Ho & X). rewrite Forall_forall in HE.
    pose proof (HE o Ho) as [D _].
    assert (AP : apart o (s, e)).
    { clear - A Ho. induction earlier as [|x l IH]; [contradiction|]. cbn [app] in A. inversion A; subst. destruct Ho as [<-|Ho]; [|auto].
      rewrite Forall_forall in H1. apply H1. apply in_or_app. right. left. reflexivity. }
    apply overlap_apart in AP; [congruence|lia|lia]. }
  rewrite X, andb_false_r. replace (earlier ++ (s, e) :: r) with ((earlier ++ [(s, e)]) ++ r) by (rewrite <- app_assoc; reflexivity).
  apply IH; [apply Forall_app; split; [auto|repeat constructor; cbn; lia]|]. rewrite <- app_assoc. exact A.
Qed.
Print Assumptions C20_accepts.
(** bitstruct : char { bool a : 0; char b : 1..3; bool c : 7; }, and what overlaps or leaves the container. *)
Example C20_case :
  bitstruct 8 false false [] [mkBit 0 None true 1; mkBit 1 (Some 3) false 8; mkBit 7 None true 1] = Some [(0, 0); (1, 3); (7, 7)] /\
  bitstruct 8 false false [] [mkBit 0 (Some 4) false 8; mkBit 4 (Some 5) false 8] = None /\
  bitstruct 8 false true [] [mkBit 0 (Some 4) false 8; mkBit 4 (Some 5) false 8] = Some [(0, 4); (4, 5)] /\
  bitstruct 8 false false [] [mkBit 6 (Some 8) false 8] = None.
Proof. vm_compute. auto. Qed.

(** The machine type of a struct has each member where the layout says, and the same size: for every struct, packed or
    not, whose members are of types without anything packed or under-aligned inside. *)
Theorem C56_struct_partial : forall packed nop bare g ms a l s, wf_given g ->
  (forall m, In m ms -> plain (snd m) /\ wf_given (fst (fst m))) -> struct_members ms = Good l -> small a g l ->
  struct_layout packed nop bare g l = Good s -> struct_agrees s.
Proof.
  intros packed nop bare g ms a l s HG HP HL HS H.
  assert (W : Forall (fun m => wf_member m /\ sound (ty m)) l).
  { apply omap_good in HL. clear - HL HP. induction HL as [|m x ms l Hm HL IH]; constructor.
    - apply bindo_good in Hm. destruct Hm as (i & Hi & Hm). injection Hm as <-. destruct (HP m (or_introl eq_refl)) as [P1 P2].
      pose proof (sound_tree _ P1 i Hi) as S. split; [split; [apply S|exact P2]|exact S].
    - apply IH. intros; apply HP; right; auto. }
  rewrite Forall_forall in W. apply (struct_agrees_ok packed nop bare g a l s); auto.
  - apply Forall_forall. intros m Hm. apply W; auto.
  - intros m Hm. apply (W m Hm).
  - intros _ m Hm. apply (W m Hm).
Qed.
Print Assumptions C56_struct_partial.
(** The same for a union: the machine type is as large as the union. *)
Theorem C56_union_partial : forall packed g ms l u, wf_given g -> l <> [] ->
  (forall m, In m ms -> plain (snd m) /\ wf_given (fst m)) -> union_members ms = Good l -> largest l + union_align packed g l < 2 ^ 32 ->
  union_layout packed g l = Good u -> union_agrees u l.
Proof.
  intros packed g ms l u HG Hn HP HL HS H.
  assert (W : Forall (fun m => wf_member m /\ sound (ty m)) l).
  { apply omap_good in HL. clear - HL HP. induction HL as [|m x ms l Hm HL IH]; constructor.
    - apply bindo_good in Hm. destruct Hm as (i & Hi & Hm). injection Hm as <-. destruct (HP m (or_introl eq_refl)) as [P1 P2].
      pose proof (sound_tree _ P1 i Hi) as S. split; [split; [apply S|exact P2]|exact S].
    - apply IH. intros; apply HP; right; auto. }
  rewrite Forall_forall in W. apply (union_agrees_ok packed g l u); auto.
  - apply Forall_forall. intros m Hm. apply W; auto.
  - intros m Hm. destruct (W m Hm) as (_ & _ & A & B & C). split; [auto|lia].
Qed.
Print Assumptions C56_union_partial.
(** And so, through any nesting, size and alignment of the machine type are what the compiler computed. *)
Theorem C56_tree_partial : forall t i, plain t -> info_of t = Good i -> ll_size i = size i /\ ll_align i = nat_align i /\ nat_align i <= align i.
Proof. intros t i P H. apply (sound_tree t P i H). Qed.
Print Assumptions C56_tree_partial.
(** struct { char a; struct @align(16) { int x; } b; union { char[5] c; int d; } e; short[3] f; } is such a type. *)
Definition nested : T := StructT false false false 0
  [(0, false, Leaf 1 1); (0, false, StructT false false false 16 [(0, false, Leaf 4 4)]);
   (0, false, UnionT false 0 [(0, Array 5 (Leaf 1 1)); (0, Leaf 4 4)]); (0, false, Array 3 (Leaf 2 2))].
Example C56_case : plain nested /\ info_of nested = Good (mkInfo 48 16 4 48 4).
Proof.
  assert (P1 : pow2 1) by apply pow2_1. assert (P2 : pow2 2) by (exists 1; split; [lia|reflexivity]).
  assert (P4 : pow2 4) by (exists 2; split; [lia|reflexivity]). assert (P16 : pow2 16) by (exists 4; split; [lia|reflexivity]).
  assert (Z0 : wf_given 0) by (left; reflexivity). assert (Z16 : wf_given 16) by (right; auto).
  split; [|vm_compute; reflexivity].
  assert (I1 : plain (StructT false false false 16 [(0, false, Leaf 4 4)])).
  { cbn [plain fst snd]. split; [reflexivity|]. split; [auto|]. split; [split; [|exact I]; split; [split; [lia|auto]|]; split; [auto|]; intros; left; reflexivity|].
    exists 16. intros l H. injection H as <-. split; [lia|]. split; [lia|]. split; [|vm_compute; reflexivity]. intros m [<-|[]]; cbn; lia. }
  assert (I2 : plain (UnionT false 0 [(0, Array 5 (Leaf 1 1)); (0, Leaf 4 4)])).
  { cbn [plain fst snd]. split; [reflexivity|]. split; [auto|].
    split; [split; [split; [split; [split; [lia|auto]|]; split; [lia|]; intros i H; injection H as <-; cbn; lia|]; split; [reflexivity|]; intros i H; injection H as <-; reflexivity|]|].
    - split; [|exact I]. split; [split; [lia|auto]|]. split; [reflexivity|]. intros i H; injection H as <-; reflexivity.
    - intros l H. injection H as <-. vm_compute. reflexivity. }
  apply plain_struct. split; [reflexivity|]. split; [auto|]. split.
  - constructor; [split; [split; [lia|auto]|]; split; [auto|]; intros; left; reflexivity|].
    constructor; [split; [exact I1|]; split; [auto|]; intros; left; reflexivity|].
    constructor; [split; [exact I2|]; split; [auto|]; intros; left; reflexivity|].
    constructor; [|constructor]. split; [|split; [auto|]; intros; left; reflexivity].
    cbn [plain]. split; [split; [lia|auto]|]. split; [lia|]. intros i H. injection H as <-. cbn. lia.
  - exists 16. intros l H. vm_compute in H. injection H as <-. split; [lia|]. split; [lia|]. split; [|vm_compute; reflexivity].
    intros m [<-|[<-|[<-|[<-|[]]]]]; cbn; lia.
Qed.
(** Refuted when a packed type is nested: in struct S { char a; P p; } with struct P @packed @align(4) { char c; int x; }
    the compiler has p at offset 4 in 12 bytes, while the machine type has it at offset 1 in 9 bytes. *)
Theorem C56_nested_packed_refuted : exists ms l s p,
  ms = [(0, false, Leaf 1 1); (0, false, StructT true false false 4 [(0, false, Leaf 1 1); (0, false, Leaf 4 4)])] /\
  struct_members ms = Good l /\ struct_layout false false false 0 l = Good s /\ nth_error (members s) 1 = Some p /\
  off p = 4 /\ ll_member_offset s 1 = 1 /\ s_size s = 12 /\ ll_struct_size (s_packed s) (struct_elems s) = 9.
Proof.
  eexists. eexists. eexists. eexists. split; [reflexivity|]. split; [vm_compute; reflexivity|]. split; [vm_compute; reflexivity|].
  split; [reflexivity|]. vm_compute. auto.
Qed.
Print Assumptions C56_nested_packed_refuted.
(** Refuted for a union with a member of an over-aligned type: union U { O o; int x; } with struct O @align(16) { char c; },
    after 13 bytes, is at offset 16 for the compiler and at offset 13 for the machine type. *)
Theorem C56_union_refuted : exists ms l s p,
  ms = [(0, false, Array 13 (Leaf 1 1)); (0, false, UnionT false 0 [(0, StructT false false false 16 [(0, false, Leaf 1 1)]); (0, Leaf 4 4)])] /\
  struct_members ms = Good l /\ struct_layout false false false 0 l = Good s /\ nth_error (members s) 1 = Some p /\
  off p = 16 /\ ll_member_offset s 1 = 13.
Proof.
  eexists. eexists. eexists. eexists. split; [reflexivity|]. split; [vm_compute; reflexivity|]. split; [vm_compute; reflexivity|].
  split; [reflexivity|]. vm_compute. auto.
Qed.
Print Assumptions C56_union_refuted.
