(** C122, C123, C124: Internet addresses. *)
From Coq Require Import String Ascii ZArith List Bool Lia.
From Coq Require Import ZifyBool.
From Verif Require Import Word Mach InetModel InetSpec InetProofs InetProofs2 InetProofs3.
From Verif Require StrThms.
Import ListNotations.
Open Scope Z_scope.
Notation tx := StrThms.tx.

(** C122: a text without a run of ten or more digits is accepted exactly if it is four decimal numbers up to 255 separated by dots, and the
    address is the one it denotes. *)
Theorem C122_ipv4_text_partial s x : short_runs 10 digit s ->
  (ipv4_from_str s = Some x <-> exists a b c d, v4_text s a b c d /\ x = v4inet a b c d).
Proof. intros Hs. split; [apply v4_sound; assumption|]. intros (a & b & c & d & H & ->). apply v4_complete; assumption. Qed.
Example C122_text_ex : short_runs 10 digit (tx "192.168.000.17") /\ ipv4_from_str (tx "192.168.000.17") = Some (v4inet 192 168 0 17) /\ ipv4_from_str (tx "1.2.3") = None /\ ipv4_from_str (tx "1.2.3.256") = None /\ ipv4_from_str (tx "1..2.3") = None.
Proof.
  split; [|repeat split; vm_compute; reflexivity].
  change (tx "192.168.000.17") with (tx "192" ++ 46 :: tx "168" ++ 46 :: tx "000" ++ 46 :: tx "17").
  repeat (apply short_runs_cut; [cbn; lia|unfold digit; lia|]). apply short_runs_one. cbn; lia.
Qed.
(** With longer runs the numbers wrap, and texts that denote no address are accepted. *)
Theorem C122_long_numbers_refuted : ipv4_from_str (tx "4294967297.0.0.1") = Some (v4inet 1 0 0 1) /\ ~ exists a b c d, v4_text (tx "4294967297.0.0.1") a b c d.
Proof.
  split; [vm_compute; reflexivity|]. intros (a & b & c & d & la & lb & lc & ld & E & (na & da & va & ba) & _).
  change (tx "4294967297.0.0.1") with (tx "4294967297" ++ 46 :: tx "0.0.1") in E.
  destruct (app_eq_app _ _ _ _ E) as (t & [(E1 & E2)|(E1 & E2)]).
  - destruct t as [|c0 t]; [rewrite app_nil_r in E1; subst la; vm_compute in va; lia|]. injection E2 as <- _.
    assert (In 46 (tx "4294967297")) by (rewrite E1; apply in_or_app; right; left; reflexivity). cbn in H. repeat destruct H as [H|H]; try discriminate H. exact H.
  - subst la. destruct t as [|c0 t]; [rewrite app_nil_r in va; vm_compute in va; lia|]. injection E2 as <- _. apply Forall_app in da. destruct da as (_ & da). apply Forall_inv in da. unfold digit in da. lia.
Qed.
(** Every IPv4 address is read back from its own text. *)
Theorem C122_ipv4_round_trip a b c d : 0 <= a <= 255 -> 0 <= b <= 255 -> 0 <= c <= 255 -> 0 <= d <= 255 ->
  v4_text (to_string (v4inet a b c d)) a b c d /\ ipv4_from_str (to_string (v4inet a b c d)) = Some (v4inet a b c d).
Proof. intros. split; [apply v4_print; assumption|apply v4_round; assumption]. Qed.
Example C122_round_ex : to_string (v4inet 10 0 200 99) = tx "10.0.200.99".
Proof. vm_compute. reflexivity. Qed.
Print Assumptions C122_ipv4_text_partial.
Print Assumptions C122_ipv4_round_trip.

(** C123: reading an IPv6 text never leaves the eight groups, whatever the bytes. *)
Theorem C123_in_bounds s : match ipv6_from_str s with Ok None => True | Ok (Some x) => is_ipv6 x = true /\ zlen (groups x) = 8 | _ => False end.
Proof. exact (v6_safe s). Qed.
(** Every text of RFC 4291 whose :: stands for at least two groups is accepted and gives the address it denotes. *)
Theorem C123_accepts_partial s gs : v6_text 2 s gs -> ipv6_from_str s = Ok (Some (Inet true gs)).
Proof. exact (v6_complete s gs). Qed.
Example C123_accepts_ex : v6_text 2 (tx "2001:dB8::ff00:42") [0x2001; 0xdb8; 0; 0; 0; 0; 0xff00; 0x42] /\ ipv6_from_str (tx "2001:dB8::ff00:42") = Ok (Some (Inet true [0x2001; 0xdb8; 0; 0; 0; 0; 0xff00; 0x42])).
Proof.
  split; [|vm_compute; reflexivity]. right. exists [tx "2001"; tx "dB8"], [tx "ff00"; tx "42"], [0x2001; 0xdb8], [0xff00; 0x42], 4%nat.
  split; [reflexivity|]. split; [|split; [|split; [reflexivity|split; [lia|reflexivity]]]]; repeat constructor; cbn; try lia; try discriminate.
Qed.
(** A :: for a single group is refused. *)
Theorem C123_accepts_refuted : exists s gs, v6_text 1 s gs /\ ipv6_from_str s = Ok None.
Proof.
  exists (tx "1:2:3:4:5:6:7::"), [1; 2; 3; 4; 5; 6; 7; 0]. split; [|vm_compute; reflexivity]. right.
  exists [tx "1"; tx "2"; tx "3"; tx "4"; tx "5"; tx "6"; tx "7"], [], [1; 2; 3; 4; 5; 6; 7], [], 1%nat.
  split; [reflexivity|]. split; [|split; [|split; [reflexivity|split; [lia|reflexivity]]]]; repeat constructor; cbn; try lia; try discriminate.
Qed.
(** A text of bytes with no run of more than four digits and no lone colon at its start or end is accepted only if it is a text of an address,
    and the address is the one it denotes. *)
Theorem C123_only_addresses_partial s x : Forall byte s -> short_runs 5 hexes s -> ~ lone_colon_at_end s ->
  ipv6_from_str s = Ok (Some x) -> exists gs, v6_text 2 s gs /\ x = Inet true gs.
Proof. exact (v6_sound s x). Qed.
Example C123_only_ex : Forall byte (tx "fe80::1:2") /\ short_runs 5 hexes (tx "fe80::1:2") /\ ~ lone_colon_at_end (tx "fe80::1:2") /\ ipv6_from_str (tx "fe80::1:2") = Ok (Some (Inet true [0xfe80; 0; 0; 0; 0; 0; 1; 2])).
Proof.
  split; [apply Forall_forall; intros x Hx; cbn in Hx; unfold byte; repeat destruct Hx as [<-|Hx]; try lia; destruct Hx|].
  split; [|split; [|vm_compute; reflexivity]].
  - change (tx "fe80::1:2") with (tx "fe80" ++ 58 :: [] ++ 58 :: tx "1" ++ 58 :: tx "2").
    repeat (apply short_runs_cut; [cbn; lia|unfold hexes; cbn; congruence|]). apply short_runs_one. cbn; lia.
  - intros [(c & r & E & _)|(c & r & E & _)]; [discriminate E|]. apply (f_equal (@rev Z)) in E. rewrite rev_app_distr in E. discriminate E.
Qed.
(** Without these conditions texts that denote no address are accepted: a lone colon at the start or end, five digits, numbers that wrap. *)
Theorem C123_only_addresses_refuted :
  let acc s := exists x, ipv6_from_str (tx s) = Ok (Some x) /\ ~ exists gs, v6_text 1 (tx s) gs in
  acc ":1:2:3:4:5:6:7:8"%string /\ acc "1:2:3:4:5:6:7:8:"%string /\ acc "1::2:"%string.
Proof.
  assert (C : forall L, Forall2 hextet L (map hex_value L) -> Forall (fun g => Forall (fun c => c <> 58) g) L) by (intros L H; apply values_filled in H; apply filled_no_colon, H).
  assert (NC : forall s, lone_colon_at_end s -> ~ exists gs, v6_text 1 s gs).
  { intros s HL (gs & [(L & -> & HF & Hlen)|(l & r & gl & gr & k & -> & Hl & Hr & _)]).
    - apply values_filled in HF. destruct HF as (HF & ->). rewrite map_length in Hlen. destruct HL as [(c & t & E & Hc)|(c & t & E & Hc)].
      + destruct L as [|g L]; [discriminate|]. pose proof (Forall_inv HF) as (Hn & Hh & _). destruct g as [|c0 g]; [congruence|]. apply Forall_inv in Hh. destruct (hexes_spec c0 Hh) as (_ & _ & _ & _ & _ & Hne). destruct L; injection E; congruence.
      + assert (Hn : L <> []) by (destruct L; discriminate). destruct (exists_last Hn) as (L' & g & ->). apply Forall_app in HF. destruct HF as (_ & HF). apply Forall_inv in HF. destruct HF as (Hng & Hh & _).
        destruct (exists_last Hng) as (g' & c0 & ->). apply Forall_app in Hh. destruct Hh as (_ & Hh). apply Forall_inv in Hh. destruct (hexes_spec c0 Hh) as (_ & _ & _ & _ & _ & Hne).
        assert (K : exists y, colon_sep (L' ++ [g' ++ [c0]]) = y ++ [c0]).
        { destruct L' as [|h L']; [exists g'; reflexivity|]. exists (colon_sep (h :: L') ++ 58 :: g'). rewrite colon_sep_app by discriminate. rewrite <- app_assoc. reflexivity. }
        destruct K as (y & K). rewrite K in E. change [c; 58] with ([c] ++ [58]) in E. rewrite app_assoc in E. apply app_inj_tail in E. destruct E as (_ & E). congruence.
    - apply values_filled in Hl. destruct Hl as (Hl & _). apply values_filled in Hr. destruct Hr as (Hr & _). destruct HL as [(c & t & E & Hc)|(c & t & E & Hc)].
      + destruct l as [|g l]; [injection E; congruence|]. pose proof (Forall_inv Hl) as (Hn & Hh & _). destruct g as [|c0 g]; [congruence|]. apply Forall_inv in Hh. destruct (hexes_spec c0 Hh) as (_ & _ & _ & _ & _ & Hne). destruct l; injection E; congruence.
      + destruct r as [|g0 r0] eqn:Er.
        * cbn [colon_sep] in E. apply app_inv_tail_iff in E || idtac. change (58 :: 58 :: []) with ([58] ++ [58]) in E. change [c; 58] with ([c] ++ [58]) in E. rewrite !app_assoc in E. apply app_inj_tail in E. destruct E as (E & _). apply app_inj_tail in E. destruct E as (_ & E). congruence.
        * rewrite <- Er in *. assert (Hn : r <> []) by (subst r; discriminate). destruct (exists_last Hn) as (L' & g & ->). apply Forall_app in Hr. destruct Hr as (_ & HF). apply Forall_inv in HF. destruct HF as (Hng & Hh & _).
          destruct (exists_last Hng) as (g' & c0 & ->). apply Forall_app in Hh. destruct Hh as (_ & Hh). apply Forall_inv in Hh. destruct (hexes_spec c0 Hh) as (_ & _ & _ & _ & _ & Hne).
          assert (K : exists y, colon_sep (L' ++ [g' ++ [c0]]) = y ++ [c0]).
          { destruct L' as [|h L']; [exists g'; reflexivity|]. exists (colon_sep (h :: L') ++ 58 :: g'). rewrite colon_sep_app by discriminate. rewrite <- app_assoc. reflexivity. }
          destruct K as (y & K). rewrite K in E. change [c; 58] with ([c] ++ [58]) in E. change (colon_sep l ++ 58 :: 58 :: y ++ [c0]) with (colon_sep l ++ (58 :: 58 :: y) ++ [c0]) in E. rewrite !app_assoc in E. apply app_inj_tail in E. destruct E as (_ & E). congruence. }
  cbn zeta. repeat match goal with |- _ /\ _ => split end; (eexists; split; [vm_compute; reflexivity|apply NC]).
  - left. eexists 49, _. split; [reflexivity|lia].
  - right. exists 56, (tx "1:2:3:4:5:6:7:"). split; [reflexivity|lia].
  - right. exists 50, (tx "1::"). split; [reflexivity|lia].
Qed.
Theorem C123_long_groups_refuted : ipv6_from_str (tx "100000001::2") = Ok (Some (Inet true [1; 0; 0; 0; 0; 0; 0; 2])) /\ ipv6_from_str (tx "00001::2") = Ok (Some (Inet true [1; 0; 0; 0; 0; 0; 0; 2])).
Proof. split; vm_compute; reflexivity. Qed.
(** Every IPv6 address is read back from its own text. *)
Theorem C123_ipv6_round_trip g : length g = 8%nat -> Forall (fun v => 0 <= v < 65536) g ->
  v6_text 2 (to_string (Inet true g)) g /\ ipv6_from_str (to_string (Inet true g)) = Ok (Some (Inet true g)).
Proof. intros. split; [apply v6_print; assumption|apply v6_round; assumption]. Qed.
Example C123_round_ex : to_string (Inet true [0xfe80; 0; 0; 0; 1; 2; 3; 0xabcd]) = tx "fe80:0000:0000:0000:0001:0002:0003:abcd".
Proof. vm_compute. reflexivity. Qed.
Print Assumptions C123_in_bounds.
Print Assumptions C123_accepts_partial.
Print Assumptions C123_only_addresses_partial.
Print Assumptions C123_ipv6_round_trip.

(** C124: the class of every IPv4 address is that of its block. *)
Ltac Zify.zify_post_hook ::= Z.to_euclidean_division_equations.
Theorem C124_ipv4_classes a b c d : 0 <= a <= 255 -> 0 <= b <= 255 -> 0 <= c <= 255 -> 0 <= d <= 255 ->
  let x := v4inet a b c d in let n := v4 a b c d in
  (is_loopback x = true <-> in_block 32 8 (v4 127 0 0 0) n) /\
  (is_any_local x = true <-> n = 0) /\
  (is_link_local x = true <-> in_block 32 16 (v4 169 254 0 0) n) /\
  (is_site_local x = true <-> in_block 32 8 (v4 10 0 0 0) n \/ in_block 32 12 (v4 172 16 0 0) n \/ in_block 32 16 (v4 192 168 0 0) n) /\
  (is_multicast x = true <-> in_block 32 4 (v4 224 0 0 0) n) /\
  (is_multicast_global x = true <-> v4 224 0 1 0 <= n <= v4 238 255 255 255) /\
  (is_multicast_node_local x = false) /\
  (is_multicast_site_local x = true <-> in_block 32 16 (v4 239 255 0 0) n) /\
  (is_multicast_org_local x = true <-> in_block 32 14 (v4 239 192 0 0) n) /\
  (is_multicast_link_local x = true <-> in_block 32 24 (v4 224 0 0 0) n).
Proof.
  intros Ha Hb Hc Hd x n. destruct (v4_fields a b c d Ha Hb Hc Hd) as (E1 & E2 & E3 & E4). fold x in E1, E2, E3, E4.
  assert (Ev : v4val x = n) by (unfold v4val; rewrite E1, E2, E3, E4; reflexivity).
  assert (Hn : 0 <= n < 2 ^ 32) by (unfold n, v4; change (2 ^ 32) with 4294967296; change (2 ^ 24) with 16777216; change (2 ^ 16) with 65536; change (2 ^ 8) with 256; lia).
  unfold is_loopback, is_any_local, is_link_local, is_site_local, is_multicast, is_multicast_global, is_multicast_node_local, is_multicast_site_local, is_multicast_org_local, is_multicast_link_local.
  change (is_ipv6 x) with false. cbn [negb]. rewrite E1, E2, E3, Ev, land_f0, land_top by assumption. unfold in_block. clear Ev E1 E2 E3 E4 x. unfold n, v4 in *. clear n.
  change (2 ^ (32 - 8)) with 16777216. change (2 ^ (32 - 16)) with 65536. change (2 ^ (32 - 12)) with 1048576. change (2 ^ (32 - 4)) with 268435456. change (2 ^ (32 - 14)) with 262144. change (2 ^ (32 - 24)) with 256.
  change (2 ^ 28) with 268435456. change (2 ^ 24) with 16777216 in *. change (2 ^ 16) with 65536 in *. change (2 ^ 8) with 256 in *. clear Hn.
  repeat match goal with |- _ /\ _ => split end; lia.
Qed.
Example C124_ipv4_ex : is_site_local (v4inet 172 31 5 6) = true /\ is_site_local (v4inet 172 32 0 0) = false /\ is_multicast (v4inet 239 1 2 3) = true /\ in_block 32 12 (v4 172 16 0 0) (v4 172 31 5 6).
Proof. repeat split. Qed.
(** IPv6: only the loopback and the unspecified address are told right; link-local and multicast addresses are never recognised. *)
Theorem C124_ipv6_classes_partial g : length g = 8%nat -> Forall (fun v => 0 <= v < 65536) g ->
  (is_loopback (Inet true g) = true <-> g = [0; 0; 0; 0; 0; 0; 0; 1]) /\ (is_any_local (Inet true g) = true <-> g = [0; 0; 0; 0; 0; 0; 0; 0]).
Proof.
  intros Hl Hg. destruct g as [|g0 [|g1 [|g2 [|g3 [|g4 [|g5 [|g6 [|g7 [|g8 g]]]]]]]]]; try discriminate Hl.
  repeat match goal with H : Forall _ (_ :: _) |- _ => pose proof (Forall_inv H); apply Forall_inv_tail in H end. cbv beta in *.
  unfold is_loopback, is_any_local. cbn [is_ipv6]. unfold v6val. cbn [groups fold_left]. rewrite !Z.eqb_eq.
  split; split; intros H'; try (injection H'; intros; subst; reflexivity); repeat f_equal; lia.
Qed.
Theorem C124_ipv6_classes_refuted : forall g, length g = 8%nat -> Forall (fun v => 0 <= v < 65536) g ->
  (in_block 16 10 0xfe80 (nth 0 g 0) -> is_link_local (Inet true g) = false) /\ (in_block 16 8 0xff00 (nth 0 g 0) -> is_multicast (Inet true g) = false) /\
  (in_block 16 10 0xfec0 (nth 0 g 0) -> is_site_local (Inet true g) = false).
Proof.
  intros g _ _. unfold in_block, is_link_local, is_multicast, is_site_local. cbn [is_ipv6]. unfold group. cbn [groups].
  change (2 ^ (16 - 10)) with 64. change (2 ^ (16 - 8)) with 256. generalize (nth 0 g 0). intros v. repeat match goal with |- _ /\ _ => split end; intros H.
  - replace (v =? 0xfa) with false by lia. reflexivity.
  - lia.
  - replace (v =? 0xfe) with false by lia. reflexivity.
Qed.
Example C124_ipv6_ex : in_block 16 8 0xff00 0xff02 /\ is_multicast (Inet true [0xff02; 0; 0; 0; 0; 0; 0; 1]) = false /\ is_loopback (Inet true [0; 0; 0; 0; 0; 0; 0; 1]) = true.
Proof. repeat split. Qed.
Print Assumptions C124_ipv4_classes.
Print Assumptions C124_ipv6_classes_partial.
