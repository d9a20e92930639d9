(** C31-C34: base64, base32, hexadecimal and percent encoding. *)
From Coq Require Import String.
From Coq Require Import ZArith Bool List Lia ZifyBool.
From Verif Require Import Mach CodecModel CodecSpec CodecProofs B64Proofs B32Proofs HexProofs CodecProofs2 UrlModel UrlSpec UrlProofs.
Import ListNotations.
Open Scope Z_scope.

(** ** C31 *)
(** The two alphabets the library offers, with the RFC's. *)
Definition alphabet64 (al : alphabet) (rfc : list Z) : Prop := al = b64_standard /\ rfc = rfc_base64 \/ al = b64_url /\ rfc = rfc_base64url.
(** Encoding writes exactly the RFC 4648 text, of the announced length, and returns it; the rest of the buffer is untouched. *)
Theorem C31_encode : forall al rfc src dst pad, alphabet64 al rfc -> good_padding 6 rfc pad -> Forall is_byte src -> zlen src < 2 ^ 62 -> b64_encode_len (zlen src) pad <= zlen dst ->
  let t := text 6 4 rfc pad src in
  zlen t = b64_encode_len (zlen src) pad /\ b64_encode_buffer src dst pad al = Ok (t, t ++ skipn (length t) dst).
Proof. intros al rfc src dst pad [[-> ->]|[-> ->]]; [apply (encode_ok b64_standard good_b64_standard)|apply (encode_ok b64_url good_b64_url)]. Qed.
Print Assumptions C31_encode.
Example C31_encode_ex : alphabet64 b64_standard rfc_base64 /\ good_padding 6 rfc_base64 61 /\ good_padding 6 rfc_base64 0 /\ text 6 4 rfc_base64 61 (chars "foob") = chars "Zm9vYg==".
Proof. split; [left; auto|]. split; [|split; [|vm_compute; reflexivity]]; (split; [lia|vm_compute; intuition discriminate]). Qed.
(** Decoding, of any byte string: the result is a byte string iff the input is a text for it (right padding included); otherwise it is a fault.
    No access is out of bounds. *)
Theorem C31_decode : forall al rfc src dst pad, alphabet64 al rfc -> good_padding 6 rfc pad -> Forall is_byte src -> zlen src < 2 ^ 62 ->
  match b64_decode_len (zlen src) pad with Val n => n <= zlen dst | Fault _ => True end ->
  exists o buf, b64_decode_buffer src dst pad al = Ok (o, buf) /\ zlen buf = zlen dst /\
    match o with
    | Val x => text_of 6 4 rfc pad src x /\ buf = x ++ skipn (length x) dst
    | Fault _ => forall x, ~ text_of 6 4 rfc pad src x
    end.
Proof. intros al rfc src dst pad [[-> ->]|[-> ->]] P B N D; [exact (decode_ok b64_standard good_b64_standard pad src dst P B N D)|exact (decode_ok b64_url good_b64_url pad src dst P B N D)]. Qed.
Print Assumptions C31_decode.
Example C31_decode_ex : b64_decode_buffer (chars "Zm9vYg==") (repeat 0 6) 61 b64_standard = Ok (Val (chars "foob"), chars "foob" ++ [0; 0])
  /\ b64_decode_buffer (chars "Zm9v!A==") (repeat 0 6) 61 b64_standard = Ok (Fault InvalidPadding, chars "foo" ++ [0; 0; 0]).
Proof. split; vm_compute; reflexivity. Qed.
(** What a text stands for is unique, so that this fixes the result. *)
Theorem C31_text_unique : forall al rfc pad s x y, alphabet64 al rfc -> good_padding 6 rfc pad -> text_of 6 4 rfc pad s x -> text_of 6 4 rfc pad s y -> x = y.
Proof. intros al rfc pad s x y [[-> ->]|[-> ->]] P; [exact (text_of_unique 6 4 _ _ pad s x y good_b64_standard P)|exact (text_of_unique 6 4 _ _ pad s x y good_b64_url P)]. Qed.
Print Assumptions C31_text_unique.
Theorem C31_roundtrip : forall al rfc x dst1 dst2 pad, alphabet64 al rfc -> good_padding 6 rfc pad -> Forall is_byte x -> zlen x < 2 ^ 61 -> b64_encode_len (zlen x) pad <= zlen dst1 ->
  exists t buf1, b64_encode_buffer x dst1 pad al = Ok (t, buf1) /\
    (match b64_decode_len (zlen t) pad with Val n => n <= zlen dst2 | Fault _ => False end -> exists buf2, b64_decode_buffer t dst2 pad al = Ok (Val x, buf2)).
Proof. intros al rfc x dst1 dst2 pad [[-> ->]|[-> ->]]; [apply (b64_round b64_standard good_b64_standard)|apply (b64_round b64_url good_b64_url)]. Qed.
Print Assumptions C31_roundtrip.

(** ** C32 *)
Definition alphabet32 (al : alphabet) (rfc : list Z) : Prop := al = b32_standard /\ rfc = rfc_base32 \/ al = b32_hex /\ rfc = rfc_base32hex.
Theorem C32_encode : forall al rfc src dst pad, alphabet32 al rfc -> good_padding 5 rfc pad -> Forall is_byte src -> zlen src < 2 ^ 60 -> b32_encode_len (zlen src) pad <= zlen dst ->
  let t := text 5 8 rfc pad src in
  zlen t = b32_encode_len (zlen src) pad /\ b32_encode_buffer src dst pad al = Ok (t, t ++ skipn (length t) dst).
Proof. intros al rfc src dst pad [[-> ->]|[-> ->]]; [apply (encode32_ok b32_standard good_b32_standard)|apply (encode32_ok b32_hex good_b32_hex)]. Qed.
Print Assumptions C32_encode.
Example C32_encode_ex : alphabet32 b32_standard rfc_base32 /\ good_padding 5 rfc_base32 61 /\ good_padding 5 rfc_base32 0 /\ text 5 8 rfc_base32 61 (chars "foob") = chars "MZXW6YQ=".
Proof. split; [left; auto|]. split; [|split; [|vm_compute; reflexivity]]; (split; [lia|vm_compute; intuition discriminate]). Qed.
(** Decoding is exact for texts whose padding characters are all at the end, if the destination has exactly the announced length (padded text with
    padding characters), or any sufficient length (the other cases; without padding and with one stray last character, more than sufficient).
    Missing: padding characters elsewhere, and larger destinations for padded texts: both refuted below. *)
Theorem C32_decode_partial : forall al rfc body m dst pad, alphabet32 al rfc -> good_padding 5 rfc pad -> Forall is_byte body -> ~ In pad body ->
  let src := body ++ repeat pad m in
  zlen src < 2 ^ 60 -> b32_decode_len (zlen src) pad <= zlen dst ->
  (if pad =? 0 then m = O /\ (zlen body mod 8 <> 1 \/ b32_decode_len (zlen body) pad < zlen dst)
   else zlen src mod 8 = 0 /\ (m = O \/ zlen dst = b32_decode_len (zlen src) pad)) ->
  exists o buf, b32_decode_buffer src dst pad al = Ok (o, buf) /\ zlen buf = zlen dst /\
    match o with
    | Val x => text_of 5 8 rfc pad src x /\ buf = x ++ skipn (length x) dst
    | Fault _ => forall x, ~ text_of 5 8 rfc pad src x
    end.
Proof.
  intros al rfc body m dst pad [[-> ->]|[-> ->]] P B N src L D C; [exact (decode32_ok b32_standard good_b32_standard body m dst pad P B N L D C)|exact (decode32_ok b32_hex good_b32_hex body m dst pad P B N L D C)].
Qed.
Print Assumptions C32_decode_partial.
Example C32_decode_ex : b32_decode_buffer (chars "MZXW6YQ" ++ repeat 61 1) (repeat 0 5) 61 b32_standard = Ok (Val (chars "foob"), chars "foob" ++ [0])
  /\ b32_decode_buffer (chars "MZXW6YQ") (repeat 0 7) 0 b32_standard = Ok (Val (chars "foob"), chars "foob" ++ [0; 0; 0])
  /\ b32_decode_buffer (chars "MZX") (repeat 0 7) 0 b32_standard = Ok (Fault InvalidCharacter, repeat 0 7).
Proof. vm_compute. auto. Qed.
(** Decoding an encoded text gives the bytes back, with the destination the allocating decoder uses. *)
Theorem C32_roundtrip_partial : forall al rfc x dst1 dst2 pad, alphabet32 al rfc -> good_padding 5 rfc pad -> Forall is_byte x -> zlen x < 2 ^ 58 -> b32_encode_len (zlen x) pad <= zlen dst1 ->
  exists t buf1, b32_encode_buffer x dst1 pad al = Ok (t, buf1) /\
    ((if pad =? 0 then b32_decode_len (zlen t) pad <= zlen dst2 else zlen dst2 = b32_decode_len (zlen t) pad) -> exists buf2, b32_decode_buffer t dst2 pad al = Ok (Val x, buf2)).
Proof. intros al rfc x dst1 dst2 pad [[-> ->]|[-> ->]]; [apply (b32_round b32_standard good_b32_standard)|apply (b32_round b32_hex good_b32_hex)]. Qed.
Print Assumptions C32_roundtrip_partial.
(** A valid padded text is rejected when the destination is larger than necessary. *)
Theorem C32_larger_destination_refuted : text_of 5 8 rfc_base32 61 (chars "MY======") (chars "f") /\ b32_decode_len 8 61 <= zlen (repeat 0 10)
  /\ b32_decode_buffer (chars "MY======") (repeat 0 5) 61 b32_standard = Ok (Val (chars "f"), chars "f" ++ repeat 0 4)
  /\ exists buf, b32_decode_buffer (chars "MY======") (repeat 0 10) 61 b32_standard = Ok (Fault InvalidCharacter, buf).
Proof.
  split; [|split; [vm_compute; discriminate|split; [vm_compute; reflexivity|eexists; vm_compute; reflexivity]]].
  exact (text_text_of 5 8 rfc_base32 61 [102] ltac:(lia) ltac:(constructor; [unfold is_byte; lia|constructor])).
Qed.
Print Assumptions C32_larger_destination_refuted.
(** A destination that meets the documented requirement is written out of bounds. *)
Theorem C32_out_of_bounds_refuted : b32_decode_len (zlen (chars "MZXW6YTBMZXW6=")) 61 <= zlen (repeat 0 6)
  /\ b32_decode_buffer (chars "MZXW6YTBMZXW6=") (repeat 0 6) 61 b32_standard = Oob.
Proof. vm_compute. split; [discriminate|reflexivity]. Qed.
Print Assumptions C32_out_of_bounds_refuted.
(** Texts that are not base32 are accepted: letters after padding, missing padding, a stray last character. *)
Theorem C32_garbage_refuted :
  (exists buf, b32_decode_buffer (chars "MY=A====") (repeat 0 5) 61 b32_standard = Ok (Val (chars "f"), buf))
  /\ (exists buf, b32_decode_buffer (chars "MZXW6YTBMY") (repeat 0 5) 61 b32_standard = Ok (Val (chars "fooba"), buf))
  /\ (exists buf, b32_decode_buffer (chars "MZXW6YTB!") (repeat 0 5) 0 b32_standard = Ok (Val (chars "fooba"), buf)).
Proof. repeat split; eexists; vm_compute; reflexivity. Qed.
Print Assumptions C32_garbage_refuted.

(** ** C33 *)
Theorem C33_encode : forall src dst, Forall is_byte src -> zlen src < 2 ^ 63 -> 2 * zlen src <= zlen dst ->
  hex_encode_buffer src dst = Ok (hex_text src, hex_text src ++ skipn (2 * length src) dst).
Proof. exact hex_encode_ok. Qed.
Print Assumptions C33_encode.
(** Decoding accepts exactly the texts made of hexadecimal digits. *)
Theorem C33_decode : forall src dst, Forall is_byte src -> zlen src mod 2 = 0 -> zlen src / 2 <= zlen dst ->
  exists o buf, hex_decode_buffer src dst = Ok (o, buf) /\ zlen buf = zlen dst /\
    match hex_meaning src with
    | Some x => o = Val x /\ buf = x ++ skipn (length x) dst
    | None => o = Fault InvalidCharacter
    end.
Proof. exact hex_decode_ok. Qed.
Print Assumptions C33_decode.
Example C33_ex : hex_meaning (chars "00fFa9") = Some [0; 255; 169] /\ hex_meaning (chars "0g") = None
  /\ hex_decode_buffer (chars "00fFa9") (repeat 7 4) = Ok (Val [0; 255; 169], [0; 255; 169; 7]).
Proof. vm_compute. auto. Qed.
Theorem C33_roundtrip : forall x, Forall is_byte x -> hex_meaning (hex_text x) = Some x.
Proof. exact hex_meaning_text. Qed.
Print Assumptions C33_roundtrip.
Theorem C33_lower_case : forall s x, hex_meaning s = Some x -> hex_text x = map lower_case s.
Proof.
  intros s x E. assert (exists n, length s = (2 * n)%nat) as [n Hl].
  { clear -E. revert x E. assert (forall k s, (length s <= k)%nat -> forall x, hex_meaning s = Some x -> exists n, length s = (2 * n)%nat) as H.
    { induction k as [|k IH]; intros [|a [|b r]] Hk x E; try (cbn in Hk; lia); try discriminate; try (exists 0%nat; reflexivity).
      cbn [hex_meaning] in E. destruct (hex_value a), (hex_value b); try discriminate. destruct (hex_meaning r) eqn:Er; try discriminate.
      destruct (IH r ltac:(cbn in Hk; lia) _ Er) as [n En]. exists (S n). cbn [length]. lia. }
    intros x E. exact (H _ s (le_n _) x E). }
  exact (proj1 (hex_text_meaning n s x Hl E)).
Qed.
Print Assumptions C33_lower_case.

(** ** C34 *)
Theorem C34_encode : forall m s, Forall is_byte s -> url_encode s m = Ok (url_text m s).
Proof. exact url_encode_ok. Qed.
Print Assumptions C34_encode.
Theorem C34_encode_length : forall m s, Forall is_byte s -> zlen s < 2 ^ 61 -> url_encode_len s m = zlen (url_text m s).
Proof. exact url_encode_len_ok. Qed.
Print Assumptions C34_encode_length.
(** Only kept characters, "%XX" and, in queries, "+". *)
Theorem C34_encoded_characters : forall m s c, Forall is_byte s -> In c (url_text m s) -> kept m c = true \/ c = 37 \/ c = 43 /\ m = QUERY.
Proof.
  intros m s c Hb I. unfold url_text in I. apply in_flat_map in I as (b & Ib & I). rewrite Forall_forall in Hb. specialize (Hb b Ib). unfold is_byte in Hb.
  assert (K : In c [37; upper_hex (b / 16); upper_hex (b mod 16)] -> kept m c = true \/ c = 37 \/ c = 43 /\ m = QUERY).
  { assert (U : forall d, 0 <= d < 16 -> kept m (upper_hex d) = true).
    { intros d Hd. unfold kept, unreserved. replace (letter_or_digit (upper_hex d)) with true; [reflexivity|]. unfold upper_hex, letter_or_digit. destruct (Z.ltb_spec d 10); lia. }
    intros [<-|[<-|[<-|[]]]]; [auto|left; apply U|left; apply U].
    - split; [apply Z.div_pos|apply Z.div_lt_upper_bound]; lia.
    - apply Z.mod_pos_bound. lia. }
  assert (S : kept m b = true -> In c [b] -> kept m c = true \/ c = 37 \/ c = 43 /\ m = QUERY) by (intros Ek [<-|[]]; auto).
  destruct m; cbn [url_char] in I; try (destruct (b =? 32); [destruct I as [<-|[]]; auto|]); destruct (kept _ b) eqn:Ek; auto.
Qed.
Print Assumptions C34_encoded_characters.
(** Decoding any string: its meaning, or a fault if there is none. *)
Theorem C34_decode : forall m s, Forall is_byte s -> zlen s < 2 ^ 62 ->
  url_decode s m = Ok (url_meaning m s) /\ url_decode_len s m = Ok (option_map zlen (url_meaning m s)).
Proof. intros m s B N. split; [apply url_decode_ok; assumption|apply url_decode_len_ok; assumption]. Qed.
Print Assumptions C34_decode.
Theorem C34_roundtrip : forall m s, Forall is_byte s -> zlen s < 2 ^ 60 -> exists t, url_encode s m = Ok t /\ url_decode t m = Ok (Some s).
Proof.
  intros m s B N. exists (url_text m s). split; [apply url_encode_ok, B|]. pose proof (zlen_nonneg s). destruct (enc_count_ok m s 0 B ltac:(lia) ltac:(lia)) as (_ & _ & L).
  rewrite url_decode_ok; [rewrite url_round by exact B; reflexivity| |lia].
  apply Forall_forall. intros c I. unfold is_byte. destruct (C34_encoded_characters m s c B I) as [K|[->|[-> _]]]; try lia.
  unfold kept, unreserved, letter_or_digit in K. apply orb_prop in K as [K|K].
  - apply orb_prop in K as [K|K]; [lia|]. apply existsb_exists in K as (z & Iz & Ez). apply Z.eqb_eq in Ez. subst z. vm_compute in Iz. intuition lia.
  - apply existsb_exists in K as (z & Iz & Ez). apply Z.eqb_eq in Ez. subst z. destruct m; vm_compute in Iz; intuition lia.
Qed.
Print Assumptions C34_roundtrip.
Example C34_ex : url_encode (chars "a b+c%") QUERY = Ok (chars "a+b%2Bc%25") /\ url_encode (chars "a b+c%") PATH = Ok (chars "a%20b+c%25")
  /\ url_decode (chars "a+b%2bc%25") QUERY = Ok (Some (chars "a b+c%")) /\ url_decode (chars "a%2") QUERY = Ok None.
Proof. vm_compute. auto. Qed.
