(** QOI codec: the properties (lib/std/compression/qoi.c3). *)
From Coq Require Import ZArith Bool List Lia.
From Verif Require Import QoiModel QoiSpec QoiProofs.
Import ListNotations.
Open Scope Z_scope.

(** ** C68: what is encoded is decoded *)

(** Every RGB or RGBA image of up to 400 million pixels is encoded, and decoding the result gives back the
    description and exactly the pixels, in the file's channels or in those asked for. *)
Theorem C68_roundtrip_partial d ps channels :
  describes d ps -> small_image d -> channels = 0 \/ channels = 3 \/ channels = 4 ->
  exists data, encode (image_bytes (dchannels d) ps) d = QOk data /\
               decode data channels = QOk (d, image_bytes (asked channels d) ps).
Proof.
  intros HD Hs _. destruct (encode_spec d ps HD Hs) as [He _]. eexists. split; [exact He|].
  destruct HD as (Hw & Hh & Hc & Hcs & Hlen & HF). pose proof (px_ok_bytes _ _ HF) as HB.
  pose proof (stream_meaning upd_c ps upd_self HB) as Hm.
  rewrite (decode_file d (stream_of ps)); rewrite ?Hm; try reflexivity; try assumption; try lia.
  - apply header_file; lia.
  - apply encs_ok; [exact HB|lia].
Qed.
Print Assumptions C68_roundtrip_partial.

(** what is refused, when the number of pixels fits 32 bits *)
Theorem C68_refuses_partial input d :
  0 <= dwidth d -> 0 <= dheight d -> dwidth d * dheight d < 2 ^ 32 -> dchannels d = 0 \/ dchannels d = 3 \/ dchannels d = 4 ->
  (dwidth d = 0 \/ dheight d = 0 \/ dchannels d = 0 -> encode input d = QFault INVALID_PARAMETERS) /\
  (dwidth d <> 0 -> dheight d <> 0 -> dchannels d <> 0 ->
     (dwidth d * dheight d > 400000000 -> encode input d = QFault TOO_MANY_PIXELS) /\
     (dwidth d * dheight d <= 400000000 ->
        Z.of_nat (length input) <> dwidth d * dheight d * dchannels d -> encode input d = QFault INVALID_DATA)).
Proof.
  intros Hw Hh Hp Hc. unfold encode. split.
  - intros H. destruct (Z.eqb_spec (dwidth d) 0); [reflexivity|]. destruct (Z.eqb_spec (dheight d) 0); [reflexivity|].
    cbn [orb]. destruct (Z.eqb_spec (dchannels d) 0); [reflexivity|]. tauto.
  - intros Hw0 Hh0 Hc0. apply Z.eqb_neq in Hw0, Hh0, Hc0. rewrite Hw0, Hh0, Hc0. cbn [orb]. cbv zeta.
    assert (Hpos : 0 <= dwidth d * dheight d) by (apply Z.mul_nonneg_nonneg; assumption).
    unfold u32. change (2 ^ 32) with 4294967296 in Hp. rewrite !(Z.mod_small (dwidth d * dheight d) 4294967296) by lia. unfold PIXELS_MAX. split.
    + intros H. destruct (Z.ltb_spec 400000000 (dwidth d * dheight d)); [reflexivity|lia].
    + intros H Hn. destruct (Z.ltb_spec 400000000 (dwidth d * dheight d)); [lia|].
      rewrite (Z.mod_small (dwidth d * dheight d * dchannels d) 4294967296) by lia. unfold zlen.
      destruct (Z.eqb_spec (dwidth d * dheight d * dchannels d) (Z.of_nat (length input))); [lia|reflexivity].
Qed.
Print Assumptions C68_refuses_partial.

(** The number of pixels wraps at 2^32 in encode: an image said to be 641 x 6700417 (2^32 + 1 pixels) is accepted
    with the bytes of a single pixel, and the file produced cannot be decoded. *)
Theorem C68_wrap_refuted :
  exists d input data, dwidth d * dheight d * dchannels d > Z.of_nat (length input) /\
    encode input d = QOk data /\ decode data 0 = QFault TOO_MANY_PIXELS.
Proof.
  exists (Desc 641 6700417 3 0), [1; 2; 3],
    [113; 111; 105; 102; 0; 0; 2; 129; 0; 102; 61; 129; 3; 0; 162; 121; 0; 0; 0; 0; 0; 0; 0; 1].
  split; [reflexivity|]. split; vm_compute; reflexivity.
Qed.
Print Assumptions C68_wrap_refuted.

(** ** C69: the files are QOI files *)

(** The encoder's output is a QOI file with the image's header, made of valid chunks, never two equal index chunks
    in a row, whose meaning is the image; it is at most 22 + pixels * (channels + 1) bytes. *)
Theorem C69_encoder_conforms d ps :
  describes d ps -> small_image d ->
  exists data cs, encode (image_bytes (dchannels d) ps) d = QOk data /\ file d cs data /\
    Forall chunk_ok cs /\ no_double_index cs /\ pixels_of cs = ps /\
    Z.of_nat (length data) <= 22 + (dchannels d + 1) * (dwidth d * dheight d).
Proof.
  intros HD Hs. destruct (encode_spec d ps HD Hs) as [He Hz]. eexists _, (stream_of ps). split; [exact He|].
  destruct HD as (Hw & Hh & Hc & Hcs & Hlen & HF). pose proof (px_ok_bytes _ _ HF) as HB.
  split; [apply header_file; lia|]. split; [apply encs_ok; [exact HB|lia]|]. split; [apply encs_no_double|].
  split; [|exact Hz]. unfold pixels_of. rewrite meaning_true. apply stream_meaning; [apply upd_true|exact HB].
Qed.
Print Assumptions C69_encoder_conforms.

(** The decoder gives a QOI file its meaning, if the file does not begin with a run and every index chunk
    refers to a recorded pixel. *)
Theorem C69_decoder_conforms_partial d cs data channels :
  file d cs data -> Forall chunk_ok cs -> index_seen start_px nothing_seen cs -> run_first cs = false ->
  0 < dwidth d -> 0 < dheight d -> (dchannels d = 3 \/ dchannels d = 4) -> (dcolorspace d = 0 \/ dcolorspace d = 1) ->
  small_image d -> Z.of_nat (length (pixels_of cs)) = dwidth d * dheight d ->
  decode data channels = QOk (d, image_bytes (asked channels d) (pixels_of cs)).
Proof.
  intros Hf Hc Hi Hr Hw Hh Hch Hcs Hs Hl. rewrite (pixels_agree cs Hi Hr) in *. apply decode_file; assumption.
Qed.
Print Assumptions C69_decoder_conforms_partial.

(** A run at the beginning is not recorded: a run of the start pixel, another pixel and an index chunk to the start
    pixel's slot are three opaque pixels; the decoder returns a transparent one last. *)
Theorem C69_decoder_conforms_refuted :
  exists d cs data, file d cs data /\ Forall chunk_ok cs /\ no_double_index cs /\
    small_image d /\ Z.of_nat (length (pixels_of cs)) = dwidth d * dheight d /\
    image_bytes 4 (pixels_of cs) = [0; 0; 0; 255; 9; 8; 7; 255; 0; 0; 0; 255] /\
    decode data 0 = QOk (d, [0; 0; 0; 255; 9; 8; 7; 255; 0; 0; 0; 0]).
Proof.
  exists (Desc 3 1 4 0), [CRun 1; CRgb 9 8 7; CIndex 53],
    ([113; 111; 105; 102; 0; 0; 0; 3; 0; 0; 0; 1; 4; 0; 192; 254; 9; 8; 7; 53; 0; 0; 0; 0; 0; 0; 0; 1]).
  split. { exists 0, 0, 0, 3, 0, 0, 0, 1. unfold byte, number4. cbn [dwidth dheight]. repeat (split; [lia|]). reflexivity. }
  split. { repeat (constructor; [unfold chunk_ok, byte; lia|]). constructor. }
  split. { exact I. }
  split. { unfold small_image. cbn. lia. }
  split; [vm_compute; reflexivity|]. split; vm_compute; reflexivity.
Qed.
Print Assumptions C69_decoder_conforms_refuted.

(** ** C70: decoding arbitrary data *)

(** Data with at least five bytes per pixel announced in the header is never read outside; whatever is returned has
    exactly width * height * channels bytes and the description that is in the header. *)
Theorem C70_decode_safe_partial data channels :
  Forall byte data -> channels = 0 \/ channels = 3 \/ channels = 4 ->
  (decode data channels = QOob -> Z.of_nat (length data) < 14 + 5 * (hdr_width data * hdr_height data)) /\
  (forall d img, decode data channels = QOk (d, img) ->
     dwidth d = hdr_width data /\ dheight d = hdr_height data /\ small_image d /\
     0 < dwidth d /\ 0 < dheight d /\ (dchannels d = 3 \/ dchannels d = 4) /\
     Z.of_nat (length img) = dwidth d * dheight d * asked channels d).
Proof.
  intros HB Hch.
  destruct (Z.ltb_spec (zlen data) 22) as [Hl|Hl].
  { unfold decode. change (HEADER_SIZE + zlen END_OF_STREAM) with 22.
    apply Z.ltb_lt in Hl. rewrite Hl. split; discriminate. }
  assert (Hr : forall i, 0 <= nth i data 0 <= 255).
  { intros i. destruct (nth_in_or_default i data 0) as [Hin| ->]; [|lia]. rewrite Forall_forall in HB. exact (HB _ Hin). }
  assert (Ew : read_be32 (firstn 4 (skipn 4 data)) = hdr_width data /\ read_be32 (firstn 4 (skipn 8 data)) = hdr_height data).
  { do 22 (destruct data as [|? data]; [unfold zlen in Hl; cbn [length] in Hl; lia|]). cbn [firstn skipn].
    rewrite !read_be32_number. split; reflexivity. }
  destruct Ew as [Ew Eh].
  assert (Hw0 : 0 <= hdr_width data).
  { unfold hdr_width, number4. pose proof (Hr 4%nat). pose proof (Hr 5%nat). pose proof (Hr 6%nat). pose proof (Hr 7%nat). lia. }
  assert (Hh0 : 0 <= hdr_height data).
  { unfold hdr_height, number4. pose proof (Hr 8%nat). pose proof (Hr 9%nat). pose proof (Hr 10%nat). pose proof (Hr 11%nat). lia. }
  destruct (decode_inv data channels Hch) as [[f Hf]|(A & B & C & D & E & Hd)].
  { rewrite Hf. split; discriminate. }
  rewrite Ew, Eh in *. set (w := hdr_width data) in *. set (h := hdr_height data) in *.
  set (dd := Desc w h (nth 12 data 0) (nth 13 data 0)) in *.
  assert (Ha : asked channels dd = 3 \/ asked channels dd = 4).
  { unfold asked. cbn [dchannels dd]. destruct Hch as [->|[->| ->]]; cbn; tauto. }
  assert (HP : 0 <= w * h) by (apply Z.mul_nonneg_nonneg; assumption).
  rewrite Hd. split.
  - intros Ho. destruct (Z.lt_ge_cases (Z.of_nat (length data)) (14 + 5 * (w * h))) as [|Hge]; [assumption|exfalso].
    destruct (dec_loop_safe (asked channels dd) data (Z.to_nat (w * h)) Ha HEADER_SIZE (Px 0 0 0 255) pal0 0) as (img & Hi & _).
    + unfold HEADER_SIZE. lia.
    + unfold HEADER_SIZE, zlen. lia.
    + rewrite Hi in Ho. discriminate.
  - intros d img. destruct (dec_loop _ _ _ _ _ _ _) as [img'| |] eqn:EL; try discriminate.
    intros [= <- <-]. pose proof (dec_loop_len _ _ _ Ha _ _ _ _ _ EL) as HL. cbn [dwidth dheight dchannels dd].
    split; [reflexivity|]. split; [reflexivity|]. split; [unfold small_image; cbn; unfold PIXELS_MAX in C; lia|].
    split; [lia|]. split; [lia|]. split; [exact D|]. unfold zlen in HL. lia.
Qed.
Print Assumptions C70_decode_safe_partial.

(** Truncated data is not refused: decoding a 100 x 1 file whose chunks are missing reads past the end. *)
Theorem C70_truncated_refuted :
  exists data, Forall byte data /\ decode data 0 = QOob /\
    exists d cs, file d cs data /\ Forall chunk_ok cs /\ small_image d /\
      Z.of_nat (length (pixels_of cs)) < dwidth d * dheight d.
Proof.
  exists ([113; 111; 105; 102; 0; 0; 0; 100; 0; 0; 0; 1; 3; 0; 254; 1; 2; 3; 0; 0; 0; 0; 0; 0; 0; 1]).
  split. { repeat (constructor; [unfold byte; lia|]). constructor. }
  split; [vm_compute; reflexivity|].
  exists (Desc 100 1 3 0), [CRgb 1 2 3].
  split. { exists 0, 0, 0, 100, 0, 0, 0, 1. unfold byte, number4. cbn [dwidth dheight]. repeat (split; [lia|]). reflexivity. }
  split. { repeat (constructor; [unfold chunk_ok, byte; lia|]). constructor. }
  split; [unfold small_image; cbn; lia|]. vm_compute. reflexivity.
Qed.
Print Assumptions C70_truncated_refuted.

(** ** Non-vacuity: a 2 x 4 RGBA image using every kind of chunk *)
Definition demo_px : list px :=
  [Px 0 0 0 255; Px 0 0 0 255; Px 1 0 255 255; Px 20 15 10 255; Px 200 100 50 255; Px 200 100 50 7; Px 1 0 255 255; Px 1 0 255 255].
Definition demo_desc : desc := Desc 2 4 4 1.
Example demo_describes : describes demo_desc demo_px /\ small_image demo_desc.
Proof.
  unfold describes, small_image, demo_desc, demo_px. cbn [dwidth dheight dchannels dcolorspace length].
  split; [|lia]. split; [lia|]. split; [lia|]. split; [lia|]. split; [lia|]. split; [reflexivity|].
  repeat (constructor; [unfold px_ok, byte; cbn [pr pg pb pa]; lia|]). constructor.
Qed.
Definition demo_data : list Z := Eval vm_compute in
  match encode (image_bytes 4 demo_px) demo_desc with QOk data => data | _ => [] end.
Example demo_encoded : encode (image_bytes 4 demo_px) demo_desc = QOk demo_data. Proof. vm_compute. reflexivity. Qed.
Example demo_decoded : decode demo_data 0 = QOk (demo_desc, image_bytes 4 demo_px) /\
                       decode demo_data 3 = QOk (demo_desc, image_bytes 3 demo_px).
Proof. vm_compute. split; reflexivity. Qed.
