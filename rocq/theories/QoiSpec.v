(** The QOI image format, from its public specification, and what a user of the codec expects.
    A stream is a sequence of chunks; each chunk has a fixed binary form and stands for one or more pixels.
    Independent of how lib/std/compression/qoi.c3 works: only the record of a pixel, the record of an image
    description and the outcomes are shared with the model. *)
From Coq Require Import ZArith Bool List Lia.
From Verif Require Import QoiModel.
Import ListNotations.
Open Scope Z_scope.

Inductive chunk :=
| CRgb (r g b : Z)            (* new colour, same alpha *)
| CRgba (r g b a : Z)         (* new pixel *)
| CIndex (i : Z)              (* pixel seen before, by its place in the array *)
| CDiff (dr dg db : Z)        (* small difference to the previous pixel, -2..1 per channel *)
| CLuma (dg dr db : Z)        (* green difference -32..31, red and blue difference minus the green one, -8..7 *)
| CRun (n : Z).               (* the previous pixel n more times, 1..62 *)

Definition byte (x : Z) : Prop := 0 <= x <= 255.
Definition chunk_ok (c : chunk) : Prop :=
  match c with
  | CRgb r g b => byte r /\ byte g /\ byte b
  | CRgba r g b a => byte r /\ byte g /\ byte b /\ byte a
  | CIndex i => 0 <= i <= 63
  | CDiff dr dg db => -2 <= dr <= 1 /\ -2 <= dg <= 1 /\ -2 <= db <= 1
  | CLuma dg dr db => -32 <= dg <= 31 /\ -8 <= dr <= 7 /\ -8 <= db <= 7
  | CRun n => 1 <= n <= 62
  end.

Definition chunk_bytes (c : chunk) : list Z :=
  match c with
  | CRgb r g b => [254; r; g; b]
  | CRgba r g b a => [255; r; g; b; a]
  | CIndex i => [i]
  | CDiff dr dg db => [64 + (dr + 2) * 16 + (dg + 2) * 4 + (db + 2)]
  | CLuma dg dr db => [128 + (dg + 32); (dr + 8) * 16 + (db + 8)]
  | CRun n => [192 + (n - 1)]
  end.

(** "A running array[64] (zero-initialized) of previously seen pixel values ... at the position
    (r * 3 + g * 5 + b * 7 + a * 11) % 64" *)
Definition place (p : px) : Z := (pr p * 3 + pg p * 5 + pb p * 7 + pa p * 11) mod 64.
Definition seen := Z -> px.
Definition see (s : seen) (p : px) : seen := fun i => if i =? place p then p else s i.
Definition nothing_seen : seen := fun _ => Px 0 0 0 0.
Definition start_px : px := Px 0 0 0 255.

(** the pixel(s) a chunk stands for, after pixel [p] with array [s] *)
Definition wrap (x : Z) : Z := x mod 256.
Definition chunk_px (p : px) (s : seen) (c : chunk) : px :=
  match c with
  | CRgb r g b => Px r g b (pa p)
  | CRgba r g b a => Px r g b a
  | CIndex i => s i
  | CDiff dr dg db => Px (wrap (pr p + dr)) (wrap (pg p + dg)) (wrap (pb p + db)) (pa p)
  | CLuma dg dr db => Px (wrap (pr p + dg + dr)) (wrap (pg p + dg)) (wrap (pb p + dg + db)) (pa p)
  | CRun _ => p
  end.
Definition chunk_count (c : chunk) : nat := match c with CRun n => Z.to_nat n | _ => 1%nat end.

(** the pixels a sequence of chunks stands for: every pixel is put into the array *)
Fixpoint meaning (p : px) (s : seen) (cs : list chunk) : list px :=
  match cs with
  | [] => []
  | c :: cs => let q := chunk_px p s c in repeat q (chunk_count c) ++ meaning q (see s q) cs
  end.
Definition pixels_of (cs : list chunk) : list px := meaning start_px nothing_seen cs.

(** "A valid encoder must not issue 2 or more consecutive QOI_OP_INDEX chunks to the same index." *)
Fixpoint no_double_index (cs : list chunk) : Prop :=
  match cs with
  | CIndex i :: ((CIndex j :: _) as t) => i <> j /\ no_double_index t
  | _ :: t => no_double_index t
  | [] => True
  end.

(** every index chunk refers to a slot holding a pixel that belongs there (a slot never written holds
    the zero pixel, which belongs into slot 0 only) *)
Fixpoint index_seen (p : px) (s : seen) (cs : list chunk) : Prop :=
  match cs with
  | [] => True
  | c :: cs => (match c with CIndex i => place (s i) = i | _ => True end) /\
               index_seen (chunk_px p s c) (see s (chunk_px p s c)) cs
  end.
Definition run_first (cs : list chunk) : bool := match cs with CRun _ :: _ => true | _ => false end.

(** big-endian number *)
Definition number4 (a b c d : Z) : Z := a * 2 ^ 24 + b * 2 ^ 16 + c * 2 ^ 8 + d.

(** [file d cs data]: [data] is the QOI file with header [d] and chunks [cs] *)
Definition file (d : desc) (cs : list chunk) (data : list Z) : Prop :=
  exists w1 w2 w3 w4 h1 h2 h3 h4,
    byte w1 /\ byte w2 /\ byte w3 /\ byte w4 /\ byte h1 /\ byte h2 /\ byte h3 /\ byte h4 /\
    number4 w1 w2 w3 w4 = dwidth d /\ number4 h1 h2 h3 h4 = dheight d /\
    data = [113; 111; 105; 102; w1; w2; w3; w4; h1; h2; h3; h4; dchannels d; dcolorspace d]  (* "qoif" ... *)
           ++ flat_map chunk_bytes cs ++ [0; 0; 0; 0; 0; 0; 0; 1].

(** ** Images as a user holds them: RGB or RGBA bytes, row by row *)
Definition px_bytes (channels : Z) (p : px) : list Z :=
  if channels =? 4 then [pr p; pg p; pb p; pa p] else [pr p; pg p; pb p].
Definition image_bytes (channels : Z) (ps : list px) : list Z := flat_map (px_bytes channels) ps.
Definition px_ok (channels : Z) (p : px) : Prop :=
  byte (pr p) /\ byte (pg p) /\ byte (pb p) /\ byte (pa p) /\ (channels = 3 -> pa p = 255).

(** a description of an image of [ps]; at most PIXELS_MAX = 400 million pixels *)
Definition describes (d : desc) (ps : list px) : Prop :=
  0 < dwidth d < 2 ^ 32 /\ 0 < dheight d < 2 ^ 32 /\
  (dchannels d = 3 \/ dchannels d = 4) /\ (dcolorspace d = 0 \/ dcolorspace d = 1) /\
  Z.of_nat (length ps) = dwidth d * dheight d /\ Forall (px_ok (dchannels d)) ps.
Definition small_image (d : desc) : Prop := dwidth d * dheight d <= 400000000.

(** what the channels argument of decode asks for: 0 as in the file, 3 without alpha, 4 with alpha *)
Definition asked (channels : Z) (d : desc) : Z := if channels =? 0 then dchannels d else channels.

(** the size announced in a file's header *)
Definition hdr_width (data : list Z) : Z := number4 (nth 4 data 0) (nth 5 data 0) (nth 6 data 0) (nth 7 data 0).
Definition hdr_height (data : list Z) : Z := number4 (nth 8 data 0) (nth 9 data 0) (nth 10 data 0) (nth 11 data 0).
