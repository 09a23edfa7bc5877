(** Bitmap files: plain enough to be written down completely. *)
From Coq Require Import ZArith Ascii String List Bool.
From Verif.Model Require Import ExMandelbrotOut.
From Verif.Spec Require Import Spec Text Numerals.
Import ListNotations.
Open Scope Z_scope.
Open Scope list_scope.

(** Text as bytes. *)
Definition coded (s : list ascii) : list Z := map (fun c => Z.of_N (N_of_ascii c)) s.
Definition newline : list ascii := ["010"%char].

(** The header: P and the kind of file, a line feed, width and height in decimal, more fields, a line feed. *)
Definition header (kind : string) (w h : nat) (more : string) (s : list Z) : Prop :=
  exists ws hs, reads false 10 ws (Z.of_nat w) /\ reads false 10 hs (Z.of_nat h) /\
    s = coded (chars kind ++ newline ++ ws ++ chars " " ++ hs ++ chars more ++ newline).

(** A black and white bitmap (PBM, P4): the header, then row by row w pixels, eight to a byte, the leftmost in the
    highest bit, 1 for black; the last byte of each row is filled up. *)
Definition is_pbm (w h : nat) (black : nat -> nat -> Prop) (file : list Z) : Prop :=
  exists head rows, header "P4" w h "" head /\ file = head ++ concat rows /\ length rows = h /\
    forall i row, nth_error rows i = Some row ->
      length row = ((w + 7) / 8)%nat /\ Forall (fun b => 0 <= b < 256) row /\
      forall j, (j < w)%nat -> exists b, nth_error row (j / 8) = Some b /\
        (Z.testbit b (7 - Z.of_nat j mod 8) = true <-> black i j).

(** A colour image (PPM, P6) with components up to 255: the header, then row by row w pixels of three bytes. *)
Definition is_ppm (w h : nat) (colour : nat -> nat -> Z * Z * Z -> Prop) (file : list Z) : Prop :=
  exists head rows, header "P6" w h " 255" head /\
    file = head ++ flat_map (fun c => match c with (r, g, b) => [r; g; b] end) (concat rows) /\ length rows = h /\
    forall i row, nth_error rows i = Some row -> length row = w /\
      forall j, (j < w)%nat -> exists r g b, nth_error row j = Some (r, g, b) /\
        0 <= r < 256 /\ 0 <= g < 256 /\ 0 <= b < 256 /\ colour i j (r, g, b).

(** The colour of a point that escapes after [n] iterations: black if it does not escape within 50, and otherwise
    one of five colours, in turn every twelve iterations. *)
Definition band (n : Z) (k : nat) : Prop := 12 * Z.of_nat k <= 5 * (n mod 12) < 12 * (Z.of_nat k + 1).
Definition five_colours : list (Z * Z * Z) :=
  [(0, 7, 100); (32, 107, 203); (237, 255, 255); (255, 170, 0); (0, 2, 0)].
Definition escape_colour (n : Z) (c : Z * Z * Z) : Prop :=
  (n = 50 /\ c = (0, 0, 0)) \/ (n <> 50 /\ exists k, band n k /\ nth_error five_colours k = Some c).

(** Whatever room the receiver has: the whole file arrives, or what there is room for and then an error is returned. *)
Definition delivers (p : sink -> ended * sink) (file : list Z) : Prop :=
  forall s, exists r s', p s = (r, s') /\
    ((length file <= room s)%nat -> r = Written /\ got s' = got s ++ file) /\
    ((room s < length file)%nat -> r = Failed /\ got s' = got s ++ firstn (room s) file).
