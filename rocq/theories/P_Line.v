(** C45, C61, C62: wrapped lines, side by side rows, abbreviated lines. *)
From Coq Require Import List NArith Bool Arith Lia.
From Verif Require Import Base LineModel LineSpec LineProofs LineProofs2.
Import ListNotations.
Local Open Scope N_scope.

(** C45: a line of whole characters, none wider than W, is broken into lines; each is a body and blanks, W columns in all; the
    bodies have the characters of the line in order, each under the style change it followed; a line is broken only where the
    next character does not fit *)
Theorem C45_break : forall W l its, spells l its -> Forall (fun c => (cellw c <= W)%nat) (cells its) ->
  exists ls parts, line_break W l = Some ls /\ Forall2 (filled W) ls parts /\ concat (map (tagged []) parts) = tagged [] its /\ needed W parts.
Proof. exact break_ok. Qed.
Print Assumptions C45_break.
(** in the library's own measure each line is W wide and its text is that of its body with blanks behind *)
Theorem C45_width : forall W l its, filled W l its -> line_width l = Some W /\ exists k, spoken l = concat (cells its) ++ repeat 32 k.
Proof. exact filled_width. Qed.
Print Assumptions C45_width.
Definition C45_line : line := [str "ab"; 27 :: str "{red}"; [0xe4; 0xb8; 0xad; 99; 100]].
Example C45_example : (exists its, spells C45_line its /\ cells its = [[97]; [98]; [0xe4; 0xb8; 0xad]; [99]; [100]]) /\
  line_break 3 C45_line = Some [[[97]; [98]; 27 :: str "{red}"; [32]]; [27 :: str "{red}"; [0xe4; 0xb8; 0xad]; [99]]; [27 :: str "{red}"; [100]; [32; 32]]].
Proof.
  split; [|vm_compute; reflexivity]. exists ([Cell [97]; Cell [98]] ++ Ctl (27 :: str "{red}") :: map Cell [[0xe4; 0xb8; 0xad]; [99]; [100]] ++ []). split; [|reflexivity].
  apply (SWord [[97]; [98]]); [reflexivity| |].
  - constructor; [exists 97, []; repeat split; reflexivity|constructor; [exists 98, []; repeat split; reflexivity|constructor]].
  - apply SCtl; [reflexivity|]. apply (SWord [[0xe4; 0xb8; 0xad]; [99]; [100]]); [reflexivity| |constructor].
    repeat (constructor; [eexists _, _; repeat split; reflexivity|]). constructor.
Qed.
(** a character wider than the line: the padding underflows *)
Theorem C45_wide_refuted : exists l its, spells l its /\ line_break 1 l = None.
Proof. exists [[0xe4; 0xb8; 0xad]], (map Cell [[0xe4; 0xb8; 0xad]] ++ []). split; [|vm_compute; reflexivity]. apply (SWord [[0xe4; 0xb8; 0xad]]); [reflexivity| |constructor]. constructor; [eexists _, _; repeat split; reflexivity|constructor]. Qed.
Print Assumptions C45_wide_refuted.
(** a word that ends within a character is read beyond its end *)
Theorem C45_truncated_refuted : exists l, l = [[97; 0xe4]] /\ line_break 80 l = None.
Proof. exists [[97; 0xe4]]. split; [reflexivity|vm_compute; reflexivity]. Qed.
Print Assumptions C45_truncated_refuted.

(** C61: side by side rows.  Line i of the left and line i of the right side are shown in the same group of rows; in every row the
    left column is lw and the right column rw wide, the columns read downwards give the two texts, a backslash follows a column
    exactly if its text goes on below, and the number stands in the first row *)
Theorem C61_rows : forall (step : bool) (seqs : nat -> bytes) sw lw rw (ls rs : list line),
  (forall i, is_style (seqs i) = false) -> Forall proper ls -> Forall proper rs -> (2 <= lw)%nat -> (2 <= rw)%nat ->
  exists groups, lines_merge step seqs sw lw rw ls rs = Some (concat groups) /\ length groups = Nat.max (length ls) (length rs) /\
    (forall k, (k < Nat.max (length ls) (length rs))%nat -> shows (if step then seqs k else []) (if step then repeat 32 (sw + 2) else []) lw rw (text_at lw k ls) (text_at rw k rs) (nth k groups [])).
Proof. exact (fun step seqs sw lw rw ls rs C P Q L R => merge_from_ok step seqs sw lw rw ls rs C P Q L R _ 0%nat). Qed.
Print Assumptions C61_rows.
Example C61_example : proper [str "abc"] /\ option_map (map spoken) (lines_merge true (fun _ => str "0: ") 1 2 2 [[str "abc"]] [[str "x"]; [str "yz"]])
  = Some [str "0: ab\" ++ [0xe2; 0x94; 0x82] ++ str " x  "; str "   c  " ++ [0xe2; 0x94; 0x82] ++ str "    "; str "0:    " ++ [0xe2; 0x94; 0x82] ++ str " yz "].
Proof. split; [|vm_compute; reflexivity]. exists (map Cell [[97]; [98]; [99]] ++ []). apply (SWord [[97]; [98]; [99]]); [reflexivity| |constructor]. repeat (constructor; [eexists _, _; repeat split; reflexivity|]). constructor. Qed.

(** C62: a line that fits is shown in full, whatever its characters *)
Theorem C62_fits : forall W tail l its, spells (escaped l) its -> (columns its <= W)%nat -> abbreviate W tail l = Some (escaped l).
Proof. exact abbreviate_fits. Qed.
Print Assumptions C62_fits.
(** for one byte characters: shown in full, or cut to its beginning, three dots and its last [tail] characters *)
Theorem C62_shortened : forall W tail l, Forall plain (spoken l) -> (3 + tail <= W)%nat -> exists l2, abbreviate W tail l = Some l2 /\
  spoken l2 = (if (length (spelled (spoken l)) <=? W)%nat then spelled (spoken l) else shortened (W - 3 - tail) tail (spelled (spoken l))).
Proof. exact abbreviate_ok. Qed.
Print Assumptions C62_shortened.
(** ... exactly W columns wide if cut *)
Theorem C62_width : forall W tail t, (3 + tail <= W)%nat -> (W < length t)%nat -> length (shortened (W - 3 - tail) tail t) = W.
Proof. exact shortened_length. Qed.
Print Assumptions C62_width.
Example C62_example : Forall plain (spoken [str "hello "; 27 :: str "{red}"; str "wide world"]) /\ option_map spoken (abbreviate 10 3 [str "hello "; 27 :: str "{red}"; str "wide world"]) = Some (str "hell...rld").
Proof. split; [|vm_compute; reflexivity]. vm_compute. repeat constructor; discriminate. Qed.
(** characters of several bytes: the dots are missing when a wide character lies across the place where they belong *)
Theorem C62_wide_refuted : exists l, l = [concat (repeat [0xe4; 0xb8; 0xad] 6)] /\ line_width l = Some 12%nat /\ abbreviate 8 0 l = Some [concat (repeat [0xe4; 0xb8; 0xad] 3)].
Proof. eexists. split; [reflexivity|]. split; vm_compute; reflexivity. Qed.
Print Assumptions C62_wide_refuted.
