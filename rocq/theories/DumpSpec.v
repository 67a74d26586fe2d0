(** What the dump of a failed memory comparison has to show. *)
From Coq Require Import List NArith Bool Arith.
From Verif Require Import Base LineModel LineSpec.
Import ListNotations.
Local Open Scope N_scope.

(** value of a hexadecimal digit, capitals only *)
Definition hex_value (c : byte) : option N := if (48 <=? c) && (c <=? 57) then Some (c - 48) else if (65 <=? c) && (c <=? 70) then Some (c - 55) else None.
(** a number of so many digits, most significant first *)
Inductive Hex : bytes -> N -> Prop :=
| H_nil : Hex [] 0
| H_snoc : forall t v c d, Hex t v -> hex_value c = Some d -> Hex (t ++ [c]) (16 * v + d).
(** little endian *)
Fixpoint le (l : bytes) : N := match l with [] => 0 | b :: r => b + 256 * le r end.
(** the elements: [size] bytes each *)
Definition element (size : nat) (l : bytes) (m : nat) : N := le (firstn size (skipn (m * size) l)).
Definition elements (size : nat) (l : bytes) : list N := map (element size l) (seq 0 (length l / size)).
(** bits from the most significant on *)
Definition bit (l : bytes) (m : nat) : bool := N.testbit (nth (m / 8) l 0) (N.of_nat (7 - m mod 8)).
(** row [k] of a list shown [per] a row *)
Definition row_of {A} (per k : nat) (l : list A) : list A := firstn per (skipn (k * per) l).
Definition rows_for (per n : nat) : nat := (n + per - 1) / per.

(** texts with their colours: a piece is shown all in colour or not at all *)
Definition piece := (bool * bytes)%type.
Definition told (ps : list piece) : bytes := concat (map snd ps).
(** the colour a style word sets *)
Definition colour_of (st : bytes) : option bytes := match st with [] => None | _ => if bytes_eqb st (27 :: str "{reset}") then None else Some st end.
(** the line shows these pieces, the coloured ones in this style *)
Definition painted (style : bytes) (l : line) (ps : list piece) : Prop :=
  exists its, spells l its /\
    map (fun p => (colour_of (fst p), snd p)) (tagged [] its) =
    concat (map (fun p => map (fun c => (if fst p : bool then Some ([27; 123] ++ style ++ [125]) else None, [c])) (snd p)) ps).

(** blanks before element number [m] of a row *)
Definition gap (m : nat) : bytes := match m with 0 => [] | 8 => str "  " | _ => str " " end%nat.
(** one side of a row of numbers: each with so many digits, coloured where the other side differs *)
Inductive Numbers (digits : nat) : nat -> list N -> list N -> list piece -> Prop :=
| N_nil : forall m, Numbers digits m [] [] []
| N_cons : forall m v w vs ws t ps, Hex t v -> length t = digits -> Numbers digits (S m) vs ws ps -> Numbers digits m (v :: vs) (w :: ws) ((negb (v =? w), gap m ++ t) :: ps).
(** the same with the lower 32 bits of each number as its digits *)
Inductive Halves (digits : nat) : nat -> list N -> list N -> list piece -> Prop :=
| L_nil : forall m, Halves digits m [] [] []
| L_cons : forall m v w vs ws t ps, Hex t (v mod 2 ^ 32) -> length t = digits -> Halves digits (S m) vs ws ps -> Halves digits m (v :: vs) (w :: ws) ((negb (v =? w), gap m ++ t) :: ps).
(** one side of a row of bits, in eights; [m] = how many before in the row *)
Fixpoint bit_pieces (m : nat) (vs ws : list bool) : list piece :=
  match vs, ws with
  | v :: vs', w :: ws' => (if (m mod 8 =? 0)%nat && negb (m =? 0)%nat then [(false, str " ")] else []) ++ (xorb v w, if v then str "1" else str "0") :: bit_pieces (S m) vs' ws'
  | _, _ => []
  end.
(** blanks for the bytes missing in the last row *)
Definition missing_bytes (n : nat) : piece := (false, repeat 32 (3 - (n - 1) / 8)).

(** a row number: so many places, hexadecimal, and a dotted bar *)
Definition hex_lower (c : byte) : option N := if (48 <=? c) && (c <=? 57) then Some (c - 48) else if (97 <=? c) && (c <=? 102) then Some (c - 87) else None.
Inductive hexed : bytes -> N -> Prop :=
| X_one : forall c d, hex_lower c = Some d -> hexed [c] d
| X_more : forall t v c d, hexed t v -> v <> 0 -> hex_lower c = Some d -> hexed (t ++ [c]) (16 * v + d).
Definition row_label (places : nat) (n : N) (t : bytes) : Prop := exists d, hexed d n /\ (length d <= places)%nat /\ t = repeat 32 (places - length d) ++ d ++ [0xe2; 0x94; 0x8a; 32].
(** the number of digits of a number *)
Definition digits_of (n : N) (d : nat) : Prop := n < 16 ^ N.of_nat d /\ (d = 1%nat \/ ((1 < d)%nat /\ 16 ^ N.of_nat (d - 1) <= n)).
(** a text in the middle of [w] columns, or just the text if it does not fit *)
Definition centred (s : bytes) (w : nat) (t : bytes) : Prop := exists p q, t = repeat 32 p ++ s ++ repeat 32 q /\ length t = Nat.max w (length s) /\ (p <= q <= S p)%nat.
(** the bits of a row *)
Definition bits_of (n : nat) (l : bytes) : list bool := map (bit l) (seq 0 n).
(** numbers in a row: 16 bytes of them, 8 bytes of single bytes on a narrow console *)
Definition per_row (W size : nat) : nat := if (size =? 1)%nat && (W <? 108)%nat then 8 else 16 / size.
(** two columns of [R] numbered rows under their titles, within [W] columns; [texts k x y]: row k has x on the left and y on the right *)
Definition two_columns (W sw : nat) (step : N) (R : nat) (left right : bytes) (texts : nat -> bytes -> bytes -> Prop) (d : list line) : Prop :=
  exists lw rw title groups tl tr, d = title :: concat groups /\ (2 <= lw)%nat /\ (2 <= rw)%nat /\ (lw + rw + sw + 6 <= W)%nat /\
    centred left lw tl /\ centred right rw tr /\ spoken title = repeat 32 (sw + 2) ++ tl ++ str "   " ++ tr /\ length groups = R /\
    forall k, (k < R)%nat -> exists label x y, row_label sw (step * N.of_nat k) label /\ texts k x y /\ shows label (repeat 32 (sw + 2)) lw rw x y (nth k groups []).
(** row k of the numbers on both sides *)
Definition number_texts (size per : nat) (e a : bytes) (k : nat) (x y : bytes) : Prop := exists ps qs, x = told ps /\ y = told qs /\
  Numbers (2 * size) 0 (row_of per k (elements size e)) (row_of per k (elements size a)) ps /\ Numbers (2 * size) 0 (row_of per k (elements size a)) (row_of per k (elements size e)) qs.
(** row k of the bits on both sides *)
Definition bit_texts (n : nat) (e a : bytes) (k : nat) (x y : bytes) : Prop :=
  let b := row_of 32 k (bits_of n e) in let c := row_of 32 k (bits_of n a) in x = told (bit_pieces 0 b c ++ [missing_bytes (length b)]) /\ y = told (bit_pieces 0 c b ++ [missing_bytes (length c)]).
(** every row is one line: its label, the left text and blanks, a bar, the right text and blanks *)
Definition one_line_each (sw : nat) (step : N) (R : nat) (texts : nat -> bytes -> bytes -> Prop) (d : list line) : Prop :=
  exists title rows, d = title :: rows /\ length rows = R /\
    forall k, (k < R)%nat -> exists label x y a b, row_label sw (step * N.of_nat k) label /\ texts k x y /\ spoken (nth k rows []) = row_text label (x, a) (y, b) false false.
(** columns of a row of so many numbers with so many digits: a blank between two of them, another one in the middle of sixteen *)
Definition number_row (digits m : nat) : nat := m * (digits + 1) - 1 + (if (8 <? m)%nat then 1 else 0).
