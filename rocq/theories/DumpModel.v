(** Model of the dump of a failed memory comparison: h2_fail_memcmp (source/report/h2_failure.cpp:204-292), h2_layout::split
    (source/report/h2_layout.cpp:63-79), number_strlen (source/utils/h2_misc.cpp:97-104) and h2_string::centre
    (source/utils/h2_string.cpp:133-142).

    A buffer is the list of its bytes.  sprintf("%X") of an unsigned long long is undefined in C; what x86-64 does, printing its
    lower 32 bits, is modelled.  ::ceil(size * 1.0 / n) is exact below 2^53.  size_t has 64 bits.  The first line of the failure
    is left out here. *)
From Coq Require Import List NArith Bool Arith.
From Verif Require Import Base LineModel.
Import ListNotations.
Local Open Scope N_scope.

(** a digit of %X (h2_failure.cpp:267) *)
Definition upper_digit (d : N) : byte := if d <? 10 then 48 + d else 55 + d.
(** "%0<n>X" of a number of at most n digits (h2_failure.cpp:267, 277-278) *)
Fixpoint hex_fixed (n : nat) (v : N) : bytes := match n with O => [] | S m => hex_fixed m (v / 16) ++ [upper_digit (v mod 16)] end.
(** reading a T in memory order (h2_failure.cpp:274-275), x86-64 *)
Fixpoint load (l : bytes) (size off : nat) : N := match size with O => 0 | S s => nth off l 0 + 256 * load l s (S off) end.
(** what "%X" prints of it: an unsigned int (h2_failure.cpp:277-278) *)
Definition printed (v : N) : N := v mod 2 ^ 32.

(** one element of a row (h2_failure.cpp:273-287): what is appended to the line on the left and on the right *)
Definition ints_cell (size bpr : nat) (e a : bytes) (i j : nat) : line * line :=
  if (i * bpr + j <? length e)%nat then
    let ev := load e size (i * bpr + j) in
    let av := load a size (i * bpr + j) in
    let gap := if (j =? 0)%nat then [] else if (j / size =? 8)%nat then str "  " else str " " in
    let es := gap ++ hex_fixed (2 * size) (printed ev) in
    let as_ := gap ++ hex_fixed (2 * size) (printed av) in
    if ev =? av then ([es], [as_]) else (printf_words (str "green") es, printf_words (str "bold,red") as_)
  else ([], []).
(** both lines of a row (h2_failure.cpp:271-290): j = 0, size, 2 size, ... below bpr *)
Definition ints_row (size bpr : nat) (e a : bytes) (i : nat) : line * line :=
  let cs := map (fun k => ints_cell size bpr e a i (k * size)) (seq 0 ((bpr + size - 1) / size)) in
  (concat (map fst cs), concat (map snd cs)).
(** number of rows (h2_failure.cpp:239, 269) *)
Definition row_count (n bpr : nat) : nat := (n + bpr - 1) / bpr.
(** print_ints (h2_failure.cpp:264-291) *)
Definition print_ints (size bpr : nat) (e a : bytes) : list line * list line :=
  let rs := map (ints_row size bpr e a) (seq 0 (row_count (length e) bpr)) in (map fst rs, map snd rs).

(** one bit of a row (h2_failure.cpp:246-256) *)
Definition bits_cell (length_ bpr : nat) (e a : bytes) (i j k : nat) : line * line :=
  if ((i * bpr + j) * 8 + k <? length_)%nat then
    let ev := N.land (N.shiftr (nth (i * bpr + j) e 0) (N.of_nat (7 - k))) 1 in
    let av := N.land (N.shiftr (nth (i * bpr + j) a 0) (N.of_nat (7 - k))) 1 in
    let es := if ev =? 0 then str "0" else str "1" in
    let as_ := if av =? 0 then str "0" else str "1" in
    if ev =? av then ([es], [as_]) else (printf_words (str "green") es, printf_words (str "bold,red") as_)
  else ([], []).
(** a byte of it and the space before (h2_failure.cpp:242-258) *)
Definition bits_byte (length_ bpr : nat) (e a : bytes) (i j : nat) : line * line :=
  let cs := map (bits_cell length_ bpr e a i j) (seq 0 8) in
  let gap := if (j =? 0)%nat then [] else [str " "] in
  (gap ++ concat (map fst cs), gap ++ concat (map snd cs)).
(** both lines of a row (h2_failure.cpp:240-261) *)
Definition bits_row (length_ bpr : nat) (e a : bytes) (i : nat) : line * line :=
  let bs := map (bits_byte length_ bpr e a i) (seq 0 bpr) in (concat (map fst bs), concat (map snd bs)).
(** print_bits (h2_failure.cpp:237-262) *)
Definition print_bits (length_ bpr : nat) (e a : bytes) : list line * list line :=
  let rs := map (bits_row length_ bpr e a) (seq 0 (row_count (length e) bpr)) in (map fst rs, map snd rs).

(** number_strlen (h2_misc.cpp:97-104): [x] = _10000000, modulo 2^64; None: it has become 0 and the loop never ends *)
Fixpoint strlen_loop (fuel : nat) (number base x : N) (i : nat) : option nat :=
  match fuel with
  | O => None
  | S f => let x' := x * base mod 2 ^ 64 in if number <? x' then Some i else strlen_loop f number base x' (S i)
  end.
(** number_strlen (h2_misc.cpp:97-104); for an even base the power is 0 after at most 64 steps *)
Definition number_strlen (number base : N) : option nat := strlen_loop 64 number base 1 1.
(** h2_string::centre (h2_string.cpp:133-142) *)
Definition centre (s : bytes) (width : nat) : bytes :=
  if (width <=? length s)%nat then s
  else let left := ((width - length s) / 2)%nat in repeat 32 left ++ s ++ repeat 32 (width - left - length s).
(** h2_lines::width (source/utils/h2_line.cpp:148-154) *)
Fixpoint lines_width (ls : list line) : option nat :=
  match ls with
  | [] => Some O
  | l :: r => match line_width l, lines_width r with Some a, Some b => Some (Nat.max a b) | _, _ => None end
  end.
(** digits of "%x" or "%d" (h2_layout.cpp:31, 39), at most [fuel] of them *)
Fixpoint lower_digits (fuel : nat) (base n : N) (acc : bytes) : bytes :=
  match fuel with
  | O => acc
  | S f => let d := n mod base in let acc := (if d <? 10 then 48 + d else 87 + d) :: acc in if n <? base then acc else lower_digits f base (n / base) acc
  end.
(** the number of a row, right justified, and a dotted bar (h2_layout.cpp:31, 39): an int of 32 bits; never negative here *)
Definition row_number (seq_width : nat) (base step : N) (i : nat) : bytes :=
  let d := lower_digits 32 base (step * N.of_nat i mod 2 ^ 32) [] in repeat 32 (seq_width - length d) ++ d ++ [0xe2; 0x94; 0x8a; 32].
(** h2_layout::split (h2_layout.cpp:63-79) *)
Definition split (ls rs : list line) (left_title right_title : bytes) (step base : N) (W : nat) : option (list line) :=
  match number_strlen (step * N.of_nat (Nat.max (length ls) (length rs))) base, lines_width ls, lines_width rs with
  | Some sw, Some lw, Some rw =>
    let valid := N.to_nat ((N.of_nat W + 2 ^ 64 - N.of_nat (sw + 1 + 1 + 4)) mod 2 ^ 64) in
    let lw := Nat.max lw (length left_title) in
    let rw := Nat.max rw (length right_title) in
    let '(lw, rw) :=
      if (lw <? valid / 2)%nat then (lw, Nat.min (valid - lw) rw)
      else if (rw <? valid / 2)%nat then (Nat.min (valid - rw) lw, rw)
      else ((valid / 2)%nat, (valid / 2)%nat) in
    let title := (if step =? 0 then [] else repeat 32 (sw + 2)) ++ centre left_title lw ++ str "   " ++ centre right_title rw in
    option_map (cons (brush dark_gray [title])) (lines_merge (negb (step =? 0)) (row_number sw base step) sw lw rw ls rs)
  | _, _, _ => None
  end.

(** h2_fail_memcmp::print behind its first line (h2_failure.cpp:208-223): [length_] elements of [width] bits, [W] columns on the console *)
Definition memcmp_dump (W width length_ : nat) (e a : bytes) : option (list line) :=
  let '(ls, rs, bpr) :=
    match width with
    | 1 => (print_bits length_ 4 e a, 4)
    | 8 => let bpr := if (W <? 108) then 8 else 16 in (print_ints 1 bpr e a, bpr)
    | 16 => (print_ints 2 16 e a, 16)
    | 32 => (print_ints 4 16 e a, 16)
    | 64 => (print_ints 8 16 e a, 16)
    | _ => ([], [], 0)
    end%nat in
  split ls rs (str "expect") (str "actual") (N.of_nat (bpr * 8 / width)) 16 W.
