(** Model of styled lines: h2_string::width, disperse, escape (source/utils/h2_string.cpp:1-7, 27-35, 75-87, 144-153), h2_line
    (source/utils/h2_line.cpp:1-31, 39-46, 95-132) and the layout of failure reports (source/report/h2_layout.cpp:2-50).

    A word is the list of its bytes, without NUL; a line is a list of words.  Reading beyond a word (a truncated multi-byte
    character) and an impossible padding (size_t underflow, std::length_error) give None.  size_t is otherwise unbounded. *)
From Coq Require Import List NArith Bool Arith.
From Verif Require Import Base.
Import ListNotations.
Local Open Scope N_scope.

(** utf8len of the first byte (h2_string.cpp:1-7) *)
Definition utf8len (a : byte) : nat :=
  if N.land 0xf8 a =? 0xf0 then 4%nat else if N.land 0xf0 a =? 0xe0 then 3%nat else if N.land 0xe0 a =? 0xc0 then 2%nat else 1%nat.
(** h2_string::disperse (h2_string.cpp:144-153) *)
Fixpoint disperse (s : bytes) : option (list bytes) :=
  match s with
  | [] => Some []
  | a :: s1 =>
      match utf8len a with
      | 4%nat => match s1 with b :: c :: d :: s4 => option_map (cons [a; b; c; d]) (disperse s4) | _ => None end
      | 3%nat => match s1 with b :: c :: s3 => option_map (cons [a; b; c]) (disperse s3) | _ => None end
      | 2%nat => match s1 with b :: s2 => option_map (cons [a; b]) (disperse s2) | _ => None end
      | _ => option_map (cons [a]) (disperse s1)
      end
  end.
(** h2_string::width with fat = 2 (h2_string.cpp:27-35) *)
Fixpoint width (s : bytes) : option nat :=
  match s with
  | [] => Some 0%nat
  | a :: s1 =>
      match utf8len a with
      | 4%nat => match s1 with _ :: _ :: _ :: s4 => option_map (Nat.add 2) (width s4) | _ => None end
      | 3%nat => match s1 with _ :: _ :: s3 => option_map (Nat.add 2) (width s3) | _ => None end
      | 2%nat => match s1 with _ :: s2 => option_map (Nat.add 2) (width s2) | _ => None end
      | _ => option_map (Nat.add 1) (width s1)
      end
  end.
(** h2_color::isctrl (source/utils/h2_color.cpp:92) *)
Definition isctrl (w : bytes) : bool := match w with 27 :: 123 :: _ => true | _ => false end.
(** h2_line (a vector of h2_string, h2_line.hpp:1) *)
Definition line := list bytes.
(** h2_line::width (h2_line.cpp:1-9), indent counted *)
Fixpoint line_width (l : line) : option nat :=
  match l with
  | [] => Some 0%nat
  | w :: r => if isctrl w then line_width r else match width w, line_width r with Some a, Some b => Some (a + b)%nat | _, _ => None end
  end.
(** h2_line::padding (h2_line.cpp:17-21) *)
Definition padding (l : line) (n : nat) : line := if (n =? 0)%nat then l else l ++ [repeat 32 n].
(** wrap.padding(width - wrap.width()) (h2_layout.cpp:16, 23) *)
Definition pad_to (W : nat) (wrap : line) : option line :=
  match line_width wrap with Some w => if (w <=? W)%nat then Some (padding wrap (W - w)) else None | None => None end.
(** the loop over the characters of a word (h2_layout.cpp:14-21): lines so far, wrap *)
Fixpoint cells_loop (W : nat) (style : bytes) (cs : list bytes) (lines : list line) (wrap : line) : option (list line * line) :=
  match cs with
  | [] => Some (lines, wrap)
  | c :: r =>
      match line_width wrap, width c with
      | Some w, Some k =>
          if (W <? w + k)%nat
          then match pad_to W wrap with
               | Some l => cells_loop W style r (lines ++ [l]) ((match style with [] => [] | _ => [style] end) ++ [c])
               | None => None
               end
          else cells_loop W style r lines (wrap ++ [c])
      | _, _ => None
      end
  end.
(** the loop over the words (h2_layout.cpp:8-22) *)
Fixpoint words_loop (W : nat) (style : bytes) (ws : line) (lines : list line) (wrap : line) : option (list line * line) :=
  match ws with
  | [] => Some (lines, wrap)
  | w :: r =>
      if isctrl w then words_loop W w r lines (wrap ++ [w])
      else match disperse w with
           | Some cs => match cells_loop W style cs lines wrap with Some (ls, wr) => words_loop W style r ls wr | None => None end
           | None => None
           end
  end.
(** h2_layout::line_break (h2_layout.cpp:2-25) *)
Definition line_break (W : nat) (l : line) : option (list line) :=
  match words_loop W [] l [] [] with
  | Some (ls, wrap) => match pad_to W wrap with Some q => Some (ls ++ [q]) | None => None end
  | None => None
  end.

(** h2_string::escape without utf8 (h2_string.cpp:75-87) *)
Definition escape (s : bytes) : bytes :=
  concat (map (fun c => if c =? 10 then [92; 110] else if c =? 13 then [92; 114] else if c =? 9 then [92; 116] else if c =? 0 then [] else [c]) s).
(** delta (source/utils/h2_line.hpp:34) *)
Definition delta (s style : bytes) : line := [[27; 123; 43] ++ style ++ [125]; s; [27; 123; 45] ++ style ++ [125]].
(** "dark gray" (h2_line.cpp:118) *)
Definition dark_gray : bytes := str "dark gray".
(** the loop over the characters of a word in abbreviate (h2_line.cpp:110-116): h, m, t and i *)
Fixpoint abbr_cells (keep from : nat) (i : nat) (h m t : bytes) (cs : list bytes) : option (nat * bytes * bytes * bytes) :=
  match cs with
  | [] => Some (i, h, m, t)
  | c :: r =>
      match width c with
      | Some k =>
          if (i <? keep)%nat then abbr_cells keep from (i + k)%nat (h ++ c) m t r
          else if (i =? keep)%nat then abbr_cells keep from (i + k)%nat h (str "...") t r
          else if (from <=? i)%nat then abbr_cells keep from (i + k)%nat h m (t ++ c) r
          else abbr_cells keep from (i + k)%nat h m t r
      | None => None
      end
  end.
(** the loop over the words of abbreviate (h2_line.cpp:105-120) *)
Fixpoint abbr_words (keep from i : nat) (ws : line) : option line :=
  match ws with
  | [] => Some []
  | w :: r =>
      if isctrl w then option_map (cons w) (abbr_words keep from i r)
      else match disperse w with
           | Some cs =>
               match abbr_cells keep from i [] [] [] cs with
               | Some (i', h, m, t) =>
                   option_map (fun rest => (match h with [] => [] | _ => [h] end) ++ (match m with [] => [] | _ => delta m dark_gray end) ++ (match t with [] => [] | _ => [t] end) ++ rest)
                              (abbr_words keep from i' r)
               | None => None
               end
           | None => None
           end
  end.
(** h2_line::abbreviate (h2_line.cpp:95-123); width - 3 - tail for width >= 3 + tail (below that size_t wraps: then nothing is
    cut, not modelled) *)
Definition abbreviate (W tail : nat) (l : line) : option line :=
  let line1 := map (fun w => if isctrl w then w else escape w) l in
  match line_width line1 with
  | Some w => if (w <=? W)%nat then Some line1 else abbr_words (W - 3 - tail) (w - tail) 0 line1
  | None => None
  end.
(** h2_line::string (h2_line.cpp:125-132) *)
Definition text (l : line) : bytes := concat (filter (fun w => negb (isctrl w)) l).
(** h2_line::indent (h2_line.cpp:11-15) *)
Definition indent (l : line) (n : nat) : line := if (n =? 0)%nat then l else repeat 32 n :: l.
(** h2_line::brush with a style (h2_line.cpp:39-46) *)
Definition brush (style : bytes) (l : line) : line := ([27; 123] ++ style ++ [125]) :: l ++ [str "" ++ [27; 123] ++ str "reset" ++ [125]].
(** line.printf(style, text) (h2_line.cpp:23-31), the text already formatted *)
Definition printf_words (style s : bytes) : line := [[27; 123] ++ style ++ [125]; s; [27; 123] ++ str "reset" ++ [125]].
(** the rows of one pair of lines (h2_layout.cpp:36-47): [seq] = the formatted number ("%4d" and a bar), used if step *)
Fixpoint merge_rows (step : bool) (seq : bytes) (seq_width : nat) (lw rw : nat) (bar1 bar2 : bytes) (n j : nat) (ls rs : list line) : list line :=
  match n with
  | O => []
  | S n' =>
      let left := if (j <? length ls)%nat then brush (str "reset") (nth j ls []) else brush (str "reset") [repeat 32 lw] in
      let right := if (j <? length rs)%nat then brush (str "reset") (nth j rs []) else brush (str "reset") [repeat 32 rw] in
      ((if step then (if (j =? 0)%nat then printf_words dark_gray seq else [repeat 32 (seq_width + 2)]) else [])
       ++ left ++ printf_words dark_gray (if (j <? length ls - 1)%nat then bar1 else bar2)
       ++ right ++ printf_words dark_gray (if (j <? length rs - 1)%nat then [92] else [32]))
      :: merge_rows step seq seq_width lw rw bar1 bar2 n' (S j) ls rs
  end.
(** the separators (h2_layout.cpp:43): a backslash or space, a three byte bar, a space *)
Definition bar_more : bytes := [92; 0xe2; 0x94; 0x82; 32].
(** its other form (h2_layout.cpp:43) *)
Definition bar_last : bytes := [32; 0xe2; 0x94; 0x82; 32].
(** h2_layout::lines_merge (h2_layout.cpp:27-50); [seqs i] = the number of row i as formatted (h2_layout.cpp:39) *)
Fixpoint merge_from (step : bool) (seqs : nat -> bytes) (seq_width lw rw : nat) (n i : nat) (ls rs : list line) : option (list line) :=
  match n with
  | O => Some []
  | S n' =>
      let l := if (i <? length ls)%nat then nth i ls [] else [repeat 32 lw] in
      let r := if (i <? length rs)%nat then nth i rs [] else [repeat 32 rw] in
      match line_break lw l, line_break rw r, merge_from step seqs seq_width lw rw n' (S i) ls rs with
      | Some a, Some b, Some rest => Some (merge_rows step (seqs i) seq_width lw rw bar_more bar_last (Nat.max (length a) (length b)) 0 a b ++ rest)
      | _, _, _ => None
      end
  end.
(** h2_layout::lines_merge (h2_layout.cpp:27-50) *)
Definition lines_merge (step : bool) (seqs : nat -> bytes) (seq_width lw rw : nat) (ls rs : list line) : option (list line) :=
  merge_from step seqs seq_width lw rw (Nat.max (length ls) (length rs)) 0 ls rs.
