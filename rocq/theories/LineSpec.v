(** Styled lines as sequences of style changes and characters. *)
From Coq Require Import List NArith Bool Arith.
From Verif Require Import Base LineModel.
Import ListNotations.
Local Open Scope N_scope.

(** a style change or a character (its bytes) *)
Inductive item := Ctl (w : bytes) | Cell (c : bytes).
(** bytes of the character that begins with this one: 0xxxxxxx, 110xxxxx, 1110xxxx or 11110xxx; any other byte stands for itself *)
Definition lead (a : byte) : nat := if a <? 192 then 1%nat else if a <? 224 then 2%nat else if a <? 240 then 3%nat else if a <? 248 then 4%nat else 1%nat.
(** a whole character: as many bytes as the first one announces *)
Definition is_char (c : bytes) : Prop := exists a r, c = a :: r /\ a < 256 /\ length c = lead a.
(** a style change: ESC and a brace *)
Definition is_style (w : bytes) : bool := match w with c :: d :: _ => (c =? 27) && (d =? 123) | _ => false end.
(** columns a character takes *)
Definition cellw (c : bytes) : nat := match c with [_] => 1 | _ => 2 end.
(** a line spelled out: a style word is one style change, any other word the characters it is made of *)
Inductive spells : line -> list item -> Prop :=
| SNil : spells [] []
| SCtl : forall w l its, is_style w = true -> spells l its -> spells (w :: l) (Ctl w :: its)
| SWord : forall cs l its, is_style (concat cs) = false -> Forall is_char cs -> spells l its -> spells (concat cs :: l) (map Cell cs ++ its).
(** the characters *)
Definition cells (its : list item) : list bytes := concat (map (fun i => match i with Cell c => [c] | Ctl _ => [] end) its).
(** columns *)
Definition columns (its : list item) : nat := list_sum (map cellw (cells its)).
(** each character with the style change it follows, [st] at the beginning *)
Fixpoint tagged (st : bytes) (its : list item) : list (bytes * bytes) :=
  match its with [] => [] | Ctl w :: r => tagged w r | Cell c :: r => (st, c) :: tagged st r end.
(** an output line: a body and k blanks, together W columns *)
Definition filled (W : nat) (l : line) (its : list item) : Prop :=
  exists body k, l = body ++ (if (k =? 0)%nat then [] else [repeat 32 k]) /\ spells body its /\ (columns its + k = W)%nat.
(** the next character does not fit any more *)
Definition full (W : nat) (its next : list item) : Prop := match cells next with c :: _ => (W < columns its + cellw c)%nat | [] => False end.
(** consecutive lines are broken only where needed *)
Fixpoint needed (W : nat) (l : list (list item)) : Prop := match l with a :: (b :: _) as r => full W a b /\ needed W r | _ => True end.

(** ** Side by side rows *)
(** a line without its style changes *)
Fixpoint spoken (l : line) : bytes := match l with [] => [] | w :: r => if is_style w then spoken r else w ++ spoken r end.
(** a text of whole characters that take W columns *)
Definition takes (W : nat) (t : bytes) : Prop := exists cs, t = concat cs /\ Forall is_char cs /\ list_sum (map cellw cs) = W.
(** a piece of text and the blanks behind it *)
Definition padded (p : bytes * nat) : bytes := fst p ++ repeat 32 (snd p).
(** is there text left *)
Definition remains (l : list (bytes * nat)) : bool := match concat (map fst l) with [] => false | _ => true end.
(** a row: the left column, a backslash if its text goes on below, the bar, the right column, a backslash if its text goes on below *)
Definition row_text (p : bytes) (l r : bytes * nat) (lmore rmore : bool) : bytes :=
  p ++ padded l ++ [if lmore then 92 else 32] ++ [0xe2; 0x94; 0x82] ++ [32] ++ padded r ++ [if rmore then 92 else 32].
(** the rows of a pair of lines: the number stands in the first row only *)
Fixpoint rows_text (number blank : bytes) (ls rs : list (bytes * nat)) : list bytes :=
  match ls, rs with
  | l :: ls', r :: rs' => row_text number l r (remains ls') (remains rs') :: rows_text blank blank ls' rs'
  | _, _ => []
  end.
(** [rows] shows [tl] in a column of [lw] and [tr] in a column of [rw] *)
Definition shows (number blank : bytes) (lw rw : nat) (tl tr : bytes) (rows : list line) : Prop :=
  exists ls rs, length ls = length rs /\ concat (map fst ls) = tl /\ concat (map fst rs) = tr /\
    Forall (fun p => takes lw (padded p)) ls /\ Forall (fun p => takes rw (padded p)) rs /\ map spoken rows = rows_text number blank ls rs.
(** a line made of whole characters *)
Definition proper (l : line) : Prop := exists its, spells l its.
(** the text of line i, blank below the last line *)
Definition text_at (W i : nat) (ls : list line) : bytes := if (i <? length ls)%nat then spoken (nth i ls []) else repeat 32 W.

(** ** Abbreviation *)
(** a one byte character that is neither NUL nor ESC *)
Definition plain (c : byte) : Prop := c <> 0 /\ c <> 27 /\ c < 128.
(** a text cut in the middle: the first [keep] characters, three dots, the last [tail] characters *)
Definition shortened (keep tail : nat) (t : bytes) : bytes := firstn keep t ++ [46; 46; 46] ++ skipn (length t - tail) t.
(** line feed, carriage return and tab spelled out, NUL left out *)
Fixpoint spelled (s : bytes) : bytes :=
  match s with [] => [] | 10 :: r => 92 :: 110 :: spelled r | 13 :: r => 92 :: 114 :: spelled r | 9 :: r => 92 :: 116 :: spelled r | 0 :: r => spelled r | c :: r => c :: spelled r end.
(** a line with line breaks and tabs spelled out, style words kept *)
Definition escaped (l : line) : line := map (fun w => if is_style w then w else spelled w) l.
