(** A terminal, and texts with nested styles. *)
From Coq Require Import List NArith Bool Arith.
From Verif Require Import Base LineModel LineSpec ColorModel.
Import ListNotations.
Local Open Scope N_scope.

(** reading plain text, behind ESC, or within a sequence of parameters *)
Inductive tmode := Plain | Esc | Csi (ps : list N) (n : N).
(** select graphic rendition: 0 clears, others are added *)
Definition sgr (attrs : list N) (p : N) : list N := if p =? 0 then [] else attrs ++ [p].
(** what a terminal shows: each character with the attributes in force *)
Fixpoint terminal (m : tmode) (attrs : list N) (s : bytes) : list (list N * byte) :=
  match s with
  | [] => []
  | c :: r =>
      match m with
      | Plain => if c =? 27 then terminal Esc attrs r else (attrs, c) :: terminal Plain attrs r
      | Esc => if c =? 91 then terminal (Csi [] 0) attrs r else terminal Plain attrs r
      | Csi ps n =>
          if (48 <=? c) && (c <=? 57) then terminal (Csi ps (10 * n + (c - 48))) attrs r
          else if c =? 59 then terminal (Csi (ps ++ [n]) 0) attrs r
          else if c =? 109 then terminal Plain (fold_left sgr (ps ++ [n]) attrs) r
          else terminal Plain attrs r
      end
  end.
(** a style word whose names fit the table *)
Definition short (w : bytes) : Prop := is_style w = true -> (length w <= 33)%nat.
(** a printable word: style word, or without ESC *)
Definition printable (w : bytes) : Prop := is_style w = true \/ ~ In 27 w.

(** ** Styles and their numbers (ECMA-48, select graphic rendition) *)
(** the colours in order *)
Definition hues : list bytes := [str "black"; str "red"; str "green"; str "yellow"; str "blue"; str "purple"; str "cyan"].
(** consecutive numbers *)
Fixpoint numbered (n : N) (l : list bytes) : list (bytes * N) := match l with [] => [] | x :: r => (x, n) :: numbered (n + 1) r end.
(** foreground from 30, bright foreground from 90, background from 40 *)
Definition sgr_numbers : list (bytes * N) :=
  [(str "bold", 1); (str "italics", 3); (str "underline", 4); (str "inverse", 7); (str "strikethrough", 9); (str "default", 39)] ++
  numbered 30 (hues ++ [str "gray"]) ++ numbered 90 (str "dark gray" :: map (app (str "light ")) (tl hues) ++ [str "white"]) ++ numbered 40 (map (app (str "bg_")) (hues ++ [str "white"])).
(** the number of a style *)
Fixpoint number_in (l : list (bytes * N)) (s : bytes) : N := match l with [] => 0 | (x, n) :: r => if list_eq_dec N.eq_dec x s then n else number_in r s end.
Definition number (s : bytes) : N := number_in sgr_numbers s.

(** text with nested styles: text, then the rest; styled text, then the rest *)
Inductive doc := End | Txt (t : bytes) (next : doc) | Sty (s : bytes) (inner next : doc).
(** as words: a style is switched on with + and off with - *)
Fixpoint doc_words (d : doc) : line :=
  match d with
  | End => []
  | Txt t n => t :: doc_words n
  | Sty s i n => ([27; 123; 43] ++ s ++ [125]) :: doc_words i ++ ([27; 123; 45] ++ s ++ [125]) :: doc_words n
  end.
(** as meant: each character with the styles around it, outermost first *)
Fixpoint doc_shown (st : list bytes) (d : doc) : list (list N * byte) :=
  match d with
  | End => []
  | Txt t n => map (fun c => (map number st, c)) t ++ doc_shown st n
  | Sty s i n => doc_shown (st ++ [s]) i ++ doc_shown st n
  end.
(** a documented style other than reset *)
Definition style_name (s : bytes) : Prop := In s (map fst sgr_numbers).
(** at most eight styles deep, no style within itself, documented styles, text without ESC *)
Fixpoint nested_ok (st : list bytes) (d : doc) : Prop :=
  match d with
  | End => True
  | Txt t n => ~ In 27 t /\ nested_ok st n
  | Sty s i n => style_name s /\ ~ In s st /\ (length st < 8)%nat /\ nested_ok (st ++ [s]) i /\ nested_ok st n
  end.
(** the table holding the styles [st] *)
Definition table_of (st : list bytes) : table := st ++ repeat [] (8 - length st).

(** names with commas between them *)
Fixpoint commas (ss : list bytes) : bytes := match ss with [] => [] | [s] => s | s :: r => s ++ 44 :: commas r end.
(** a text between a style word and reset *)
Definition brushed (ss : list bytes) (s : bytes) : line := [[27; 123] ++ commas ss ++ [125]; s; 27 :: str "{reset}"].
