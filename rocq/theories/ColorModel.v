(** Model of h2_color (source/utils/h2_color.cpp:1-93) and h2_console::printl (source/stdio/h2_console.cpp:36-40).

    The table current[8][32] is a list of eight C strings.  A style name of 32 or more bytes does not fit its row: None
    (strncpy writes beyond it).  What LIBC__write is given is appended to the output.  Words are without NUL. *)
From Coq Require Import List NArith Bool Arith.
From Verif Require Import Base StrModel LineModel.
Import ListNotations.
Local Open Scope N_scope.

(** current (h2_color.cpp:3) *)
Definition table := list bytes.
(** its initial contents (h2_color.cpp:3) *)
Definition empty_table : table := repeat [] 8.
(** clear_style (h2_color.cpp:5-8) *)
Definition clear_style (t : table) : table := map (fun _ => []) t.
(** the loop of push_style: the first free row (h2_color.cpp:11-16) *)
Fixpoint push_row (s : bytes) (t : table) : table := match t with [] => [] | [] :: r => s :: r | x :: r => x :: push_row s r end.
(** push_style (h2_color.cpp:9-17): a name of 32 bytes or more overruns a row, if there is a free one *)
Definition push_style (s : bytes) (t : table) : option table :=
  if (32 <=? length s)%nat && existsb (fun x => match x with [] => true | _ => false end) t then None else Some (push_row s t).
(** pop_style (h2_color.cpp:18-23) *)
Definition pop_style (s : bytes) (t : table) : table := map (fun x => if bytes_eqb x s then [] else x) t.
(** style2value (h2_color.cpp:56-90): the names and their values *)
Definition style_values : list (bytes * N) :=
  [(str "reset", 0); (str "bold", 1); (str "italics", 3); (str "underline", 4); (str "inverse", 7); (str "strikethrough", 9); (str "black", 30); (str "red", 31);
   (str "green", 32); (str "yellow", 33); (str "blue", 34); (str "purple", 35); (str "cyan", 36); (str "gray", 37); (str "default", 39); (str "dark gray", 90);
   (str "light red", 91); (str "light green", 92); (str "light yellow", 93); (str "light blue", 94); (str "light purple", 95); (str "light cyan", 96); (str "white", 97);
   (str "bg_black", 40); (str "bg_red", 41); (str "bg_green", 42); (str "bg_yellow", 43); (str "bg_blue", 44); (str "bg_purple", 45); (str "bg_cyan", 46); (str "bg_white", 47)].
(** the chain of comparisons (h2_color.cpp:58-89) *)
Definition style2value (s : bytes) : N := match find (fun p => bytes_eqb s (fst p)) style_values with Some p => snd p | None => 0 end.
(** %d for the values above (h2_color.cpp:27, 30) *)
Definition decimal (v : N) : bytes := if v <? 10 then [48 + v] else [48 + v / 10; 48 + v mod 10].
(** change (h2_color.cpp:24-33): the last semicolon is overwritten with m *)
Definition change (t : table) : bytes :=
  removelast ([27; 91] ++ decimal (style2value (str "reset")) ++ [59] ++ concat (map (fun s => match s with [] => [] | _ => decimal (style2value s) ++ [59] end) t)) ++ [109].
(** the pieces of a style word up to the closing brace, at commas (h2_color.cpp:39-45); [acc] = the piece so far *)
Fixpoint pieces (acc s : bytes) : list bytes :=
  match s with
  | [] => [acc]
  | c :: r => if c =? 125 then [acc] else if c =? 44 then acc :: pieces [] r else pieces (acc ++ [c]) r
  end.
(** the loop of parse (h2_color.cpp:39-45): [neg] = s is '-' *)
Fixpoint parse_pieces (neg : bool) (ps : list bytes) (t : table) : option table :=
  match ps with
  | [] => Some t
  | p :: r =>
      match (if neg then Some (pop_style p t) else push_style p t) with
      | Some t1 => parse_pieces neg r (if prefixb p (str "reset") then clear_style t1 else t1)
      | None => None
      end
  end.
(** parse (h2_color.cpp:34-46), given the word behind ESC and the opening brace *)
Definition parse (s : bytes) (t : table) : option table :=
  match s with
  | c :: r => if c =? 43 then parse_pieces false (pieces [] r) t else if c =? 45 then parse_pieces true (pieces [] r) t else parse_pieces false (pieces [] s) t
  | [] => parse_pieces false (pieces [] s) t
  end.
(** print (h2_color.cpp:47-54): new table and what is written *)
Definition print (colorful : bool) (w : bytes) (t : table) : option (table * bytes) :=
  if isctrl w
  then if colorful then match parse (skipn 2 w) t with Some t' => Some (t', change t') | None => None end else Some (t, [])
  else Some (t, w).
(** printl without the final line break (h2_console.cpp:36-40) *)
Fixpoint printl (colorful : bool) (l : line) (t : table) : option (table * bytes) :=
  match l with
  | [] => Some (t, [])
  | w :: r =>
      match print colorful w t with
      | Some (t1, o1) => match printl colorful r t1 with Some (t2, o2) => Some (t2, o1 ++ o2) | None => None end
      | None => None
      end
  end.
