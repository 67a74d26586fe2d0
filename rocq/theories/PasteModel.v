(** Model of JSON printed for pasting into source code (option -S): h2_json::dump (source/json/h2_json.cpp:2-19), h2_lines::width
    (source/utils/h2_line.cpp:149-155) and h2_fail_json::print (source/report/h2_failure.cpp:175-199).

    Printing of values is PrintModel, reading of texts JsonModel.  What a text that is no JSON is shown as (h2_tree.cpp:21-31), the
    line every failed check prints (h2_failure.cpp:182; MessageModel) and the two columns of a comparison (h2_failure.cpp:195-198;
    PrintModel, SplitModel) are parameters.  None: a text cut inside a character of UTF-8 (LineModel), or an exception (JsonModel). *)
From Coq Require Import List NArith ZArith Bool Arith.
From Verif Require Import Base FilterModel StrModel LineModel JsonModel PrintModel.
Import ListNotations.
Local Open Scope N_scope.

(** h2_lines::width (h2_line.cpp:149-155) *)
Fixpoint lines_width (ls : list line) : option nat :=
  match ls with
  | [] => Some 0%nat
  | l :: r => match line_width l, lines_width r with Some a, Some b => Some (Nat.max a b) | _, _ => None end
  end.
(** a quote behind the last line (h2_json.cpp:11) *)
Fixpoint close_quote (ls : list line) : list line :=
  match ls with [] => [] | [l] => [l ++ [[34]]] | l :: r => l :: close_quote r end.
(** a quote before the first line, then the last (h2_json.cpp:9-12) *)
Definition in_quotes (ls : list line) : list line := match ls with [] => [] | l :: r => close_quote (([[34]] ++ l) :: r) end.
(** padding and backslash of each line but the backslash of the last (h2_json.cpp:14-17) *)
Fixpoint continued (m : nat) (ls : list line) : option (list line) :=
  match ls with
  | [] => Some []
  | l :: r =>
      match line_width l, continued m r with
      | Some w, Some k => Some ((padding l (m - w + 3) ++ match r with [] => [] | _ => [[92]] end) :: k)
      | _, _ => None
      end
  end.
(** what is done with the lines if a quote is asked for (h2_json.cpp:8-18) *)
Definition pasted (ls : list line) : option (list line) :=
  let ls1 := in_quotes ls in match lines_width ls1 with Some m => continued m ls1 | None => None end.
(** h2_json::dump (h2_json.cpp:2-19); [q] is O.json_source_quote, [refused] h2_json_tree::serialize *)
Definition dump {num} (ev : bytes -> option num) (show : num -> bytes) (refused : bytes -> line) (fold : bool) (q : bytes) (s : bytes) : option (list line) :=
  match tree_of ev s with
  | Done v _ => let ls := format show fold q 0 false [] v in if blank_word q then Some ls else pasted ls
  | Fails => Some [refused s]
  | Throws | Calls => None
  end.
(** the lines behind the first one are moved to the right (h2_failure.cpp:186-189) *)
Definition hang (n : nat) (ls : list line) : list line := match ls with [] => [] | l :: r => l :: map (fun k => indent k n) r end.
(** h2_console::printl of lines, colours left out (source/stdio/h2_console.cpp:36-45) *)
Definition printl (ls : list line) : bytes := concat (map (fun l => text l ++ [10]) ls).
(** is a text JSON (h2_json.cpp:39-40) *)
Definition wellformed {num} (ev : bytes -> option num) (s : bytes) : bool := match tree_of ev s with Done _ _ => true | _ => false end.
(** h2_fail_json::print (h2_failure.cpp:175-199); [first] is printed by h2_fail_unexpect::print, [columns] from the comparison *)
Definition print_json {num} (ev : bytes -> option num) (show : num -> bytes) (refused : bytes -> line) (fold : bool) (q : bytes) (first columns : bytes) (e a : bytes) : option bytes :=
  match width e, width a with
  | Some we, Some wa =>
      if (we <? 16)%nat || (wa <? 16)%nat then Some first
      else if negb (blank_word q) || negb (wellformed ev e && wellformed ev a) then
        match dump ev show refused fold q e, dump ev show refused fold q a with
        | Some el, Some al => Some (first ++ str "expect" ++ str "> " ++ printl (hang 8 el) ++ str "actual" ++ str "> " ++ printl (hang 8 al))
        | _, _ => None
        end
      else Some (first ++ columns)
  | _, _ => None
  end.
