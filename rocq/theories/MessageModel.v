(** Model of the line that reports a failed check: h2_fail_normal and h2_fail_unexpect (source/report/h2_failure.cpp:17-21, 30-130),
    h2_line::enclosed, gray_quote (source/utils/h2_line.cpp:48-59, 68-93), gray (source/utils/h2_line.hpp:35), h2_string::enclosed,
    unenclose (source/utils/h2_string.cpp:63-73), h2_in (source/utils/h2_misc.cpp:137-145).

    front() and back() of an empty string, and a string of size_t(-1) bytes give None.  Strings are without NUL. *)
From Coq Require Import List NArith Bool Arith.
From Verif Require Import Base LineModel FilterModel ListingModel JunitModel.
Import ListNotations.
Local Open Scope N_scope.

(** the widths 10000, 120 and 30 (h2_failure.cpp:71, 80-92, 99-100, 108-112) *)
Definition whole : nat := (100 * 100)%nat.
(** O.verbose >= VerboseDetail ? 10000 : n (h2_failure.cpp:84, 92, 99, 108) *)
Definition limit (detail : bool) (n : nat) : nat := if detail then whole else n.
(** gray (h2_line.hpp:35) *)
Definition gray (s : bytes) : line := match s with [] => [] | _ => delta s dark_gray end.
(** the loop of h2_line::enclosed (h2_line.cpp:51-57), with right = left: f, ff, b *)
Fixpoint enclosed_loop (q : byte) (l : line) (f ff b : bool) : option bool :=
  match l with
  | [] => Some (f && b)
  | w :: r =>
      if isctrl w then enclosed_loop q r f ff b
      else match w with
           | [] => None
           | c :: _ => enclosed_loop q r (if ff then f else c =? q) true (last w 0 =? q)
           end
  end.
(** h2_line::enclosed (h2_line.cpp:48-59) *)
Definition line_enclosed (q : byte) (l : line) : option bool := enclosed_loop q l false false false.
(** the loop over the characters of a word (h2_line.cpp:80-86): h, m, t and i *)
Fixpoint quote_cells (w i : nat) (h m t : bytes) (cs : list bytes) : option (nat * bytes * bytes * bytes) :=
  match cs with
  | [] => Some (i, h, m, t)
  | c :: r =>
      match width c with
      | Some k =>
          if (i =? 0)%nat then quote_cells w (i + k)%nat (h ++ c) m t r
          else if (i =? w - 1)%nat then quote_cells w (i + k)%nat h m (t ++ c) r
          else quote_cells w (i + k)%nat h (m ++ c) t r
      | None => None
      end
  end.
(** the loop over the words (h2_line.cpp:75-90) *)
Fixpoint quote_words (w i : nat) (l : line) : option line :=
  match l with
  | [] => Some []
  | x :: r =>
      if isctrl x then option_map (cons x) (quote_words w i r)
      else match disperse x with
           | Some cs =>
               match quote_cells w i [] [] [] cs with
               | Some (i', h, m, t) =>
                   option_map (fun rest => gray h ++ (match m with [] => [] | _ => [m] end) ++ gray t ++ rest) (quote_words w i' r)
               | None => None
               end
           | None => None
           end
  end.
(** h2_line::gray_quote (h2_line.cpp:68-93) *)
Definition gray_quote (l : line) : option line :=
  match line_enclosed 34 l, line_enclosed 39 l with
  | Some a, Some b =>
      if negb a && negb b then Some l
      else match line_width l with Some w => quote_words w 0 l | None => None end
  | _, _ => None
  end.
(** h2_string::enclosed, unenclose (h2_string.cpp:63-73) *)
Definition unenclose (left right : byte) (s : bytes) : option bytes :=
  match s with
  | [] => None
  | c :: r =>
      if (c =? left) && (last s 0 =? right) then match r with [] => None | _ => Some (removelast r) end else Some s
  end.
(** h2_in (h2_misc.cpp:137-145) *)
Definition h2_in (a : bytes) (l : list bytes) : bool := existsb (fun x => bytes_eqb x a) l.
(** H2_NULL_SYNONYM (h2_failure.cpp:47) *)
Definition null_synonym : list bytes :=
  [str "NULL"; str "nullptr"; str "null"; str "__null"; str "(null)"; str "(nil)"; str "((void *)0)"; str "0"; str "0x0"; str "00000000"; str "0000000000000000"].
(** H2_NOTNULL_SYNONYM (h2_failure.cpp:48) *)
Definition notnull_synonym : list bytes :=
  [str "!NULL"; str "!nullptr"; str "Not(NULL)"; str "Not(nullptr)"; str "Nq(NULL)"; str "Nq(nullptr)"; str "Not(0)"; str "Nq(0)"].
(** H2_TRUE_SYNONYM (h2_failure.cpp:49) *)
Definition true_synonym : list bytes := [str "true"; str "TRUE"; str "True"; str "1"].
(** H2_FALSE_SYNONYM (h2_failure.cpp:50) *)
Definition false_synonym : list bytes := [str "false"; str "FALSE"; str "False"; str "0"].
(** is_synonym (h2_failure.cpp:42-60) *)
Definition is_synonym (a b : bytes) : option bool :=
  let a := escape a in
  let b := escape b in
  if bytes_eqb a b then Some true
  else if h2_in a null_synonym && h2_in b null_synonym then Some true
  else if h2_in a notnull_synonym && h2_in b notnull_synonym then Some true
  else if h2_in a true_synonym && h2_in b true_synonym then Some true
  else if h2_in a false_synonym && h2_in b false_synonym then Some true
  else if bytes_eqb a (str "Eq(" ++ b ++ str ")") then Some true
  else match unenclose 91 93 b with Some u => Some (bytes_eqb a (str "ListOf(" ++ u ++ str ")")) | None => None end.

(** the parts of h2_fail and h2_fail_unexpect that are printed (h2_failure.hpp:1-33, h2_failure.cpp:63-65) *)
Inductive assert_type := TIn | TOK1 | TKO1 | TOK2 | TKO2 | TJE.
(** likewise (h2_failure.hpp:1-33, h2_failure.cpp:63-65) *)
Record unexpect := mkunexpect {
  u_type : assert_type; u_op : bytes; u_e : bytes; u_a : bytes; u_expection : line; u_represent : line;
  u_explain : line; u_user : bytes; u_seqno : option N; u_filine : bytes }.

(** what follows a statement that throws is not done (h2_failure.cpp:66-129) *)
Definition bind {A B} (x : option A) (f : A -> option B) : option B := match x with Some a => f a | None => None end.
(** h2_line(expression).abbreviate(w, 3).gray_quote().brush(style) (h2_failure.cpp:80, 84, 88, 92) *)
Definition expression (w : nat) (style s : bytes) : option line :=
  bind (abbreviate w 3 [s]) (fun x => bind (gray_quote x) (fun y => Some (brush style y))).
(** value.abbreviate(w, 3).brush(style) (h2_failure.cpp:71, 84, 90, 92) *)
Definition value (w : nat) (style : bytes) (l : line) : option line := option_map (brush style) (abbreviate w 3 l).
(** print_OK1 (h2_failure.cpp:66-72) *)
Definition print_OK1 (type : bytes) (u : unexpect) : option line :=
  bind (gray_quote [u_a u]) (fun q =>
  bind (is_synonym (u_a u) (text (u_represent u))) (fun same =>
  bind (if same then Some [] else option_map (cons (str " is ")) (value whole (str "bold,red") (u_represent u))) (fun v =>
  Some ([type] ++ gray (str "(") ++ brush (str "cyan") q ++ gray (str ")") ++ v)))).
(** R_Arrows[3] and L_Arrows[3] (h2_failure.cpp:75-76) *)
Definition r_arrow : bytes := [0xe2; 0x9f; 0xb9; 32; 32].
Definition l_arrow : bytes := [0xe2; 0x9f; 0xb8; 32; 32].  (* (h2_failure.cpp:76) *)
(** the expected side of print_OK2 (h2_failure.cpp:79-85) *)
Definition expected_side (detail : bool) (u : unexpect) : option line :=
  bind (line_width (u_expection u)) (fun w =>
  if (w =? 0)%nat then expression whole (str "green") (u_e u)
  else bind (is_synonym (u_e u) (text (u_expection u))) (fun same =>
    if same then value whole (str "green") [u_e u]
    else bind (expression (limit detail 120) (str "cyan") (u_e u)) (fun x =>
         bind (value whole (str "green") (u_expection u)) (fun y => Some (x ++ gray r_arrow ++ y))))).
(** the actual side of print_OK2 (h2_failure.cpp:87-93); the first operand of || is evaluated first *)
Definition actual_side (detail : bool) (u : unexpect) : option line :=
  bind (line_width (u_represent u)) (fun w =>
  if (w =? 0)%nat then expression whole (str "bold,red") (u_a u)
  else bind (is_synonym (u_a u) (text (u_represent u))) (fun same =>
    if same || match u_a u with [] => true | _ => false end then value whole (str "bold,red") (u_represent u)
    else bind (value whole (str "bold,red") (u_represent u)) (fun x =>
         bind (expression (limit detail 120) (str "cyan") (u_a u)) (fun y => Some (x ++ gray l_arrow ++ y))))).
(** print_OK2 (h2_failure.cpp:73-96) *)
Definition print_OK2 (detail : bool) (type : bytes) (u : unexpect) : option line :=
  bind (expected_side detail u) (fun e => bind (actual_side detail u) (fun a =>
  Some ([type] ++ gray (str "(") ++ e ++ [str " "] ++ [u_op u] ++ [str " "] ++ a ++ gray (str ")")))).
(** one side of print_JE (h2_failure.cpp:99-100) *)
Definition json_side (detail : bool) (style s : bytes) : option line :=
  bind (unenclose 34 34 s) (fun x => bind (unenclose 39 39 x) (fun y => option_map (brush style) (abbreviate (limit detail 30) 2 [y]))).
(** print_JE (h2_failure.cpp:97-102) *)
Definition print_JE (detail : bool) (u : unexpect) : option line :=
  bind (json_side detail (str "cyan") (u_e u)) (fun e => bind (json_side detail (str "bold,red") (u_a u)) (fun a =>
  Some ([str "JE"] ++ gray (str "(") ++ e ++ [str ", "] ++ a ++ gray (str ")")))).
(** the number of a failure (h2_failure.cpp:36, 105) *)
Definition number (n : option N) : line := match n with Some n => printf_words dark_gray (dec n ++ str ". ") | None => [] end.
(** print_In (h2_failure.cpp:103-114): the line and c *)
Definition print_In (detail : bool) (u : unexpect) : option (line * nat) :=
  bind (line_width (u_expection u)) (fun w =>
  bind (if (w =? 0)%nat then Some ([], 0%nat)
        else option_map (fun v => ([str "expect is "] ++ v, 1%nat)) (value (limit detail 120) (str "green") (u_expection u))) (fun e =>
  bind (line_width (u_represent u)) (fun v =>
  bind (if (v =? 0)%nat then Some ([], snd e)
        else option_map (fun v => ([(if (snd e =? 0)%nat then [] else str ", ") ++ str "actual is "] ++ v, S (snd e)))
                        (value (limit detail 120) (str "bold,red") (u_represent u))) (fun a =>
  Some (number (u_seqno u) ++ fst e ++ fst a, snd a))))).
(** comma_if(c++, comma, blank) (h2_failure.cpp:126-127) *)
Definition glue (c : nat) : bytes := if (c =? 0)%nat then str " " else str ", ".
(** locate (h2_failure.cpp:17-21); a null filine is [] *)
Definition locate (filine : bytes) : line := if forallb isspace filine then [] else gray (str " at ") ++ [basefile filine].
(** h2_fail_unexpect::print (h2_failure.cpp:116-129): the line printed *)
Definition message (detail : bool) (ci : nat) (u : unexpect) : option line :=
  bind (match u_type u with
        | TIn => print_In detail u
        | TOK1 => option_map (fun l => (l, 0%nat)) (print_OK1 (str "OK") u)
        | TKO1 => option_map (fun l => (l, 0%nat)) (print_OK1 (str "KO") u)
        | TOK2 => option_map (fun l => (l, 0%nat)) (print_OK2 detail (str "OK") u)
        | TKO2 => option_map (fun l => (l, 0%nat)) (print_OK2 detail (str "KO") u)
        | TJE => option_map (fun l => (l, 0%nat)) (print_JE detail u)
        end) (fun p =>
  bind (line_width (u_explain u)) (fun w =>
  let ex := if (w =? 0)%nat then ([], snd p) else (glue (snd p) :: u_explain u, S (snd p)) in
  let us := match u_user u with [] => [] | s => [glue (snd ex); s] end in
  Some (indent [] (ci * 2 + 1) ++ fst p ++ fst ex ++ us ++ locate (u_filine u)))).
(** h2_fail_normal::print (h2_failure.cpp:32-39) *)
Definition normal_message (ci : nat) (seqno : option N) (explain : line) (filine : bytes) : line :=
  indent [] (ci * 2 + 1) ++ number seqno ++ explain ++ locate filine.
