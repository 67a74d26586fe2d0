(** Model of what follows the first line of a failed string comparison: h2_fail_strcmp::print and fmt_char
    (source/report/h2_failure.cpp:132-155), h2_fail_strfind::print (source/report/h2_failure.cpp:157-169) and h2_layout::prefix_break,
    unified, seperate (source/report/h2_layout.cpp:52-61, 81-103).

    Strings are without NUL.  A console narrower than the title (size_t wraps, the padding is impossible) and a truncated multi-byte
    character give None. *)
From Coq Require Import List NArith Bool Arith.
From Verif Require Import Base LineModel DiffModel.
Import ListNotations.
Local Open Scope N_scope.

(** "‧" (h2_failure.cpp:138) *)
Definition dot : bytes := [0xe2; 0x80; 0xa7].
(** fmt_char (h2_failure.cpp:136-141); color is color of source/utils/h2_line.hpp:33 *)
Definition fmt_char (colorful eq : bool) (style c : bytes) : line :=
  if bytes_eqb c (str " ") && colorful then delta dot dark_gray
  else if eq then [escape c] else printf_words style (escape c).
(** the loops over the marks (h2_failure.cpp:150-151) *)
Definition fmt_line (colorful : bool) (style : bytes) (cs : list bytes) (marks : list bool) : line :=
  concat (map (fun p => fmt_char colorful (fst p) style (snd p)) (combine marks cs)).
(** gray(title) + color("> ", style) (h2_layout.cpp:84-85, 99-100) *)
Definition title_line (title style : bytes) : line := delta title dark_gray ++ printf_words style (str "> ").
(** line_break(line, width - title.width()) (h2_layout.cpp:54, 87-88) *)
Definition break_behind (title l : line) (W : nat) : option (list line) :=
  match line_width title with Some w => if (w <=? W)%nat then line_break (W - w) l else None | None => None end.
(** the loop of unified (h2_layout.cpp:90-93), [n] rounds from [i] on *)
Fixpoint unify (ut dt : line) (us ds : list line) (n i : nat) : list line :=
  match n with
  | O => []
  | S m => (if (i <? length us)%nat then [ut ++ nth i us []] else []) ++ (if (i <? length ds)%nat then [dt ++ nth i ds []] else []) ++ unify ut dt us ds m (S i)
  end.
(** h2_layout::unified (h2_layout.cpp:81-95) *)
Definition unified (up down : line) (up_title down_title : bytes) (W : nat) : option (list line) :=
  let ut := title_line up_title (str "green") in
  let dt := title_line down_title (str "red") in
  match break_behind ut up W, break_behind dt down W with
  | Some us, Some ds => Some (unify ut dt us ds (Nat.max (length us) (length ds)) 0)
  | _, _ => None
  end.
(** h2_layout::prefix_break (h2_layout.cpp:52-61) *)
Definition prefix_break (l title : line) (W : nat) : option (list line) :=
  match break_behind title l W, line_width title with
  | Some ls, Some w => Some (match ls with [] => [] | x :: r => (title ++ x) :: map (fun y => indent y w) r end)
  | _, _ => None
  end.
(** h2_layout::seperate (h2_layout.cpp:97-103) *)
Definition seperate (up down : line) (up_title down_title : bytes) (W : nat) : option (list line) :=
  match prefix_break up (title_line up_title (str "green")) W, prefix_break down (title_line down_title (str "red")) W with
  | Some a, Some b => Some (a ++ b)
  | _, _ => None
  end.
(** h2_fail_strcmp::print behind its first line (h2_failure.cpp:146-153): VerboseDetail is 5 *)
Definition strcmp_detail (verbose : N) (colorful : bool) (W : nat) (caseless : bool) (e a : bytes) : option (list line) :=
  match width e, width a with
  | Some we, Some wa =>
      if (5 <=? verbose) || (8 <? we)%nat || (8 <? wa)%nat then
        match disperse e, disperse a with
        | Some ec, Some ac =>
            match lcs_strings caseless ec ac with
            | Some (l1, l2) => unified (fmt_line colorful (str "green") ec l1) (fmt_line colorful (str "red") ac l2) (str "expect") (str "actual") W
            | None => None
            end
        | _, _ => None
        end
      else Some []
  | _, _ => None
  end.
(** h2_fail_strfind::print behind its first line (h2_failure.cpp:164-167) *)
Definition strfind_detail (W : nat) (e a : bytes) : option (list line) :=
  match width e, width a with
  | Some we, Some wa => if (16 <? we)%nat || (16 <? wa)%nat then seperate [escape e] [escape a] (str "expect") (str "actual") W else Some []
  | _, _ => None
  end.
