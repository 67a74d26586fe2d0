(** Model of h2_string's replace_all, unescape, trim and squash (source/utils/h2_string.cpp:17-25, 89-124).
    A string is the list of its bytes (NULs allowed); std::basic_string::find, replace, find_first_not_of, find_last_not_of,
    substr are written out. *)
From Coq Require Import List NArith Bool Arith.
From Verif Require Import Base.
Import ListNotations.
Local Open Scope N_scope.

(** does s begin with p (part of basic_string::find) (used at h2_string.cpp:20) *)
Fixpoint prefixb (p s : bytes) : bool :=
  match p, s with [], _ => true | c :: p', x :: s' => (c =? x) && prefixb p' s' | _, _ => false end.
(** s.find(p): the first position (std::basic_string) (used at h2_string.cpp:20) *)
Fixpoint find_first (p s : bytes) : option nat :=
  if prefixb p s then Some O else match s with [] => None | _ :: s' => option_map S (find_first p s') end.
(** s.find(p, pos) (std::basic_string): npos when pos is beyond the end (h2_string.cpp:20) *)
Definition find_from (p s : bytes) (pos : nat) : option nat :=
  if (pos <=? length s)%nat then option_map (fun i => (i + pos)%nat) (find_first p (skipn pos s)) else None.
(** h2_string::replace_all (h2_string.cpp:17-25): the loop, at most [fuel] times; None = goes on *)
Fixpoint replace_loop (from to : bytes) (fuel : nat) (s : bytes) (start : nat) : option bytes :=
  match fuel with
  | O => None
  | S f =>
      match find_from from s start with
      | None => Some s
      | Some i => replace_loop from to f (firstn i s ++ to ++ skipn (i + length from) s) (i + length to)
      end
  end.
(** enough turns for every non-empty [from]; what is left when they do not suffice is irrelevant (h2_string.cpp:17-25) *)
Definition replace_all (from to s : bytes) : bytes :=
  match replace_loop from to (S (length s)) s 0 with Some r => r | None => s end.
(** h2_string::unescape (h2_string.cpp:89-100) *)
Definition unescape (s : bytes) : bytes :=
  replace_all [92; 92] [92] (replace_all [92; 34] [34] (replace_all [92; 116] [9] (replace_all [92; 114] [13]
    (replace_all [92; 110] [10] (replace_all [92; 102] [12] (replace_all [92; 98] [8] s)))))).
(** the characters "\t\n " (h2_string.cpp:104, 116) *)
Definition blank (c : byte) : bool := (c =? 9) || (c =? 10) || (c =? 32).
(** without leading blanks (find_first_not_of and substr) (h2_string.cpp:104-107) *)
Fixpoint skip_blanks (s : bytes) : bytes := match s with c :: s' => if blank c then skip_blanks s' else s | [] => [] end.
(** c_str() as a string again: up to the first NUL (h2_string.cpp:107) *)
Fixpoint c_str (s : bytes) : bytes := match s with c :: s' => if c =? 0 then [] else c :: c_str s' | [] => [] end.
(** h2_string::trim (h2_string.cpp:102-108) *)
Definition trim (s : bytes) : bytes := c_str (rev (skip_blanks (rev (skip_blanks s)))).
(** the loop of squash (h2_string.cpp:114-122); [quote] = the parameter, q1 q2 = quote1 quote2 *)
Fixpoint squash_loop (quote q1 q2 : bool) (spaces : nat) (s : bytes) : bytes :=
  match s with
  | [] => []
  | c0 :: s' =>
      let c := if blank c0 then 32 else c0 in
      let spaces := if c =? 32 then spaces else O in
      let q1 := if negb quote && (c =? 39) then negb q1 else q1 in
      let q2 := if negb quote && (c =? 34) then negb q2 else q2 in
      if negb q1 && negb q2 && (c =? 32)
      then (match spaces with O => c :: squash_loop quote q1 q2 1 s' | S n => squash_loop quote q1 q2 (S (S n)) s' end)
      else c :: squash_loop quote q1 q2 spaces s'
  end.
(** h2_string::squash (h2_string.cpp:110-124) *)
Definition squash (quote : bool) (s : bytes) : bytes := squash_loop quote false false 0 (trim s).
