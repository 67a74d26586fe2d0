(** Model of the splitting of a checked comparison into its sides: source/assert/h2_assert.cpp:1-34, 55-68 and strip_right
    (source/utils/h2_misc.cpp:45-50).  An expression is a C string: bytes without NUL, shorter than 2^31 (stacks is an int). *)
From Coq Require Import List NArith Bool Arith.
From Verif Require Import Base StrModel FilterModel.
Import ListNotations.
Local Open Scope N_scope.

(** strip_right (h2_misc.cpp:45-50): [left, right) without the blanks at its end *)
Definition strip_right (s : bytes) : bytes := rev (strip_left (rev s)).
(** __find_compare for an operator of two characters (h2_assert.cpp:4-8): the part before the operator *)
Fixpoint find_two (op : bytes) (quote : bool) (s : bytes) : option bytes :=
  match s with
  | [] => None
  | c :: s' =>
      let quote' := if c =? 34 then negb quote else quote in
      if negb quote' && prefixb op s then Some [] else option_map (cons c) (find_two op quote' s')
  end.
(** __find_compare for an operator of one character (h2_assert.cpp:11-16 reading forwards with [open] = less and [close] = greater,
    17-22 reading backwards with the two exchanged): the part read before the operator.  stacks is never negative: at 0 the search ends *)
Fixpoint find_one (open close : byte) (quote : bool) (stacks : nat) (s : bytes) : option bytes :=
  match s with
  | [] => None
  | c :: s' =>
      let quote' := if c =? 34 then negb quote else quote in
      let stacks' := if negb quote' && (c =? open) then S stacks else stacks in
      if negb quote' && (c =? close) then
        match stacks' with O => Some [] | S k => option_map (cons c) (find_one open close quote' k s') end
      else option_map (cons c) (find_one open close quote' stacks' s')
  end.
(** __find_compare (h2_assert.cpp:1-25): the part before the operator found *)
Definition find_compare (s op : bytes) : option bytes :=
  match op with
  | [c] =>
      if c =? 62 then find_one 60 62 false 0 s
      else if c =? 60 then option_map (fun r => firstn (length s - length r - 1) s) (find_one 62 60 false 0 (rev s))
      else None
  | [_; _] => find_two op false s
  | _ => None
  end.
(** __split_compare (h2_assert.cpp:27-34), given the sides stored before: expected and actual expression *)
Definition split_compare (s op e a : bytes) : bytes * bytes :=
  match find_compare s op with
  | Some l => (strip_right l, strip_left (skipn (length l + length op) s))
  | None => (e, a)
  end.
(** h2_assert::failing (h2_assert.cpp:55-68), the expressions stored in the failure; assert_op is "," unless OK or KO was given a
    comparison (h2_assert.hpp:17, 55-65, 78) *)
Definition failing_expressions (op e a : bytes) : bytes * bytes :=
  match op with 44 :: _ => (e, a) | _ => split_compare a op e a end.
