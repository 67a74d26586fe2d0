(** Model of the judging of captured output: blocks COUT(matcher, channels) { ... } in the body of a test
    (source/stdio/h2_stdio.hpp:1-10, source/stdio/h2_stdio.cpp:151-168), between calls that write, and other assertions
    (source/assert/h2_assert.cpp:36-60), with the jump out of the test at the first failure unless the option -c is given
    (source/core/h2_runner.cpp:203-215, source/core/h2_case.cpp:27-36).

    Writing and capturing are those of the Stdio area.  A matcher is what it says of a text.  Simplified: warnings (WARN) and
    the debugger trap; break, return and exceptions inside a block. *)
From Coq Require Import List NArith ZArith Bool Arith.
From Verif Require Import Base StdioModel.
Import ListNotations.

(** the body of a test: calls that write, assertions with their verdict and place, blocks with matcher, channels and place
    (h2_stdio.hpp:9-10) *)
Inductive item :=
| Do (o : op)
| Check (ok : bool) (place : N)
| Cout (judge : bytes -> bool) (type : bytes) (place : N) (body : list item).
(** a failure: of an assertion; of a block, with the text judged (h2_stdio.cpp:160-166) *)
Inductive report := RCheck (place : N) | RCout (place : N) (text : bytes).
(** the state: output, stats.asserts, fails of the case, and whether the test was left (h2_case.hpp, h2_stdio.cpp:3-5) *)
Record state := { s_io : io; s_asserts : nat; s_fails : list report; s_left : bool }.
(** h2_runner::asserts (h2_runner.cpp:210-215) *)
Definition count (s : state) : state := {| s_io := s_io s; s_asserts := s_asserts s + 1; s_fails := s_fails s; s_left := s_left s |}.
(** h2_runner::failing and h2_case::failing (h2_runner.cpp:203-208, h2_case.cpp:27-36): the jump (35) leaves the test *)
Definition failing (go_on : bool) (r : report) (s : state) : state :=
  {| s_io := s_io s; s_asserts := s_asserts s; s_fails := s_fails s ++ [r]; s_left := negb go_on |}.
(** one call of the user (h2_stdio.cpp:7-97) *)
Definition call (normal : bool) (o : op) (s : state) : state :=
  {| s_io := fst (step normal o (s_io s)); s_asserts := s_asserts s; s_fails := s_fails s; s_left := s_left s |}.
(** ~h2_cout (h2_stdio.cpp:157-168) *)
Definition judged (normal go_on : bool) (judge : bytes -> bool) (place : N) (s : state) : state :=
  let s1 := count s in
  let s2 := call normal End_ s1 in
  let text := match snd (step normal End_ (s_io s1)) with Text t => t | _ => [] end in
  if judge text then s2 else failing go_on (RCout place text) s2.
(** one item: h2_cout (h2_stdio.cpp:151-155), the body once (h2_stdio.hpp:9, source/utils/h2_misc.hpp:3-6), ~h2_cout, which a
    jump out of the body passes by; an assertion (h2_assert.cpp:36-60) *)
Fixpoint exec (normal go_on : bool) (i : item) (s : state) {struct i} : state :=
  match i with
  | Do o => call normal o s
  | Check ok place => if ok then count s else failing go_on (RCheck place) (count s)
  | Cout judge type place body =>
      let s1 := (fix all (l : list item) (s : state) : state :=
         match l with [] => s | i1 :: r => let s1 := exec normal go_on i1 s in if s_left s1 then s1 else all r s1 end) body (call normal (Begin type) s) in
      if s_left s1 then s1 else judged normal go_on judge place s1
  end.
(** the body of a test (h2_case.cpp, h2_stdio.hpp:9-10) *)
Definition exec_all (normal go_on : bool) : list item -> state -> state :=
  fix all (l : list item) (s : state) : state :=
  match l with [] => s | i1 :: r => let s1 := exec normal go_on i1 s in if s_left s1 then s1 else all r s1 end.
(** a test from some state of the output (h2_case.cpp:9-14) *)
Definition test (normal go_on : bool) (l : list item) (o : io) : state :=
  exec_all normal go_on l {| s_io := o; s_asserts := 0; s_fails := []; s_left := false |}.
