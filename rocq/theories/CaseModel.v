(** Model of the execution of one case: h2_suite::test (source/core/h2_suite.cpp:32-44), h2_case::prev_setup, post_cleanup
    and failing (source/core/h2_case.cpp:9-35), h2_runner::failing (source/core/h2_runner.cpp:203-208), the control flow of
    the SUITE, Setup, Cleanup and Case macros (source/core/h2_core.hpp:8-19), the suite cleaner
    (source/core/h2_suite.cpp:53-58), and the calls around the case (source/core/h2_runner.cpp:152-154).

    The user's code is given as blocks of statements; a statement may raise a failure, a block may end by throwing a C++
    exception.  setjmp/longjmp are modelled as the jumps the macros intend; a longjmp to a fail_hole that is not set in
    this activation is the distinct outcome Stale.  The suite's text is Setup, Cleanup, Case in this order; the C++ rule
    that a longjmp must not skip destructors is not modelled (it is what the macros do by design), and the case pointer is
    taken to keep its value over a longjmp. *)
From Coq Require Import List NArith Bool Arith.
Import ListNotations.
Local Open Scope N_scope.

(** a statement of user code: raises a failure (identity, warning flag of h2_failure.hpp:4), or not *)
Inductive stmt := Raise (id : N) (w : bool) | Do (id : N).
(** a block of user code and whether it ends by throwing (code written by the user between the braces of h2_core.hpp:2-35) *)
Record block := mkblock { b_stmts : list stmt; b_throws : bool }.
(** the blocks around one case; the body and the cleanup block may behave differently each time they are
    entered
    (h2_runner.cpp:152-154, h2_core.hpp:8-19); the failures found by h2_mocks::clear and h2_memory::stack::pop
    (h2_case.cpp:22-23) *)
Record program := mkprogram {
  p_pre : block; p_setup : block; p_body : nat -> block; p_cleanup : nat -> block; p_post : block;
  p_has_cleanup : bool; p_mocks : option N; p_leak : option N; p_exception : N }.
(** options (source/option/h2_option.hpp: continue_assert, as_waring_uncaught) *)
Record opts := mkopts { o_continue : bool; o_uncaught_warning : bool }.
(** names of blocks in the log (the places of h2_runner.cpp:152, h2_core.hpp:8-9, 19, h2_runner.cpp:154) *)
Inductive bname := BPre | BSetup | BBody | BCleanup | BPost.
(** log of what happened (not in the code; observation only) (entries stand for h2_core.hpp:8-19 and h2_case.cpp:26-35) *)
Inductive ev := Enter (b : bname) | Did (id : N) | Raised (id : N) (w : bool).
(** h2_case's flags and list of failures (h2_case.hpp:3-5) and the log *)
Record cs := mkcs { failed : bool; warning : bool; fails : list (N * bool); log : list ev }.

(** h2_case::failing (h2_case.cpp:26-35); the second component: longjmp taken.  Every failure here is a single one
    (h2_assert::stash wraps siblings, h2_assert.cpp:44-47) *)
Definition failing (st : cs) (id : N) (w : bool) (defer append : bool) : cs * bool :=
  (mkcs (failed st || negb w) (warning st || w)
        (match fails st with
         | [] => [(id, w)]
         | _ => if append then fails st ++ [(id, w)] else fails st
         end)
        (log st ++ [Raised id w]),
   negb defer && negb w).
(** how a block ends (normal end, the longjmp of h2_case.cpp:33, or an exception, h2_suite.cpp:39) *)
Inductive how := HNormal | HJump | HThrow.
(** the statements of a block; failures go through h2_runner::failing (h2_runner.cpp:207) *)
Fixpoint run_stmts (o : opts) (st : cs) (l : list stmt) : cs * bool :=
  match l with
  | [] => (st, false)
  | Do id :: r => run_stmts o (mkcs (failed st) (warning st) (fails st) (log st ++ [Did id])) r
  | Raise id w :: r => let '(st', jump) := failing st id w (o_continue o) true in
      if jump then (st', true) else run_stmts o st' r
  end.
(** one block (entered at h2_core.hpp:8, 9, 19) *)
Definition run_block (o : opts) (st : cs) (n : bname) (b : block) : cs * how :=
  let '(st', jump) := run_stmts o (mkcs (failed st) (warning st) (fails st) (log st ++ [Enter n])) (b_stmts b) in
  (st', if jump then HJump else if b_throws b then HThrow else HNormal).
(** outcomes: finished; jump to a hole that is not set; still looping when the fuel is used up; an exception leaves
    the runner (h2_suite.cpp:32-44) *)
Inductive result := Finished (st : cs) | Stale | OutOfFuel | Terminated.
(** what test_fp gives back: it returned, an exception came out of it, or one of the bad outcomes (h2_suite.cpp:37-41) *)
Inductive ret := Returned (st : cs) (thrown : bool) | RStale | RFuel.
(** leaving the Case loops: ~cleaner jumps to the Cleanup block (h2_suite.cpp:53-58, h2_core.hpp:9); a failure inside it
    jumps back to the case's fail_hole (h2_core.hpp:19), behind which the loops are left once more *)
Fixpoint leave (fuel : nat) (o : opts) (p : program) (k : nat) (st : cs) : ret :=
  if p_has_cleanup p then
    match fuel with
    | O => RFuel
    | S f => match run_block o st BCleanup (p_cleanup p k) with
             | (st', HNormal) => Returned st' false
             | (st', HThrow) => Returned st' true
             | (st', HJump) => leave f o p (S k) st'
             end
    end
  else Returned st false.
(** the case's body (h2_core.hpp:16-19): an exception destroys the cleaner, which jumps to the Cleanup block; the exception
    is gone, and since the case pointer is not yet null (h2_core.hpp:17) the case is entered again behind the Cleanup block *)
Fixpoint case_loop (fuel : nat) (o : opts) (p : program) (k : nat) (st : cs) : ret :=
  match run_block o st BBody (p_body p k) with
  | (st', HThrow) =>
      if p_has_cleanup p then
        match fuel with
        | O => RFuel
        | S f => match run_block o st' BCleanup (p_cleanup p k) with
                 | (st'', HNormal) => case_loop f o p (S k) st''
                 | (st'', HThrow) => Returned st'' true
                 | (st'', HJump) => leave f o p (S k) st''
                 end
        end
      else Returned st' true
  | (st', _) => leave fuel o p k st'
  end.
(** test_fp(this, c) with Setup, Cleanup and the case (h2_suite.cpp:37-41, h2_core.hpp:8-19) *)
Definition test_fp (fuel : nat) (o : opts) (p : program) (st : cs) : ret :=
  match run_block o st BSetup (p_setup p) with
  | (_, HJump) => RStale
  | (st', HThrow) => Returned st' true
  | (st', HNormal) => case_loop fuel o p 0 st'
  end.
(** a failure found by the framework at the end of the case, if any (h2_case.cpp:22-23, h2_suite.cpp:42) *)
Definition found (o : opts) (st : cs) (f : option N) (w : bool) : cs :=
  match f with Some id => fst (failing st id w true (o_continue o)) | None => st end.
(** h2_suite::test (h2_suite.cpp:32-44) with prev_setup (h2_case.cpp:9-14) and post_cleanup (16-24) *)
Definition suite_test (fuel : nat) (o : opts) (p : program) (st : cs) : result :=
  match test_fp fuel o p (mkcs false false (fails st) (log st)) with
  | RStale => Stale
  | RFuel => OutOfFuel
  | Returned st' thrown =>
      let st1 := found o st' (if thrown then Some (p_exception p) else None) (o_uncaught_warning o) in
      Finished (found o (found o st1 (p_mocks p) false) (p_leak p) false)
  end.
(** the case as main executes it (h2_runner.cpp:152-154), from a cleared case (h2_case.cpp:1-7, h2_runner.cpp:160) *)
Definition run_case (fuel : nat) (o : opts) (p : program) : result :=
  match run_block o (mkcs false false [] []) BPre (p_pre p) with
  | (_, HJump) => Stale
  | (_, HThrow) => Terminated
  | (st, HNormal) =>
      match suite_test fuel o p st with
      | Finished st' => match run_block o st' BPost (p_post p) with
                        | (_, HJump) => Stale | (_, HThrow) => Terminated | (st'', HNormal) => Finished st'' end
      | r => r
      end
  end.

(** The Warning prefix: H2Warning (source/assert/h2_assert.hpp:105), h2_warning::swap (1-10) and h2_assert::failing
    (source/assert/h2_assert.cpp:55-67).  Statements: an assertion with its verdict (true = it fails), whether its
    evaluation throws before h2_assert::failing is reached, whether it carries the prefix; or the prefix on something
    that is no assertion. *)
Inductive wstmt := WAssert (prefixed fails_ throws : bool) | WOther (prefixed : bool).
(** what happens to a statement: skipped, passes, fails, warns, throws (h2_assert.cpp:55-67, h2_assert.hpp:105) *)
Inductive wout := WSkip | WPass | WFail | WWarn | WThrow | WRun.
(** one statement; the state is h2_warning::warning (h2_assert.hpp:1-10, 105; h2_assert.cpp:55-67) *)
Definition wstep (flag : bool) (s : wstmt) : bool * wout :=
  match s with
  | WAssert p f t =>
      if p && flag then (true, WSkip)
      else let flag' := flag || p in
           if t then (flag', WThrow)
           else (false, if f then (if flag' then WWarn else WFail) else WPass)
  | WOther p => if p && flag then (true, WSkip) else (flag || p, WRun)
  end.
(** a sequence of statements (each through h2_assert.hpp:89-105) *)
Fixpoint wrun (flag : bool) (l : list wstmt) : bool * list wout :=
  match l with
  | [] => (flag, [])
  | s :: r => let '(flag', o) := wstep flag s in let '(flag'', os) := wrun flag' r in (flag'', o :: os)
  end.
